(** Vocabulary for the communication and worker properties. *)
From Verif Require Import Base HistoryModel WorkModel ManagerModel CommsModel WorkerModel.

(** ** Queues *)

(** What an observer of one end sees: a message arrives, is received, is pushed back. *)
Inductive qev (A : Type) := TArrive (x : A) | TReceive (x : A) | TBack (x : A).
Arguments TArrive {A}. Arguments TReceive {A}. Arguments TBack {A}.

(** A history that a first-in first-out queue allows, between the messages
    waiting before and the messages waiting after: arrivals go to the end,
    receipts come from the front, and a pushed-back message goes to the front. *)
Inductive fifo {A : Type} : list A -> list (qev A) -> list A -> Prop :=
| ff_nil p : fifo p [] p
| ff_arrive p x t p' : fifo (p ++ [x]) t p' -> fifo p (TArrive x :: t) p'
| ff_receive p x t p' : fifo p t p' -> fifo (x :: p) (TReceive x :: t) p'
| ff_back p x t p' : fifo (x :: p) t p' -> fifo p (TBack x :: t) p'.

(** The messages waiting at one end, next one first. *)
Definition waiting {A B} (q : comm A B) : list A :=
  match q_buf q with Some x => x :: q_in q | None => q_in q end.

(** The histories of a communicator. [TBack] that raises is not a history. *)
Inductive comm_hist {A B} (kd : kind) : comm A B -> list (qev A) -> comm A B -> Prop :=
| ch_nil q : comm_hist kd q [] q
| ch_arrive q x t q' : comm_hist kd (comm_arrive x q) t q' -> comm_hist kd q (TArrive x :: t) q'
| ch_receive q x q1 t q' : comm_recv q = Some (x, q1) -> comm_hist kd q1 t q' -> comm_hist kd q (TReceive x :: t) q'
| ch_back q x q1 t q' : comm_push kd x q = (q1, None) -> comm_hist kd q1 t q' -> comm_hist kd q (TBack x :: t) q'.

(** No push-back while an earlier one has not been received yet. [b]: one is
    outstanding at the start. *)
Fixpoint single_back {A} (b : bool) (t : list (qev A)) : Prop :=
  match t with
  | [] => True
  | TArrive _ :: t' => single_back b t'
  | TReceive _ :: t' => single_back false t'
  | TBack _ :: t' => b = false /\ single_back true t'
  end.

Definition arrivals {A} (t : list (qev A)) : list A :=
  flat_map (fun e => match e with TArrive x => [x] | _ => [] end) t.
Definition receipts {A} (t : list (qev A)) : list A :=
  flat_map (fun e => match e with TReceive x => [x] | _ => [] end) t.
Definition no_back {A} (t : list (qev A)) : Prop := forall x, ~ In (TBack x) t.

(** The results of n successive receives at the creator's end of a thread. *)
Fixpoint reads {A} (n : nat) (q : local_end A) : list (got A) :=
  match n with 0 => [] | S n' => fst (local_recv q) :: reads n' (snd (local_recv q)) end.

(** ** What the manager puts on the wire *)

(** An order with its row data, or a signal. *)
Inductive parcel :=
| XOrder (k : work) (fs : list field) (d : list (list val))
| XStop (sig : nat)
| XPStop (sig : nat).

(** An order that lists rows is followed by their data; one without rows is not. *)
Definition wire (x : parcel) : list omsg :=
  match x with
  | XOrder k fs d => match k_rows k with [] => [OWork k] | _ => [OWork k; ORows fs d] end
  | XStop s => [OStop s]
  | XPStop s => [OPStop s]
  end.

(** What a list of parcels puts into the worker's queue. *)
Definition wires (l : list parcel) : list omsg := flat_map wire l.

(** The orders among the parcels, each with its data. *)
Definition order_of (x : parcel) : list (work * list field * list (list val)) :=
  match x with
  | XOrder k fs d => match k_rows k with [] => [(k, [], [])] | _ => [(k, fs, d)] end
  | _ => []
  end.
Definition orders_in (l : list parcel) := flat_map order_of l.

(** The manager's rule of manager.py:453: active_recv only with persistent. *)
Definition sendable (x : parcel) : Prop :=
  match x with XOrder k _ _ => k_persistent k = false -> k_recv k = None | _ => True end.

(** ** What the worker did *)

(** Orders that reached a user function with their data, in order. *)
Definition reached (e : wev) : list (work * list field * list (list val)) :=
  match e with VCall k fs d | VHand (RWork k fs d) => [(k, fs, d)] | _ => [] end.
Definition orders_reached (l : list wev) := flat_map reached l.

(** The messages a worker has put on its outgoing queue. *)
Definition sent_by (e : wev) : list imsg :=
  match e with VMid _ a | VAnswer _ a => [IData a] | VFail => [IErr] | _ => [] end.
Definition worker_sent (l : list wev) := flat_map sent_by l.

(** The rows of the order a running function is working on. *)
Fixpoint current_rows (rows : list nat) (l : list wev) : list nat :=
  match l with
  | [] => rows
  | VTake k :: l' => current_rows (k_rows k) l'
  | _ :: l' => current_rows rows l'
  end.

(** A message from the function of order k while it works on [rows]. *)
Definition from_order (k : work) (rows : list nat) (a : answer) : Prop :=
  n_type a = k_tag k /\ n_rows a = rows /\ n_persistent a = k_persistent k.

(** What can happen between the call of the function of order k and its end. *)
Inductive during (k : work) : list wev -> Prop :=
| du_nil : during k []
| du_take l k2 : during k l -> during k (l ++ [VTake k2])
| du_hand l g : during k l -> during k (l ++ [VHand g])
| du_drop l o : during k l -> during k (l ++ [VDrop o])
| du_mid l a : during k l -> from_order k (current_rows (k_rows k) l) a -> during k (l ++ [VMid k a]).

(** Everything a worker has done when it is ready for the next order: messages
    dropped, and complete executions, each with exactly one answer at its end,
    which names the type, the rows and the persistence of the order. *)
Inductive settled : list wev -> Prop :=
| se_nil : settled []
| se_drop l o : settled l -> settled (l ++ [VDrop o])
| se_order l k fs d m a : settled l -> during k m ->
    from_order k (current_rows (k_rows k) m) a -> n_keep a = false -> n_status a <> SIG_FINISH ->
    settled (l ++ VCall k fs d :: m ++ [VAnswer k a]).

(** Everything done so far when a function is running. *)
Definition busy_with (k : work) (l : list wev) : Prop :=
  exists l0 fs d m, l = l0 ++ VCall k fs d :: m /\ settled l0 /\ during k m.

Definition tells_finish (o : omsg) : Prop := o = OStop SIG_FINISH \/ o = OPStop SIG_FINISH.

(** A user function that does not talk to the manager and does not poll it. *)
Definition silent {U} (ustep : U -> uact U) : Prop :=
  forall u, match ustep u with ARecv _ _ | APoll _ => False | _ => True end.
(** One that does not use Executor.manager_poll. *)
Definition no_poll {U} (ustep : U -> uact U) : Prop :=
  forall u, match ustep u with APoll _ => False | _ => True end.
(** A non-persistent function: it may poll for signals. *)
Definition plain {U} (ustep : U -> uact U) : Prop :=
  forall u, match ustep u with ARecv _ _ | ASend _ _ _ _ => False | _ => True end.

(** ** Return values of user functions *)

(** The documented forms: the output alone (not a dictionary), output and
    persis_info, output and status, output, persis_info and status. [st] is the
    status given, if any. *)
Inductive returns : uret -> pyval -> option nat -> Prop :=
| rt_none : returns (ROne PNone) PNone None
| rt_array A : returns (ROne (PArr A)) (PArr A) None
| rt_info v b : v <> PDict -> b = PDict \/ b = PNone -> returns (RTuple [v; b]) v None
| rt_status v n : v <> PDict -> returns (RTuple [v; PInt n]) v (Some n)
| rt_both v b n : v <> PDict -> returns (RTuple [v; b; PInt n]) v (Some n).

(** An array of exactly two records returned on its own. *)
Definition bare_pair (r : uret) : Prop := exists A, r = ROne (PArr A) /\ length (a_rows A) = 2.

(** A worker at the beginning of its loop, with messages waiting for it. *)
Definition worker_with (U : Type) (inbox : list omsg) : wst U := mkWs U (mkComm inbox None []) (AtTop U) [].
