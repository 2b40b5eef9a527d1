(** Vocabulary for the properties of the whole ensemble. *)
From Verif Require Import Base HistoryModel WorkModel ManagerModel CommsModel WorkerModel WorkerSpec WorkerProofs SystemModel.

(** A work order for a single, non-persistent calculation. *)
Definition one_shot (w : nat) (k : work) : Prop := k_persistent k = false /\ (k_tag k = EVAL_SIM \/ k_tag k = EVAL_GEN).

(** The status a user function gives itself. *)
Inductive own_status : uret -> nat -> Prop :=
| os_pair a n : own_status (RTuple [a; PInt n]) n
| os_triple a b n : own_status (RTuple [a; b; PInt n]) n.

(** No user function claims the manager's finish signal as its status. *)
Definition honest_status {U} (ustep : U -> uact U) : Prop :=
  forall u r, ustep u = AReturn r -> ~ own_status r SIG_FINISH.

(** Type and rows of the orders sent to worker w, and of the answers taken from it. *)
Definition orders_to (w : nat) (l : list event) : list (nat * list nat) :=
  flat_map (fun e => match e with
                     | Sent v (OWork k) => if v =? w then [(k_tag k, k_rows k)] else []
                     | _ => [] end) l.
Definition answers_from (w : nat) (l : list event) : list (nat * list nat) :=
  flat_map (fun e => match e with
                     | Got v (IData a) => if v =? w then [(n_type a, n_rows a)] else []
                     | _ => [] end) l.

Definition quiet (l : list imsg) : Prop := forall i, In i l -> i = ILog.
Definition kills (l : list omsg) : Prop := forall o, In o l -> o = OStop SIG_KILL.

(** Where a worker stands, given the order it has been sent and whose answer has
    not been taken: it has none; the order is on its way; the order has been
    read and its rows are on their way; its function is running; its answer is
    on its way back; an error report is on its way back. In each case nothing
    else but kill signals and log records is in transit. *)
Inductive standing {U} : option work -> wst U -> Prop :=
| st_idle s : s_place s = AtTop -> kills (waiting (s_comm s)) -> quiet (q_out (s_comm s)) -> standing None s
| st_on_its_way k fs d before after s : s_place s = AtTop ->
    waiting (s_comm s) = before ++ wire (XOrder k fs d) ++ after -> kills before -> kills after ->
    quiet (q_out (s_comm s)) -> standing (Some k) s
| st_rows_coming k fs d after s : s_place s = AtRows k false -> k_rows k <> [] ->
    waiting (s_comm s) = ORows fs d :: after -> kills after -> quiet (q_out (s_comm s)) -> standing (Some k) s
| st_computing k u s : s_place s = InCalc k (k_rows k) u -> kills (waiting (s_comm s)) -> quiet (q_out (s_comm s)) ->
    standing (Some k) s
| st_answered k a o1 o2 s : s_place s = AtTop -> kills (waiting (s_comm s)) ->
    q_out (s_comm s) = o1 ++ IData a :: o2 -> quiet o1 -> quiet o2 -> from_order k (k_rows k) a ->
    n_keep a = false -> standing (Some k) s
| st_failed k o1 o2 s : s_place s = Left -> kills (waiting (s_comm s)) ->
    q_out (s_comm s) = o1 ++ IErr :: o2 -> quiet o1 -> quiet o2 -> standing (Some k) s.

(** An order that has reached the worker's queue but not its user function. *)
Definition not_started {U} (s : wst U) (l : list (work * list field * list (list val))) : Prop :=
  match s_place s with
  | AtTop | AtRows _ _ => length l <= 1
  | _ => l = []
  end.
