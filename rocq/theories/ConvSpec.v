(** Vocabulary for the conversation between the manager and persistent functions. *)
From Verif Require Import Base HistoryModel WorkModel ManagerModel CommsModel WorkerModel WorkerSpec SystemModel SystemSpec.

(** ** What is asked of the allocation function

    Orders are for a simulation or a generation, without active_recv; the next
    order for a worker marked persistent is again persistent, of the same type,
    and lists at least one row. *)
Definition order_ok (m : mgr) (w : nat) (k : work) : Prop :=
  In w (map w_id (m_W m)) /\ k_recv k = None /\ (k_tag k = EVAL_SIM \/ k_tag k = EVAL_GEN) /\
  forall r, In r (m_W m) -> w_id r = w -> w_persis r <> 0 ->
    k_persistent k = true /\ k_tag k = w_persis r /\ k_rows k <> [].

(** ** What is asked of user functions *)

Definition final_status (n : nat) : Prop := n = FIN_PERSIS_SIM \/ n = FIN_PERSIS_GEN.

(** The function says that it has ended for good. *)
Definition says_final (r : uret) : Prop := exists n, own_status r n /\ final_status n.
Definition says_nothing_special (r : uret) : Prop := forall n, own_status r n -> ~ final_status n /\ n <> SIG_FINISH.

(** A non-persistent function is [single] all the time: it may compute and look
    for signals, and returns or raises. A persistent one is [owing] when it has
    been called and whenever it has received work: it may send intermediate
    results that keep its state, and then either sends its answer or ends. After
    its answer it is [ready]: it only computes, sends intermediate results and
    receives. When it receives the signal to stop it is [ending]: it may still
    send, and then ends. *)
Record manners {U} (ustart : work -> list field -> list (list val) -> U) (ustep : U -> uact U)
    (single owing ready ending : U -> Prop) : Prop := {
  mn_single : forall k fs d, k_persistent k = false -> single (ustart k fs d);
  mn_owing : forall k fs d, k_persistent k = true -> owing (ustart k fs d);
  mn_single_step : forall u, single u ->
    match ustep u with
    | ACompute u' => single u'
    | APoll g => forall x, single (g x)
    | AReturn r => says_nothing_special r
    | ARaised => True
    | ASend _ _ _ _ | ARecv _ _ => False
    end;
  mn_owing_step : forall u, owing u ->
    match ustep u with
    | ACompute u' => owing u'
    | ASend _ st keep u' => ~ final_status st /\ (if keep then owing u' else ready u')
    | AReturn r => says_final r
    | ARaised => True
    | APoll _ | ARecv _ _ => False
    end;
  mn_ready_step : forall u, ready u ->
    match ustep u with
    | ACompute u' => ready u'
    | ASend _ st keep u' => ~ final_status st /\ keep = true /\ ready u'
    | ARecv blocking g => (forall k fs d, owing (g (RWork k fs d))) /\ (forall tag sig, ending (g (RSignal tag sig))) /\
        (blocking = false -> ready (g RNothing))
    | ARaised => True
    | APoll _ | AReturn _ => False
    end;
  mn_ending_step : forall u, ending u ->
    match ustep u with
    | ACompute u' => ending u'
    | ASend _ st _ u' => ~ final_status st /\ ending u'
    | ARecv blocking g => (forall tag sig, ending (g (RSignal tag sig))) /\ (blocking = false -> ending (g RNothing))
    | AReturn r => says_final r
    | ARaised => True
    | APoll _ => False
    end }.

(** ** Where the two sides stand *)

(** Nothing going on; a non-persistent order out; an order for a persistent
    function out; a persistent function waiting for an order; a persistent
    function told to stop. *)
Inductive mode := MIdle | MShot (t : nat) | MOwing (t : nat) | MReady (t : nat) | MClosing (t : nat).

(** How the manager marks the worker in each mode: active, persis_state, and
    whether the worker is in the list of those told to stop. *)
Definition marked (m : mode) (r : wrow) (told : bool) : Prop :=
  match m with
  | MIdle => w_active r = 0 /\ w_persis r = 0 /\ told = false
  | MShot t => w_active r = t /\ w_persis r = 0 /\ told = false /\ t <> 0
  | MOwing t => w_active r = t /\ w_persis r = t /\ told = false /\ t <> 0
  | MReady t => w_active r = 0 /\ w_persis r = t /\ told = false /\ t <> 0
  | MClosing t => w_active r = t /\ w_persis r = t /\ told = true /\ t <> 0
  end.

Definition persists (m : mode) (t : nat) : Prop := m = MOwing t \/ m = MReady t \/ m = MClosing t.
Definition owes (m : mode) (t : nat) : Prop := m = MOwing t \/ m = MClosing t.

(** What a message from the worker does to the mode. *)
Inductive tells : mode -> imsg -> mode -> Prop :=
| te_log m : tells m ILog m
| te_keep m t a : persists m t -> n_type a = t -> n_persistent a = true -> n_keep a = true -> ~ final_status (n_status a) ->
    tells m (IData a) m
| te_answer t a : n_type a = t -> n_persistent a = true -> n_keep a = false -> ~ final_status (n_status a) ->
    tells (MOwing t) (IData a) (MReady t)
| te_closing t a : n_type a = t -> n_persistent a = true -> n_keep a = false -> ~ final_status (n_status a) ->
    tells (MClosing t) (IData a) (MClosing t)
| te_final m t a : owes m t -> n_type a = t -> n_keep a = false -> final_status (n_status a) ->
    tells m (IData a) MIdle
| te_single t a : n_type a = t -> n_persistent a = false -> n_keep a = false -> ~ final_status (n_status a) ->
    tells (MShot t) (IData a) MIdle.

(** What all the messages on their way to the manager do to the mode. *)
Inductive flow : mode -> list imsg -> mode -> Prop :=
| fl_nil m : flow m [] m
| fl_cons m1 i m2 l m3 : tells m1 i m2 -> flow m2 l m3 -> flow m1 (i :: l) m3.

(** The signal that follows everything else once the worker has been told to stop. *)
Definition stop_signal (m : mode) : list omsg := match m with MClosing _ => [OPStop SIG_KILL] | _ => [] end.

(** An order for a simulation or a generation, and the mode once it is out. *)
Definition ordinary (k : work) : Prop := k_recv k = None /\ (k_tag k = EVAL_SIM \/ k_tag k = EVAL_GEN).
Definition out_mode (k : work) (m : mode) : Prop := if k_persistent k then owes m (k_tag k) else m = MShot (k_tag k).

(** Where a worker is, in each mode: what it is doing, what waits for it, the
    type and rows of the order it has not answered, and the order, with its data,
    that has not reached its function. [late]: the final phase has begun. *)
Inductive situated {U} (single owing ready ending : U -> Prop) (late : bool) :
    mode -> wst U -> list (nat * list nat) -> list (work * list field * list (list val)) -> Prop :=
| si_idle s : s_place s = AtTop -> (late = false -> waiting (s_comm s) = []) ->
    (forall o, In o (waiting (s_comm s)) -> o = OPStop SIG_KILL) -> situated single owing ready ending late MIdle s [] []
| si_sent m k fs d s : s_place s = AtTop -> ordinary k -> out_mode k m ->
    waiting (s_comm s) = wire (XOrder k fs d) ++ stop_signal m ->
    situated single owing ready ending late m s [(k_tag k, k_rows k)] (order_of (XOrder k fs d))
| si_rows m k fs d s : s_place s = AtRows k false -> k_rows k <> [] -> ordinary k -> out_mode k m ->
    waiting (s_comm s) = ORows fs d :: stop_signal m ->
    situated single owing ready ending late m s [(k_tag k, k_rows k)] [(k, fs, d)]
| si_single k u s : s_place s = InCalc k (k_rows k) u -> k_persistent k = false -> single u -> waiting (s_comm s) = [] ->
    situated single owing ready ending late (MShot (k_tag k)) s [(k_tag k, k_rows k)] []
| si_owing m k rows u s : s_place s = InCalc k rows u -> k_persistent k = true -> owing u -> owes m (k_tag k) ->
    waiting (s_comm s) = stop_signal m -> situated single owing ready ending late m s [(k_tag k, rows)] []
| si_ready m k rows u s : s_place s = InCalc k rows u -> k_persistent k = true -> ready u ->
    m = MReady (k_tag k) \/ m = MClosing (k_tag k) -> waiting (s_comm s) = stop_signal m ->
    situated single owing ready ending late m s [] []
| si_next m k rows u k2 fs d s : s_place s = InCalc k rows u -> k_persistent k = true -> ready u -> owes m (k_tag k) ->
    k_tag k2 = k_tag k -> k_rows k2 <> [] -> waiting (s_comm s) = [OWork k2; ORows fs d] ++ stop_signal m ->
    situated single owing ready ending late m s [(k_tag k, k_rows k2)] [(k2, fs, d)]
| si_taking m k k2 g fs d s : s_place s = InRecv k (k_rows k2) k2 g -> k_persistent k = true ->
    (forall fs d, owing (g (RWork k2 fs d))) -> owes m (k_tag k) -> k_tag k2 = k_tag k -> k_rows k2 <> [] ->
    waiting (s_comm s) = ORows fs d :: stop_signal m ->
    situated single owing ready ending late m s [(k_tag k, k_rows k2)] [(k2, fs, d)]
| si_ending k rows u s : s_place s = InCalc k rows u -> k_persistent k = true -> ending u ->
    waiting (s_comm s) = [OPStop SIG_KILL] -> situated single owing ready ending late (MClosing (k_tag k)) s [] [].

(** An error report is on its way to the manager. *)
Definition reports_error {U} (s : wst U) : Prop := In IErr (q_out (s_comm s)).

(** The answers a worker gave, type and rows: its messages but for the
    intermediate ones that keep its state. *)
Definition reply_of (i : imsg) : list (nat * list nat) :=
  match i with IData a => if n_keep a then [] else [(n_type a, n_rows a)] | _ => [] end.
Definition replies_from (w : nat) (l : list event) : list (nat * list nat) :=
  flat_map (fun e => match e with Got v i => if v =? w then reply_of i else [] | _ => [] end) l.
