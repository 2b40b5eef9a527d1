(** The whole ensemble: the manager of manager.py and the workers of worker.py,
    joined by first-in first-out queues (comms.py). Steps of the manager and of
    the workers interleave in any order; a message still in transit is one at the
    end of a queue that the receiver has not looked at.

    A manager step is one order handed out, one message taken, one pass of
    _kill_cancelled_sims or one call of the allocation function: the pieces of
    manager.py:709-723 (ManagerModel.iterate). Nothing else reads the manager's
    tables, so a worker step between the two messages of one order
    (manager.py:427 and 442) is the same as one after them. *)
From Verif Require Import Base HistoryModel WorkModel ManagerModel CommsModel WorkerModel.

Section System.
Variable U : Type.
Variable ustart : work -> list field -> list (list val) -> U.
Variable ustep : U -> uact U.
Variable kd : kind.
Variable c : mcfg.

Record sys := mkSys { y_m : mgr; y_w : nat -> wst U }.

(** The messages to worker w among the manager's communicator traffic. *)
Definition sent_to (w : nat) (l : list event) : list omsg :=
  flat_map (fun e => match e with Sent v o => if v =? w then [o] else [] | Got _ _ => [] end) l.

(** The traffic of one manager step. *)
Definition new_events (m m' : mgr) : list event := skipn (length (m_log m)) (m_log m').

Definition arrive_all (l : list omsg) (s : wst U) : wst U :=
  mkWs U (mkComm (q_in (s_comm U s) ++ l) (q_buf (s_comm U s)) (q_out (s_comm U s))) (s_place U s) (s_log U s).
Definition deliver (l : list event) (f : nat -> wst U) : nat -> wst U := fun w => arrive_all (sent_to w l) (f w).
Definition set_worker (w : nat) (s : wst U) (f : nat -> wst U) : nat -> wst U := fun v => if v =? w then s else f v.
Definition set_out (l : list imsg) (s : wst U) : wst U :=
  mkWs U (mkComm (q_in (s_comm U s)) (q_buf (s_comm U s)) l) (s_place U s) (s_log U s).

Definition manager_moves (y : sys) (m' : mgr) (f : nat -> wst U) : sys :=
  mkSys m' (deliver (new_events (y_m y) m') f).

(** [P] says which orders the allocation function hands out. *)
Inductive ystep (P : nat -> work -> Prop) (y : sys) : sys -> Prop :=
| y_give t w k m' : P w k -> give_order c t w k (y_m y) = (m', None) ->
    ystep P y (manager_moves y m' (y_w y))
| y_take t w i rest m' : In w (map w_id (m_W (y_m y))) -> q_out (s_comm U (y_w y w)) = i :: rest ->
    poll c (w, i, t) (y_m y) = (m', None) ->
    ystep P y (manager_moves y m' (set_worker w (set_out rest (y_w y w)) (y_w y)))
| y_kill m' : kill_cancelled c (y_m y) = (m', None) -> ystep P y (manager_moves y m' (y_w y))
| y_edit ed : ystep P y (mkSys (set_h (y_m y) (alloc_edit ed (m_h (y_m y)))) (y_w y))
| y_work w b s' : wstep U ustart ustep kd b (y_w y w) = Some s' ->
    ystep P y (mkSys (y_m y) (set_worker w s' (y_w y)))
| y_note w :          (* a log record, comms/logs.py *)
    ystep P y (mkSys (y_m y) (set_worker w (set_out (q_out (s_comm U (y_w y w)) ++ [ILog]) (y_w y w)) (y_w y))).

(** The state after Manager.__init__, with every worker at the start of its loop. *)
Definition start_sys (m : mgr) : sys := mkSys m (fun _ => fresh_worker U).

Inductive yreach (P : nat -> work -> Prop) (m0 : mgr) : sys -> Prop :=
| yr_start : yreach P m0 (start_sys m0)
| yr_step y y' : yreach P m0 y -> ystep P y y' -> yreach P m0 y'.

End System.
