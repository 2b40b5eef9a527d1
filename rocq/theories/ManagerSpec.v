(** Vocabulary for the manager properties: what an observer of the
    communicators, the worker table and the history sees. *)
From Verif Require Import Base HistoryModel HistorySpec RsetModel WorkModel ManagerModel.

(** A work order handed out by the main loop (the shutdown message that carries
    data has tag PERSIS_STOP and is not one). *)
Definition is_order (e : event) : Prop :=
  match e with Sent _ (OWork k) => k_tag k <> PERSIS_STOP | _ => False end.
Definition order_to (w : nat) (e : event) : Prop :=
  match e with Sent v (OWork k) => v = w /\ k_tag k <> PERSIS_STOP | _ => False end.

(** The persistent function of worker w has ended. *)
Definition finished_by (w : nat) (e : event) : Prop :=
  match e with
  | Got v (IData a) => v = w /\ (n_status a = FIN_PERSIS_SIM \/ n_status a = FIN_PERSIS_GEN)
  | _ => False
  end.

(** A message from worker w after which it no longer works on its order: an
    answer (other than one sent with keep_state), the end of its persistent
    function, or an error report. *)
Definition released_by (w : nat) (e : event) : Prop :=
  match e with
  | Got v (IData a) => v = w /\ (n_keep a = false \/ n_status a = FIN_PERSIS_SIM \/ n_status a = FIN_PERSIS_GEN)
  | Got v IErr => v = w
  | _ => False
  end.

(** Worker w has no order, or has answered the last one. *)
Definition free_after (l : list event) (w : nat) : Prop :=
  (forall e, In e l -> ~ order_to w e) \/
  exists a e b, l = a ++ e :: b /\ released_by w e /\ forall x, In x b -> ~ order_to w x.

(** Worker w runs a persistent function in active-receive mode: it was given an
    order marked persistent and active_recv, and has not ended since. *)
Definition receiving_after (l : list event) (w : nat) : Prop :=
  exists a k b, l = a ++ Sent w (OWork k) :: b /\ k_persistent k = true /\ k_recv k = Some true /\
    forall x, In x b -> ~ finished_by w x.

(** Number of points sent out for simulation. *)
Fixpoint points_out (l : list event) : nat :=
  match l with
  | [] => 0
  | Sent _ (OWork k) :: l' => (if k_tag k =? EVAL_SIM then length (k_rows k) else 0) + points_out l'
  | _ :: l' => points_out l'
  end.

(** No simulation order lists more than b points. *)
Definition units_up_to (b : nat) (l : list event) : Prop :=
  forall w k, In (Sent w (OWork k)) l -> k_tag k = EVAL_SIM -> length (k_rows k) <= b.

(** The history the manager starts with: history.py:40-109 with the user's sim_max. *)
Definition fresh_history (c : mcfg) (outs : dtype) (H0 : sarr) (safe : bool) : hist :=
  init_history (match c_sim_max c with Some n => n | None => 100 end) outs H0 safe.

(** ** Exit criteria *)
Definition wall_passed (c : mcfg) (elapsed : Z) : Prop := exists x, c_wall c = Some x /\ (x <= elapsed)%Z.
Definition sim_max_reached (c : mcfg) (h : hist) : Prop :=
  exists n, c_sim_max c = Some n /\ n + h_ended_off h <= h_ended h.
Definition gen_max_reached (c : mcfg) (h : hist) : Prop :=
  exists n, c_gen_max c = Some n /\ n + h_informed_off h <= h_index h.

(** s is a number (or infinity) in the cell *)
Definition in_cell (s : sc) (v : val) : Prop := v = VS s \/ exists l, v = VV l /\ In s l.
(** x <= y for values that are not NaN *)
Inductive at_most : sc -> sc -> Prop :=
| am_num x y : (x <= y)%Z -> at_most (SNum x) (SNum y)
| am_inf x : at_most (SNum x) SInf
| am_inf_inf : at_most SInf SInf.
(** some ended row has a value at or below the stop value *)
Definition stop_reached (c : mcfg) (h : hist) : Prop :=
  exists key v k x s, c_stop c = Some (key, v) /\ is_set h k F_sim_ended /\
    cell (h_rows h) k key = Some x /\ in_cell s x /\ at_most s v.

(** ** Finish signals *)
Definition finishes (ids : list nat) : list event := map (fun w => Sent w (OStop SIG_FINISH)) ids.
Definition is_finish (e : event) : Prop := exists w, e = Sent w (OStop SIG_FINISH).

(** The worker ids at start: 1..n, with 0 in front if the generator runs on the manager. *)
Definition worker_ids (c : mcfg) (n : nat) : list nat := if c_gom c then seq 0 (S n) else seq 1 n.

Definition no_finish (l : list event) : Prop := forall e, In e l -> ~ is_finish e.
Definition no_error (l : list event) : Prop := forall w, ~ In (Got w IErr) l.

(** Every persistent function worker w was asked to run has ended. *)
Definition ended_after (l : list event) (w : nat) : Prop :=
  forall a k b, l = a ++ Sent w (OWork k) :: b -> k_persistent k = true -> k_tag k <> PERSIS_STOP ->
    exists e, In e b /\ finished_by w e.

(** A message marked persistent names its calculation type (1 or 2), as
    persistent_support.py:52-57 and worker.py:377-384 do. *)
Definition honest (w : nat) (i : imsg) : Prop :=
  match i with IData a => n_persistent a = true -> n_type a <> 0 | _ => True end.

(** Work is addressed to workers that exist. *)
Definition addressed (ids : list nat) (w : nat) (k : work) : Prop := In w ids.

(** The messages asking a persistent worker to stop. *)
Definition stop_sent (e : event) : list nat :=
  match e with
  | Sent w (OPStop _) => [w]
  | Sent w (OWork k) => if k_tag k =? PERSIS_STOP then [w] else []
  | _ => []
  end.
Definition stops (l : list event) : list nat := flat_map stop_sent l.

(** Rows for which the manager has received results. An answer that ends a
    persistent simulator counts only if use_persis_return_sim is set. *)
Definition answered_rows (ret : bool) (a : answer) : nat :=
  if (n_status a =? FIN_PERSIS_SIM) || (n_status a =? FIN_PERSIS_GEN) then
    match n_out a with
    | UArr _ => if (n_status a =? FIN_PERSIS_SIM) && ret then length (n_rows a) else 0
    | _ => 0
    end
  else if n_type a =? EVAL_SIM then length (n_rows a) else 0.
Fixpoint results_in (ret : bool) (l : list event) : nat :=
  match l with
  | [] => 0
  | Got _ (IData a) :: l' => answered_rows ret a + results_in ret l'
  | _ :: l' => results_in ret l'
  end.

(** A message that reports a failed calculation: an error report, or a
    simulation answer whose result is not an array. *)
Definition failure (i : imsg) : Prop :=
  i = IErr \/ exists a, i = IData a /\ n_type a = EVAL_SIM /\ n_out a = UOther.

(** Every order of every iteration satisfies P. *)
Definition orders_ok (P : nat -> work -> Prop) (its : list iter) : Prop :=
  forall it ws w k t, In it its -> it_alloc it = AWork ws -> In (w, k, t) ws -> P w k.

(** Every message of every iteration, and of every round, satisfies M. *)
Definition msgs_ok (M : nat -> imsg -> Prop) (its : list iter) : Prop :=
  forall it w i t, In it its -> In (w, i, t) (it_msgs it) -> M w i.
Definition rounds_ok (M : nat -> imsg -> Prop) (rounds : list (list (nat * imsg * Z) * Z)) : Prop :=
  forall msgs el w i t, In (msgs, el) rounds -> In (w, i, t) msgs -> M w i.

(** The traffic of a whole run. A failure was reported after [l0], everyone was told to finish at once, and again if the shutdown ended. *)
Definition error_trace (ids : list nat) (l : list event) : Prop :=
  exists l0 w i l1, l = l0 ++ Got w i :: finishes ids ++ l1 /\ failure i /\ no_finish l0 /\ no_error l0 /\
    (no_finish l1 \/ exists l2, l1 = l2 ++ finishes ids /\ no_finish l2).

(** Everything given out and everything returned is in the history. *)
Definition recorded (m : mgr) : Prop :=
  (forall w k i, In (Sent w (OWork k)) (m_log m) -> k_tag k = EVAL_SIM -> In i (k_rows k) ->
     cell (h_rows (m_h m)) i F_sim_started = Some (vbool true)) /\
  (forall w a i, In (Got w (IData a)) (m_log m) -> n_type a = EVAL_SIM ->
     n_status a <> FIN_PERSIS_SIM -> n_status a <> FIN_PERSIS_GEN -> In i (n_rows a) ->
     cell (h_rows (m_h m)) i F_sim_ended = Some (vbool true)).
