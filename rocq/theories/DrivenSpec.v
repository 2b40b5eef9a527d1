(** Vocabulary for runs driven by an allocation function. *)
From Verif Require Import Base HistoryModel HistorySpec WorkModel RsetModel RsetSpec AllocModel ManagerModel ManagerSpec DrivenModel.

(** The points sent out for simulation, in order. *)
Fixpoint points_sent (l : list event) : list nat :=
  match l with
  | [] => []
  | Sent _ (OWork k) :: l' => (if k_tag k =? EVAL_SIM then k_rows k else []) ++ points_sent l'
  | _ :: l' => points_sent l'
  end.

(** The resource sets worker [w] was given and has not given back. They come
    with its orders; it gives them back with an answer, unless the answer comes
    from a persistent function that goes on. *)
Fixpoint held_from (w : nat) (acc : list nat) (l : list event) : list nat :=
  match l with
  | [] => acc
  | Sent v (OWork k) :: l' =>
      held_from w (if v =? w then acc ++ match k_team k with Some t => t | None => [] end else acc) l'
  | Got v (IData a) :: l' =>
      held_from w (if (v =? w) && ((n_status a =? FIN_PERSIS_SIM) || (n_status a =? FIN_PERSIS_GEN) || negb (n_persistent a))
                   then [] else acc) l'
  | _ :: l' => held_from w acc l'
  end.
Definition held_sets (w : nat) (l : list event) : list nat := held_from w [] l.

(** Results do not overwrite protected columns (safe mode would drop them). *)
Definition tidy (i : imsg) : Prop :=
  match i with IData a => match n_out a with UArr D => ~ touches_protected D | _ => True end | _ => True end.
Definition surr_tidy (v : surr) : Prop := forall w i t, In (w, i, t) (v_msgs v) -> tidy i.

(** At no moment of the traffic do two workers hold a set together. *)
Definition never_shared (l : list event) : Prop :=
  forall p q, l = p ++ q -> forall v w i, v <> w -> In i (held_sets v p) -> ~ In i (held_sets w p).
(** The manager's table of holders says what the traffic says. *)
Definition table_tells (m : mgr) : Prop :=
  forall rm, m_res m = Some rm -> forall i w, holder rm i = Some w <-> In i (held_sets w (m_log m)).

(** The allocation functions modelled here, all given the manager's own tables. *)
Inductive shipped (c : mcfg) (a : asetup) : forall S, alloc_fn S -> Prop :=
| ship_default : forall u, shipped c a nat (default_alloc c a u)
| ship_persistent : forall u, shipped c a (nat * pinfo) (persistent_alloc c a u)
| ship_fast : forall num, shipped c a (nat * pinfo) (fast_alloc_fn c a num)
| ship_pregenerated : shipped c a (nat * pinfo) (pregenerated_alloc c a)
| ship_one_gen : shipped c a (nat * pinfo) (one_gen_alloc c a).

(** The calculation type of the order worker [w] works on: the last one it was
    sent, until it answers (an answer with keep_state does not count); 0 if none. *)
Definition step_task (w s : nat) (e : event) : nat :=
  match e with
  | Sent v (OWork k) => if (v =? w) && negb (k_tag k =? PERSIS_STOP) then k_tag k else s
  | Got v (IData a) => if (v =? w) && (negb (n_keep a) || (n_status a =? FIN_PERSIS_SIM) || (n_status a =? FIN_PERSIS_GEN)) then 0 else s
  | _ => s
  end.
Definition task (w : nat) (l : list event) : nat := fold_left (step_task w) l 0.

(** The calculation type of the persistent function worker [w] was started with
    and that has not ended; 0 if none. *)
Definition step_persis (w s : nat) (e : event) : nat :=
  match e with
  | Sent v (OWork k) => if (v =? w) && negb (k_tag k =? PERSIS_STOP) && k_persistent k then k_tag k else s
  | Got v (IData a) => if (v =? w) && ((n_status a =? FIN_PERSIS_SIM) || (n_status a =? FIN_PERSIS_GEN)) then 0 else s
  | _ => s
  end.
Definition persis_task (w : nat) (l : list event) : nat := fold_left (step_persis w) l 0.

(** At no moment of the traffic do more than [n] workers have [task] EVAL_GEN. *)
Definition at_most_gens (task : nat -> list event -> nat) (n : nat) (l : list event) : Prop :=
  forall p q, l = p ++ q -> forall ws, NoDup ws -> (forall w, In w ws -> task w p = EVAL_GEN) -> length ws <= n.

(** Answers marked persistent come from persistent functions and name their type. *)
Definition persis_honest (l : list event) : Prop :=
  forall p w a q, l = p ++ Got w (IData a) :: q -> n_persistent a = true -> n_type a <> 0 /\ persis_task w p = n_type a.

(** What becomes of the orders of one call of [A]: its edits of the history are
    made, then its orders are checked, sent and recorded one after the other; the
    exception that ends this, if any. *)
Definition order_error {S} (A : alloc_fn S) (c : mcfg) (v : surr) (s : S) (m : mgr) : option err :=
  let (out, _) := A v s m in
  snd (give_orders c (map (fun p => (p, v_times v (fst p))) (o_work out)) (set_h m (alloc_edit (fun i r => nth i (o_rows out) r) (m_h m)))).
(** The fields the user asks for are columns of the history. *)
Definition columns_asked (a : asetup) (h : hist) : Prop :=
  u_sim_in a <> [] /\ forall f, In f (u_sim_in a ++ u_gen_in a ++ u_persis_in a) -> column h f.

(** ** Answers and the orders they answer *)
(** The order worker [w] was sent and has not answered. *)
Definition step_open (w : nat) (s : option work) (e : event) : option work :=
  match e with
  | Sent v (OWork k) => if (v =? w) && negb (k_tag k =? PERSIS_STOP) then Some k else s
  | Got v (IData _) => if v =? w then None else s
  | _ => s
  end.
Definition open_order (w : nat) (l : list event) : option work := fold_left (step_open w) l None.

(** Every answer answers an open order of its worker: same calculation type, and
    for a simulation the rows of the order. It does not come from a persistent
    function and does not keep the worker's state. *)
Definition answers_match (l : list event) : Prop :=
  forall p w a q, l = p ++ Got w (IData a) :: q ->
  (exists k, open_order w p = Some k /\ n_type a = k_tag k /\ (k_tag k = EVAL_SIM -> n_rows a = k_rows k)) /\
  n_persistent a = false /\ n_keep a = false /\ n_status a <> FIN_PERSIS_SIM /\ n_status a <> FIN_PERSIS_GEN.

(** Results do not overwrite protected columns and cancel nothing. *)
Definition cancels_nothing (l : list event) : Prop :=
  forall w a D, In (Got w (IData a)) l -> n_out a = UArr D -> ~ touches_protected D /\ ~ In F_cancel_requested (names (a_dtype D)).

(** Each call of a generator brings at least one new point, and the generator
    leaves the numbering to libEnsemble. *)
Definition gens_deliver (l : list event) : Prop :=
  forall w a, In (Got w (IData a)) l -> n_type a = EVAL_GEN ->
  exists D, n_out a = UArr D /\ a_rows D <> [] /\ ~ In F_sim_id (names (a_dtype D)).

(** The number of orders, of generator calls, of answers. *)
Fixpoint orders_sent (l : list event) : nat :=
  match l with
  | [] => 0
  | Sent _ (OWork k) :: l' => (if k_tag k =? PERSIS_STOP then 0 else 1) + orders_sent l'
  | _ :: l' => orders_sent l'
  end.
Fixpoint gen_calls (l : list event) : nat :=
  match l with
  | [] => 0
  | Sent _ (OWork k) :: l' => (if k_tag k =? EVAL_GEN then 1 else 0) + gen_calls l'
  | _ :: l' => gen_calls l'
  end.
Fixpoint answers_in (l : list event) : nat :=
  match l with
  | [] => 0
  | Got _ (IData _) :: l' => 1 + answers_in l'
  | _ :: l' => answers_in l'
  end.

(** How many generator calls the default allocation function allows at a time. *)
Definition gens_at_once (u : user_opts) (workers : nat) : nat :=
  match u_num_active_gens u with Some n => n | None => workers end.

(** An answer from one of the workers arrives in the turn. *)
Definition brings_answer (m : mgr) (v : surr) : Prop :=
  exists w a t, In (w, IData a, t) (v_msgs v) /\ In w (map w_id (m_W m)).
