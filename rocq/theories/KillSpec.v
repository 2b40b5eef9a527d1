(** Vocabulary for kill signals in the whole ensemble. *)
From Verif Require Import Base HistoryModel HistorySpec WorkModel ManagerModel CommsModel WorkerModel WorkerSpec SystemModel SystemSpec SystemProofs.

(** The history columns in which libEnsemble records that a point has been given
    to a worker, to which one, and that its result is in. *)
Definition given_columns (f : field) : Prop := f = F_sim_started \/ f = F_sim_worker \/ f = F_sim_ended.

(** An allocation function that leaves these columns of the history alone. *)
Definition gentle (ed : nat -> row -> row) : Prop := forall i r f, given_columns f -> ed i r f = r f.

(** No user function claims a status that libEnsemble reserves for the manager's
    finish signal or for the end of a persistent function. *)
Definition own_business {U} (ustep : U -> uact U) : Prop :=
  forall u r n, ustep u = AReturn r -> own_status r n -> n <> SIG_FINISH /\ n <> FIN_PERSIS_SIM /\ n <> FIN_PERSIS_GEN.

(** The stop and kill signals sent to worker w. *)
Definition signals_to (w : nat) (l : list event) : list omsg :=
  filter (fun o => match o with OStop _ | OPStop _ => true | _ => false end) (sent_to w l).

(** Order k was sent to worker w, and since then neither another order was sent
    to it nor an answer taken from it. *)
Definition last_order (w : nat) (k : work) (l : list event) (since : list event) : Prop :=
  (exists before, l = before ++ Sent w (OWork k) :: since) /\ orders_to w since = [] /\ answers_from w since = [].

(** Point i is with a worker and its cancellation has been requested. *)
Definition cancelled (h : hist) (i : nat) : Prop :=
  is_set h i F_sim_started /\ is_set h i F_cancel_requested /\ ~ is_set h i F_sim_ended /\ ~ is_set h i F_kill_sent.

(** Points that an earlier run started are finished. *)
Definition H0_finished (H0 : sarr) : Prop :=
  has F_sim_started (names (a_dtype H0)) = true -> has F_sim_ended (names (a_dtype H0)) = true ->
  forall r, In r (a_rows H0) -> truthy (r F_sim_started) = true -> truthy (r F_sim_ended) = true.

Section Kill.
Variable U : Type.
Variable ustart : work -> list field -> list (list val) -> U.
Variable ustep : U -> uact U.
Variable kd : kind.
Variable c : mcfg.

(** The steps of [SystemModel.ystep] with an allocation function that is [gentle]. *)
Inductive kstep (P : nat -> work -> Prop) (y : sys U) : sys U -> Prop :=
| k_give t w k m' : P w k -> give_order c t w k (y_m y) = (m', None) -> kstep P y (manager_moves y m' (y_w y))
| k_take t w i rest m' : In w (map w_id (m_W (y_m y))) -> q_out (s_comm (y_w y w)) = i :: rest ->
    poll c (w, i, t) (y_m y) = (m', None) -> kstep P y (manager_moves y m' (set_worker w (set_out rest (y_w y w)) (y_w y)))
| k_kill m' : kill_cancelled c (y_m y) = (m', None) -> kstep P y (manager_moves y m' (y_w y))
| k_edit ed : gentle ed -> kstep P y (mkSys (set_h (y_m y) (alloc_edit ed (m_h (y_m y)))) (y_w y))
| k_work w b s' : wstep ustart ustep kd b (y_w y w) = Some s' -> kstep P y (mkSys (y_m y) (set_worker w s' (y_w y)))
| k_note w : kstep P y (mkSys (y_m y) (set_worker w (set_out (q_out (s_comm (y_w y w)) ++ [ILog]) (y_w y w)) (y_w y))).

(** Any number of steps. *)
Inductive ksteps (P : nat -> work -> Prop) (y : sys U) : sys U -> Prop :=
| kt_refl : ksteps P y y
| kt_step y1 y2 : ksteps P y y1 -> kstep P y1 y2 -> ksteps P y y2.

End Kill.
