(** Property theorems C86: a generator's request to cancel simulations marks
    exactly the named points and leaves everything else as it is. *)
From Coq Require Import String.
From Verif Require Import Base BaseLemmas HistoryModel HistorySpec HistoryProofs HistoryRun2 HistoryFacts HistoryExamples WorkModel ManagerModel CancelModel CancelProofs.
Local Notation length := List.length.

(** The manager [m] holds a history that a run of history operations can lead
    to, and worker [w] runs a persistent generator; no worker has failed. *)
Definition serving (c : mcfg) (w : nat) (m : mgr) : Prop :=
  (exists n outs H0 safe os, 0 < n /\ H0_scalar H0 /\ H0_ids H0 /\ Forall ids_polite os /\
     hrun os (init_history n outs H0 safe) = (m_h m, None)) /\
  (exists r, wget (c_gom c) (m_W m) w = Some r /\ w_persis r = EVAL_GEN) /\
  m_exc m = false.

(** The request is accepted, for any list of ids of generated points (in any
    order, with repetitions, also an empty list). Exactly the named points are
    then marked; no other point, and no other field, changes. *)
Theorem C86_request_marks_exactly_the_named_points :
  forall c t w rows ids m,
  serving c w m -> (forall z, In z ids -> (0 <= z < Z.of_nat (h_index (m_h m)))%Z) ->
  exists m', update_on_msg c t w (request_cancel_sim_ids rows ids) m = (m', None) /\
    (forall k, In (Z.of_nat k) ids -> cell (h_rows (m_h m')) k F_cancel_requested = Some (vbool true)) /\
    (forall k f, ~ In (Z.of_nat k) ids -> column (m_h m) f ->
       cell (h_rows (m_h m')) k f = cell (h_rows (m_h m)) k f) /\
    (forall k f, In (Z.of_nat k) ids -> column (m_h m) f -> f <> F_cancel_requested ->
       stampf f = false \/ cell (h_rows (m_h m)) k F_gen_ended_time <> Some (vint 0) ->
       cell (h_rows (m_h m')) k f = cell (h_rows (m_h m)) k f).
Proof.
  intros c t w rows ids m ((n & outs & H0 & safe & os & Hn & Hs & Hi & Hp & Hr) & (r & G & P) & Ex) Hin.
  destruct (reach_aligned _ _ _ _ _ _ Hn Hi Hp Hr) as [Ha _].
  assert (Sc : forall f, In f (names libE_fields) -> scalar (m_h m) f).
  { intros f Hf. eapply hrun_scalar; [|exact Hr]. split; [now apply init_column|now apply init_shape]. }
  destruct (cancel_x_in w ids (w_gstart r) t (m_h m) Ha (Sc F_sim_id ltac:(cbn; tauto)) (Sc F_cancel_requested ltac:(cbn; tauto))
    (proj1 (Sc F_gen_ended_time ltac:(cbn; tauto))) Hin) as (h' & Hx & A1 & A2 & A3 & A4 & A5 & A6 & A7 & A8).
  destruct (cancel_update c t w rows ids m r h' G P Ex Hx) as (p & U & _).
  eexists. split; [exact U|]. cbn [m_h]. auto.
Qed.
Print Assumptions C86_request_marks_exactly_the_named_points.

(** It costs nothing: no point is added, no count and no worker's state changes
    (the generator is not taken to be waiting for work), no resource is freed
    and nothing is sent. *)
Theorem C86_request_leaves_the_run_as_it_is :
  forall c t w rows ids m,
  serving c w m -> (forall z, In z ids -> (0 <= z < Z.of_nat (h_index (m_h m)))%Z) ->
  exists m', update_on_msg c t w (request_cancel_sim_ids rows ids) m = (m', None) /\
    h_index (m_h m') = h_index (m_h m) /\ length (h_rows (m_h m')) = length (h_rows (m_h m)) /\
    h_started (m_h m') = h_started (m_h m) /\ h_ended (m_h m') = h_ended (m_h m) /\ h_informed (m_h m') = h_informed (m_h m) /\
    m_W m' = m_W m /\ m_res m' = m_res m /\ m_pending m' = m_pending m /\ m_exc m' = false /\ m_log m' = m_log m /\
    (forall l f, m_persis_in m = Some l -> In f l -> exists l', m_persis_in m' = Some l' /\ In f l').
Proof.
  intros c t w rows ids m ((n & outs & H0 & safe & os & Hn & Hs & Hi & Hp & Hr) & (r & G & P) & Ex) Hin.
  destruct (reach_aligned _ _ _ _ _ _ Hn Hi Hp Hr) as [Ha _].
  assert (Sc : forall f, In f (names libE_fields) -> scalar (m_h m) f).
  { intros f Hf. eapply hrun_scalar; [|exact Hr]. split; [now apply init_column|now apply init_shape]. }
  destruct (cancel_x_in w ids (w_gstart r) t (m_h m) Ha (Sc F_sim_id ltac:(cbn; tauto)) (Sc F_cancel_requested ltac:(cbn; tauto))
    (proj1 (Sc F_gen_ended_time ltac:(cbn; tauto))) Hin) as (h' & Hx & A1 & A2 & A3 & A4 & A5 & A6 & A7 & A8).
  destruct (cancel_update c t w rows ids m r h' G P Ex Hx) as (p & U & Q).
  eexists. split; [exact U|]. cbn [m_h m_W m_res m_pending m_exc m_log m_persis_in].
  repeat split; auto. intros l f Hl Hf. destruct Q as [Q|(l' & -> & Q)].
  - exists l. subst p. auto.
  - exists l'. split; auto. apply Q. rewrite Hl. auto.
Qed.
Print Assumptions C86_request_leaves_the_run_as_it_is.

(** Example: five points, two of them cancelled by worker 1, once repeated. *)
Definition ccfg : mcfg := mkC false true false false false false None None None None.
Definition crow : wrow := mkW 1 false EVAL_GEN EVAL_GEN false 5 false.
Definition cmgr (h : hist) : mgr := mkM h [crow] None false [] None [].
Lemma cmgr_serving : serving ccfg 1 (cmgr after_run).
Proof.
  split; [|split; [exists crow; split; reflexivity|reflexivity]].
  exists 2, [(X, ShS); (FF, ShS)], no_H0, true, a_run. split; [lia|].
  split; [intros f sh []|]. split; [intros []|]. split; [exact a_run_polite|exact a_run_ok].
Qed.
Example C86_hypotheses_met :
  serving ccfg 1 (cmgr after_run) /\ h_index (m_h (cmgr after_run)) = 5 /\
  (let m' := fst (update_on_msg ccfg 20 1 (request_cancel_sim_ids [] [3; 1; 3]%Z) (cmgr after_run)) in
   map (fun k => cell (h_rows (m_h m')) k F_cancel_requested) [0; 1; 2; 3; 4] =
     map (fun b => Some (vbool b)) [false; true; true; true; false] /\
   cell (h_rows (m_h m')) 1 F_gen_ended_time = Some (vint 6) /\ m_W m' = [crow]).
Proof. split; [exact cmgr_serving|]. split; [vm_compute; reflexivity|]. repeat split; vm_compute; reflexivity. Qed.

(** A request for the next id, of a point that does not exist, adds a point to
    the history: one with zeros for its values, marked as cancelled. *)
Theorem C86_request_for_the_next_id_adds_a_point_refuted :
  exists c t w rows m m', serving c w m /\
    update_on_msg c t w (request_cancel_sim_ids rows [Z.of_nat (h_index (m_h m))]) m = (m', None) /\
    h_index (m_h m') = S (h_index (m_h m)) /\ cell (h_rows (m_h m')) (h_index (m_h m)) X = Some (vint 0).
Proof.
  exists ccfg, 20%Z, 1, [], (cmgr after_run), (fst (update_on_msg ccfg 20 1 (request_cancel_sim_ids [] [5%Z]) (cmgr after_run))).
  split; [exact cmgr_serving|].
  assert (E : snd (update_on_msg ccfg 20 1 (request_cancel_sim_ids [] [5%Z]) (cmgr after_run)) = None) by (vm_compute; reflexivity).
  replace (Z.of_nat (h_index (m_h (cmgr after_run)))) with 5%Z by (vm_compute; reflexivity).
  split; [destruct (update_on_msg ccfg 20 1 (request_cancel_sim_ids [] [5%Z]) (cmgr after_run)); cbn in *; congruence|].
  split; vm_compute; reflexivity.
Qed.

(** A request for an id beyond that stops the run with an AssertionError. *)
Theorem C86_request_beyond_the_next_id_ends_the_run_refuted :
  exists c t w rows z m, serving c w m /\ (Z.of_nat (h_index (m_h m)) < z)%Z /\
    snd (update_on_msg c t w (request_cancel_sim_ids rows [z]) m) = Some EAssert.
Proof.
  exists ccfg, 20%Z, 1, [], 6%Z, (cmgr after_run). split; [exact cmgr_serving|]. split; vm_compute; reflexivity.
Qed.

(** A point of H0 that does not say when it was generated is recorded, after
    the request, as generated by the worker that asked. *)
Definition old_H0 : sarr := mkA [(X, ShS); (F_sim_ended, ShS)] [fun f => if feqb X f then vint 70 else vbool true].
Definition old_start : hist := init_history 2 [(X, ShS); (FF, ShS)] old_H0 true.
Theorem C86_request_for_a_point_of_H0_claims_it_refuted :
  exists c t w rows m m', serving c w m /\ h_index (m_h m) = 1 /\
    update_on_msg c t w (request_cancel_sim_ids rows [0%Z]) m = (m', None) /\
    cell (h_rows (m_h m)) 0 F_gen_worker = Some (vint 0) /\ cell (h_rows (m_h m')) 0 F_gen_worker = Some (vint 1).
Proof.
  exists ccfg, 20%Z, 1, [], (cmgr old_start), (fst (update_on_msg ccfg 20 1 (request_cancel_sim_ids [] [0%Z]) (cmgr old_start))).
  split.
  { split; [|split; [exists crow; split; reflexivity|reflexivity]].
    exists 2, [(X, ShS); (FF, ShS)], old_H0, true, []. split; [lia|].
    split; [intros f sh [E|[E|[]]] _; inversion E; auto|]. split; [intros [E|[E|[]]]; discriminate|]. split; [constructor|reflexivity]. }
  split; [vm_compute; reflexivity|].
  assert (E : snd (update_on_msg ccfg 20 1 (request_cancel_sim_ids [] [0%Z]) (cmgr old_start)) = None) by (vm_compute; reflexivity).
  split; [destruct (update_on_msg ccfg 20 1 (request_cancel_sim_ids [] [0%Z]) (cmgr old_start)); cbn in *; congruence|].
  split; vm_compute; reflexivity.
Qed.
