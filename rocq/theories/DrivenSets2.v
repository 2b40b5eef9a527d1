(** The sets named in the units of the other allocation functions. *)
From Coq Require Import Permutation.
From Verif Require Import Base BaseLemmas HistoryModel HistorySpec RsetModel RsetSpec RsetProofs WorkModel SchedModel SchedSpec AllocModel AllocSpec AllocProofs AllocLoops AllocFacts AllocFast AllocPersis AllocModel2 ManagerModel ManagerSpec ManagerProofs ManagerMsg ManagerRun ManagerInv ManagerFinal ManagerEnd ManagerRes DrivenModel DrivenSpec DrivenProofs DrivenInv DrivenPoints DrivenRes DrivenSets DrivenModel2.

Section Sets2.
Variable x : actx.
Hypothesis Hr : resources_ok x.
Local Notation Ti := (Ti x).
Local Notation Td := (Td x).
Local Notation known := (known x).

Lemma Ti_pick d H pick ws : (forall w, In w ws -> known w) -> forall pts work s work' s' pts' e, Ti work s ->
  pick_sims x d H pick ws pts work s = (work', s', pts', e) -> Ti work' s'.
Proof.
  induction ws as [|w ws IH]; intros Hw pts work s work' s' pts' e HT; cbn [pick_sims]; [intros [= <- <- <- <-]; auto|].
  destruct pts as [|i pts]; [intros [= <- <- <- <-]; auto|].
  destruct (sim_work _ _ _ _ _ _ s) as [a s1] eqn:E. eapply Ti_sim in E; eauto; [|apply Hw; now left].
  destruct a as [k|er]; [apply IH; auto; intros; apply Hw; now right|]. destruct er; intros [= <- <- <- <-]; auto.
Qed.
Lemma Ti_each fields f ws : (forall w, In w ws -> known w) -> forall H work s H' work' s' e, Ti work s ->
  back_each x fields f ws H work s = (H', work', s', e) -> Ti work' s'.
Proof.
  induction ws as [|w ws IH]; intros Hw H work s H' work' s' e HT; cbn [back_each]; [intros [= <- <- <- <-]; auto|].
  assert (Hw' : forall v, In v ws -> known v) by (intros; apply Hw; now right).
  destruct (f w H) as [[[ids|] H1]|e0]; [|apply IH; auto|intros [= <- <- <- <-]; auto].
  destruct (gen_work _ _ _ _ _ _ s) as [a s1] eqn:E. eapply Ti_gen in E; eauto; [|apply Hw; now left].
  destruct a as [k|er]; [apply IH; auto|]. intros [= <- <- <- <-]; auto.
Qed.
Lemma Ti_first ws pers work s work' s' e : (forall w, In w ws -> known w) -> Ti work s ->
  start_first x ws pers work s = (work', s', e) -> Ti work' s'.
Proof.
  intros Hw HT. unfold start_first. destruct ws as [|w ws]; [intros [= <- <- <-]; auto|].
  destruct (gen_work _ _ _ _ _ _ s) as [a s1] eqn:E. eapply Ti_gen in E; eauto; [|apply Hw; now left].
  destruct a as [k|er]; intros [= <- <- <-]; auto.
Qed.
Lemma Ti_runs o ws : (forall w, In w ws -> known w) -> forall gc H work s H' work' s' gc' e, Ti work s ->
  lo_start x o ws gc H work s = (H', work', s', gc', e) -> Ti work' s'.
Proof.
  induction ws as [|w ws IH]; intros Hw gc H work s H' work' s' gc' e HT; cbn [lo_start]; [intros [= <- <- <- <- <-]; auto|].
  assert (Hw' : forall v, In v ws -> known v) by (intros; apply Hw; now right).
  cbn zeta. destruct (if existsb _ _ then filter _ _ else _) as [|i rest]; [apply IH; auto|].
  destruct (_ <? _); [|apply IH; auto].
  destruct (gen_work _ _ _ _ _ _ s) as [a s1] eqn:E. eapply Ti_gen in E; eauto; [|apply Hw; now left].
  destruct a as [k|er]; [apply IH; auto|]. destruct er; intros [= <- <- <- <- <-]; auto.
Qed.
Lemma Ti_pause d u ws : (forall w, In w ws -> known w) -> forall j need paused H work s H' work' s' q e, Ti work s ->
  pause_sims x d u ws j need paused H work s = (H', work', s', q, e) -> Ti work' s'.
Proof.
  induction ws as [|w ws IH]; intros Hw j need paused H work s H' work' s' q e HT; cbn [pause_sims]; [intros [= <- <- <- <- <-]; auto|].
  assert (Hw' : forall v, In v ws -> known v) by (intros; apply Hw; now right).
  destruct need as [|n0 need]; [intros [= <- <- <- <- <-]; auto|]. cbn zeta. destruct (pause_points _ _ _ _) as [[paused1 need1] H1].
  destruct (ac_ord x need1) as [|i rest]; [intros [= <- <- <- <- <-]; auto|].
  destruct (sim_work _ _ _ _ _ _ s) as [a s1] eqn:E. eapply Ti_sim in E; eauto; [|apply Hw; now left].
  destruct a as [k|er]; [apply IH; auto|]. destruct er; intros [= <- <- <- <- <-]; auto.
Qed.
Lemma Ti_pgens u H ws : (forall w, In w ws -> known w) -> forall gc calls last work s work' s' calls' last' e, Ti work s ->
  pause_gens x u H ws gc calls last work s = (work', s', calls', last', e) -> Ti work' s'.
Proof.
  induction ws as [|w ws IH]; intros Hw gc calls last work s work' s' calls' last' e HT; cbn [pause_gens]; [intros [= <- <- <- <- <-]; auto|].
  assert (Hw' : forall v, In v ws -> known v) by (intros; apply Hw; now right).
  destruct (match pz_num_gens u with Some n => gc <? n | None => true end); [|intros [= <- <- <- <- <-]; auto].
  destruct (_ && _); [intros [= <- <- <- <- <-]; auto|].
  destruct (gen_work _ _ _ _ _ _ s) as [a s1] eqn:E. eapply Ti_gen in E; eauto; [|apply Hw; now left].
  destruct a as [k|er]; [apply IH; auto|]. destruct er; intros [= <- <- <- <- <-]; auto.
Qed.

Ltac three Eb Ew Eg :=
  destruct (avail_workers _ (Some EVAL_GEN) _ _ _) as [bs|] eqn:Eb; [|apply Td_nil; auto];
  destruct (avail_workers _ (Some 0) _ _ (Some false)) as [ws|] eqn:Ew; [|apply Td_nil; auto];
  destruct (avail_workers _ (Some 0) _ _ (Some true)) as [gs|] eqn:Eg; [|apply Td_nil; auto].

Lemma Td_fd d u stop g H : Td (o_work (finite_diff_alloc x d u stop g H)).
Proof.
  unfold finite_diff_alloc. destruct stop; [now apply Td_nil|]. destruct (_ && _); [now apply Td_nil|]. three Eb Ew Eg.
  destruct (back_each _ _ _ _ _ _ _) as [[[H1 wk1] s1] e1] eqn:E1.
  assert (T1 : Ti wk1 s1) by exact (Ti_each _ _ _ (avail_known x _ _ _ _ _ Eb) _ _ _ _ _ _ _ (Ti_init x Hr g) E1).
  destruct e1 as [e1|]; [now exists s1|]. destruct (pick_sims _ _ _ _ _ _ _ _) as [[[wk2 s2] pts] e2] eqn:E2.
  assert (T2 : Ti wk2 s2) by exact (Ti_pick _ _ _ _ (avail_known x _ _ _ _ _ Ew) _ _ _ _ _ _ _ T1 E2).
  destruct e2 as [e2|]; [now exists s2|]. destruct (_ =? _); [|now exists s2]. destruct (start_first _ _ _ _ _) as [[wk3 s3] e3] eqn:E3.
  exists s3. exact (Ti_first _ _ _ _ _ _ _ (avail_known x _ _ _ _ _ Eg) T2 E3).
Qed.
Lemma Td_bayes d n stop g H : Td (o_work (inverse_bayes_alloc x d n stop g H)).
Proof.
  unfold inverse_bayes_alloc. destruct stop; [now apply Td_nil|]. cbn zeta. three Eb Ew Eg.
  destruct (back_each _ _ _ _ _ _ _) as [[[H1 wk1] s1] e1] eqn:E1.
  assert (T1 : Ti wk1 s1) by exact (Ti_each _ _ _ (avail_known x _ _ _ _ _ Eb) _ _ _ _ _ _ _ (Ti_init x Hr g) E1).
  destruct e1 as [e1|]; [now exists s1|]. destruct (to_evaluate H1) as [|i pts].
  - destruct (_ =? _); [|now exists s1]. destruct (start_first _ _ _ _ _) as [[wk3 s3] e3] eqn:E3.
    exists s3. exact (Ti_first _ _ _ _ _ _ _ (avail_known x _ _ _ _ _ Eg) T1 E3).
  - destruct (pick_sims _ _ _ _ _ _ _ _) as [[[wk2 s2] pts2] e2] eqn:E2.
    exists s2. exact (Ti_pick _ _ _ _ (avail_known x _ _ _ _ _ Ew) _ _ _ _ _ _ _ T1 E2).
Qed.
Lemma Td_local_opt d o stop g H : Td (o_work (local_opt_alloc x d o stop g H)).
Proof.
  unfold local_opt_alloc. destruct stop; [now apply Td_nil|]. destruct (lo_err o); [now apply Td_nil|]. cbn zeta. three Eb Ew Eg.
  destruct (back_each _ _ _ _ _ _ _) as [[[H1 wk1] s1] e1] eqn:E1.
  assert (T1 : Ti wk1 s1) by exact (Ti_each _ _ _ (avail_known x _ _ _ _ _ Eb) _ _ _ _ _ _ _ (Ti_init x Hr g) E1).
  destruct e1 as [e1|]; [now exists s1|]. destruct (lo_start _ _ _ _ _ _ _) as [[[[H2 wk2] s2] gc] e2] eqn:E2.
  assert (T2 : Ti wk2 s2) by exact (Ti_runs _ _ (avail_known x _ _ _ _ _ Eg) _ _ _ _ _ _ _ _ _ T1 E2).
  destruct e2 as [e2|]; [now exists s2|]. destruct (pick_sims _ _ _ _ _ _ _ _) as [[[wk3 s3] pts] e3] eqn:E3.
  assert (T3 : Ti wk3 s3) by exact (Ti_pick _ _ _ _ (avail_known x _ _ _ _ _ Ew) _ _ _ _ _ _ _ T2 E3).
  destruct e3 as [e3|]; [now exists s3|]. destruct (_ && _); [|now exists s3]. destruct (start_first _ _ _ _ _) as [[wk4 s4] e4] eqn:E4.
  exists s4. exact (Ti_first _ _ _ _ _ _ _ (avail_known x _ _ _ _ _ Eg) T3 E4).
Qed.
Lemma Td_aposmm_rest d init g p H : Td (o_work (fst (aposmm_rest x d init g p H))).
Proof.
  unfold aposmm_rest. three Eb Ew Eg. cbn zeta.
  destruct (back_each _ _ _ _ _ _ _) as [[[H1 wk1] s1] e1] eqn:E1.
  assert (T1 : Ti wk1 s1) by exact (Ti_each _ _ _ (avail_known x _ _ _ _ _ Eb) _ _ _ _ _ _ _ (Ti_init x Hr g) E1).
  destruct e1 as [e1|]; [now exists s1|]. destruct (ap_sims _ _ _ _ _ _ _) as [[[wk2 s2] nx] e2] eqn:E2.
  assert (T2 : Ti wk2 s2) by exact (Ti_fast_sims x Hr _ _ _ (avail_known x _ _ _ _ _ Ew) _ _ _ _ _ _ _ T1 E2).
  destruct e2 as [e2|]; [now exists s2|]. destruct (ap_started p); [now exists s2|]. destruct gs as [|w gs]; [now exists s2|].
  destruct (gen_work _ _ _ _ _ _ _) as [[k|er] s3] eqn:E3.
  - exists s3. eapply Ti_gen in E3; eauto; [exact E3|]. apply (avail_known x _ _ _ _ _ Eg). now left.
  - destruct er; now exists s2.
Qed.
Lemma Td_aposmm d init stop g p H : Td (o_work (fst (persistent_aposmm_alloc x d init stop g p H))).
Proof.
  unfold persistent_aposmm_alloc. destruct stop; [now apply Td_nil|]. destruct (ap_first p).
  - destruct (_ && _); [apply Td_aposmm_rest|now apply Td_nil].
  - destruct (_ =? _); [now apply Td_nil|apply Td_aposmm_rest].
Qed.
Lemma Td_pausing d u stop g p H : Td (o_work (fst (pausing_alloc x d u stop g p H))).
Proof.
  unfold pausing_alloc. destruct stop; [now apply Td_nil|]. cbn zeta.
  destruct (avail_workers _ _ _ _ (Some false)) as [ws|] eqn:Ew; [|now apply Td_nil].
  destruct (avail_workers _ _ _ _ (Some true)) as [gs|] eqn:Eg; [|now apply Td_nil].
  destruct (pause_sims _ _ _ _ _ _ _ _ _ _) as [[[[H1 wk1] s1] [n1 q1]] e1] eqn:E1.
  assert (T1 : Ti wk1 s1) by exact (Ti_pause _ _ _ (avail_known x _ _ _ _ _ Ew) _ _ _ _ _ _ _ _ _ _ _ (Ti_init x Hr g) E1).
  destruct e1 as [e1|]; [now exists s1|]. destruct (pause_gens _ _ _ _ _ _ _ _ _) as [[[[wk2 s2] calls] last] e2] eqn:E2.
  exists s2. exact (Ti_pgens _ _ _ (avail_known x _ _ _ _ _ Eg) _ _ _ _ _ _ _ _ _ _ T1 E2).
Qed.
End Sets2.

Lemma too_Td c a S (A : alloc_fn S) : shipped_too c a S A -> forall v s m out s', table_ok c m -> reach m -> set_order (v_ord v) -> A v s m = (out, s') ->
  Td (call_context c a v m) (o_work out).
Proof.
  intros HA v s m out s' T R O. destruct (call_ok c a v m T R O) as [_ Hr]. intros E. revert s out s' E.
  destruct HA; intros s out s'; unfold fd_alloc_fn, bayes_alloc_fn, local_opt_alloc_fn, aposmm_alloc_fn, pausing_alloc_fn; cbn zeta.
  - intros [= <- _]. now apply Td_fd.
  - intros [= <- _]. now apply Td_bayes.
  - intros [= <- _]. now apply Td_local_opt.
  - pose proof (Td_aposmm _ Hr (h_dtype (m_h m)) n (no_more_work c m) (fst s) (snd s) (trim_H (m_h m))) as H.
    destruct (persistent_aposmm_alloc _ _ _ _ _ _ _) as [o p]. intros [= <- _]. exact H.
  - pose proof (Td_pausing _ Hr (h_dtype (m_h m)) (U v s m) (no_more_work c m) (fst s) (snd s) (trim_H (m_h m))) as H.
    destruct (pausing_alloc _ _ _ _ _ _ _) as [o p]. intros [= <- _]. exact H.
Qed.

Lemma too_sets c a S (A : alloc_fn S) : shipped_too c a S A -> forall v s m out s', table_ok c m -> reach m -> set_order (v_ord v) -> A v s m = (out, s') ->
  sets_ok (u_manage a) m (o_work out).
Proof. intros HA v s m out s' T R O E. eapply Td_sets_ok, too_Td; eauto. Qed.

Lemma Td_teams x wk : Td x wk -> forall w k, In (w, k) wk -> team_ok k.
Proof.
  intros (s & (h & rest & Hs & Hp) & _). apply sets_team_ok. eapply nodup_perm_l; [|exact Hp]. eapply sinv_nodup; eauto.
Qed.

Lemma too_driven_sets c a S (A : alloc_fn S) vs s m m' x : shipped_too c a S A -> Forall (fun v => set_order (v_ord v)) vs -> Jres c (u_manage a) m ->
  driven_loop A c vs s m = (m', x) -> Lres c m' /\ ((forall e, x <> CExc e) -> Jres c (u_manage a) m').
Proof.
  intros HA HV HJ E.
  eapply (driven_ind A c (fun _ => Jres c (u_manage a)) (Lres c) (fun v => set_order (v_ord v)) (fun _ _ => True)) in E as [E1 E2]; eauto.
  - split; auto. intros Hx. destruct (E2 Hx) as (_ & H). exact H.
  - intros _ m0 H. apply H.
  - intros _ m0 m1 e H E0. eapply Jres_kill; eauto.
  - intros _ w i t m0 m1 e H _ E0. eapply Jres_poll; eauto.
  - intros s0 s1 v m0 out H HO E0. pose proof (too_sets c a S A HA v s0 m0 out s1 (proj1 (proj1 H)) (proj1 (proj2 H)) HO E0) as HS.
    assert (HE : Jres c (u_manage a) (edited m0 out)) by exact H.
    split; [apply HE|]. split; [intros _ _; exact HE|]. intros _ _ m2 e EG. eapply Jres_orders; eauto.
Qed.
