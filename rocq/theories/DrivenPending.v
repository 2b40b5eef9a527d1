(** Runs of allocation functions that keep account of the points still to be
    given: no point is sent twice. *)
From Coq Require Import Permutation.
From Verif Require Import Base BaseLemmas HistoryModel HistorySpec HistoryProofs HistoryInv HistoryInv2 HistoryRun HistoryRun2 RsetModel RsetSpec WorkModel SchedModel SchedSpec AllocModel AllocSpec AllocProofs AllocLoops AllocFacts AllocFast AllocPersis ManagerModel ManagerSpec ManagerProofs ManagerMsg ManagerRun ManagerInv ManagerFinal ManagerEnd ManagerRes DrivenModel DrivenSpec DrivenProofs DrivenInv DrivenPoints DrivenSpec2.

Definition nums (h : hist) : Prop := ids_aligned h /\ column h F_sim_id.
Lemma nums_step o h h' : nums h -> ids_polite o -> hstep o h = (h', None) -> nums h'.
Proof.
  intros [A C] P E. split; [eapply hstep_aligned; eauto|]. pose proof (hstep_column o h F_sim_id C) as X. now rewrite E in X.
Qed.

Section Pending.
Context {S : Type}.
Variables (A : alloc_fn S) (c : mcfg) (B : nat -> Prop) (num : bool) (pend : S -> nat -> Prop) (fine : S -> nat -> Prop).
Hypothesis fine_mono : forall s n n', fine s n -> n <= n' -> fine s n'.

Definition Kp (s : S) (m : mgr) : Prop :=
  Lpts c B m /\ reach m /\ h_index (m_h m) <= length (h_rows (m_h m)) /\ (num = true -> nums (m_h m)) /\ fine s (h_index (m_h m)) /\
  forall i, In i (points_sent (m_log m)) -> ~ pend s i.

Lemma Kp_hist s m m' : Kp s m -> table_ok c m' -> points_sent (m_log m') = points_sent (m_log m) -> reach m' ->
  h_index (m_h m) <= h_index (m_h m') <= length (h_rows (m_h m')) -> (num = true -> nums (m_h m')) -> Kp s m'.
Proof.
  intros (H1 & H2 & H3 & H4 & H5 & H6) T E R Hi Hn. split; [eapply Lpts_ext; eauto|]. split; auto. split; [lia|]. split; auto. split; [eapply fine_mono; eauto; lia|]. now rewrite E.
Qed.

Lemma poll_nums w i t m m' : table_ok c m -> nums (m_h m) -> keeps_numbers i -> poll c (w, i, t) m = (m', None) -> nums (m_h m').
Proof.
  intros T N HM E. apply poll_spec in E as [(_ & -> & _)|(r0 & _ & _ & _ & _ & E & _ & E2)]; auto.
  destruct i as [r| | |]; try (rewrite E; auto; fail). destruct (E2 eq_refl) as (_ & _ & _ & F1 & F2 & F3 & F4). clear E2 E. cbn in HM.
  destruct (fin_status r) eqn:Ef.
  { specialize (F4 eq_refl). unfold fin_hist in F4. destruct (n_out r) as [|D|]; try (injection F4 as <-; auto; fail).
    destruct (_ && _).
    - eapply (nums_step (HXIn w D (w_gstart r0) t)); eauto. cbn. intros d Hd Hc. now apply HM.
    - destruct (_ && _) eqn:Es; [|injection F4 as <-; auto]. apply andb_true_iff in Es as [Es _]. apply Nat.eqb_eq in Es.
      eapply (nums_step (HF (n_rows r) (Some D) (c_kill c) t)); eauto. cbn. intros Hc. now apply HM in Hc. }
  destruct (Nat.eq_dec (n_type r) EVAL_SIM) as [E1|E1].
  { destruct (F1 eq_refl E1) as [(_ & _ & ->)|(_ & X & Y)]; auto.
    eapply (nums_step (HF (n_rows r) (out_arr (n_out r)) (c_kill c) t)); eauto; [|cbn; rewrite X, <- Y; apply surjective_pairing].
    cbn. destruct (n_out r) as [|D|]; cbn; auto. intros Hc. apply HM in Hc as [Hc _]. rewrite E1 in Hc. discriminate. }
  destruct (Nat.eq_dec (n_type r) EVAL_GEN) as [E2|E2]; [|rewrite F3; auto].
  destruct (F2 eq_refl E2) as (D & D0 & D1 & D2). rewrite D0 in HM. eapply (nums_step (HXIn w D (w_gstart r0) t)); eauto; [|cbn; rewrite D1, <- D2; apply surjective_pairing].
  cbn. intros d Hd Hc. now apply HM.
Qed.

Lemma given_nums t w k h h' : nums h -> hist_given c t w k h = (h', None) -> nums h'.
Proof.
  unfold hist_given. intros N. destruct (k_tag k =? EVAL_SIM); [|destruct (k_tag k =? EVAL_GEN); [|intros [= <-]; auto]]; intros E.
  - eapply (nums_step (HXOut (k_rows k) w (c_kill c) t)); eauto. exact I.
  - eapply (nums_step (HToGen (k_rows k) t)); eauto. exact I.
Qed.

Lemma orders_nums v wk : forall m m', table_ok c m -> nums (m_h m) -> give_orders c (stamped v wk) m = (m', None) -> nums (m_h m').
Proof.
  induction wk as [|[w k] wk IH]; intros m m' T N; cbn [stamped map give_orders]; [intros [= <-]; auto|].
  destruct (sim_max_given c m); [intros [= <-]; auto|]. cbn [fst].
  destruct (give_order c (v_times v w) w k m) as [m1 [e1|]] eqn:E; cbn [bindx]; [discriminate|].
  apply give_log in E as (r0 & k' & l & _ & Hk & Tc & _ & _ & _ & El & Ho & Eh & En); auto.
  assert (T1 : table_ok c m1) by (eapply touch_table; eauto). intros EG. apply IH in EG; auto.
  apply (given_nums (v_times v w) w k (m_h m)); auto. rewrite Eh, <- En. rewrite <- surjective_pairing. reflexivity.
Qed.

(** The numbers of the rows returned are those of the rows shown. *)
Definition ids_kept (H H' : list row) : Prop :=
  forall i r, nth_error H i = Some r -> exists r', nth_error H' i = Some r' /\ r' F_sim_id = r F_sim_id.
Lemma edited_len m out : h_index (m_h m) <= length (h_rows (m_h m)) ->
  h_index (m_h (edited m out)) = h_index (m_h m) /\ length (h_rows (m_h (edited m out))) = length (h_rows (m_h m)).
Proof.
  intros K3. split; [reflexivity|]. unfold edited. cbn [m_h set_h]. cbn [h_rows alloc_edit set_rows with_rows].
  rewrite app_length, mapi_length, skipn_length, trim_len by auto. lia.
Qed.
Lemma edited_id m out i : ids_kept (trim_H (m_h m)) (o_rows out) ->
  cell (h_rows (m_h (edited m out))) i F_sim_id = cell (h_rows (m_h m)) i F_sim_id.
Proof.
  intros Hk. unfold edited. cbn [m_h set_h]. unfold cell. cbn [h_rows alloc_edit set_rows with_rows].
  assert (Hm : length (mapi 0 (fun i r => nth i (o_rows out) r) (trim_H (m_h m))) = length (trim_H (m_h m))) by apply mapi_length.
  rewrite <- (firstn_skipn (h_index (m_h m)) (h_rows (m_h m))) at 2. fold (trim_H (m_h m)).
  destruct (Nat.lt_ge_cases i (length (trim_H (m_h m)))) as [Hi|Hi].
  - rewrite !nth_error_app1 by lia. destruct (nth_error (trim_H (m_h m)) i) as [r|] eqn:En; [|apply nth_error_None in En; lia].
    destruct (Hk i r En) as (r' & E1 & E2). rewrite mapi_nth, En. cbn. rewrite (nth_error_nth _ _ _ E1). now f_equal.
  - rewrite !nth_error_app2 by lia. rewrite Hm. reflexivity.
Qed.

Hypothesis HA : forall v s m out s', table_ok c m -> reach m -> set_order (v_ord v) -> h_index (m_h m) <= length (h_rows (m_h m)) -> (num = true -> nums (m_h m)) ->
  fine s (h_index (m_h m)) -> A v s m = (out, s') ->
  (num = true -> ids_kept (trim_H (m_h m)) (o_rows out)) /\ fine s' (h_index (m_h m)) /\ (forall w k, In (w, k) (o_work out) -> team_ok k) /\
  NoDup (sim_rows (o_work out)) /\ (forall i, In i (sim_rows (o_work out)) -> pend s i /\ ~ pend s' i /\ ~ B i) /\ forall i, pend s' i -> pend s i.

Lemma pending_never_twice vs s t rounds m m' o : Kp s m -> Forall (fun v => set_order (v_ord v) /\ (num = true -> surr_numbers v)) vs ->
  driven_run A c vs s t rounds m = (m', o) -> Lpts c B m'.
Proof.
  intros HJ HV E. apply driven_cases in E as (m1 & x & E & E2).
  eapply (driven_ind A c Kp (Lpts c B) (fun v => set_order (v_ord v) /\ (num = true -> surr_numbers v)) (fun _ i => num = true -> keeps_numbers i)) in E as [E _]; eauto.
  - destruct E2 as [(_ & -> & _)|(_ & f & E2 & _)]; [apply E|]. eapply Lpts_final in E2; eauto.
  - intros s0 m0 H0. apply H0.
  - intros v w i t0 [_ H] Hin Hn. eapply H; eauto.
  - intros s0 m0 m2 e H0 E0. pose proof (kill_quiet _ _ _ _ E0) as Q. apply points_sent_ext in Q.
    apply kill_cancelled_spec in E0 as ((E1 & E3 & _) & _ & _ & E4).
    assert (T : table_ok c m2) by (unfold table_ok; rewrite E1; apply H0).
    split; [eapply Lpts_ext; eauto; apply H0|]. intros He. pose proof H0 as (_ & K2 & K3 & K4 & _). eapply Kp_hist; eauto.
    + unfold reach. rewrite E3. exact K2.
    + destruct (E4 He) as [-> |[-> _]]; [lia|]. pose proof (kill_frame (m_h m0)) as F. cbn zeta in F. lia.
    + intros Hn. destruct (E4 He) as [-> |[X Y]]; auto. eapply (nums_step HKill); [now apply K4|exact I|]. cbn. rewrite X. rewrite <- Y. apply surjective_pairing.
  - intros s0 w i t0 m0 m2 e H0 HM E0. pose proof H0 as ((T0 & K1) & K2 & K3 & K4 & _).
    pose proof (poll_quiet _ _ _ _ _ T0 E0) as Q. apply points_sent_ext in Q. pose proof (poll_table _ _ _ _ _ T0 E0) as [T _].
    split; [eapply Lpts_ext; eauto; apply H0|]. intros ->. eapply Kp_hist; eauto.
    + exact (poll_reach _ _ _ _ _ _ T0 K2 E0).
    + exact (poll_index _ _ _ _ _ _ T0 K3 E0).
    + intros Hn. exact (poll_nums _ _ _ _ _ T0 (K4 Hn) (HM Hn) E0).
  - intros s0 s1 v m0 out H0 [HO _] E0. pose proof H0 as ((T0 & K1 & KB) & K2 & K3 & K4 & K5 & K6).
    destruct (HA v s0 m0 out s1 T0 K2 HO K3 K4 K5 E0) as (F1 & F2 & F3 & F4 & F5 & F6).
    destruct (edited_len m0 out K3) as [L1 L2].
    assert (HE : Kp s1 (edited m0 out)).
    { split; [apply H0|]. split; [exact K2|]. rewrite L1, L2. split; auto. split; [|split; [exact F2|intros i Hx Hp; apply (K6 i Hx), F6, Hp]].
      intros Hn. destruct (K4 Hn) as [N1 N2]. split; [|exact N2]. eapply ids_cells; [exact L2|exact L1| |exact N1]. intros k. apply edited_id. auto. }
    split; [apply H0|]. split; [intros _ _; exact HE|]. intros _ _ m2 e EG.
    destruct (orders_points c v (o_work out) (edited m0 out) m2 e) as (T2 & rest & EP); auto.
    change (m_log (edited m0 out)) with (m_log m0) in EP.
    assert (HN : NoDup (points_sent (m_log m2) ++ rest)).
    { rewrite <- EP. apply NoDup_app_iff. split; [apply K1|]. split; [exact F4|]. intros i X1 X2. apply (K6 i X1). now apply F5. }
    assert (HB : forall i, B i -> ~ In i (points_sent (m_log m2))).
    { intros i Hb Hx. assert (Hx' : In i (points_sent (m_log m0) ++ sim_rows (o_work out))) by (rewrite EP; apply in_app_iff; auto).
      apply in_app_iff in Hx' as [Hx'|Hx']; [now apply (KB i)|now apply F5 in Hx']. }
    apply NoDup_app_iff in HN as (HN & _). assert (HL : Lpts c B m2) by (split; auto). split; auto. intros ->.
    destruct (orders_index c v (o_work out) (edited m0 out) m2) as (O1 & O2 & O3); auto.
    split; auto. split; auto. rewrite O2, O3, L1, L2. split; auto. split; [|split; [auto|]].
    + intros Hn. apply (orders_nums v (o_work out) (edited m0 out)); auto. apply HE, Hn.
    + intros i Hx. assert (Hx' : In i (points_sent (m_log m0) ++ sim_rows (o_work out))) by (rewrite EP; apply in_app_iff; auto).
      apply in_app_iff in Hx' as [Hx'|Hx']; [intros Hp; apply (K6 i Hx'), F6, Hp|now apply F5].
Qed.
End Pending.
