(** What holds throughout a run driven by start_only_persistent. *)
From Coq Require Import Permutation.
From Verif Require Import Base BaseLemmas HistoryModel HistorySpec HistoryProofs HistoryXIn HistoryInv HistoryInv2 HistoryRun HistoryRun2 HistoryRun3 HistoryBack RsetModel RsetSpec WorkModel SchedModel SchedSpec AllocModel AllocSpec AllocProofs AllocLoops AllocFacts AllocPersis ManagerModel ManagerSpec ManagerProofs ManagerMsg ManagerRun ManagerInv ManagerFinal ManagerEnd ManagerRes DrivenModel DrivenSpec DrivenProofs DrivenInv DrivenPoints DrivenRes DrivenSets DrivenGens DrivenOrders DrivenTrace DrivenEnds PersisEndsSpec PersisHist PersisTrace.

(** row [i] was generated by worker [w] *)
Definition made_by (h : hist) (i w : nat) : Prop := exists v, cell (h_rows h) i F_gen_worker = Some v /\ as_int v = Z.of_nat w.
Lemma made_by_one h i w w' : made_by h i w -> made_by h i w' -> w = w'.
Proof. intros (v & E & V) (v' & E' & V'). rewrite E in E'. injection E' as <-. lia. Qed.

(** row [i] is part of a simulation that is still out *)
Definition out_of (l : list event) (i : nat) : Prop := exists w k, open_order w l = Some k /\ k_tag k = EVAL_SIM /\ In i (k_rows k).

(** the worker table tells who has which open order, and who runs a generator *)
Definition told2 (m : mgr) : Prop :=
  (forall r, In r (m_W m) -> w_active r = match open_order (w_id r) (m_log m) with Some k => k_tag k | None => 0 end /\
     (w_active r = 0 \/ (w_active r = EVAL_SIM /\ w_persis r = 0) \/ (w_active r = EVAL_GEN /\ w_persis r = EVAL_GEN)) /\
     (w_persis r = 0 \/ (w_persis r = EVAL_GEN /\ may_gen (m_W m) r))) /\
  forall w, ~ In w (map w_id (m_W m)) -> open_order w (m_log m) = None.

(** a generator that waits has a point it has not heard of *)
Definition waiting (m : mgr) : Prop :=
  forall r, In r (m_W m) -> w_persis r = EVAL_GEN -> w_active r = 0 ->
  exists i, i < h_index (m_h m) /\ made_by (m_h m) i (w_id r) /\ ~ is_set (m_h m) i F_gen_informed.

Lemma quiet_back l e : (match e with Sent _ (OWork _) => False | _ => True end) ->
  rows_back (l ++ [e]) = rows_back l /\ gen_starts (l ++ [e]) = gen_starts l /\ points_sent (l ++ [e]) = points_sent l /\ points_out (l ++ [e]) = points_out l.
Proof.
  intros H. rewrite back_app, starts_app, sent_app, points_out_app.
  destruct e as [v o|v i]; [destruct o|]; cbn in *; try tauto; rewrite ?app_nil_r, ?Nat.add_0_r; auto.
Qed.

(** rows keep their maker and stay unheard of *)
Lemma keep_row o h h' sent back (out : nat -> Prop) i w : rows_known h sent back out -> hstep o h = (h', None) -> op_clean h o ->
  (forall v D gs t, o = HXIn v D gs t -> ~ In F_sim_id (names (a_dtype D))) -> i < h_index h -> made_by h i w -> made_by h' i w /\
  (~ is_set h i F_gen_informed -> ~ op_sets h o i F_gen_informed -> ~ is_set h' i F_gen_informed) /\ i < h_index h'.
Proof.
  intros (K1 & K2 & _) E Hcl Hn Hi (v & V1 & V2). split; [|split].
  - exists v. split; auto. rewrite <- V1. eapply hstep_maker; eauto.
  - intros H1 H2 H3. eapply hstep_back4 in H3; [destruct H3; eauto|unfold four; auto| | |exact K2|exact E].
    + apply prov_scalar; auto. cbn; tauto.
    + apply op_clean_leaves; auto.
  - pose proof (hstep_index o h K2) as HX. rewrite E in HX. cbn [fst snd] in HX. specialize (HX eq_refl). lia.
Qed.

Lemma rows_known_ext h s b (o o' : nat -> Prop) : (forall i, o i -> o' i) -> rows_known h s b o -> rows_known h s b o'.
Proof.
  intros H (K1 & K2 & K3 & K4 & K5 & K6 & K7 & K8). repeat (split; [assumption|]). split; [|auto]. intros i Hi. destruct (K6 i Hi); auto.
Qed.

Lemma gen_ended_app l l' : gen_ended l -> gen_ended (l ++ l').
Proof. intros (w & a & H1 & H2). exists w, a. split; auto. apply in_app_iff. auto. Qed.

Section Ends.
Variables (c : mcfg) (single : bool) (num : nat).
Let Q := Qp single num (c_sim_max c).

Definition known (m : mgr) : Prop :=
  told2 m /\ rows_known (m_h m) (points_sent (m_log m)) (rows_back (m_log m)) (out_of (m_log m)) /\ gen_starts (m_log m) <= num.
Definition J0 (m : mgr) : Prop :=
  LT c Q m /\ J_cnt c m /\ m_pending m = [] /\ no_recv m /\ m_res m = None /\
  h_started (m_h m) = h_started_off (m_h m) + points_out (m_log m) /\ enough_workers num (m_W m) /\ (fineP (m_log m) -> known m).

(** a generator has ended; none has been started; they run *)
Definition over (p : pinfo) (m : mgr) : Prop := count_persis_gens (m_W m) < pi_gens_started p /\ gen_ended (m_log m).
Definition fresh (p : pinfo) (m : mgr) : Prop :=
  pi_gens_started p = 0 /\ (forall r, In r (m_W m) -> w_persis r = 0 /\ w_active r = 0) /\ h_index (m_h m) = 0 /\ gen_starts (m_log m) = 0.
Definition going (p : pinfo) (m : mgr) : Prop :=
  pi_gens_started p = count_persis_gens (m_W m) /\ 1 <= count_persis_gens (m_W m) <= num /\
  (num <= count_persis_gens (m_W m) \/ forall r, In r (m_W m) -> may_gen (m_W m) r -> w_persis r = EVAL_GEN) /\ waiting m.
Definition Jp (p : pinfo) (m : mgr) : Prop := J0 m /\ (fineP (m_log m) -> over p m \/ fresh p m \/ going p m).

(** ** Killing *)
Lemma Jp_kill p m m' e : Jp p m -> kill_cancelled c m = (m', e) -> LT c Q m' /\ (e = None -> Jp p m').
Proof.
  intros ((H1 & H2 & H3 & H4 & H5 & H6 & H7 & H8) & HS) E. assert (HL : LT c Q m') by (eapply LT_kill; eauto; apply Qp_quiet). split; auto. intros ->.
  pose proof (J_cnt_kill _ _ _ H2 E) as HC. apply kill_cancelled_spec in E as ((E1 & EP & E2 & E3) & (l & E4 & E5) & E6 & E7). specialize (E7 eq_refl).
  assert (S : forall lg, (forall w, open_order w (lg ++ l) = open_order w lg) /\ points_sent (lg ++ l) = points_sent lg /\ points_out (lg ++ l) = points_out lg /\
     rows_back (lg ++ l) = rows_back lg /\ gen_starts (lg ++ l) = gen_starts lg).
  { clear - E5. induction l as [|e l IH] using rev_ind; intros lg; [rewrite app_nil_r; auto|]. apply Forall_app in E5 as [F1 F2]. inversion_clear F2 as [|? ? (v & _ & ->) _].
    destruct (IH F1 lg) as (I1 & I2 & I3 & I4 & I5). rewrite app_assoc. split; [intros w; rewrite quiet_open; [apply I1|exact I]|].
    match goal with |- context [_ ++ [?ev]] => destruct (quiet_back (lg ++ l) ev I) as (B1 & B2 & B3 & B4) end. rewrite B1, B2, B3, B4. auto. }
  destruct (S (m_log m)) as (S1 & S2 & S3 & S4 & S5). rewrite <- E4 in *.
  assert (Hh : m_h m' = m_h m \/ hstep HKill (m_h m) = (m_h m', None)).
  { destruct E7 as [-> |[E7 E8]]; [auto|]. right. cbn. rewrite E7, <- E8. apply surjective_pairing. }
  assert (Hok : fineP (m_log m') -> known m' /\ (forall i w, i < h_index (m_h m) -> made_by (m_h m) i w -> ~ is_set (m_h m) i F_gen_informed ->
      i < h_index (m_h m') /\ made_by (m_h m') i w /\ ~ is_set (m_h m') i F_gen_informed) /\ h_index (m_h m') = h_index (m_h m)).
  { intros Hf. assert (Hf' : fineP (m_log m)) by (rewrite E4 in Hf; eapply fineP_app; eauto). destruct (H8 Hf') as ((T1 & T2) & HK & HG).
    assert (RK : rows_known (m_h m') (points_sent (m_log m)) (rows_back (m_log m)) (out_of (m_log m))).
    { destruct Hh as [-> |Es]; auto. apply (rows_known_step _ _ _ _ _ _ _ _ _ HK Es I I I); auto; [intros i Hi; exact Hi|]. intros i; tauto. }
    split; [|split].
    - unfold known. rewrite S2, S4, S5. split; [split|split; auto].
      + intros r Hr. rewrite E1 in *. rewrite S1. auto.
      + intros w Hw. rewrite E1 in Hw. rewrite S1. auto.
      + eapply rows_known_ext; [|exact RK]. intros i (w & k & O1 & O2). exists w, k. rewrite S1. auto.
    - intros i w Hi Hm Hn. destruct Hh as [-> |Es]; auto. destruct (keep_row HKill _ _ _ _ _ i w HK Es I ltac:(discriminate) Hi Hm) as (A & B & D). auto.
    - destruct Hh as [-> |Es]; auto. pose proof (kill_frame (m_h m)) as F. cbn zeta in F. cbn in Es. rewrite Es in F. cbn [fst snd] in F. apply F. }
  split; [|intros Hf; destruct (Hok Hf) as (_ & Hk & Hx); assert (Hf' : fineP (m_log m)) by (rewrite E4 in Hf; eapply fineP_app; eauto)].
  - repeat (split; [solve [auto; congruence]|]). split; [intros r Hr; rewrite E1 in Hr; auto|]. split; [congruence|]. split.
    { rewrite S3. pose proof (kill_pass_counts (m_h m)) as K. cbn zeta in K. destruct E6 as [-> | ->]; lia. }
    split; [rewrite E1; auto|]. intros Hf. now apply Hok.
  - destruct (HS Hf') as [[A B]|[(A & B & D & F)|(A & B & D & F)]]; [left|right; left|right; right]; unfold over, fresh, going, waiting.
    + rewrite E1. split; auto. rewrite E4. now apply gen_ended_app.
    + rewrite E1, S5, Hx. auto.
    + rewrite E1. split; auto. split; auto. split; auto. intros r Hr Hp Ha. destruct (F r Hr Hp Ha) as (i & I1 & I2 & I3). exists i. now apply Hk.
Qed.

(** ** Answers *)
Lemma fineP_last l w a : fineP (l ++ [Got w (IData a)]) ->
  (exists k, open_order w l = Some k /\ n_type a = k_tag k /\ (k_tag k = EVAL_SIM -> n_rows a = k_rows k /\ n_persistent a = false)) /\
  n_keep a = false /\ (fin_status a = true -> n_type a = EVAL_GEN /\ n_status a = FIN_PERSIS_GEN) /\
  (forall D, n_out a = UArr D -> ~ touches_protected D /\ ~ In F_cancel_requested (names (a_dtype D)) /\ ~ In F_sim_id (names (a_dtype D))) /\
  (n_type a = EVAL_GEN -> fin_status a = false -> exists D, n_out a = UArr D /\ a_rows D <> []).
Proof.
  intros (F1 & F2 & F3 & F4). destruct (F1 l w a [] eq_refl) as (K1 & K2 & K3 & K4). split; auto. split; auto.
  assert (Hin : In (Got w (IData a)) (l ++ [Got w (IData a)])) by (apply in_app_iff; right; now left).
  assert (X : fin_status a = true <-> n_status a = FIN_PERSIS_GEN).
  { unfold fin_status. destruct (Nat.eqb_spec (n_status a) FIN_PERSIS_SIM), (Nat.eqb_spec (n_status a) FIN_PERSIS_GEN); cbn; split; auto; congruence. }
  split; [intros Hx; apply X in Hx; auto|]. split.
  - intros D HD. destruct (F2 w a D Hin HD). eauto.
  - intros Ht Hn. apply (F4 w a Hin Ht). intros E. apply X in E. congruence.
Qed.

Lemma Jp_poll p w i t m m' e : Jp p m -> poll c (w, i, t) m = (m', e) -> LT c Q m' /\ (e = None -> Jp p m').
Proof.
  intros HJ E. pose proof HJ as ((H1 & H2 & H3 & H4 & H5 & H6 & H7 & H8) & HS). assert (HL : LT c Q m') by (eapply LT_poll; eauto; apply Qp_quiet). split; auto. intros ->.
  pose proof (J_cnt_poll _ _ _ _ _ _ H2 E) as HC. assert (T : table_ok c m) by apply H1. assert (X : m_exc m = false) by apply H2.
  apply poll_spec in E as [(_ & -> & _)|(r0 & Hin & Hid & E1 & E2 & E3 & E4 & E5)]; auto.
  destruct E4 as [(E4 & E6 & E7)|(E4 & _)]; [|discriminate]. specialize (E5 eq_refl).
  destruct (quiet_back (m_log m) (Got w i) I) as (B1 & B2 & B3 & B4). rewrite <- E4 in B1, B2, B3, B4.
  assert (HQ : m_W m' = m_W m -> m_pending m' = m_pending m -> m_res m' = m_res m -> m_h m' = m_h m -> (forall a, i <> IData a) -> Jp p m').
  { intros EW EP ER EH Hi.
    assert (S1 : forall v, open_order v (m_log m') = open_order v (m_log m)).
    { intros v. rewrite E4. apply quiet_open. destruct i; auto. destruct (Hi a). reflexivity. }
    split; [|intros Hf; assert (Hf' : fineP (m_log m)) by (rewrite E4 in Hf; eapply fineP_app; eauto)].
    - repeat (split; [solve [auto; congruence]|]). split; [intros r Hr; rewrite EW in Hr; auto|]. split; [congruence|]. split; [rewrite EH, B4; auto|]. split; [rewrite EW; auto|].
      intros Hf. assert (Hf' : fineP (m_log m)) by (rewrite E4 in Hf; eapply fineP_app; eauto). destruct (H8 Hf') as ((T1 & T2) & HK & HG). unfold known. rewrite EH, B1, B2, B3. split; [split|split; auto].
      + intros r Hr. rewrite EW in *. rewrite S1. auto.
      + intros v Hv. rewrite EW in Hv. rewrite S1. auto.
      + eapply rows_known_ext; [|exact HK]. intros j (v & k & O1 & O2). exists v, k. rewrite S1. auto.
    - unfold over, fresh, going, waiting. rewrite EW, EH, B2. destruct (HS Hf') as [[A B]|[A|A]]; auto. left. split; auto. rewrite E4. now apply gen_ended_app. }
  destruct i as [a| | |]; [|rewrite E7 in X by auto; discriminate|subst m'; apply HQ; auto; discriminate|subst m'; apply HQ; auto; discriminate].
  clear HQ. destruct E5 as (Tc & E5 & ER & F1 & F2 & F3 & F4). rewrite H3 in *. cbn [memb existsb] in *. rewrite andb_false_r in E5.
  set (r1 := after_msg (m_exc m) false a r0) in *.
  assert (Z1 : w_zero r1 = w_zero r0 /\ w_gen r1 = w_gen r0) by (unfold r1, after_msg; destruct (fin_status a); auto). destruct Z1 as [Z1 Z2].
  pose proof (kinds_touch _ _ _ _ _ _ T Tc Z1 Z2) as SK.
  assert (Er : w_id r1 = w) by (destruct Tc as (_ & _ & -> & _); exact Hid).
  assert (LQ : log_ok Q (m_log m)) by apply H1.
  assert (Main : fineP (m_log m') -> known m' /\ (over p m' \/ fresh p m' \/ going p m')).
  { intros Hf. rewrite E4 in Hf. pose proof (fineP_app _ _ Hf) as Hf'. destruct (H8 Hf') as ((T1 & T2) & HK & HG). destruct (fineP_last _ _ _ Hf) as ((k & K1 & K2 & K3) & K4 & K5 & K6 & K7).
    pose proof (Qp_fair _ _ _ _ LQ Hf') as FL. pose proof (open_kind _ _ _ FL K1) as Hk.
    destruct (T1 r0 Hin) as (T3 & T4 & T5). rewrite Hid, K1 in T3.
    assert (A0 : act_after (m_exc m) false a r0 = 0) by (unfold act_after; rewrite K4, (H4 r0 Hin); reflexivity).
    assert (A1 : w_active r1 = 0).
    { unfold r1, after_msg. rewrite A0, (H4 r0 Hin). destruct (fin_status a); reflexivity. }
    assert (P1 : if fin_status a then w_persis r0 = EVAL_GEN /\ w_persis r1 = 0 else w_persis r1 = w_persis r0).
    { unfold r1, after_msg. destruct (fin_status a) eqn:EF; cbn [w_persis].
      - destruct (K5 eq_refl) as [K8 _]. split; auto. rewrite K2 in K8. rewrite K8 in T3. destruct T4 as [T4|[[T4 _]|[_ T4]]]; auto; rewrite T4 in T3; discriminate.
      - destruct (n_persistent a) eqn:EP; auto. destruct Hk as [Hk|Hk]; [destruct (K3 Hk); congruence|].
        rewrite K2, Hk. rewrite Hk in T3. destruct T4 as [T4|[[T4 _]|[_ T4]]]; auto; rewrite T4 in T3; discriminate. }
    assert (Op : forall v, open_order v (m_log m') = if w =? v then None else open_order v (m_log m)) by (intros v; rewrite E4, open_snoc; reflexivity).
    (* the history *)
    assert (Hh : (m_h m' = m_h m /\ k_tag k = EVAL_GEN /\ fin_status a = true) \/
      exists o, hstep o (m_h m) = (m_h m', None) /\ op_clean (m_h m) o /\ ids_polite o /\ op_leaves (m_h m) F_cancel_requested o /\
        (forall v D gs t0, o = HXIn v D gs t0 -> ~ In F_sim_id (names (a_dtype D))) /\
        ((k_tag k = EVAL_SIM /\ (exists r b t0, o = HF (k_rows k) r b t0) /\ fin_status a = false) \/
         (k_tag k = EVAL_GEN /\ exists D gs t0, o = HXIn w D gs t0 /\ (fin_status a = false -> a_rows D <> [])))).
    { destruct (fin_status a) eqn:EF.
      - destruct (K5 eq_refl) as [K8 K9]. rewrite K2 in K8. specialize (F4 eq_refl). unfold fin_hist in F4. rewrite K9 in F4.
        destruct (n_out a) as [|D|] eqn:EO; try (injection F4 as F4; left; auto).
        cbn [Nat.eqb FIN_PERSIS_GEN FIN_PERSIS_SIM andb] in F4. destruct (c_ret_gen c); [|injection F4 as F4; left; auto].
        right. destruct (K6 D eq_refl) as (G1 & G2 & G3). exists (HXIn w D (w_gstart r0) t). cbn. split; auto. split; [now right|].
        split; [intros Hq; contradiction|]. split; [now right|]. split; [intros v D' gs t0 [= <- <- <- <-]; auto|]. right. split; auto. exists D, (w_gstart r0), t. split; auto. discriminate.
      - right. destruct Hk as [Hk|Hk]; rewrite <- K2 in Hk.
        + destruct (F1 eq_refl Hk) as [(_ & Hx & _)|(_ & F5 & F6)]; [congruence|]. destruct (K3 ltac:(congruence)) as [K8 _]. rewrite K8 in *.
          exists (HF (k_rows k) (out_arr (n_out a)) (c_kill c) t). split; [cbn; rewrite F5, <- F6; apply surjective_pairing|].
          cbn. unfold ret_clean, clean. destruct (n_out a) as [|D|] eqn:EO; cbn; try (repeat (split; [solve [auto; discriminate]|]); left; split; [congruence|]; eauto 6).
          destruct (K6 D eq_refl) as (G1 & G2 & G3). split; auto. split; auto. split; [now right|]. split; [discriminate|]. left. split; [congruence|]. eauto 6.
        + destruct (F2 eq_refl Hk) as (D & D1 & D2 & D3). destruct (K6 D D1) as (G1 & G2 & G3). exists (HXIn w D (w_gstart r0) t).
          split; [cbn; rewrite D2, <- D3; apply surjective_pairing|]. cbn. split; [now right|]. split; [intros Hq; contradiction|]. split; [now right|].
          split; [intros v D' gs t0 [= <- <- <- <-]; auto|]. right. split; [congruence|]. exists D, (w_gstart r0), t. split; auto. intros _. destruct (K7 Hk eq_refl) as (D' & D1' & G4). congruence. }
    assert (RK : rows_known (m_h m') (points_sent (m_log m)) (rows_back (m_log m)) (out_of (m_log m')) /\
      forall j v, j < h_index (m_h m) -> made_by (m_h m) j v -> ~ is_set (m_h m) j F_gen_informed -> j < h_index (m_h m') /\ made_by (m_h m') j v /\ ~ is_set (m_h m') j F_gen_informed).
    { assert (OO : k_tag k = EVAL_GEN -> forall j, out_of (m_log m) j -> out_of (m_log m') j).
      { intros Hg j (v & k1 & O1 & O2 & O3). exists v, k1. rewrite Op. destruct (Nat.eqb_spec w v) as [<-|Hne]; auto. exfalso. rewrite K1 in O1. injection O1 as <-. rewrite Hg in O2. discriminate. }
      destruct Hh as [(-> & Hg & _)|(o & Es & C1 & C2 & C3 & C4 & C5)].
      - split; [|auto]. eapply rows_known_ext; [|exact HK]. apply (OO Hg).
      - split.
        + apply (rows_known_step _ _ o _ _ _ _ _ (out_of (m_log m')) HK Es C1 C2 C3).
          * intros j Hj; exact Hj.
          * destruct C5 as [(C5 & (r & b & t0 & ->) & _)|(C5 & D & gs & t0 & -> & _)]; auto. exact (open_sent _ _ _ K1 C5).
          * intros j. destruct C5 as [(C5 & (r & b & t0 & ->) & _)|(C5 & D & gs & t0 & -> & _)]; tauto.
          * intros j Hj. destruct C5 as [(C5 & (r & b & t0 & ->) & _)|(C5 & D & gs & t0 & -> & _)]; [|left; now apply OO].
            destruct Hj as (v & k1 & O1 & O2 & O3). destruct (Nat.eq_dec w v) as [<-|Hne]; [right; rewrite K1 in O1; injection O1 as <-; auto|].
            left. exists v, k1. rewrite Op. destruct (Nat.eqb_spec w v); [congruence|auto].
        + intros j v J1 J2 J3. destruct (keep_row o _ _ _ _ _ j v HK Es C1 C4 J1 J2) as (A & B & D). split; auto. split; auto. apply B; auto.
          destruct C5 as [(C5 & (r & b & t0 & ->) & _)|(C5 & D' & gs & t0 & -> & _)]; cbn; [intros [_ Hx]; discriminate|tauto]. }
    destruct RK as [RK KR]. unfold known. rewrite B1, B2, B3. split; [split; [split|split; auto]|].
    - intros r Hr. rewrite Op. apply Tc in Hr as [-> |[Hr Hne]].
      + rewrite Er, Nat.eqb_refl, A1. split; auto. split; auto. destruct (fin_status a); [now left|]. rewrite P1.
        destruct T5 as [T5|[T5 T6]]; auto. right. split; auto. exact (may_gen_same _ _ r0 r1 SK Z1 Z2 T6).
      + destruct (Nat.eqb_spec w (w_id r)); [congruence|]. destruct (T1 r Hr) as (U1 & U2 & U3). split; auto. split; auto.
        destruct U3 as [U3|[U3 U4]]; auto. right. split; auto. exact (may_gen_same _ _ r r SK eq_refl eq_refl U4).
    - intros v Hv. rewrite Op. destruct (w =? v); auto. apply T2. destruct Tc as (_ & _ & _ & Tc & _). now rewrite <- Tc.
    - pose proof (touch_count c w r0 r1 m m' (fun r => w_persis r =? EVAL_GEN) T Tc) as CT. cbn beta in CT. fold (count_persis_gens (m_W m)) in CT. fold (count_persis_gens (m_W m')) in CT.
      destruct (HS Hf') as [[A B]|[(A & B & D & F)|(A & B & D & F)]].
      + left. split; [|rewrite E4; now apply gen_ended_app]. destruct (fin_status a).
        * destruct P1 as [P1 P2]. rewrite P1, P2 in CT. cbn in CT. lia.
        * rewrite P1 in CT. lia.
      + destruct (B r0 Hin) as [_ B']. rewrite B' in T3. destruct Hk as [Hk|Hk]; rewrite Hk in T3; discriminate.
      + destruct (fin_status a) eqn:EF.
        * left. destruct P1 as [P1 P2]. rewrite P1, P2 in CT. cbn in CT. split; [lia|]. rewrite E4. exists w, a. split; [apply in_app_iff; right; now left|]. now apply K5.
        * right. right. rewrite P1 in CT. assert (CE : count_persis_gens (m_W m') = count_persis_gens (m_W m)) by lia. unfold going. rewrite CE. split; auto. split; auto. split.
          { destruct D as [D|D]; auto. right. intros r Hr Hg. apply Tc in Hr as [-> |[Hr Hne]].
            - rewrite P1. apply (D r0 Hin). exact (may_gen_same _ _ r1 r0 (kinds_sym _ _ SK) (eq_sym Z1) (eq_sym Z2) Hg).
            - apply (D r Hr). exact (may_gen_same _ _ r r (kinds_sym _ _ SK) eq_refl eq_refl Hg). }
          intros r Hr Hp Ha. apply Tc in Hr as [-> |[Hr Hne]]; [|destruct (F r Hr Hp Ha) as (j & J1 & J2 & J3); exists j; now apply KR].
          assert (Hg : k_tag k = EVAL_GEN).
          { destruct Hk as [Hk|Hk]; auto. rewrite Hk in T3. rewrite P1 in Hp. destruct T4 as [T4|[[_ T4]|[T4 _]]]; [rewrite T4 in T3; discriminate| |rewrite T4 in T3; discriminate]. rewrite T4 in Hp. discriminate. }
          destruct Hh as [(_ & _ & Hx)|(o & Es & C1 & C2 & C3 & C4 & C5)]; [discriminate|]. destruct C5 as [(C5 & _)|(_ & D' & gs & t0 & -> & C6)]; [rewrite Hg in C5; discriminate|].
          specialize (C6 eq_refl). cbn in Es. pose proof HK as (Kp & Ki & _ & _ & _ & _ & Kb & Kl).
          assert (Cs : column (m_h m) F_sim_id) by (apply (prov_scalar _ F_sim_id Kp); cbn; tauto).
          destruct (x_in_noids w D' gs t0 (m_h m) (m_h m') Ki ltac:(destruct (a_rows D'); [congruence|cbn; lia]) (C4 _ _ _ _ eq_refl) Cs Es) as (N1 & _).
          assert (N2 : h_index (m_h m) < h_index (m_h m')) by (rewrite N1; destruct (a_rows D'); [congruence|cbn [length]; lia]).
          destruct (x_in_stamp w D' gs t0 (m_h m) (m_h m') Kp C2 C1 Es) as (ST & _).
          exists (h_index (m_h m)). split; auto. split.
          { exists (vint (Z.of_nat w)). rewrite Er. split; [apply ST; lia|reflexivity]. }
          intros Hx. destruct RK as (_ & _ & _ & _ & _ & _ & RB & _). apply RB in Hx. specialize (Kl _ Hx). lia. }
  split; [|intros Hf; now apply Main].
  repeat (split; [solve [auto]|]). split.
  { intros r Hr. apply Tc in Hr as [-> |[Hr _]]; auto. unfold r1, after_msg. destruct (fin_status a); cbn; auto. }
  split. { rewrite ER, H5. destruct (_ || _); reflexivity. }
  split. { rewrite B4. apply hist_msg_counts in E3. lia. }
  split; [exact (enough_same _ _ _ SK H7)|]. intros Hf. now apply Main.
Qed.

(** ** Orders *)
Definition unit_ok (m : mgr) (p : nat * work) : Prop :=
  In (fst p) (map w_id (m_W m)) /\ (k_recv (snd p) = None \/ k_recv (snd p) = Some false) /\
  (k_tag (snd p) = EVAL_SIM \/ k_tag (snd p) = EVAL_GEN) /\ (single = true -> k_tag (snd p) = EVAL_SIM -> length (k_rows (snd p)) = 1) /\
  (k_tag (snd p) = EVAL_SIM -> k_persistent (snd p) = false /\ forall r, In r (m_W m) -> w_id r = fst p -> w_persis r = 0) /\
  (k_tag (snd p) = EVAL_GEN -> k_persistent (snd p) = true /\ NoDup (k_rows (snd p)) /\
     forall r, In r (m_W m) -> w_id r = fst p -> fineP (m_log m) -> may_gen (m_W m) r) /\
  (k_tag (snd p) = EVAL_GEN -> forall i, In i (k_rows (snd p)) ->
     i < h_index (m_h m) /\ is_set (m_h m) i F_sim_ended /\ ~ is_set (m_h m) i F_gen_informed /\ made_by (m_h m) i (fst p)).
Definition room (m : mgr) (k : work) : Prop := k_tag k = EVAL_GEN -> k_rows k = [] -> gen_starts (m_log m) < num.

Definition is_start (k : work) : bool := (k_tag k =? EVAL_GEN) && (length (k_rows k) =? 0).
Lemma orderP_log w k k' l lg : as_sent k k' -> order_msgs w k' l ->
  rows_back (lg ++ l) = rows_back lg ++ (if k_tag k =? EVAL_GEN then k_rows k else []) /\ gen_starts (lg ++ l) = gen_starts lg + b2n (is_start k).
Proof.
  clear c Q. intros Hk Ho. apply as_sent_same in Hk as (K1 & _ & K2 & _). rewrite back_app, starts_app. unfold is_start. rewrite <- K1, <- K2.
  destruct Ho as [->|(d & ->)]; cbn [rows_back gen_starts]; rewrite app_nil_r; unfold b2n; split; auto; destruct (_ && _); lia.
Qed.

Lemma LTp_give t w k m m' e : J0 m -> unit_ok m (w, k) -> room m k -> sim_max_given c m = false -> give_order c t w k m = (m', e) -> LT c Q m'.
Proof.
  intros (H1 & H2 & H3 & H4 & H5 & H6 & H7 & H8) (Hin & O1 & O2 & O3 & O4 & O5 & O6) HR HM E. cbn [fst snd] in *. assert (T : table_ok c m) by apply H1.
  apply give_order_spec in E as (_ & _ & _ & T1 & _ & E & _); auto. split; auto.
  destruct E as [->|(r0 & k' & l & G & Hk & Ho & -> & C1 & C2)]; [apply H1|].
  pose proof (wget_In _ _ _ _ G) as R0. assert (Hw : w_id r0 = w) by exact (wget_same c m w r0 T Hin G). rewrite Hw in Ho.
  pose proof Hk as Hk'. apply as_sent_same in Hk' as (K1 & _ & K2 & _).
  eapply log_ok_order; eauto; [apply H1| |]; cbn [Qp Q]; auto. unfold Q. cbn [Qp]. rewrite K1, K2. intros _ Hf. destruct (H8 Hf) as ((T2 & _) & HK & HG).
  pose proof (Qp_fair _ _ _ _ (proj2 H1) Hf) as FL.
  split.
  { destruct (T2 r0 R0) as (A & _). rewrite C2 in A by (apply H4; auto). rewrite Hw in A. destruct (open_order w (m_log m)) as [k0|] eqn:Eo; auto.
    destruct (open_kind _ _ _ FL Eo) as [X|X]; rewrite X in A; discriminate. }
  split; auto. split; auto. split.
  { intros Ht. destruct (O5 Ht) as (_ & Nd & _). split; auto. intros i Hi. destruct (O6 Ht i Hi) as (_ & A & B & _). destruct HK as (_ & _ & _ & _ & K5 & _ & K7 & _). split; [auto|]. now rewrite <- K7. }
  split.
  { rewrite starts_app. cbn [gen_starts]. rewrite K1, K2. destruct (Nat.eqb_spec (k_tag k) EVAL_GEN) as [Eg|Eg]; [|cbn; lia].
    destruct (k_rows k) eqn:Er; cbn; [|lia]. specialize (HR Eg Er). lia. }
  intros N HN. unfold sim_max_given in HM. rewrite HN in HM. apply Nat.leb_gt in HM. lia.
Qed.

Lemma J0_give t w k m m' : J0 m -> unit_ok m (w, k) -> room m k -> sim_max_given c m = false -> give_order c t w k m = (m', None) ->
  J0 m' /\ (exists r0, In r0 (m_W m) /\ w_id r0 = w /\ touch c w r0 (given t k r0) m m') /\ same_kinds (m_W m) (m_W m') /\
  gen_starts (m_log m') = gen_starts (m_log m) + b2n (is_start k) /\
  (k_tag k = EVAL_GEN -> sim_max_given c m' = sim_max_given c m) /\ h_index (m_h m') = h_index (m_h m) /\ (fineP (m_log m') -> fineP (m_log m)) /\
  (gen_ended (m_log m) -> gen_ended (m_log m')) /\
  (fineP (m_log m') -> forall j v, v <> w -> j < h_index (m_h m) -> made_by (m_h m) j v -> ~ is_set (m_h m) j F_gen_informed ->
     made_by (m_h m') j v /\ ~ is_set (m_h m') j F_gen_informed) /\
  (fineP (m_log m') -> forall p, fst p <> w -> unit_ok m p -> unit_ok m' p).
Proof.
  intros HJ HO HR HM E. pose proof (LTp_give _ _ _ _ _ _ HJ HO HR HM E) as HL. pose proof HJ as (H1 & H2 & H3 & H4 & H5 & H6 & H7 & H8).
  pose proof HO as (Hin & O1 & O2 & O3 & O4 & O5 & O6). cbn [fst snd] in *. pose proof (J_cnt_give _ _ _ _ _ _ H2 E) as HC. assert (T : table_ok c m) by apply H1.
  pose proof (give_res _ _ _ _ _ _ T E) as HRES. rewrite H5 in HRES.
  apply give_log in E as (r0 & k' & l & G & Hk & Tc & _ & _ & EP & EL & Ho & EH & EN); auto.
  pose proof (wget_In _ _ _ _ G) as R0. assert (Hw : w_id r0 = w) by exact (wget_same c m w r0 T Hin G). rewrite Hw in Ho.
  destruct (order_log w k k' l (m_log m) Hk Ho O2) as (L1 & L2 & L3 & _). destruct (orderP_log w k k' l (m_log m) Hk Ho) as (L5 & L6). rewrite <- EL in *.
  assert (Hk1 : k_tag k' = k_tag k /\ k_rows k' = k_rows k) by (apply as_sent_same in Hk as (K1 & _ & K2 & _); auto). destruct Hk1 as [Kt Kr].
  assert (Hid : map w_id (m_W m') = map w_id (m_W m)) by apply Tc.
  pose proof (kinds_touch _ _ _ _ _ _ T Tc eq_refl eq_refl) as SK.
  pose proof (hist_given_counts c t w k (m_h m) EN) as KC. cbn zeta in KC. rewrite <- EH in KC.
  assert (FP : fineP (m_log m') -> fineP (m_log m)) by (intros Hf; rewrite EL in Hf; eapply fineP_app; eauto).
  assert (Hop : exists o, hstep o (m_h m) = (m_h m', None) /\ (forall h, op_clean h o) /\ ids_polite o /\ (forall h f, op_leaves h f o) /\
      ((k_tag k = EVAL_SIM /\ exists b t0, o = HXOut (k_rows k) w b t0) \/ (k_tag k = EVAL_GEN /\ exists t0, o = HToGen (k_rows k) t0))).
  { assert (E0 : hist_given c t w k (m_h m) = (m_h m', None)) by (rewrite EH, <- EN; apply surjective_pairing). unfold hist_given in E0.
    destruct O2 as [O2|O2]; rewrite O2 in *; cbn [Nat.eqb EVAL_SIM EVAL_GEN] in *.
    - exists (HXOut (k_rows k) w (c_kill c) t). cbn. split; auto. split; auto. split; auto. split; auto. left. eauto.
    - exists (HToGen (k_rows k) t). cbn. split; auto. split; auto. split; auto. split; auto. right. eauto. }
  destruct Hop as (o & Es & C1 & C2 & C3 & C4).
  assert (HI : h_index (m_h m') = h_index (m_h m)).
  { destruct C4 as [(_ & b & t0 & ->)|(_ & t0 & ->)]; cbn in Es.
    - pose proof (x_out_frame (k_rows k) w b t0 (m_h m)) as F. cbn zeta in F. rewrite Es in F. cbn [fst] in F. apply F.
    - pose proof (to_gen_frame (k_rows k) t0 (m_h m)) as F. cbn zeta in F. rewrite Es in F. cbn [fst] in F. apply F. }
  assert (NX : forall v D gs t0, o = HXIn v D gs t0 -> ~ In F_sim_id (names (a_dtype D))) by (intros v D gs t0 ->; destruct C4 as [(_ & b & t1 & X)|(_ & t1 & X)]; discriminate).
  assert (KR : fineP (m_log m') -> forall j v, v <> w -> j < h_index (m_h m) -> made_by (m_h m) j v -> ~ is_set (m_h m) j F_gen_informed ->
     made_by (m_h m') j v /\ ~ is_set (m_h m') j F_gen_informed).
  { intros Hf j v Hv J1 J2 J3. destruct (H8 (FP Hf)) as (_ & HK & _). destruct (keep_row o _ _ _ _ _ j v HK Es (C1 _) NX J1 J2) as (A & B & D). split; auto. apply B; auto.
    destruct C4 as [(_ & b & t0 & ->)|(Hg & t0 & ->)]; cbn; [intros [_ X]; discriminate|]. intros (X & _). apply Hv. destruct (O6 Hg j X) as (_ & _ & _ & Y). exact (made_by_one _ _ _ _ J2 Y). }
  split; [|split; [exists r0; auto|split; [exact SK|split; [exact L6|split; [|split; [exact HI|split; [exact FP|split; [|split; [exact KR|]]]]]]]]].
  - repeat (split; [solve [auto; congruence]|]). split.
    { intros r Hr. apply Tc in Hr as [-> |[Hr _]]; auto. cbn. rewrite (H4 r0 R0). cbn. destruct O1 as [-> | ->]; apply andb_false_r. }
    split; [auto|]. split; [lia|]. split; [exact (enough_same _ _ _ SK H7)|].
    intros Hf. destruct (H8 (FP Hf)) as ((T1 & T2) & HK & HG). split; [split|split].
    + intros r Hr. rewrite L1. apply Tc in Hr as [-> |[Hr Hne]].
      * cbn [given w_active w_id w_persis]. rewrite Hw, Nat.eqb_refl, Kt. split; auto. destruct O2 as [O2|O2].
        -- destruct (O4 O2) as [P1 P2]. rewrite P1, O2, (P2 r0 R0 Hw). auto.
        -- destruct (O5 O2) as (P1 & _ & P2). rewrite P1, O2. split; auto. right. split; auto. exact (may_gen_same _ _ r0 _ SK eq_refl eq_refl (P2 r0 R0 Hw (FP Hf))).
      * destruct (Nat.eqb_spec w (w_id r)); [congruence|]. destruct (T1 r Hr) as (U1 & U2 & U3). split; auto. split; auto.
        destruct U3 as [U3|[U3 U4]]; auto. right. split; auto. exact (may_gen_same _ _ r r SK eq_refl eq_refl U4).
    + intros v Hv. rewrite L1. destruct (Nat.eqb_spec w v) as [E0|Hne]; [subst v; rewrite Hid in Hv; contradiction|]. apply T2. now rewrite <- Hid.
    + rewrite L2, L5. apply (rows_known_step _ _ o _ _ _ _ _ (out_of (m_log m')) HK Es (C1 _) C2 (C3 _ _)).
      * intros j Hj. apply in_app_iff. auto.
      * destruct C4 as [(Hg & b & t0 & ->)|(Hg & t0 & ->)].
        -- rewrite Hg. cbn. split; [intros j Hj; apply in_app_iff; auto|]. intros j Hj. exists w, k'. rewrite L1, Nat.eqb_refl, Kt, Kr. auto.
        -- intros j Hj. destruct (O6 Hg j Hj) as (A & B & _). auto.
      * intros j. rewrite in_app_iff. destruct C4 as [(Hg & b & t0 & ->)|(Hg & t0 & ->)]; rewrite Hg; cbn; tauto.
      * intros j (v & k1 & A1 & A2 & A3). left. exists v, k1. rewrite L1. destruct (Nat.eqb_spec w v) as [<-|Hne]; auto. exfalso.
        destruct HL as [_ HL]. assert (Ev : m_log m' = m_log m ++ Sent w (OWork k') :: tl l) by (rewrite EL; destruct Ho as [-> |(d & ->)]; reflexivity).
        pose proof (HL _ _ _ Ev) as HQ. unfold Q in HQ. cbn [Qp] in HQ. destruct HQ as (B1 & _); [rewrite Kt; destruct O2 as [-> | ->]; discriminate|exact (FP Hf)|]. congruence.
    + assert (Ev : m_log m' = m_log m ++ Sent w (OWork k') :: tl l) by (rewrite EL; destruct Ho as [-> |(d & ->)]; reflexivity).
      destruct HL as [_ HL]. pose proof (HL _ _ _ Ev) as HQ. unfold Q in HQ. cbn [Qp] in HQ. destruct HQ as (_ & _ & _ & _ & B1 & _); [rewrite Kt; destruct O2 as [-> | ->]; discriminate|exact (FP Hf)|].
      rewrite starts_app in B1. cbn [gen_starts] in B1. rewrite Kt, Kr in B1. rewrite L6. unfold is_start, b2n. lia.
  - intros Hg. unfold sim_max_given. rewrite Hg in KC. cbn in KC.
    assert (X : h_started (m_h m') = h_started (m_h m) /\ h_started_off (m_h m') = h_started_off (m_h m)) by lia. destruct X as [-> ->]. reflexivity.
  - intros HG. rewrite EL. now apply gen_ended_app.
  - intros Hf p Hp (P1 & P2 & P3 & P4 & P5 & P6 & P7). split; [rewrite Hid; auto|]. split; auto. split; auto. split; auto. split; [|split].
    + intros Hs. destruct (P5 Hs) as [P8 P9]. split; auto. intros r Hr Er. apply Tc in Hr as [-> |[Hr _]]; auto. cbn in Er. congruence.
    + intros Hg. destruct (P6 Hg) as (P8 & P9 & P10). split; auto. split; auto. intros r Hr Er Hf'. apply Tc in Hr as [-> |[Hr _]]; [cbn in Er; congruence|].
      exact (may_gen_same _ _ r r SK eq_refl eq_refl (P10 r Hr Er (FP Hf))).
    + intros Hg i Hi. destruct (P7 Hg i Hi) as (A & B & D & F). rewrite HI. split; auto. split; [|apply and_comm; apply KR; auto].
      destruct (H8 (FP Hf)) as (_ & HK & _). apply (hstep_is_set o (m_h m)); auto. apply (prov_scalar _ F_sim_ended); [apply HK|cbn; tauto].
Qed.

End Ends.
