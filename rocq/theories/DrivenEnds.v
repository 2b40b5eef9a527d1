(** Runs driven by the default allocation function come to an end. *)
From Coq Require Import Permutation.
From Verif Require Import Base BaseLemmas HistoryModel HistorySpec HistoryProofs HistoryXIn HistoryInv HistoryInv2 HistoryRun HistoryRun2 HistoryRun3 HistoryBack RsetModel RsetSpec WorkModel SchedModel SchedSpec AllocModel AllocSpec AllocProofs AllocLoops AllocFacts ManagerModel ManagerSpec ManagerProofs ManagerMsg ManagerRun ManagerInv ManagerFinal ManagerEnd ManagerRes DrivenModel DrivenSpec DrivenProofs DrivenInv DrivenPoints DrivenRes DrivenSets DrivenGens DrivenOrders DrivenTrace.

Section Ends.
Variables (c : mcfg) (i0 : nat) (single : bool).

(** what is known of every order *)
Definition Qe (l : list event) (e : event) : Prop :=
  match e with
  | Sent w (OWork k) => k_tag k <> PERSIS_STOP -> fine l ->
      open_order w l = None /\ (k_tag k = EVAL_SIM \/ k_tag k = EVAL_GEN) /\
      (single = true -> k_tag k = EVAL_SIM -> length (k_rows k) = 1) /\
      (k_tag k = EVAL_GEN -> gen_answers l <= length (points_sent l))
  | _ => True
  end.
Lemma Qe_quiet a e : ~ is_order e -> Qe a e.
Proof. unfold Qe. destruct e as [w o|]; auto. destruct o; auto. cbn. tauto. Qed.

(** the worker table tells who has an open order *)
Definition told (m : mgr) : Prop :=
  (forall r, In r (m_W m) -> (w_active r = 0 <-> open_order (w_id r) (m_log m) = None)) /\
  forall w, ~ In w (map w_id (m_W m)) -> open_order w (m_log m) = None.
(** the rows behind the first i0: cancelled only if started, started only if sent out *)
Definition hist_ok (h : hist) (sent : list nat) : Prop :=
  scalar h F_sim_started /\ scalar h F_cancel_requested /\ column h F_sim_id /\ h_index h <= length (h_rows h) /\
  (forall k, i0 <= k -> is_set h k F_cancel_requested -> is_set h k F_sim_started) /\
  (forall k, i0 <= k -> is_set h k F_sim_started -> In k sent).

Definition Je (m : mgr) : Prop :=
  LT c Qe m /\ J_cnt c m /\ m_pending m = [] /\ no_recv m /\ h_started (m_h m) = h_started_off (m_h m) + points_out (m_log m) /\
  (fine (m_log m) -> told m /\ hist_ok (m_h m) (points_sent (m_log m)) /\ i0 + gen_answers (m_log m) <= h_index (m_h m)).

Lemma op_two h o f : two f -> op_leaves h F_sim_started o -> op_leaves h F_cancel_requested o -> op_leaves h f o.
Proof. intros [-> | ->]; auto. Qed.
Lemma hist_ok_step h h' o sent : hist_ok h sent -> hstep o h = (h', None) -> op_clean h o -> op_leaves h F_sim_started o -> op_leaves h F_cancel_requested o ->
  hist_ok h' (sent ++ match o with HXOut inds _ _ _ => inds | _ => [] end).
Proof.
  intros (H1 & H2 & H3 & H4 & H5 & H6) E C L1 L2. pose proof (f_equal fst E) as E1. pose proof (f_equal snd E) as E2. cbn [fst snd] in E1, E2. rewrite <- E1.
  split; [now apply hstep_scalar|]. split; [now apply hstep_scalar|]. split; [now apply hstep_column|]. split; [now apply hstep_index|]. rewrite E1. split.
  - intros k Hk Hc. apply (hstep_back o h h' k _ (or_intror eq_refl) H2 L2 H4 E) in Hc as [Hc|(inds & w & b & t & _ & _ & Hc)]; [|discriminate].
    apply (hstep_is_set o h h' k F_sim_started C (proj1 H1) eq_refl E). auto.
  - intros k Hk Hs. apply in_app_iff. apply (hstep_back o h h' k _ (or_introl eq_refl) H1 L1 H4 E) in Hs as [Hs|(inds & w & b & t & -> & Hi & _)]; auto.
Qed.

Lemma quiet_open w l e : (match e with Sent _ (OWork _) => False | Got _ (IData _) => False | _ => True end) -> open_order w (l ++ [e]) = open_order w l.
Proof. intros H. rewrite open_snoc. destruct e as [v o|v i]; [destruct o|destruct i]; cbn in *; tauto. Qed.

Lemma Je_L m : Je m -> LT c Qe m.
Proof. intros H. apply H. Qed.

Lemma Je_kill m m' e : Je m -> kill_cancelled c m = (m', e) -> LT c Qe m' /\ (e = None -> Je m').
Proof.
  intros (H1 & H2 & H3 & H4 & H5 & H6) E. assert (HL : LT c Qe m') by (eapply LT_kill; eauto using Qe_quiet). split; auto. intros ->.
  pose proof (J_cnt_kill _ _ _ H2 E) as HC. apply kill_cancelled_spec in E as ((E1 & _ & E2 & E3) & (l & E4 & E5) & E6 & E7). specialize (E7 eq_refl).
  assert (S : forall lg, (forall w, open_order w (lg ++ l) = open_order w lg) /\ points_sent (lg ++ l) = points_sent lg /\ points_out (lg ++ l) = points_out lg /\ gen_answers (lg ++ l) = gen_answers lg).
  { clear - E5. induction l as [|e l IH] using rev_ind; intros lg; [rewrite app_nil_r; auto|]. apply Forall_app in E5 as [F1 F2]. inversion_clear F2 as [|? ? (v & _ & ->) _].
    destruct (IH F1 lg) as (I1 & I2 & I3 & I4). rewrite app_assoc. split; [intros w; rewrite quiet_open; [apply I1|exact I]|].
    rewrite points_sent_app, points_out_app, gen_answers_app. cbn. rewrite app_nil_r, !Nat.add_0_r. auto. }
  destruct (S (m_log m)) as (S1 & S2 & S3 & S4). rewrite <- E4 in *.
  split; auto. split; auto. split; [congruence|]. split; [intros r Hr; rewrite E1 in Hr; auto|]. split.
  { rewrite S3. pose proof (kill_pass_counts (m_h m)) as K. cbn zeta in K. destruct E6 as [-> | ->]; lia. }
  intros Hf. assert (Hf' : fine (m_log m)) by (rewrite E4 in Hf; eapply fine_app; eauto).
  destruct (H6 Hf') as ((T1 & T2) & HH & HI). rewrite S2, S4. split; [split|].
  - intros r Hr. rewrite E1 in Hr. rewrite S1. auto.
  - intros w Hw. rewrite E1 in Hw. rewrite S1. auto.
  - destruct E7 as [-> |[E7 E8]]; [auto|].
    assert (Es : hstep HKill (m_h m) = (m_h m', None)) by (cbn; rewrite E7, <- E8; apply surjective_pairing).
    pose proof (hist_ok_step _ _ _ _ HH Es I I I) as HS. rewrite app_nil_r in HS. split; auto.
    pose proof (hstep_index HKill (m_h m)) as HX. rewrite Es in HX. cbn [fst snd] in HX. destruct HH as (_ & _ & _ & HH & _). specialize (HX HH eq_refl). lia.
Qed.

Lemma fine_last l w a : fine (l ++ [Got w (IData a)]) ->
  (exists k, open_order w l = Some k /\ n_type a = k_tag k /\ (k_tag k = EVAL_SIM -> n_rows a = k_rows k)) /\
  n_keep a = false /\ fin_status a = false /\
  (forall D, n_out a = UArr D -> ~ touches_protected D /\ ~ In F_cancel_requested (names (a_dtype D))) /\
  (n_type a = EVAL_GEN -> exists D, n_out a = UArr D /\ a_rows D <> [] /\ ~ In F_sim_id (names (a_dtype D))).
Proof.
  intros (F1 & F2 & F3). destruct (F1 l w a [] eq_refl) as (K1 & _ & K2 & K3 & K4). split; auto. split; auto.
  assert (Hin : In (Got w (IData a)) (l ++ [Got w (IData a)])) by (apply in_app_iff; right; now left).
  split; [|split; eauto]. unfold fin_status. destruct (Nat.eqb_spec (n_status a) FIN_PERSIS_SIM), (Nat.eqb_spec (n_status a) FIN_PERSIS_GEN); auto; congruence.
Qed.

Lemma leaves_tidy h D : ~ touches_protected D -> ~ In F_cancel_requested (names (a_dtype D)) -> leaves h F_sim_started D /\ leaves h F_cancel_requested D.
Proof. intros H1 H2. split; right; auto. intros Hin. apply H1. exists F_sim_started. auto. Qed.

Lemma Je_poll w i t m m' e : Je m -> poll c (w, i, t) m = (m', e) -> LT c Qe m' /\ (e = None -> Je m').
Proof.
  intros HJ E. pose proof HJ as (H1 & H2 & H3 & H4 & H5 & H6). assert (HL : LT c Qe m') by (eapply LT_poll; eauto using Qe_quiet). split; auto. intros ->.
  pose proof (J_cnt_poll _ _ _ _ _ _ H2 E) as HC. assert (T : table_ok c m) by apply H1. assert (X : m_exc m = false) by apply H2.
  apply poll_spec in E as [(_ & -> & _)|(r0 & Hin & Hid & E1 & E2 & E3 & E4 & E5)]; auto.
  destruct E4 as [(E4 & E6 & E7)|(E4 & _)]; [|discriminate]. specialize (E5 eq_refl).
  assert (S0 : points_sent (m_log m') = points_sent (m_log m) /\ points_out (m_log m') = points_out (m_log m)).
  { rewrite E4, points_sent_app, points_out_app. cbn. now rewrite app_nil_r, Nat.add_0_r. }
  destruct S0 as [S2 S3].
  assert (HQ : m_W m' = m_W m -> m_pending m' = m_pending m -> m_h m' = m_h m -> (forall a, i <> IData a) -> Je m').
  { intros EW EP EH Hi. split; auto. split; auto. split; [congruence|]. split; [intros r Hr; rewrite EW in Hr; auto|]. rewrite EH, S3. split; auto.
    intros Hf. assert (Hf' : fine (m_log m)) by (rewrite E4 in Hf; eapply fine_app; eauto). destruct (H6 Hf') as ((T1 & T2) & HH & HI). rewrite S2.
    assert (S1 : forall v, open_order v (m_log m') = open_order v (m_log m)).
    { intros v. rewrite E4. apply quiet_open. destruct i; auto. destruct (Hi a). reflexivity. }
    assert (S4 : gen_answers (m_log m') = gen_answers (m_log m)).
    { rewrite E4, gen_answers_app. destruct i; cbn; try lia. destruct (Hi a). reflexivity. }
    rewrite S4. split; [split|]; auto.
    - intros r Hr. rewrite EW in Hr. rewrite S1. auto.
    - intros v Hv. rewrite EW in Hv. rewrite S1. auto. }
  destruct i as [a| | |]; [|rewrite E7 in X by auto; discriminate|subst m'; apply HQ; auto; discriminate|subst m'; apply HQ; auto; discriminate].
  clear HQ. destruct E5 as (Tc & E5 & _ & F1 & F2 & F3 & _). rewrite H3 in *. cbn [memb existsb] in *. rewrite andb_false_r in E5.
  split; auto. split; auto. split; auto. split.
  { intros r Hr. apply Tc in Hr as [-> |[Hr _]]; auto. unfold after_msg. destruct (fin_status a); cbn; auto. }
  split. { rewrite S3. apply hist_msg_counts in E3. lia. }
  intros Hf. rewrite E4 in Hf. destruct (H6 (fine_app _ _ Hf)) as ((T1 & T2) & HH & HI). destruct (fine_last _ _ _ Hf) as ((k & K1 & K2 & K3) & K4 & K5 & K6 & K7).
  assert (Hk : k_tag k = EVAL_SIM \/ k_tag k = EVAL_GEN).
  { assert (FL : fair (m_log m)).
    { intros p v k1 q El Hk1. destruct H1 as [_ H1]. destruct (H1 p (Sent v (OWork k1)) q El Hk1) as (Q1 & Q2 & _); auto. pose proof (fine_app _ _ Hf) as Hg. rewrite El in Hg. exact (fine_app _ _ Hg). }
    destruct (opens_spec _ FL) as [_ OS]. apply OS in K1. clear - K1 FL.
    revert K1. generalize (m_log m) FL. clear m FL. intros l. induction l as [|e l IH] using rev_ind; intros FL; [intros []|].
    rewrite opens_snoc. specialize (IH (fair_app _ _ FL)). destruct e as [v o|v i]; [destruct o as [k1| | |]|destruct i]; cbn [step_opens]; auto.
    - destruct (Nat.eqb_spec (k_tag k1) PERSIS_STOP) as [E|E]; auto. intros [[= -> ->]|Hin]; auto. apply (FL l w k [] eq_refl E).
    - rewrite filter_In. intros [Hin _]. auto. }
  set (r1 := after_msg (m_exc m) false a r0) in *.
  assert (A1 : w_active r1 = 0).
  { unfold r1, after_msg, act_after. rewrite K5, K4, (H4 r0 Hin). reflexivity. }
  rewrite S2. split; [split|].
  - intros r Hr. rewrite E4, open_snoc. cbn [step_open]. apply Tc in Hr as [-> |[Hr Hne]].
    + rewrite A1. assert (Er : w_id r1 = w) by (destruct Tc as (_ & _ & -> & _); exact Hid). rewrite Er, Nat.eqb_refl. tauto.
    + destruct (Nat.eqb_spec w (w_id r)); [congruence|]. auto.
  - intros v Hv. rewrite E4, open_snoc. cbn [step_open]. destruct (w =? v); auto. apply T2. destruct Tc as (_ & _ & _ & Tc & _). now rewrite <- Tc.
  - rewrite E4, gen_answers_app. cbn [gen_answers]. pose proof HH as (_ & _ & HH3 & HH4 & _).
    destruct Hk as [Hk|Hk]; rewrite <- K2 in Hk.
    + rewrite Hk. cbn. destruct (F1 K5 Hk) as [(_ & Hx & _)|(_ & F4 & F5)]; [congruence|].
      set (o := HF (n_rows a) (out_arr (n_out a)) (c_kill c) t).
      assert (Es : hstep o (m_h m) = (m_h m', None)) by (cbn; rewrite F4, <- F5; apply surjective_pairing).
      assert (Hc : op_clean (m_h m) o /\ op_leaves (m_h m) F_sim_started o /\ op_leaves (m_h m) F_cancel_requested o).
      { cbn. unfold ret_clean, clean. destruct (n_out a) as [|D|] eqn:EO; cbn; auto. destruct (K6 D eq_refl) as [G1 G2]. split; auto. now apply leaves_tidy. }
      destruct Hc as (C1 & C2 & C3). pose proof (hist_ok_step _ _ _ _ HH Es C1 C2 C3) as HS. cbn in HS. rewrite app_nil_r in HS. split; auto.
      pose proof (hstep_index o (m_h m)) as HX. rewrite Es in HX. cbn [fst snd] in HX. specialize (HX HH4 eq_refl). lia.
    + rewrite Hk. cbn [Nat.eqb EVAL_GEN Nat.add]. destruct (F2 K5 Hk) as (D & D1 & D2 & D3).
      set (o := HXIn w D (w_gstart r0) t).
      assert (Es : hstep o (m_h m) = (m_h m', None)) by (cbn; rewrite D2, <- D3; apply surjective_pairing).
      destruct (K6 D D1) as [G1 G2]. destruct (leaves_tidy (m_h m) D G1 G2) as [C2 C3].
      assert (C1 : op_clean (m_h m) o) by (cbn; now right).
      pose proof (hist_ok_step _ _ _ _ HH Es C1 C2 C3) as HS. cbn in HS. rewrite app_nil_r in HS. split; auto.
      destruct (K7 Hk) as (D' & D1' & G3 & G4). rewrite D1 in D1'. injection D1' as <-. cbn in Es.
      destruct (x_in_noids w D (w_gstart r0) t (m_h m) (m_h m') HH4 ltac:(destruct (a_rows D); [congruence|cbn; lia]) G4 HH3 Es) as (N1 & _).
      rewrite N1. destruct (a_rows D); [congruence|cbn [length]; lia].
Qed.

(** ** Orders *)
Definition order_of (l : list event) (p : nat * work) : Prop :=
  k_recv (snd p) = None /\ (k_tag (snd p) = EVAL_SIM \/ k_tag (snd p) = EVAL_GEN) /\
  (single = true -> k_tag (snd p) = EVAL_SIM -> length (k_rows (snd p)) = 1) /\
  (k_tag (snd p) = EVAL_GEN -> fine l -> gen_answers l <= length (points_sent l)).

Lemma order_log w k k' l lg : as_sent k k' -> order_msgs w k' l -> k_tag k = EVAL_SIM \/ k_tag k = EVAL_GEN ->
  (forall v, open_order v (lg ++ l) = if w =? v then Some k' else open_order v lg) /\
  points_sent (lg ++ l) = points_sent lg ++ (if k_tag k =? EVAL_SIM then k_rows k else []) /\
  points_out (lg ++ l) = points_out lg + (if k_tag k =? EVAL_SIM then length (k_rows k) else 0) /\ gen_answers (lg ++ l) = gen_answers lg.
Proof.
  intros Hk Ho Ht. apply as_sent_same in Hk as (K1 & _ & K2 & _). rewrite points_sent_app, points_out_app, (order_points_sent _ _ _ Ho), (order_points _ _ _ Ho), gen_answers_app, K1, K2.
  assert (Hn : (k_tag k' =? PERSIS_STOP) = false) by (rewrite K1; destruct Ht as [-> | ->]; reflexivity).
  assert (H1 : forall v, open_order v (lg ++ [Sent w (OWork k')]) = if w =? v then Some k' else open_order v lg).
  { intros v. rewrite open_snoc. cbn. rewrite Hn, andb_true_r. reflexivity. }
  split; [|split; [auto|split; [auto|]]].
  - destruct Ho as [->|(d & ->)]; auto. intros v. change [Sent w (OWork k'); Sent w (ORows (k_fields k') d)] with ([Sent w (OWork k')] ++ [Sent w (ORows (k_fields k') d)]).
    rewrite app_assoc, quiet_open by exact I. apply H1.
  - destruct Ho as [->|(d & ->)]; cbn; lia.
Qed.

Lemma LT_give t w k m m' e : Je m -> In w (map w_id (m_W m)) -> order_of (m_log m) (w, k) -> give_order c t w k m = (m', e) -> LT c Qe m'.
Proof.
  intros (H1 & H2 & H3 & H4 & H5 & H6) Hin (O1 & O2 & O3 & O4) E. cbn [snd] in *. assert (T : table_ok c m) by apply H1.
  apply give_order_spec in E as (_ & _ & _ & T1 & _ & E & _); auto. split; auto.
  destruct E as [->|(r0 & k' & l & G & Hk & Ho & -> & C1 & C2)]; [apply H1|].
  pose proof (wget_In _ _ _ _ G) as R0. assert (Hw : w_id r0 = w) by exact (wget_same c m w r0 T Hin G). rewrite Hw in Ho.
  pose proof Hk as Hk'. apply as_sent_same in Hk' as (K1 & _ & K2 & _).
  eapply log_ok_order; eauto; [apply H1| |]; cbn; auto. rewrite K1, K2. intros _ Hf. destruct (H6 Hf) as ((T2 & _) & _). split; [|auto].
  rewrite <- Hw. apply (T2 r0 R0), C2. apply H4; auto.
Qed.

Lemma order_of_later l l' p : (fine l' -> fine l) -> gen_answers l' = gen_answers l -> length (points_sent l) <= length (points_sent l') -> order_of l p -> order_of l' p.
Proof. intros Hf Hg Hl (O1 & O2 & O3 & O4). split; auto. split; auto. split; auto. intros Ht Hf'. specialize (O4 Ht (Hf Hf')). lia. Qed.

Lemma Je_give t w k m m' : Je m -> In w (map w_id (m_W m)) -> order_of (m_log m) (w, k) -> give_order c t w k m = (m', None) ->
  Je m' /\ map w_id (m_W m') = map w_id (m_W m) /\ forall p, order_of (m_log m) p -> order_of (m_log m') p.
Proof.
  intros HJ Hin HO E. pose proof (LT_give _ _ _ _ _ _ HJ Hin HO E) as HL. pose proof HJ as (H1 & H2 & H3 & H4 & H5 & H6).
  destruct HO as (O1 & O2 & O3 & O4). cbn [snd] in *. pose proof (J_cnt_give _ _ _ _ _ _ H2 E) as HC. assert (T : table_ok c m) by apply H1.
  apply give_log in E as (r0 & k' & l & G & Hk & Tc & _ & _ & EP & EL & Ho & EH & EN); auto.
  pose proof (wget_In _ _ _ _ G) as R0. assert (Hw : w_id r0 = w) by exact (wget_same c m w r0 T Hin G). rewrite Hw in Ho.
  destruct (order_log w k k' l (m_log m) Hk Ho O2) as (L1 & L2 & L3 & L4). rewrite <- EL in *.
  assert (Hid : map w_id (m_W m') = map w_id (m_W m)) by apply Tc.
  split; [|split; [exact Hid|]].
  2:{ intros p. apply order_of_later; auto; [rewrite EL; apply fine_app|]. rewrite L2, app_length. lia. }
  split; auto. split; auto. split; [congruence|]. split.
  { intros r Hr. apply Tc in Hr as [-> |[Hr _]]; auto. cbn. rewrite (H4 r0 R0), O1. cbn. apply andb_false_r. }
  split. { rewrite L3. pose proof (hist_given_counts c t w k (m_h m) EN) as K. cbn zeta in K. rewrite <- EH in K. lia. }
  intros Hf. assert (Hf' : fine (m_log m)) by (rewrite EL in Hf; eapply fine_app; eauto). destruct (H6 Hf') as ((T1 & T2) & HH & HI). split; [split|].
  - intros r Hr. rewrite L1. apply Tc in Hr as [-> |[Hr Hne]].
    + cbn [given w_active w_id]. rewrite Hw, Nat.eqb_refl. split; [|discriminate]. intros E0. destruct O2 as [O2|O2]; rewrite O2 in E0; discriminate.
    + destruct (Nat.eqb_spec w (w_id r)); [congruence|]. auto.
  - intros v Hv. rewrite L1. destruct (Nat.eqb_spec w v) as [E0|Hne]; [subst v; rewrite Hid in Hv; contradiction|]. apply T2. now rewrite <- Hid.
  - rewrite L2, L4. pose proof HH as (_ & _ & _ & HH4 & _).
    assert (Hop : exists o, hstep o (m_h m) = (m_h m', None) /\ op_clean (m_h m) o /\ op_leaves (m_h m) F_sim_started o /\ op_leaves (m_h m) F_cancel_requested o /\
      match o with HXOut inds _ _ _ => inds | _ => [] end = if k_tag k =? EVAL_SIM then k_rows k else []).
    { assert (E0 : hist_given c t w k (m_h m) = (m_h m', None)) by (rewrite EH, <- EN; apply surjective_pairing). unfold hist_given in E0.
      destruct O2 as [O2|O2]; rewrite O2 in *; cbn [Nat.eqb EVAL_SIM EVAL_GEN] in *.
      - exists (HXOut (k_rows k) w (c_kill c) t). cbn. auto.
      - exists (HToGen (k_rows k) t). cbn. split; auto. }
    destruct Hop as (o & Es & C1 & C2 & C3 & C4). rewrite <- C4. split; [eapply hist_ok_step; eauto|].
    pose proof (hstep_index o (m_h m)) as HX. rewrite Es in HX. cbn [fst snd] in HX. specialize (HX HH4 eq_refl). lia.
Qed.

Lemma Je_orders v wk : forall m m' e, Je m -> (forall p, In p wk -> In (fst p) (map w_id (m_W m)) /\ order_of (m_log m) p) ->
  give_orders c (stamped v wk) m = (m', e) -> LT c Qe m' /\ (e = None -> Je m').
Proof.
  induction wk as [|[w k] wk IH]; intros m m' e HJ HW; cbn [stamped map give_orders].
  { intros [= <- <-]. split; auto. apply HJ. }
  destruct (sim_max_given c m); [intros [= <- <-]; split; auto; apply HJ|]. cbn [fst].
  destruct (HW (w, k) (or_introl eq_refl)) as [W1 W2]. cbn [fst] in W1.
  destruct (give_order c (v_times v w) w k m) as [m1 [e1|]] eqn:E; cbn [bindx].
  - intros [= <- <-]. split; [|discriminate]. eapply LT_give; eauto.
  - destruct (Je_give _ _ _ _ _ HJ W1 W2 E) as (HJ1 & Hid & HO). apply IH; auto. intros p Hp. rewrite Hid. destruct (HW p (or_intror Hp)). auto.
Qed.

(** ** The allocation function *)
Lemma edited_rows m out k : h_index (m_h m) <= length (h_rows (m_h m)) -> length (o_rows out) = length (trim_H (m_h m)) ->
  nth_error (h_rows (m_h (edited m out))) k = if k <? h_index (m_h m) then nth_error (o_rows out) k else nth_error (h_rows (m_h m)) k.
Proof.
  intros Hi Hl. unfold edited. cbn [m_h set_h h_rows alloc_edit set_rows with_rows]. rewrite trim_len in Hl by auto.
  assert (Hm : length (mapi 0 (fun i r => nth i (o_rows out) r) (trim_H (m_h m))) = h_index (m_h m)) by (rewrite mapi_length; now apply trim_len).
  destruct (Nat.ltb_spec k (h_index (m_h m))) as [L|L].
  - rewrite nth_error_app1 by lia. rewrite mapi_nth. destruct (nth_error (trim_H (m_h m)) k) as [r|] eqn:En.
    2:{ apply nth_error_None in En. rewrite trim_len in En by auto. lia. }
    cbn. destruct (nth_error (o_rows out) k) as [r'|] eqn:E'; [f_equal; now apply nth_error_nth|]. apply nth_error_None in E'. lia.
  - rewrite nth_error_app2 by lia. rewrite Hm, nth_error_skipn. f_equal. lia.
Qed.

Lemma slow_flags u now H k r : nth_error (cancel_slow u now H) k = Some r -> exists r0, nth_error H k = Some r0 /\ r F_sim_started = r0 F_sim_started /\
  (r F_cancel_requested = r0 F_cancel_requested \/ truthy (r0 F_sim_started) = true).
Proof.
  unfold cancel_slow. destruct (u_cancel_time u) as [lim|]; [|intros E; exists r; auto]. rewrite nth_error_map. destruct (nth_error H k) as [r0|] eqn:E; [|discriminate].
  cbn. intros [= <-]. exists r0. split; auto. destruct (too_long now lim r0) eqn:Et; auto. split; auto. right. unfold too_long in Et.
  apply andb_true_iff in Et as [Et _]. apply andb_true_iff in Et as [Et _]. apply andb_true_iff in Et as [Et _]. exact Et.
Qed.

Lemma slow_length u now H : length (cancel_slow u now H) = length H.
Proof. unfold cancel_slow. destruct (u_cancel_time u); auto. apply map_length. Qed.

Lemma hist_ok_edit u now m out sent : hist_ok (m_h m) sent -> o_rows out = cancel_slow u now (trim_H (m_h m)) -> hist_ok (m_h (edited m out)) sent.
Proof.
  intros (H1 & H2 & H3 & H4 & H5 & H6) Eo. pose proof (slow_length u now (trim_H (m_h m))) as Hl.
  assert (ER : forall k, nth_error (h_rows (m_h (edited m out))) k = if k <? h_index (m_h m) then nth_error (o_rows out) k else nth_error (h_rows (m_h m)) k)
    by (intros k; apply edited_rows; congruence).
  assert (Row : forall k r, nth_error (h_rows (m_h (edited m out))) k = Some r -> exists r0, nth_error (h_rows (m_h m)) k = Some r0 /\ r F_sim_started = r0 F_sim_started /\
    (r F_cancel_requested = r0 F_cancel_requested \/ truthy (r0 F_sim_started) = true)).
  { intros k r. rewrite ER. destruct (Nat.ltb_spec k (h_index (m_h m))) as [L|L]; [|intros E; exists r; auto]. rewrite Eo. intros E. apply slow_flags in E as (r0 & E1 & E2 & E3).
    exists r0. split; auto. unfold trim_H in E1. rewrite nth_error_firstn in E1. destruct (k <? _); [auto|discriminate]. }
  assert (St : forall k, is_set (m_h (edited m out)) k F_sim_started <-> is_set (m_h m) k F_sim_started).
  { intros k. assert (Hkeep : started_kept (trim_H (m_h m)) (o_rows out)) by (rewrite Eo; apply cancel_slow_started).
    unfold is_set. rewrite (edited_cell (fun _ => True) m out k Hkeep). tauto. }
  split; [exact H1|]. split; [exact H2|]. split; [exact H3|]. split.
  { change (h_index (m_h (edited m out))) with (h_index (m_h m)). unfold edited. cbn [m_h set_h h_rows alloc_edit set_rows with_rows].
    rewrite app_length, mapi_length, skipn_length, trim_len by auto. lia. }
  split.
  - intros k Hk (v & Hv & Ht). apply St. unfold cell in Hv. destruct (nth_error (h_rows (m_h (edited m out))) k) as [r|] eqn:Er; [|discriminate].
    cbn in Hv. injection Hv as Hv. destruct (Row k r Er) as (r0 & R1 & R2 & [R3|R3]).
    + apply H5; auto. exists v. unfold cell. rewrite R1. cbn. rewrite <- R3. split; [congruence|auto].
    + exists (r0 F_sim_started). unfold cell. rewrite R1. auto.
  - intros k Hk Hs. apply H6; auto. now apply St.
Qed.

Lemma all_sent m out : hist_ok (m_h (edited m out)) (points_sent (m_log m)) -> h_index (m_h m) <= length (h_rows (m_h m)) -> length (o_rows out) = length (trim_H (m_h m)) ->
  to_evaluate (o_rows out) = [] -> h_index (m_h m) - i0 <= length (points_sent (m_log m)).
Proof.
  intros (_ & _ & _ & _ & H5 & H6) Hi Hl Ht. rewrite <- (seq_length (h_index (m_h m) - i0) i0). apply NoDup_incl_length; [apply seq_NoDup|].
  intros k Hk. apply in_seq in Hk. apply H6; [lia|].
  pose proof (edited_rows m out k Hi Hl) as ER. assert (L : k < h_index (m_h m)) by lia. apply Nat.ltb_lt in L as L'. rewrite L' in ER.
  destruct (nth_error (o_rows out) k) as [r|] eqn:Eo. 2:{ apply nth_error_None in Eo. rewrite Hl, trim_len in Eo by auto. lia. }
  destruct (truthy (r F_sim_started)) eqn:Es; [exists (r F_sim_started); unfold cell; rewrite ER; auto|].
  destruct (truthy (r F_cancel_requested)) eqn:Ec.
  - apply H5; [lia|]. exists (r F_cancel_requested). unfold cell. rewrite ER. auto.
  - assert (X : In k (to_evaluate (o_rows out))) by (apply to_evaluate_spec; exists r; auto). rewrite Ht in X. destruct X.
Qed.

Lemma Je_alloc a u v g m out g' : (single = true -> u_batch_give u = false) -> Je m -> reach m -> set_order (v_ord v) -> default_alloc c a u v g m = (out, g') ->
  Je (edited m out) /\ forall m2 e, give_orders c (stamped v (o_work out)) (edited m out) = (m2, e) -> LT c Qe m2 /\ (e = None -> Je m2).
Proof.
  intros Hs HJ R HO EA. pose proof HJ as (H1 & H2 & H3 & H4 & H5 & H6). assert (T : table_ok c m) by apply H1.
  destruct (default_careful c a u v g m out g' T R HO EA) as [[C1 C2 _ _ _] _].
  destruct (call_ok c a v m T R HO) as [Hi Hr]. unfold default_alloc in EA. injection EA as EA _.
  destruct (default_cases (call_context c a v m) (h_dtype (m_h m)) u (v_now v) (no_more_work c m) g (trim_H (m_h m)) Hi Hr) as (B1 & _ & B2 & _).
  rewrite EA in B1, B2.
  assert (HE : Je (edited m out)).
  { split; [exact H1|]. split; [exact H2|]. split; [exact H3|]. split; [exact H4|]. split; [exact H5|]. intros Hf. destruct (H6 Hf) as (K1 & K2 & K3).
    split; [exact K1|]. split; [|exact K3]. eapply hist_ok_edit; eauto. }
  split; auto. intros m2 e. apply Je_orders; auto. intros [w k] Hp. split; [exact (C2 w k Hp)|]. change (m_log (edited m out)) with (m_log m).
  destruct B2 as [(_ & E0)|(_ & [(ws & rest & pts' & _ & _ & _ & D1 & _ & D2 & _)|(ws & rest & _ & _ & D0 & D1 & D2 & _)])].
  - rewrite E0 in Hp. destruct Hp.
  - rewrite Forall_forall in D1. destruct (D1 _ Hp) as (D3 & _ & D4 & _). split; auto. split; auto. split.
    + intros Hx _. specialize (D2 (or_introl (Hs Hx))). rewrite Forall_forall in D2. exact (D2 _ Hp).
    + intros Ht. rewrite D3 in Ht. discriminate.
  - rewrite Forall_forall in D1, D2. destruct (D1 _ Hp) as (D3 & _). split; [exact (D2 _ Hp)|]. split; auto. split; [intros _ Ht; rewrite D3 in Ht; discriminate|].
    intros _ Hf. destruct (H6 Hf) as (_ & K2 & K3).
    assert (Hl : length (o_rows out) = length (trim_H (m_h m))) by (rewrite B1; apply slow_length).
    pose proof (all_sent m out (hist_ok_edit _ _ _ _ _ K2 B1) ltac:(apply K2) Hl D0). lia.
Qed.
End Ends.
