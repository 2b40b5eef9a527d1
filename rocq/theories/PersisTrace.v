(** Counting orders and answers in the traffic of a run with persistent generators. *)
From Verif Require Import Base BaseLemmas HistoryModel HistorySpec RsetModel WorkModel AllocModel AllocSpec AllocFacts ManagerModel ManagerSpec ManagerProofs ManagerMsg ManagerRun ManagerInv ManagerRes DrivenModel DrivenSpec DrivenProofs DrivenInv DrivenTrace PersisEndsSpec.

Lemma back_app a b : rows_back (a ++ b) = rows_back a ++ rows_back b.
Proof. induction a as [|e a IH]; auto. destruct e as [w o|w i]; [destruct o|]; cbn; auto. now rewrite IH, app_assoc. Qed.
Lemma starts_app a b : gen_starts (a ++ b) = gen_starts a + gen_starts b.
Proof. induction a as [|e a IH]; auto. destruct e as [w o|w i]; [destruct o|]; cbn; auto. rewrite IH. lia. Qed.
Lemma sent_app a b : points_sent (a ++ b) = points_sent a ++ points_sent b.
Proof. induction a as [|e a IH]; auto. destruct e as [w o|w i]; [destruct o|]; cbn; auto. now rewrite IH, app_assoc. Qed.

(** what is assumed of the traffic; it holds of every first part of it *)
Definition fineP (l : list event) : Prop := answers_in_turn l /\ cancels_nothing l /\ unnumbered l /\ points_each_time l.
Lemma turn_app l l' : answers_in_turn (l ++ l') -> answers_in_turn l.
Proof. intros H p w a q ->. apply (H p w a (q ++ l')). now rewrite <- app_assoc. Qed.
Lemma fineP_app l l' : fineP (l ++ l') -> fineP l.
Proof.
  intros (H1 & H2 & H3 & H4). split; [eapply turn_app; eauto|]. split; [|split].
  - intros w a D Hin. apply (H2 w a D), in_app_iff. auto.
  - intros w a D Hin. apply (H3 w a D), in_app_iff. auto.
  - intros w a Hin. apply (H4 w a), in_app_iff. auto.
Qed.

Lemma open_In w l k : open_order w l = Some k -> In (Sent w (OWork k)) l.
Proof.
  induction l as [|e l IH] using rev_ind; [discriminate|]. rewrite open_snoc, in_app_iff.
  destruct e as [v o|v i]; [destruct o as [k1| | |]|destruct i]; cbn [step_open]; auto.
  - destruct (Nat.eqb_spec v w) as [->|Hne]; auto. destruct (negb _); auto. cbn [andb]. intros [= ->]. right. now left.
  - destruct (v =? w); [discriminate|auto].
Qed.
Lemma open_sent w l k : open_order w l = Some k -> k_tag k = EVAL_SIM -> incl (k_rows k) (points_sent l).
Proof.
  intros H Ht. apply open_In in H. apply in_split in H as (p & q & ->). rewrite sent_app. cbn [points_sent]. rewrite Ht. cbn.
  intros i Hi. apply in_app_iff. right. apply in_app_iff. now left.
Qed.
Lemma open_kind w l k : fair l -> open_order w l = Some k -> k_tag k = EVAL_SIM \/ k_tag k = EVAL_GEN.
Proof.
  induction l as [|e l IH] using rev_ind; [discriminate|]. rewrite open_snoc. intros HF. specialize (IH (fair_app _ _ HF)).
  destruct e as [v o|v i]; [destruct o as [k1| | |]|destruct i]; cbn [step_open]; auto.
  - destruct (Nat.eqb_spec v w) as [->|Hne]; auto. destruct (Nat.eqb_spec (k_tag k1) PERSIS_STOP) as [E|E]; auto. cbn [andb negb]. intros [= ->].
    apply (HF l w k [] eq_refl E).
  - destruct (v =? w); [discriminate|auto].
Qed.

(** orders = answers + open orders, points out = results in + points being simulated *)
Lemma balanceP ret l : fair l -> answers_in_turn l ->
  orders_sent l = answers_in l + length (opens l) /\ points_out l = results_in ret l + total sim_points (opens l).
Proof.
  induction l as [|e l IH] using rev_ind; intros HF HM; [cbn; auto|].
  destruct (IH (fair_app _ _ HF) (turn_app _ _ HM)) as (I1 & I3). destruct (opens_spec l (fair_app _ _ HF)) as [O1 O2].
  rewrite orders_app, answers_app, points_out_app, results_app, opens_snoc.
  destruct e as [v o|v i]; [destruct o as [k| | |]|destruct i as [a| | |]]; cbn [orders_sent answers_in points_out results_in step_opens]; try lia.
  - destruct (Nat.eqb_spec (k_tag k) PERSIS_STOP) as [E|E].
    + rewrite E. cbn. lia.
    + destruct (HF l v k [] eq_refl E) as [_ Ht]. cbn [length total fold_right]. fold (total sim_points (opens l)).
      unfold sim_points at 1. cbn [snd]. lia.
  - destruct (HM l v a [] eq_refl) as ((k & K1 & K2 & K3) & _ & K4 & K5). apply O2 in K1.
    pose proof (filter_out (fun _ => 1) (opens l) v k O1 K1) as F1.
    pose proof (filter_out sim_points (opens l) v k O1 K1) as F3. cbn beta in F1.
    fold (total sim_points (opens l)) in F3. fold (total sim_points (filter (fun p => negb (fst p =? v)) (opens l))) in F3.
    assert (L : forall l : list (nat * work), fold_right (fun _ n => 1 + n) 0 l = length l) by (clear; induction l; cbn; auto).
    rewrite !L in F1. unfold answered_rows. destruct (Nat.eqb_spec (n_status a) FIN_PERSIS_SIM); [congruence|]. cbn [orb andb].
    unfold sim_points at 2 in F3. cbn [snd] in *. rewrite <- K2 in *.
    destruct (Nat.eqb_spec (n_status a) FIN_PERSIS_GEN) as [Eg|Eg].
    + rewrite (K5 Eg) in *. cbn in F3. destruct (n_out a); lia.
    + destruct (Nat.eqb_spec (n_type a) EVAL_SIM) as [Es|Es]; [|lia]. destruct (K3 Es) as [-> _]. lia.
Qed.

(** ** The orders of a run *)
Section Orders.
Variables (single : bool) (num : nat) (smax : option nat).
Definition Qp (l : list event) (e : event) : Prop :=
  match e with
  | Sent w (OWork k) => k_tag k <> PERSIS_STOP -> fineP l ->
      open_order w l = None /\ (k_tag k = EVAL_SIM \/ k_tag k = EVAL_GEN) /\
      (single = true -> k_tag k = EVAL_SIM -> length (k_rows k) = 1) /\
      (k_tag k = EVAL_GEN -> NoDup (k_rows k) /\ forall i, In i (k_rows k) -> In i (points_sent l) /\ ~ In i (rows_back l)) /\
      gen_starts (l ++ [e]) <= num /\ (forall N, smax = Some N -> points_out l < N)
  | _ => True
  end.
Lemma Qp_quiet a e : ~ is_order e -> Qp a e.
Proof. unfold Qp. destruct e as [w o|]; auto. destruct o; auto. cbn. tauto. Qed.

Lemma Qp_app l l' : log_ok Qp (l ++ l') -> log_ok Qp l.
Proof. intros H p e q ->. apply (H p e (q ++ l')). now rewrite <- app_assoc. Qed.
Lemma Qp_fair l : log_ok Qp l -> fineP l -> fair l.
Proof.
  intros H HF p w k q E Hk. assert (Hf : fineP p) by (rewrite E in HF; eapply fineP_app; eauto). destruct (H p _ q E Hk Hf) as (Q1 & Q2 & _). auto.
Qed.

Lemma Qp_counts l : log_ok Qp l -> fineP l ->
  gen_calls l <= gen_starts l + length (rows_back l) /\ NoDup (rows_back l) /\ incl (rows_back l) (points_sent l) /\ gen_starts l <= num /\
  (single = true -> forall N, smax = Some N -> points_out l <= N).
Proof.
  induction l as [|e l IH] using rev_ind; intros HL HF.
  { cbn. split; auto. split; [constructor|]. split; [intros i []|]. split; [lia|]. intros. lia. }
  specialize (HL l e [] eq_refl) as HQ. destruct (IH (Qp_app _ _ HL) (fineP_app _ _ HF)) as (I1 & I2 & I3 & I4 & I5).
  rewrite calls_app, back_app, starts_app, sent_app, points_out_app, app_length.
  destruct e as [v o|v i]; [destruct o as [k| | |]|]; cbn [gen_calls gen_starts rows_back points_sent points_out length]; rewrite ?app_nil_r, ?Nat.add_0_r; auto.
  cbn [Qp] in HQ. destruct (Nat.eqb_spec (k_tag k) PERSIS_STOP) as [E|E]; [rewrite E; cbn; rewrite ?app_nil_r, ?Nat.add_0_r; auto|].
  destruct (HQ E (fineP_app _ _ HF)) as (Q1 & Q2 & Q3 & Q4 & Q5 & Q6). rewrite starts_app in Q5. cbn [gen_starts] in Q5. rewrite Nat.add_0_r in Q5.
  destruct (Nat.eqb_spec (k_tag k) EVAL_GEN) as [Eg|Eg].
  - destruct (Q4 Eg) as [Q7 Q8]. rewrite Eg in *. cbn [Nat.eqb EVAL_GEN EVAL_SIM app andb] in *. rewrite ?app_nil_r, ?Nat.add_0_r in *.
    split; [destruct (k_rows k); cbn in *; lia|]. split.
    { clear - I2 Q7 Q8. induction (rows_back l) as [|x b IHb]; auto. cbn. inversion_clear I2 as [|? ? N1 N2]. constructor.
      - rewrite in_app_iff. intros [H|H]; auto. destruct (Q8 x H) as [_ H']. apply H'. now left.
      - apply IHb; auto. intros i Hi. destruct (Q8 i Hi) as [A B]. split; auto. intros H. apply B. now right. }
    split; [intros i Hi; apply in_app_iff in Hi as [Hi|Hi]; auto; now apply Q8|]. split; auto.
  - cbn [andb app] in *. rewrite ?app_nil_r, ?Nat.add_0_r in *. split; auto. split; auto. split; [intros i Hi; apply in_app_iff; auto|]. split; auto.
    intros Hs N HN. specialize (Q6 N HN). destruct (Nat.eqb_spec (k_tag k) EVAL_SIM) as [Es|Es]; [rewrite (Q3 Hs Es); lia|lia].
Qed.

Lemma Qp_single l w k : log_ok Qp l -> fineP l -> single = true -> In (Sent w (OWork k)) l -> k_tag k = EVAL_SIM -> length (k_rows k) = 1.
Proof.
  intros HL HF Hs Hin Ht. apply in_split in Hin as (p & q & ->). destruct (HL p (Sent w (OWork k)) q eq_refl) as (_ & _ & Q & _); auto; [rewrite Ht; discriminate|].
  now apply fineP_app in HF.
Qed.

Lemma Qp_orders l N : log_ok Qp l -> fineP l -> single = true -> smax = Some N -> orders_sent l <= 2 * N + num.
Proof.
  intros HL HF Hs HN. destruct (Qp_counts l HL HF) as (C1 & C2 & C3 & C4 & C5). specialize (C5 Hs N HN).
  rewrite (orders_kinds l (fun w k Hin => Qp_single l w k HL HF Hs Hin) (Qp_fair l HL HF)).
  pose proof (NoDup_incl_length C2 C3) as C6. rewrite points_len in C6. lia.
Qed.
End Orders.

(** ** The worker table *)
Lemma touch_map c w r0 r1 m m' : table_ok c m -> touch c w r0 r1 m m' -> m_W m' = map (fun r => if w_id r =? w_id r0 then r1 else r) (m_W m).
Proof.
  intros T (G & _ & Hid & Hids & Hin). pose proof (table_nodup c m T) as Nd. pose proof (wget_In _ _ _ _ G) as R0. revert Nd Hids Hin R0.
  generalize (m_W m) as L, (m_W m') as L'. clear - Hid. intros L L' Nd Hids Hin R0.
  assert (U : forall a b, In a L -> In b L -> w_id a = w_id b -> a = b).
  { clear - Nd. induction L as [|x L IH]; [intros a b []|]. cbn in Nd. inversion_clear Nd as [|? ? N1 N2]. intros a b [<-|Ha] [<-|Hb] E; auto.
    - destruct N1. rewrite E. now apply in_map.
    - destruct N1. rewrite <- E. now apply in_map. }
  apply nth_error_ext. intros i. rewrite nth_error_map.
  assert (E : option_map w_id (nth_error L' i) = option_map w_id (nth_error L i)) by (rewrite <- !nth_error_map, Hids; reflexivity).
  destruct (nth_error L' i) as [b|] eqn:Eb, (nth_error L i) as [a|] eqn:Ea; cbn in *; try discriminate; auto. injection E as E.
  apply nth_error_In in Eb, Ea. f_equal. apply Hin in Eb. destruct (Nat.eqb_spec (w_id a) (w_id r0)) as [E0|E0].
  - destruct Eb as [-> |[_ Hb]]; auto. congruence.
  - destruct Eb as [-> |[Hb _]]; [congruence|]. apply U; auto.
Qed.

Definition b2n (b : bool) : nat := if b then 1 else 0.
Lemma touch_count c w r0 r1 m m' q : table_ok c m -> touch c w r0 r1 m m' -> countb q (m_W m') + b2n (q r0) = countb q (m_W m) + b2n (q r1).
Proof.
  intros T Tc. rewrite (touch_map c w r0 r1 m m' T Tc). destruct Tc as (G & _). pose proof (table_nodup c m T) as Nd. pose proof (wget_In _ _ _ _ G) as R0. revert Nd R0.
  generalize (m_W m). clear. unfold countb. induction l as [|x l IH]; [intros _ []|]. cbn [map filter]. intros Nd. inversion_clear Nd as [|? ? N1 N2]. intros [->|Hin].
  - rewrite Nat.eqb_refl. assert (E : map (fun r => if w_id r =? w_id r0 then r1 else r) l = l).
    { clear - N1. induction l as [|y l IH]; auto. cbn. destruct (Nat.eqb_spec (w_id y) (w_id r0)) as [E|E]; [destruct N1; rewrite <- E; now left|]. f_equal. apply IH. intros H. apply N1. now right. }
    rewrite E. destruct (q r0), (q r1); cbn; lia.
  - destruct (Nat.eqb_spec (w_id x) (w_id r0)) as [E|E]; [destruct N1; rewrite E; now apply in_map|]. specialize (IH N2 Hin). destruct (q x); cbn [length]; lia.
Qed.

(** the fixed part of the worker table *)
Definition kind (W : list wrow) (i : nat) (z g : bool) : Prop := exists r, In r W /\ w_id r = i /\ w_zero r = z /\ w_gen r = g.
Definition same_kinds (W W' : list wrow) : Prop := forall i z g, kind W i z g <-> kind W' i z g.
Lemma kinds_touch c w r0 r1 m m' : table_ok c m -> touch c w r0 r1 m m' -> w_zero r1 = w_zero r0 -> w_gen r1 = w_gen r0 -> same_kinds (m_W m) (m_W m').
Proof.
  intros T (G & _ & Hid & _ & Hin) Hz Hg i z g. pose proof (wget_In _ _ _ _ G) as R0. split; intros (r & R1 & R2 & R3 & R4).
  - destruct (Nat.eq_dec (w_id r) (w_id r0)) as [E|E].
    + pose proof (table_nodup c m T) as Nd. assert (r = r0) as -> by (eapply id_unique; eauto).
      exists r1. split; [apply Hin; auto|]. rewrite Hid, Hz, Hg. auto.
    + exists r. split; [apply Hin; auto|auto].
  - apply Hin in R1 as [-> |[R1 _]]; [|exists r; auto]. exists r0. rewrite <- Hid, <- Hz, <- Hg. auto.
Qed.
Lemma kinds_sym W W' : same_kinds W W' -> same_kinds W' W.
Proof. intros H i z g. symmetry. apply H. Qed.
Lemma kinds_some W W' : same_kinds W W' -> ((exists q, In q W /\ w_zero q = true) -> exists q, In q W' /\ w_zero q = true) /\ ((exists q, In q W /\ w_gen q = true) -> exists q, In q W' /\ w_gen q = true).
Proof.
  intros H. split; intros (q & Q1 & Q2); destruct (proj1 (H (w_id q) (w_zero q) (w_gen q)) (ex_intro _ q (conj Q1 (conj eq_refl (conj eq_refl eq_refl))))) as (q' & A & B & C & D);
    exists q'; split; auto; congruence.
Qed.
Lemma may_gen_same W W' r r' : same_kinds W W' -> w_zero r' = w_zero r -> w_gen r' = w_gen r -> may_gen W r -> may_gen W' r'.
Proof.
  intros H Hz Hg [M1 M2]. destruct (kinds_some _ _ (kinds_sym _ _ H)) as [S1 S2]. split; [rewrite Hz|rewrite Hg]; auto.
Qed.
Lemma may_sim_same W W' r r' : same_kinds W W' -> w_zero r' = w_zero r -> w_gen r' = w_gen r -> may_sim W r -> may_sim W' r'.
Proof.
  intros H Hz Hg [M1 M2]. destruct (kinds_some _ _ (kinds_sym _ _ H)) as [S1 S2]. split; [rewrite Hz|rewrite Hg]; auto.
Qed.
Lemma enough_same n W W' : same_kinds W W' -> enough_workers n W -> enough_workers n W'.
Proof.
  intros H [(r & R1 & R2) HS].
  assert (G : forall r, In r W -> exists r', In r' W' /\ w_id r' = w_id r /\ w_zero r' = w_zero r /\ w_gen r' = w_gen r).
  { intros q Q. destruct (proj1 (H (w_id q) (w_zero q) (w_gen q)) (ex_intro _ q (conj Q (conj eq_refl (conj eq_refl eq_refl))))) as (q' & A & B). exists q'. auto. }
  split.
  - destruct (G r R1) as (r' & A & B & C & D). exists r'. split; auto. exact (may_gen_same W W' r r' H C D R2).
  - destruct HS as [(q & Q1 & Q2 & Q3)|(ws & Q1 & Q2 & Q3)].
    + left. destruct (G q Q1) as (q' & A & B & C & D). exists q'. split; auto. split; [exact (may_sim_same W W' q q' H C D Q2)|]. intros X. apply Q3. exact (may_gen_same W' W q' q (kinds_sym _ _ H) (eq_sym C) (eq_sym D) X).
    + right. exists ws. split; auto. split; auto. intros w Hw. destruct (Q3 w Hw) as (q & P1 & P2 & P3). destruct (G q P1) as (q' & A & B & C & D). exists q'. split; auto. split; [congruence|].
      exact (may_sim_same W W' q q' H C D P3).
Qed.
