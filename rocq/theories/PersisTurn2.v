(** What start_only_persistent answers when it is called in the course of a run,
    and the turns of the run. *)
From Coq Require Import Permutation.
From Verif Require Import Base BaseLemmas HistoryModel HistorySpec HistoryProofs HistoryXIn HistoryInv HistoryInv2 HistoryRun HistoryRun2 HistoryRun3 HistoryBack RsetModel RsetSpec WorkModel SchedModel SchedSpec AllocModel AllocSpec AllocProofs AllocLoops AllocFacts AllocPersis ManagerModel ManagerSpec ManagerProofs ManagerMsg ManagerRun ManagerInv ManagerFinal ManagerEnd ManagerRes DrivenModel DrivenSpec DrivenProofs DrivenInv DrivenPoints DrivenRes DrivenSets DrivenGens DrivenOrders DrivenTrace DrivenEnds DrivenEnds2 PersisEndsSpec PersisHist PersisTrace PersisEnds PersisCall PersisTurn.

Lemma someone_left n W : enough_workers n W -> count_persis_gens W <= n ->
  (forall r, In r W -> w_persis r = 0 \/ (w_persis r = EVAL_GEN /\ may_gen W r)) -> exists r, In r W /\ may_sim W r /\ w_persis r = 0.
Proof.
  intros [_ [(r & R1 & R2 & R3)|(ws & N & L & R)]] HC HP.
  - exists r. split; auto. split; auto. destruct (HP r R1) as [X|[_ X]]; [auto|contradiction].
  - assert (D : (exists r, In r W /\ may_sim W r /\ w_persis r = 0) \/ forall w, In w ws -> exists r, In r W /\ w_id r = w /\ w_persis r = EVAL_GEN).
    { clear N L. induction ws as [|w ws IH]; [right; intros w []|]. destruct IH as [IH|IH]; auto. { intros v Hv. apply R. now right. }
      destruct (R w (or_introl eq_refl)) as (r & R1 & R2 & R3). destruct (HP r R1) as [X|[X _]]; [left; eauto|]. right. intros v [<-|Hv]; eauto. }
    destruct D as [D|D]; auto. exfalso. assert (X : length ws <= count_persis_gens W); [|lia].
    assert (I : incl ws (map w_id (filter (fun r => w_persis r =? EVAL_GEN) W))).
    { intros w Hw. destruct (D w Hw) as (r & R1 & <- & R2). apply in_map, filter_In. split; auto. now rewrite R2. }
    pose proof (NoDup_incl_length N I) as Y. rewrite map_length in Y. exact Y.
Qed.

Lemma trim_row h i r : nth_error (trim_H h) i = Some r -> i < h_index h /\ forall f, cell (h_rows h) i f = Some (r f).
Proof.
  unfold trim_H, cell. rewrite nth_error_firstn. destruct (Nat.ltb_spec i (h_index h)) as [L|L]; [|discriminate]. intros ->. auto.
Qed.
Lemma trim_flag h i r f : nth_error (trim_H h) i = Some r -> (is_set h i f <-> truthy (r f) = true).
Proof.
  intros E. destruct (trim_row h i r E) as [_ C]. unfold is_set. rewrite (C f). split; [intros (v & [= <-] & H); auto|eauto].
Qed.
Lemma trim_has h i : h_index h <= length (h_rows h) -> i < h_index h -> exists r, nth_error (trim_H h) i = Some r.
Proof.
  intros H L. destruct (nth_error (trim_H h) i) as [r|] eqn:E; eauto. apply nth_error_None in E. rewrite trim_len in E by auto. lia.
Qed.

Section Turn.
Variables (c : mcfg) (single : bool) (a : asetup) (u : puser).
Let num := pu_num_gens u.
Let J0 := J0 c single num.
Let Jp := Jp c single num.
Let L := LT c (Qp single num (c_sim_max c)).
Hypotheses (Hman : u_manage a = false) (Hrecv : pu_recv u = false) (Halt : pu_alt u = false) (Hsingle : single = true -> pu_batch_give u = false) (Hnum : 1 <= num).

Hypotheses (Hsim : u_sim_in a <> []) (Hpin : u_persis_in a <> []) (Hkill : c_kill c = true -> pu_batch_give u = false).

Lemma persis_call v s m out s' : Jp (snd s) m -> fineP (m_log m) -> reach m -> asked a m -> set_order (v_ord v) -> persistent_alloc c a u v s m = (out, s') ->
  o_rows out = trim_H (m_h m) /\ o_err out = None /\ (o_flag out <> 0 -> over (snd s) m /\ snd s' = snd s) /\
  (o_flag out = 0 -> forall m2 e, give_orders c (stamped v (o_work out)) m = (m2, e) -> fineP (m_log m2) -> L m2 /\ (e = None -> Jp (snd s') m2)) /\
  (o_flag out = 0 -> sim_max_given c m = false -> o_work out <> [] \/ any_active m = true) /\ fit_all m (c_kill c) (o_work out).
Proof.
  intros [HJ HS] Hf R HA HO. specialize (HS Hf). pose proof HJ as (H1 & H2 & H3 & H4 & H5 & H6 & H7 & H8). destruct (H8 Hf) as ((T1 & T2) & HK & HG).
  assert (T : table_ok c m) by apply H1. unfold persistent_alloc.
  destruct (only_persistent_gens _ _ _ _ _ _ _) as [o p'] eqn:EP. intros [= <- <-]. cbn [snd].
  assert (AC : forall r, In r (m_W m) -> w_active r <> 0 -> any_active m = true) by (intros r A B; apply any_active_true; eauto).
  destruct (no_more_work c m) eqn:En.
  { unfold only_persistent_gens in EP. injection EP as <- <-. cbn [o_rows o_err o_flag o_work]. split; auto. split; auto. split; [intros X; now destruct X|]. split; [|split].
    - intros _ m2 e [= <- <-] _. split; [exact H1|]. intros _. split; auto.
    - intros _ HM. right. unfold no_more_work in En. rewrite HM in En. cbn [orb] in En. apply negb_true_iff in En. destruct H7 as ((r & R1 & _) & _).
      apply (AC r R1). intros E0. assert (X : existsb (fun r => w_active r =? 0) (m_W m) = true) by (apply existsb_exists; exists r; rewrite E0; auto). congruence.
    - split; [constructor|intros w k []]. }
  assert (HM : sim_max_given c m = false) by (unfold no_more_work in En; now destruct (sim_max_given c m)).
  assert (SO : over (snd s) m \/ pi_gens_started (snd s) <= count_persis_gens (m_W m) /\ (fresh (snd s) m \/ going num (snd s) m)).
  { destruct HS as [X|[X|X]]; auto; right; (split; [|auto]); [destruct X as (-> & _); lia|destruct X as (-> & _); lia]. }
  destruct SO as [SO|[SL SO]].
  { unfold only_persistent_gens in EP. cbn zeta in EP. change (ac_W (call_context c a v m)) with (m_W m) in EP.
    destruct (Nat.ltb_spec (count_persis_gens (m_W m)) (pi_gens_started (snd s))) as [X|X]; [|destruct SO; lia]. injection EP as <- <-. cbn [o_rows o_err o_flag o_work].
    split; auto. split; auto. split; auto. split; [discriminate|]. split; [discriminate|]. split; [constructor|intros w k []]. }
  set (x := call_context c a v m) in *. set (H := trim_H (m_h m)) in *.
  destruct (call_ok c a v m T R HO) as [Hi Hr]. fold x in Hi, Hr.
  assert (Hwg : forall w, In w (map w_id (ac_W x)) -> wget (ac_gom x) (ac_W x) w <> None).
  { intros w Hw. apply in_map_iff in Hw as (r & <- & Hin). change (wget (c_gom c) (m_W m) (w_id r) <> None). rewrite (wget_in c m r T Hin). discriminate. }
  destruct (persis_shape x u Hman Hwg Hi Hr Hrecv Halt (h_dtype (m_h m)) (fst s) (snd s) H o p' SL EP) as
    (bs & ws & gs & wk1 & n2 & s2 & rest & pts & Eb & Ew & Eg & B1 & B2 & B3 & D1 & D2 & D3 & D4 & D5 & D6 & D7 & O1 & O2 & O3 & O4).
  change (ac_W x) with (m_W m) in *.
  assert (HIL : h_index (m_h m) <= length (h_rows (m_h m))) by apply HK.
  split; auto. split; auto. split; [intros X; rewrite O2 in X; now destruct X|].
  assert (GF : forall fs, incl fs (u_sim_in a ++ u_gen_in a ++ u_persis_in a) -> fs <> [] -> nodup_fields fs <> [] /\ distinct_fields (nodup_fields fs) = true /\ forall f, In f (nodup_fields fs) -> column (m_h m) f).
  { intros fs I1 I2. apply good_fields. split; auto. }
  assert (LT1 : forall i r, nth_error H i = Some r -> i < length (h_rows (m_h m))) by (intros i r E; apply trim_row in E as [E _]; lia).
  destruct SO as [SF|SG].
  - (* nothing has been started *)
    destruct SF as (F1 & F2 & F3 & F4). assert (H0 : H = []) by (unfold H, trim_H; now rewrite F3).
    assert (n2 = []) as -> by (apply D4; now rewrite H0).
    assert (bs = []) as ->.
    { destruct bs as [|b bs]; auto. destruct (avail_rows _ _ _ _ _ _ _ Eb (or_introl eq_refl)) as (r & R1 & _ & _ & R2). destruct (F2 r R1) as [R3 _]. rewrite R3 in R2. discriminate. }
    assert (wk1 = []) as ->. { destruct wk1 as [|q l]; auto. destruct (B1 (fst q)). now left. }
    cbn [map concat app] in *. rewrite H0 in D6. change (to_evaluate []) with (@nil nat) in D6. apply Permutation_nil in D6. subst pts.
    destruct O4 as [(X & _)|(_ & s3 & st & e & ES & EPI)]; [congruence|].
    destruct (avail_ok _ _ _ _ _ _ Eg) as (ok & Egs & Hok).
    assert (CN : count_persis_gens (m_W m) = 0).
    { unfold count_persis_gens, countb. assert (X : filter (fun r => w_persis r =? EVAL_GEN) (m_W m) = []); [|now rewrite X].
      destruct (filter (fun r => w_persis r =? EVAL_GEN) (m_W m)) as [|r l] eqn:X; [reflexivity|]. assert (Y : In r (r :: l)) by now left. rewrite <- X in Y. apply filter_In in Y as [Y1 Y2]. destruct (F2 r Y1) as [Y3 _]. rewrite Y3 in Y2. discriminate. }
    assert (Igs : forall w, In w gs -> In w (map w_id (m_W m))).
    { intros w Hw. rewrite Egs in Hw. apply in_map_iff in Hw as (r & <- & Hr'). apply filter_In in Hr' as [Hr' _]. now apply in_map. }
    assert (Ngs : NoDup gs) by exact (avail_sub _ _ _ _ _ _ Eg Hi).
    destruct (start_exact x u Hman Hwg H gs _ _ [] s2 _ s3 st e Igs Ngs (fun w _ => eq_refl) ES) as (-> & new & W1 & W2 & W3 & W4).
    cbn [app] in W1. rewrite CN, Nat.sub_0_r in W2. rewrite F1 in W3. cbn [Nat.add] in W3. fold num in W2.
    assert (MG : forall r, In r (m_W m) -> may_gen (m_W m) r -> In (w_id r) gs).
    { intros r Hr' [M1 M2]. rewrite Egs. apply in_map, filter_In. split; auto. apply Hok. destruct (F2 r Hr') as [A B]. auto. }
    assert (LN : length new = Nat.min num (length gs)) by (rewrite <- (map_length fst new), W2; apply firstn_length).
    assert (L1 : 1 <= length new).
    { destruct H7 as ((r & R1 & R2) & _). specialize (MG r R1 R2). destruct gs as [|g gs]; [destruct MG|]. rewrite LN. cbn. lia. }
    rewrite W1. split; [|split].
    + intros _ m2 e EG. refine (first_orders c single num p' v _ _ new m m2 e HJ _ HM _ _ _ _ _ EG); try lia.
      * rewrite W2. clear - Ngs. revert gs Ngs. induction num as [|n IH]; intros [|g gs] Ngs; cbn; try constructor; inversion_clear Ngs as [|? ? N1 N2].
        -- intros X. apply N1. rewrite <- (firstn_skipn n gs). apply in_app_iff. auto.
        -- auto.
      * intros r Hr'. left. auto.
      * intros r Hr' Hm. right. destruct (Nat.le_gt_cases num (length gs)) as [X|X]; [right; lia|]. left. rewrite W2, firstn_all2 by lia. auto.
      * intros q Hq. rewrite Forall_forall in W4. destruct (W4 q Hq) as (K1 & K2 & K3 & K4). rewrite H0 in K2. cbn in K2.
        assert (Hg : In (fst q) gs). { rewrite <- (firstn_skipn num gs). apply in_app_iff. left. rewrite <- W2. now apply in_map. }
        split; [|split; auto; split; auto; intros r Hr' _; now apply F2].
        split; [auto|]. split; [right; rewrite K4, Hrecv; auto|]. split; auto. split; [intros _ X; rewrite K1 in X; discriminate|]. split; [intros X; rewrite K1 in X; discriminate|]. split.
        -- intros _. split; auto. split; [rewrite K2; constructor|]. intros r Hr' Er _. rewrite Egs in Hg. apply in_map_iff in Hg as (r' & Er' & Hr2). apply filter_In in Hr2 as [Hr2 Hr3].
           assert (r = r') as -> by (apply (id_unique (m_W m)); auto; congruence). apply Hok in Hr3 as (_ & _ & M1 & M2). split; auto.
        -- intros _ i Hin. rewrite K2 in Hin. destruct Hin.
    + intros _ _. left. destruct new; [cbn in L1; lia|discriminate].
    + assert (NN : NoDup (map fst new)) by (rewrite W2; rewrite <- (firstn_skipn num gs) in Ngs; exact (NoDup_app_remove_r _ _ Ngs)).
      split; [exact NN|]. intros w k Hq. rewrite Forall_forall in W4. destruct (W4 _ Hq) as (K1 & K2 & K3 & K4). cbn [fst snd] in *. rewrite H0 in K2. cbn in K2.
      assert (Hg : In w gs). { rewrite <- (firstn_skipn num gs). apply in_app_iff. left. rewrite <- W2. exact (in_map fst new (w, k) Hq). }
      split; [exact (avail_idle _ _ _ _ _ w Eg Hg)|]. split; [|unfold team_fit; rewrite H5; exact I]. rewrite Hrecv in K4. split; auto. split; auto. rewrite K2. split; [intros i []|].
      split; [intros X; now destruct X|]. intros _ X. rewrite K1 in X. discriminate.
  - (* generators run *)
    pose proof SG as (G1 & G2 & G3 & G4).
    assert (OW : o_work o = wk1 ++ n2 /\ pi_gens_started p' = pi_gens_started (snd s)).
    { destruct O4 as [(_ & X & Y)|(_ & s3 & st & e & ES & EPI)]; auto.
      assert (X : gs = [] \/ num <= count_persis_gens (m_W m)).
      { destruct G3 as [G3|G3]; auto. left. destruct gs as [|g gs]; auto. destruct (avail_ok _ _ _ _ _ _ Eg) as (ok & Egs & Hok).
        assert (X : In g (map w_id (filter ok (m_W m)))) by (rewrite <- Egs; now left). apply in_map_iff in X as (r & _ & Hr'). apply filter_In in Hr' as [Q1 Q2].
        apply Hok in Q2 as (_ & Q3 & Q4 & Q5). rewrite (G3 r Q1 (conj Q4 Q5)) in Q3. discriminate. }
      rewrite (start_idle x u Hman Hwg H gs _ _ _ s2 X) in ES. injection ES as <- _ <- _. auto. }
    destruct OW as [OW PI]. rewrite OW. split; [|split].
    + intros _ m2 e EG Hf2. assert (GP : going num p' m) by (split; [congruence|split; auto]).
      apply (going_orders c single num p' v (wk1 ++ n2) m m2 e HJ GP D7); auto. intros q Hq. apply in_app_iff in Hq as [Hq|Hq].
      * rewrite Forall_forall in B2. destruct (B2 q Hq) as (K1 & K2 & K3 & _ & K5 & K6 & _).
        assert (Hb : In (fst q) bs) by (apply B1; now apply in_map). destruct (avail_rows _ _ _ _ _ _ _ Eb Hb) as (rb & R1 & R2 & R3 & R4).
        assert (U : forall r, In r (m_W m) -> w_id r = fst q -> r = rb) by (intros r X Y; apply (id_unique (m_W m)); auto; congruence).
        split; [|split; auto; intros _ r X Y; now rewrite (U r X Y)].
        split; [rewrite <- R2; now apply in_map|]. split; [right; rewrite K3, Hrecv; auto|]. split; auto. split; [intros _ X; rewrite K1 in X; discriminate|]. split; [intros X; rewrite K1 in X; discriminate|]. split.
        -- intros _. split; auto. split; [rewrite K5; apply returned_NoDup|]. intros r X Y _. rewrite (U r X Y). destruct (T1 rb R1) as (_ & _ & [Z|[_ Z]]); auto. rewrite Z in R4. discriminate.
        -- intros _ i Hin. rewrite K5 in Hin. apply returned_spec in Hin as (r & E1 & E2 & E3 & E4). destruct (trim_row _ _ _ E1) as [I1 I2]. split; auto.
           split; [apply (trim_flag _ _ _ _ E1); auto|]. split; [intros X; apply (trim_flag _ _ _ _ E1) in X; congruence|]. exists (r F_gen_worker). auto.
      * rewrite Forall_forall in D2. destruct (D2 q Hq) as (K1 & K2 & K3 & _).
        assert (Hb : In (fst q) ws) by (rewrite D1; apply in_app_iff; left; now apply in_map). destruct (avail_rows _ _ _ _ _ _ _ Ew Hb) as (rb & R1 & R2 & R3 & R4).
        assert (NG : k_tag (snd q) <> EVAL_GEN) by (rewrite K1; discriminate).
        split; [|split; intros X; contradiction].
        split; [rewrite <- R2; now apply in_map|]. split; auto. split; auto. split.
        { intros X _. specialize (D3 (Hsingle X)). rewrite Forall_forall in D3. auto. }
        split; [|split; intros X; contradiction]. intros _. split; auto. intros r X Y. assert (r = rb) as -> by (apply (id_unique (m_W m)); auto; congruence). auto.
    + intros _ _. destruct (any_active m) eqn:EA; auto. left.
      assert (AI : forall r, In r (m_W m) -> w_active r = 0).
      { intros r X. destruct (Nat.eq_dec (w_active r) 0) as [Y|Y]; auto. discriminate (AC r X Y). }
      destruct (to_evaluate H) as [|i0 te] eqn:Et.
      * (* everything has been evaluated *)
        assert (XP : exists r, In r (m_W m) /\ w_persis r = EVAL_GEN).
        { assert (X : count_persis_gens (m_W m) <> 0) by lia. unfold count_persis_gens, countb in X. destruct (filter (fun r => w_persis r =? EVAL_GEN) (m_W m)) as [|r l] eqn:E0; [now destruct X|].
          assert (Y : In r (r :: l)) by now left. rewrite <- E0 in Y. apply filter_In in Y as [Y1 Y2]. exists r. split; auto. now apply Nat.eqb_eq. }
        destruct XP as (r & R1 & R2). destruct (G4 r R1 R2 (AI r R1)) as (i & I1 & (v0 & I2 & I4) & I3).
        assert (ALL : forall k q, nth_error H k = Some q -> truthy (q F_sim_ended) = true).
        { intros k q Eq. destruct HK as (_ & _ & K3 & K4 & K5 & K6 & _).
          assert (ST : is_set (m_h m) k F_sim_started).
          { destruct (truthy (q F_sim_started)) eqn:Es; [apply (trim_flag _ _ _ _ Eq); auto|]. apply K3. apply (trim_flag _ _ _ F_cancel_requested Eq).
            destruct (truthy (q F_cancel_requested)) eqn:Ec; auto. assert (X : In k (to_evaluate H)) by (apply to_evaluate_spec; exists q; auto). rewrite Et in X. destruct X. }
          destruct (K6 k ST) as [X|(w & kk & X1 & X2 & _)]; [apply (trim_flag _ _ _ _ Eq); auto|]. exfalso.
          destruct (in_dec Nat.eq_dec w (map w_id (m_W m))) as [Hw|Hw]; [|rewrite (T2 w Hw) in X1; discriminate].
          apply in_map_iff in Hw as (rr & <- & Hrr). destruct (T1 rr Hrr) as (Y & _). rewrite X1, X2, (AI rr Hrr) in Y. discriminate. }
        assert (Hb : In (w_id r) bs).
        { destruct (avail_ok _ _ _ _ _ _ Eb) as (ok & -> & Hok). apply in_map, filter_In. split; auto. apply Hok. auto. }
        assert (RF : returned_for H (w_id r) <> []).
        { destruct (trim_has _ _ HIL I1) as (q & Eq). intros X. assert (Y : In i (returned_for H (w_id r))); [|rewrite X in Y; destruct Y].
          apply returned_spec. exists q. split; auto. split; [eauto|]. destruct (trim_row _ _ _ Eq) as [_ C]. rewrite C in I2. injection I2 as <-. split; auto.
          destruct (truthy (q F_gen_informed)) eqn:Z; auto. destruct I3. apply (trim_flag _ _ _ _ Eq). auto. }
        assert (Y : wk1 <> []).
        { apply (B3 _ Hb RF). apply all_ended_settled. intros k q _ Eq _. left. eauto. }
        intros X. apply Y. now destruct wk1.
      * destruct (someone_left num (m_W m) H7 ltac:(lia) (fun r X => proj2 (proj2 (T1 r X)))) as (r & R1 & [R2 R2'] & R3).
        assert (Hb : In (w_id r) ws).
        { destruct (avail_ok _ _ _ _ _ _ Ew) as (ok & -> & Hok). apply in_map, filter_In. split; auto. apply Hok. auto. }
        intros X. apply app_eq_nil in X as [_ ->]. cbn in D1, D6. subst ws. destruct D5 as [->| ->]; [destruct Hb|]. apply Permutation_sym, Permutation_nil in D6. discriminate.
    + split; [exact D7|]. intros w k Hq. apply in_app_iff in Hq as [Hq|Hq].
      * rewrite Forall_forall in B2. destruct (B2 _ Hq) as (K1 & K2 & K3 & K4 & K5 & K6 & _). cbn [fst snd] in *.
        assert (Hb : In w bs) by (apply B1; exact (in_map fst wk1 (w, k) Hq)). split; [exact (avail_idle _ _ _ _ _ w Eb Hb)|].
        split; [|unfold team_fit; rewrite H5; exact I]. rewrite Hrecv in K3. split; auto. split; auto. split.
        { intros i Hin. rewrite K5 in Hin. apply returned_spec in Hin as (r & E1 & _). eauto. }
        split; [intros _; rewrite K4; apply (GF (u_persis_in a)); auto; intros f Hx; apply in_app_iff; right; apply in_app_iff; auto|]. intros _ X. rewrite K1 in X. discriminate.
      * rewrite Forall_forall in D2. destruct (D2 _ Hq) as (K1 & K2 & K3 & K4 & _). cbn [fst snd] in *.
        assert (Hb : In w ws) by (rewrite D1; apply in_app_iff; left; exact (in_map fst n2 (w, k) Hq)). split; [exact (avail_idle _ _ _ _ _ w Ew Hb)|].
        split; [|unfold team_fit; rewrite H5; exact I]. split; auto. split; auto. split.
        { intros i Hin. assert (X : In i (to_evaluate H)).
          { apply (Permutation_in _ (Permutation_sym D6)), in_app_iff. left. apply in_concat. exists (k_rows k). split; auto. exact (in_map (fun q => k_rows (snd q)) n2 (w, k) Hq). }
          apply to_evaluate_spec in X as (r & E1 & _). eauto. }
        split; [intros _; rewrite K4; apply (GF (u_sim_in a)); auto; intros f Hx; apply in_app_iff; auto|]. intros X _ Y. specialize (D3 (Hkill X)). rewrite Forall_forall in D3. specialize (D3 _ Hq). cbn [snd] in D3. rewrite Y in D3. discriminate.
Qed.
End Turn.
