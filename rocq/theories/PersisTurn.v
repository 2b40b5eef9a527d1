(** One turn of a run driven by start_only_persistent. *)
From Coq Require Import Permutation.
From Verif Require Import Base BaseLemmas HistoryModel HistorySpec HistoryProofs HistoryXIn HistoryInv HistoryInv2 HistoryRun HistoryRun2 HistoryRun3 HistoryBack RsetModel RsetSpec WorkModel SchedModel SchedSpec AllocModel AllocSpec AllocProofs AllocLoops AllocFacts AllocPersis ManagerModel ManagerSpec ManagerProofs ManagerMsg ManagerRun ManagerInv ManagerFinal ManagerEnd ManagerRes DrivenModel DrivenSpec DrivenProofs DrivenInv DrivenPoints DrivenRes DrivenSets DrivenGens DrivenOrders DrivenTrace DrivenEnds DrivenEnds2 PersisEndsSpec PersisHist PersisTrace PersisEnds PersisCall.

Lemma edited_same m out : h_index (m_h m) <= length (h_rows (m_h m)) -> o_rows out = trim_H (m_h m) -> edited m out = m.
Proof.
  intros Hi Ho. assert (X : h_rows (m_h (edited m out)) = h_rows (m_h m)).
  { apply nth_error_ext. intros k. rewrite edited_rows by (auto; now rewrite Ho). rewrite Ho. destruct (Nat.ltb_spec k (h_index (m_h m))) as [L|L]; auto.
    unfold trim_H. now rewrite nth_error_firstn, (proj2 (Nat.ltb_lt _ _) L). }
  unfold edited in *. change (mapi 0 (fun i r => nth i (o_rows out) r) (trim_H (m_h m)) ++ skipn (h_index (m_h m)) (h_rows (m_h m)) = h_rows (m_h m)) in X.
  unfold alloc_edit. rewrite X. destruct m as [h ? ? ? ? ? ?]. destruct h. reflexivity.
Qed.

Lemma orders_log c wk : forall m m' e, table_ok c m -> give_orders c wk m = (m', e) -> table_ok c m' /\ exists l, m_log m' = m_log m ++ l.
Proof.
  induction wk as [|[[w k] t] wk IH]; intros m m' e T; cbn [give_orders]; [intros [= <- _]; split; auto; exists []; now rewrite app_nil_r|].
  destruct (sim_max_given c m); [intros [= <- _]; split; auto; exists []; now rewrite app_nil_r|].
  destruct (give_order c t w k m) as [m1 e1] eqn:E. apply give_order_spec in E as (_ & _ & _ & T1 & _ & E2 & _); auto.
  assert (X : exists l, m_log m1 = m_log m ++ l).
  { destruct E2 as [->|(r0 & k' & l & _ & _ & _ & -> & _)]; [exists []; now rewrite app_nil_r|eauto]. }
  destruct e1 as [e1|]; cbn [bindx]; [intros [= <- _]; auto|]. intros EO. apply IH in EO as (T2 & l2 & ->); auto. split; auto. destruct X as (l & ->). exists (l ++ l2). now rewrite app_assoc.
Qed.
Lemma receive_log c msgs : forall m m' e, table_ok c m -> receive c msgs m = (m', e) -> table_ok c m' /\ exists l, m_log m' = m_log m ++ l.
Proof.
  unfold receive. induction msgs as [|[[w i] t] msgs IH]; intros m m' e T; cbn [foldx]; [intros [= <- _]; split; auto; exists []; now rewrite app_nil_r|].
  destruct (poll c (w, i, t) m) as [m1 e1] eqn:E.
  assert (X : table_ok c m1 /\ exists l, m_log m1 = m_log m ++ l).
  { apply poll_spec in E as [(_ & -> & _)|(r0 & _ & _ & T1 & _ & _ & [(-> & _)|(_ & _ & _ & -> & _)] & _)]; auto; (split; [auto|eauto]). exists []. now rewrite app_nil_r. }
  destruct X as [T1 (l & X)]. destruct e1 as [e1|]; cbn [bindx]; [intros [= <- _]; split; eauto|]. intros E2. apply IH in E2 as (T2 & l2 & ->); auto. split; auto. exists (l ++ l2). now rewrite X, app_assoc.
Qed.

Section Turn.
Variables (c : mcfg) (single : bool) (num : nat).
Let J0 := J0 c single num.
Let Jp := Jp c single num.
Let L := LT c (Qp single num (c_sim_max c)).

(** ** Orders while generators run *)
Lemma going_give p t w k m m' : J0 m -> going num p m -> unit_ok single m (w, k) -> (k_tag k = EVAL_GEN -> k_rows k <> []) ->
  (k_tag k = EVAL_GEN -> forall r, In r (m_W m) -> w_id r = w -> w_persis r = EVAL_GEN) -> sim_max_given c m = false -> give_order c t w k m = (m', None) -> fineP (m_log m') ->
  J0 m' /\ going num p m' /\ (forall q, fst q <> w -> unit_ok single m q -> (k_tag (snd q) = EVAL_GEN -> forall r, In r (m_W m) -> w_id r = fst q -> w_persis r = EVAL_GEN) ->
     unit_ok single m' q /\ (k_tag (snd q) = EVAL_GEN -> forall r, In r (m_W m') -> w_id r = fst q -> w_persis r = EVAL_GEN)).
Proof.
  intros HJ (G1 & G2 & G3 & G4) HU Hr Hp HM E Hf.
  assert (RM : room num m k) by (intros Ht E0; destruct (Hr Ht E0)).
  destruct (J0_give c single num t w k m m' HJ HU RM HM E) as (HJ' & (r0 & R0 & Rw & Tc) & SK & _ & _ & HI & _ & _ & KR & KU).
  assert (T : table_ok c m) by apply HJ.
  assert (PE : w_persis (given t k r0) = w_persis r0).
  { destruct HU as (_ & _ & O2 & _ & O4 & O5 & _). cbn [fst snd] in *. unfold given. cbn [w_persis]. destruct O2 as [Et|Et].
    - destruct (O4 Et) as [-> _]. reflexivity.
    - destruct (O5 Et) as [-> _]. rewrite (Hp Et r0 R0 Rw). exact Et. }
  pose proof (touch_count c w r0 (given t k r0) m m' (fun r => w_persis r =? EVAL_GEN) T Tc) as CN. cbn beta in CN. rewrite PE in CN.
  fold (count_persis_gens (m_W m)) in CN. fold (count_persis_gens (m_W m')) in CN. assert (CN' : count_persis_gens (m_W m') = count_persis_gens (m_W m)) by lia.
  assert (Tin : forall r, In r (m_W m') -> r = given t k r0 \/ In r (m_W m) /\ w_id r <> w).
  { intros r Hin. destruct Tc as (_ & _ & _ & _ & Tc). apply Tc in Hin. rewrite Rw in Hin. exact Hin. }
  split; [exact HJ'|]. split.
  - unfold going. rewrite CN'. split; auto. split; auto. split.
    + destruct G3 as [G3|G3]; auto. right. intros r Hin Hm. destruct (Tin r Hin) as [->|[Hin' _]].
      * rewrite PE. apply G3; auto. exact (may_gen_same _ _ (given t k r0) r0 (kinds_sym _ _ SK) eq_refl eq_refl Hm).
      * apply G3; auto. exact (may_gen_same _ _ r r (kinds_sym _ _ SK) eq_refl eq_refl Hm).
    + intros r Hin P1 P2. destruct (Tin r Hin) as [->|[Hin' Hne]].
      * exfalso. unfold given in P2. cbn [w_active] in P2. destruct HU as (_ & _ & O2 & _). cbn [snd] in O2. destruct O2 as [O2|O2]; rewrite O2 in P2; discriminate.
      * destruct (G4 r Hin' P1 P2) as (i & I1 & I2 & I3). exists i. rewrite HI. split; [exact I1|]. exact (KR Hf i (w_id r) Hne I1 I2 I3).
  - intros q Hq HU' Hg. split; [exact (KU Hf q Hq HU')|]. intros Ht r Hin Er. destruct (Tin r Hin) as [->|[Hin' _]]; [|auto].
    destruct Hq. rewrite <- Er. exact Rw.
Qed.

Lemma going_orders p v wk : forall m m' e, J0 m -> going num p m -> NoDup (map fst wk) ->
  (forall q, In q wk -> unit_ok single m q /\ (k_tag (snd q) = EVAL_GEN -> k_rows (snd q) <> []) /\
     (k_tag (snd q) = EVAL_GEN -> forall r, In r (m_W m) -> w_id r = fst q -> w_persis r = EVAL_GEN)) ->
  give_orders c (stamped v wk) m = (m', e) -> fineP (m_log m') -> L m' /\ (e = None -> Jp p m').
Proof.
  induction wk as [|[w k] wk IH]; intros m m' e HJ HG Hn HW; cbn [stamped map give_orders].
  { intros [= <- <-] _. split; [apply HJ|]. split; auto. }
  destruct (sim_max_given c m) eqn:HM; [intros [= <- <-] _; split; [apply HJ|split; auto]|]. cbn [fst].
  destruct (HW (w, k) (or_introl eq_refl)) as (W1 & W2 & W3). cbn [fst snd] in *. inversion_clear Hn as [|? ? N1 N2].
  assert (T : table_ok c m) by apply HJ.
  destruct (give_order c (v_times v w) w k m) as [m1 [e1|]] eqn:E; cbn [bindx].
  - intros [= <- <-] Hf. split; [|discriminate]. assert (RM : room num m k) by (intros Ht E0; destruct (W2 Ht E0)).
    exact (LTp_give c single num _ w k m m1 _ HJ W1 RM HM E).
  - intros EO Hf. assert (T1 : table_ok c m1) by (pose proof E as E'; apply give_order_spec in E' as (_ & _ & _ & X & _); auto).
    destruct (orders_log c _ m1 m' e T1 EO) as (_ & l & El). assert (Hf1 : fineP (m_log m1)) by (rewrite El in Hf; eapply fineP_app; eauto).
    destruct (going_give p _ w k m m1 HJ HG W1 W2 W3 HM E Hf1) as (HJ1 & HG1 & HK). apply (IH m1 m' e); auto.
    intros q Hq. destruct (HW q (or_intror Hq)) as (U1 & U2 & U3). destruct (HK q) as [A B]; auto. intros X. apply N1. rewrite <- X. now apply in_map.
Qed.

(** ** Orders that start the generators *)
Lemma first_orders p v : pi_gens_started p >= 1 -> pi_gens_started p <= num -> forall wk m m' e, J0 m -> NoDup (map fst wk) -> sim_max_given c m = false ->
  (forall r, In r (m_W m) -> (w_persis r = 0 /\ w_active r = 0) \/ (w_persis r = EVAL_GEN /\ w_active r = EVAL_GEN)) ->
  count_persis_gens (m_W m) + length wk = pi_gens_started p -> gen_starts (m_log m) + length wk = pi_gens_started p ->
  (forall r, In r (m_W m) -> may_gen (m_W m) r -> w_persis r = EVAL_GEN \/ In (w_id r) (map fst wk) \/ num <= pi_gens_started p) ->
  (forall q, In q wk -> unit_ok single m q /\ k_tag (snd q) = EVAL_GEN /\ k_rows (snd q) = [] /\ forall r, In r (m_W m) -> w_id r = fst q -> w_persis r = 0) ->
  give_orders c (stamped v wk) m = (m', e) -> fineP (m_log m') -> L m' /\ (e = None -> Jp p m').
Proof.
  intros P1 P2. induction wk as [|[w k] wk IH]; intros m m' e HJ Hn HM HI HC HS HG HW; cbn [stamped map give_orders].
  { intros [= <- <-] _. split; [apply HJ|]. intros _. split; [exact HJ|]. intros _. right. right. cbn [length] in *. rewrite Nat.add_0_r in *. split; auto. split; [lia|]. split.
    - destruct (Nat.le_gt_cases num (count_persis_gens (m_W m))) as [X|X]; auto. right. intros r Hr Hm. destruct (HG r Hr Hm) as [Y|[[]|Y]]; auto. lia.
    - intros r Hr Y Z. destruct (HI r Hr) as [[A _]|[_ A]]; [rewrite A in Y; discriminate Y|rewrite A in Z; discriminate Z]. }
  rewrite HM. cbn [fst]. destruct (HW (w, k) (or_introl eq_refl)) as (W1 & W2 & W3 & W4). cbn [fst snd] in *. inversion_clear Hn as [|? ? N1 N2].
  assert (T : table_ok c m) by apply HJ. cbn [length] in *. assert (RM : room num m k) by (intros _ _; lia).
  destruct (give_order c (v_times v w) w k m) as [m1 [e1|]] eqn:E; cbn [bindx].
  { intros [= <- <-] Hf. split; [|discriminate]. exact (LTp_give c single num _ w k m m1 _ HJ W1 RM HM E). }
  intros EO Hf. assert (T1 : table_ok c m1) by (pose proof E as E'; apply give_order_spec in E' as (_ & _ & _ & X & _); auto).
  destruct (orders_log c _ m1 m' e T1 EO) as (_ & l & El). assert (Hf1 : fineP (m_log m1)) by (rewrite El in Hf; eapply fineP_app; eauto).
  destruct (J0_give c single num _ w k m m1 HJ W1 RM HM E) as (HJ' & (r0 & R0 & Rw & Tc) & SK & GS & SM & _ & _ & _ & _ & KU).
  pose proof (touch_count c w r0 (given (v_times v w) k r0) m m1 (fun r => w_persis r =? EVAL_GEN) T Tc) as CN. cbn beta in CN.
  fold (count_persis_gens (m_W m)) in CN. fold (count_persis_gens (m_W m1)) in CN.
  assert (KP : k_persistent k = true) by (destruct W1 as (_ & _ & _ & _ & _ & O5 & _); apply O5; auto).
  assert (P0 : w_persis r0 = 0) by (apply W4; auto).
  assert (P3 : w_persis (given (v_times v w) k r0) = EVAL_GEN) by (unfold given; cbn [w_persis]; rewrite KP; exact W2).
  rewrite P0, P3 in CN. cbn in CN.
  assert (Tin : forall r, In r (m_W m1) -> r = given (v_times v w) k r0 \/ In r (m_W m) /\ w_id r <> w).
  { intros r Hin. destruct Tc as (_ & _ & _ & _ & Tc). apply Tc in Hin. rewrite Rw in Hin. exact Hin. }
  apply (IH m1 m' e); auto.
  - rewrite SM; auto.
  - intros r Hin. destruct (Tin r Hin) as [->|[Hin' _]]; [right; split; auto|auto].
  - lia.
  - rewrite GS. unfold is_start. rewrite W2, W3. cbn. lia.
  - intros r Hin Hm. destruct (Tin r Hin) as [->|[Hin' Hne]]; auto.
    destruct (HG r Hin' (may_gen_same _ _ r r (kinds_sym _ _ SK) eq_refl eq_refl Hm)) as [A|[[A|A]|A]]; auto. destruct Hne. symmetry. exact A.
  - intros q Hq. destruct (HW q (or_intror Hq)) as (U1 & U2 & U3 & U4). assert (Hne : fst q <> w) by (intros X; apply N1; rewrite <- X; now apply in_map).
    split; [exact (KU Hf1 q Hne U1)|]. split; auto. split; auto. intros r Hin Er. destruct (Tin r Hin) as [->|[Hin' _]]; [|auto]. destruct Hne. rewrite <- Er. exact Rw.
Qed.
End Turn.
