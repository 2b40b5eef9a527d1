(** Waiting generators get what is due to them. *)
From Coq Require Import String Permutation Sorted.
From Verif Require Import Base BaseLemmas HistoryModel HistoryProofs WorkModel RsetModel RsetSpec SchedModel SchedSpec SchedServe AllocModel AllocSpec AllocProofs AllocLoops AllocFacts AllocFast AllocPersis AllocModel2 AllocSpec2 AllocMore AllocMore2 AllocMore3 AllocMore4.
Local Notation length := List.length.
Local Open Scope list_scope.
Local Open Scope nat_scope.

Section Keep.
Variable c : actx.

Lemma gen_work_ok w fields rows pers recv s k s' : gen_work c w fields rows pers recv s = (Ok k, s') -> k_tag k = EVAL_GEN /\ k_rows k = rows.
Proof.
  unfold gen_work. destruct (update_team _ _ _ _) as [[[[t np] ng]|e0] s1]; [|discriminate].
  destruct (wget _ _ _); [|discriminate]. destruct (avail_workers _ _ _ _ _); [|discriminate]. intros [= <- _]. auto.
Qed.

Lemma back_each_all fields f (J : list row -> Prop) : forall ws H wk s H' wk' s',
  (forall w G x G', In w ws -> J G -> f w G = Ok (x, G') -> J G') -> J H -> NoDup ws ->
  back_each c fields f ws H wk s = (H', wk', s', None) ->
  (forall q, In q wk -> ~ In (fst q) ws -> In q wk') /\
  forall w (P : list nat -> Prop), In w ws -> (forall G x G', J G -> f w G = Ok (x, G') -> exists ids, x = Some ids /\ P ids) ->
    exists k, In (w, k) wk' /\ k_tag k = EVAL_GEN /\ P (k_rows k).
Proof.
  induction ws as [|v ws IH]; intros H wk s H' wk' s' HJ J0 Hn; cbn [back_each].
  { intros [= <- <- <-]. split; [auto|intros ? ? []]. }
  destruct (f v H) as [[x H1]|e1] eqn:Ef; [|discriminate]. inversion Hn as [|? ? Hv Hn']. subst.
  assert (J1 : J H1) by (eapply HJ; eauto; now left).
  assert (HJ' : forall v G x G', In v ws -> J G -> f v G = Ok (x, G') -> J G') by (intros; eapply HJ; eauto; now right).
  destruct x as [ids|].
  - destruct (gen_work c v fields ids true None s) as [[k|e1] s1] eqn:Eg; [|discriminate]. intros E.
    apply IH in E as [E1 E2]; auto. destruct (gen_work_ok _ _ _ _ _ _ _ _ Eg) as [T1 T2]. split.
    + intros q Hq Hni. apply E1; [|intros Hi; apply Hni; now right]. destruct q as [w0 k0]. apply dict_set_keep; auto. intros ->. apply Hni. now left.
    + intros w P [<-|Hw] HP; [|exact (E2 w P Hw HP)]. exists k. split; [apply E1; [apply dict_set_get|exact Hv]|].
      destruct (HP _ _ _ J0 Ef) as (ids' & [= <-] & Hids). rewrite T2. auto.
  - intros E. apply IH in E as [E1 E2]; auto. split.
    + intros q Hq Hni. apply E1; auto. intros Hi. apply Hni. now right.
    + intros w P [<-|Hw] HP; [|exact (E2 w P Hw HP)]. destruct (HP _ _ _ J0 Ef) as (ids' & Y & _). discriminate.
Qed.

Lemma pick_sims_keep d H pick ws : forall pts wk s wk' s' pts' e, pick_sims c d H pick ws pts wk s = (wk', s', pts', e) ->
  forall q, In q wk -> ~ In (fst q) ws -> In q wk'.
Proof.
  induction ws as [|w ws IH]; intros pts wk s wk' s' pts' e; cbn [pick_sims]; [intros [= <- _ _ _]; auto|].
  destruct pts as [|p0 pts]; [intros [= <- _ _ _]; auto|]. destruct (sim_work _ _ _ _ _ _ _) as [[k|er] s1].
  - intros E q Hq Hn. eapply IH in E; [exact E| |intros Hi; apply Hn; now right]. destruct q as [w0 k0]. apply dict_set_keep; auto. intros ->. apply Hn. now left.
  - destruct er; intros [= <- _ _ _]; auto.
Qed.
Lemma fast_sims_keep d H ws : forall nx wk s wk' s' nx' e, fast_sims c d H ws nx wk s = (wk', s', nx', e) ->
  forall q, In q wk -> ~ In (fst q) ws -> In q wk'.
Proof.
  induction ws as [|w ws IH]; intros nx wk s wk' s' nx' e; cbn [fast_sims]; [intros [= <- _ _ _]; auto|].
  destruct (_ <? _); [|intros E q Hq Hn; eapply IH in E; eauto; intros Hi; apply Hn; now right]. destruct (sim_work _ _ _ _ _ _ _) as [[k|er] s1].
  - intros E q Hq Hn. eapply IH in E; [exact E| |intros Hi; apply Hn; now right]. destruct q as [w0 k0]. apply dict_set_keep; auto. intros ->. apply Hn. now left.
  - destruct er; intros [= <- _ _ _]; auto.
Qed.
Lemma start_first_keep ws pers wk s wk' s' e : start_first c ws pers wk s = (wk', s', e) -> forall q, In q wk -> ~ In (fst q) ws -> In q wk'.
Proof.
  unfold start_first. destruct ws as [|w ws]; [intros [= <- _ _]; auto|]. destruct (gen_work _ _ _ _ _ _ _) as [[k|er] s1]; intros [= <- _ _]; auto.
  intros q Hq Hn. destruct q as [w0 k0]. apply dict_set_keep; auto. intros ->. apply Hn. now left.
Qed.
Lemma lo_start_keep o ws : forall gc H wk s H' wk' s' gc' e, lo_start c o ws gc H wk s = (H', wk', s', gc', e) ->
  forall q, In q wk -> ~ In (fst q) ws -> In q wk'.
Proof.
  induction ws as [|w ws IH]; intros gc H wk s H' wk' s' gc' e; cbn [lo_start]; [intros [= _ <- _ _ _]; auto|]. cbn zeta.
  destruct (if existsb _ H then _ else []) as [|i rest]; [intros E q Hq Hn; eapply IH in E; eauto; intros Hi; apply Hn; now right|].
  destruct (_ <? _); [|intros E q Hq Hn; eapply IH in E; eauto; intros Hi; apply Hn; now right].
  destruct (gen_work _ _ _ _ _ _ _) as [[k|er] s1].
  - intros E q Hq Hn. eapply IH in E; [exact E| |intros Hi; apply Hn; now right]. destruct q as [w0 k0]. apply dict_set_keep; auto. intros ->. apply Hn. now left.
  - destruct er; intros [= _ <- _ _ _]; auto.
Qed.

(** where the generator orders come from *)
Lemma sim_work_tag d H w rows pers s k s' : sim_work c d H w rows pers s = (Ok k, s') -> k_tag k = EVAL_SIM.
Proof. unfold sim_work. destruct (update_team _ _ _ _) as [[[[t np] ng]|e0] s1]; [|discriminate]. intros [= <- _]. reflexivity. Qed.
Lemma back_each_in fields f : forall ws H wk s H' wk' s' e, back_each c fields f ws H wk s = (H', wk', s', e) -> forall q, In q wk' -> In q wk \/ In (fst q) ws.
Proof.
  induction ws as [|w ws IH]; intros H wk s H' wk' s' e; cbn [back_each]; [intros [= _ <- _ _]; auto|].
  destruct (f w H) as [[[ids|] H1]|e1]; [| |intros [= _ <- _ _]; auto].
  - destruct (gen_work _ _ _ _ _ _ _) as [[k|e1] s1]; [|intros [= _ <- _ _]; auto]. intros E0 q Hq. destruct (IH _ _ _ _ _ _ _ E0 q Hq) as [E|E]; [|right; right; exact E].
    apply dict_set_In in E as [-> |E]; [right; now left|now left].
  - intros E0 q Hq. destruct (IH _ _ _ _ _ _ _ E0 q Hq) as [E|E]; [now left|right; right; exact E].
Qed.
Lemma pick_sims_in d H pick : forall ws pts wk s wk' s' pts' e, pick_sims c d H pick ws pts wk s = (wk', s', pts', e) -> forall q, In q wk' -> In q wk \/ k_tag (snd q) = EVAL_SIM.
Proof.
  induction ws as [|w ws IH]; intros pts wk s wk' s' pts' e; cbn [pick_sims]; [intros [= <- _ _ _]; auto|].
  destruct pts as [|p0 pts]; [intros [= <- _ _ _]; auto|]. destruct (sim_work _ _ _ _ _ _ _) as [[k|er] s1] eqn:Es.
  - intros E0 q Hq. destruct (IH _ _ _ _ _ _ _ E0 q Hq) as [E|E]; [|right; exact E]. apply dict_set_In in E as [-> |E]; [right; cbn; eapply sim_work_tag; eauto|now left].
  - destruct er; intros [= <- _ _ _]; auto.
Qed.
Lemma fast_sims_in d H : forall ws nx wk s wk' s' nx' e, fast_sims c d H ws nx wk s = (wk', s', nx', e) -> forall q, In q wk' -> In q wk \/ k_tag (snd q) = EVAL_SIM.
Proof.
  induction ws as [|w ws IH]; intros nx wk s wk' s' nx' e; cbn [fast_sims]; [intros [= <- _ _ _]; auto|].
  destruct (_ <? _); [|intros E q Hq; eapply IH in E; eauto]. destruct (sim_work _ _ _ _ _ _ _) as [[k|er] s1] eqn:Es.
  - intros E0 q Hq. destruct (IH _ _ _ _ _ _ _ E0 q Hq) as [E|E]; [|right; exact E]. apply dict_set_In in E as [-> |E]; [right; cbn; eapply sim_work_tag; eauto|now left].
  - destruct er; intros [= <- _ _ _]; auto.
Qed.
Lemma start_first_in ws pers wk s wk' s' e : start_first c ws pers wk s = (wk', s', e) -> forall q, In q wk' -> In q wk \/ fst q = hd 0 ws.
Proof.
  unfold start_first. destruct ws as [|w ws]; [intros [= <- _ _]; auto|]. destruct (gen_work _ _ _ _ _ _ _) as [[k|er] s1]; intros [= <- _ _]; auto.
  intros q Hq. apply dict_set_In in Hq as [-> |Hq]; [right; reflexivity|now left].
Qed.

Lemma waiting_in bs w : waiting_gen (ac_W c) w -> avail_workers (ac_W c) (Some EVAL_GEN) false None None = Ok bs -> In w bs.
Proof.
  intros (r & R1 & R2 & R3 & R4). unfold avail_workers. cbn. intros [= <-]. apply in_map_iff. exists r. split; auto. apply filter_In. split; auto.
  rewrite R3, R4. cbn. now destruct (negb _), (negb _).
Qed.
End Keep.

Section Flows.
Variables (c : actx) (d : dtype) (g : nat) (H : list row).
Hypothesis (Hids : ids_distinct (ac_W c)) (Hres : resources_ok c).

Lemma not_ws w b ws : waiting_gen (ac_W c) w -> avail_workers (ac_W c) (Some 0) false None (Some b) = Ok ws -> ~ In w ws.
Proof. intros Hw E Hin. exact (free_not_waiting _ _ Hids (ws_free _ _ _ _ E Hin) Hw). Qed.

Lemma fd_flows u w : waiting_gen (ac_W c) w -> fd_send u H <> [] -> o_err (finite_diff_alloc c d u false g H) = None ->
  exists k, In (w, k) (o_work (finite_diff_alloc c d u false g H)) /\ k_tag k = EVAL_GEN /\ k_rows k = fd_send u H.
Proof.
  intros Hw Hs. unfold finite_diff_alloc.
  destruct (negb (length H =? 0) && (count_persis_gens (ac_W c) =? 0)) eqn:E0.
  { apply andb_true_iff in E0. destruct E0 as [_ E0]. apply Nat.eqb_eq, count_persis_zero in E0. exfalso. apply E0. destruct Hw as (r & R1 & _ & _ & R4). exists r. auto. }
  destruct (avail_workers _ (Some EVAL_GEN) _ _ _) as [bs|] eqn:Eb; [|cbn in Eb; discriminate].
  destruct (avail_workers _ (Some 0) false None (Some false)) as [ws|] eqn:Ew; [|cbn in Ew; discriminate].
  destruct (avail_workers _ (Some 0) false None (Some true)) as [gs|] eqn:Eg; [|cbn in Eg; discriminate].
  destruct (back_each _ _ _ _ _ _ _) as [[[H1 wk1] s1] [e1|]] eqn:E1; [discriminate|].
  apply (back_each_all c _ _ (fun G => G = H)) in E1 as [_ E1]; [|intros v G x G' _ -> [= _ <-]; auto|auto|exact (avail_sub _ _ _ _ _ _ Eb Hids)].
  destruct (E1 w (fun l => l = fd_send u H)) as (k & K1 & K2 & K3); [eapply waiting_in; eauto| |].
  { intros G x G' -> [= <- _]. unfold none_if_empty. destruct (fd_send u H); [congruence|eauto]. }
  destruct (pick_sims _ _ _ _ _ _ _ _) as [[[wk2 s2] pts] [e2|]] eqn:E2; [discriminate|].
  pose proof (pick_sims_keep _ _ _ _ _ _ _ _ _ _ _ _ E2 _ K1 (not_ws _ _ _ Hw Ew)) as K4.
  destruct (count_persis_gens (ac_W c) =? 0); [|intros _; exists k; auto]. destruct (start_first _ _ _ _ _) as [[wk3 s3] e3] eqn:E3.
  pose proof (start_first_keep _ _ _ _ _ _ _ _ E3 _ K4 (not_ws _ _ _ Hw Eg)) as K5. intros _. exists k. auto.
Qed.

Lemma aposmm_flows init p p' out w : waiting_gen (ac_W c) w -> ap_enough init p H -> ap_returned H <> [] ->
  aposmm_rest c d init g p H = (out, p') -> o_err out = None -> exists k, In (w, k) (o_work out) /\ k_tag k = EVAL_GEN /\ k_rows k = ap_returned H.
Proof.
  intros Hw He Hs. unfold aposmm_rest.
  destruct (avail_workers _ (Some EVAL_GEN) _ _ _) as [bs|] eqn:Eb; [|cbn in Eb; discriminate].
  destruct (avail_workers _ (Some 0) false None (Some false)) as [ws|] eqn:Ew; [|cbn in Ew; discriminate].
  destruct (avail_workers _ (Some 0) false None (Some true)) as [gs|] eqn:Eg; [|cbn in Eg; discriminate].
  set (en := ap_done p || _). assert (EN : en = true). { unfold en. destruct He as [-> |He]; auto. apply Nat.leb_le in He. rewrite He. apply orb_true_r. }
  rewrite EN. destruct (back_each _ _ _ _ _ _ _) as [[[H1 wk1] s1] [e1|]] eqn:E1; [intros [= <- <-]; discriminate|].
  apply (back_each_all c _ _ (fun G => G = H)) in E1 as [_ E1]; [|intros v G x G' _ -> [= _ <-]; auto|auto|exact (avail_sub _ _ _ _ _ _ Eb Hids)].
  destruct (E1 w (fun l => l = ap_returned H)) as (k & K1 & K2 & K3); [eapply waiting_in; eauto| |].
  { intros G x G' -> [= <- _]. unfold none_if_empty. destruct (ap_returned H); [congruence|eauto]. }
  unfold ap_sims. destruct (fast_sims _ _ _ _ _ _ _) as [[[wk2 s2] nx] [e2|]] eqn:E2; [intros [= <- <-]; discriminate|].
  pose proof (fast_sims_keep _ _ _ _ _ _ _ _ _ _ _ E2 _ K1 (not_ws _ _ _ Hw Ew)) as K4.
  assert (Fin : forall wk s0 e0 q, In (w, k) wk -> (mkAO H wk 0 s0 e0, q) = (out, p') -> o_err out = None -> exists k, In (w, k) (o_work out) /\ k_tag k = EVAL_GEN /\ k_rows k = ap_returned H).
  { intros wk s0 e0 q Hin [= <- _] _. exists k. auto. }
  destruct (ap_started p); [destruct gs; now apply Fin|]. destruct gs as [|v gs]; [now apply Fin|].
  destruct (gen_work _ _ _ _ _ _ _) as [[k1|er] s3] eqn:E3; [|destruct er; now apply Fin].
  apply Fin. apply dict_set_keep; auto. intros <-. eapply not_ws; eauto. now left.
Qed.

Lemma bs_in bs : avail_workers (ac_W c) (Some EVAL_GEN) false None None = Ok bs -> forall q : nat * work, In (fst q) bs -> waiting_gen (ac_W c) (fst q).
Proof. intros E q Hq. eapply bs_waiting; eauto. Qed.
Ltac three := 
  destruct (avail_workers _ (Some EVAL_GEN) _ _ _) as [bs|] eqn:Eb; [|cbn in Eb; discriminate];
  destruct (avail_workers _ (Some 0) false None (Some false)) as [ws|] eqn:Ew; [|cbn in Ew; discriminate];
  destruct (avail_workers _ (Some 0) false None (Some true)) as [gs|] eqn:Eg; [|cbn in Eg; discriminate].

(** At most one generator is started by a call. *)
Definition one_start (wk : wdict) : Prop := exists w0, forall w k, In (w, k) wk -> k_tag k = EVAL_GEN -> waiting_gen (ac_W c) w \/ w = w0.
Lemma one_start_nil : one_start [].
Proof. exists 0. intros w k []. Qed.
Lemma back_one fields f bs G wk s e (g0 : nat) : avail_workers (ac_W c) (Some EVAL_GEN) false None None = Ok bs -> 
  back_each c fields f bs H [] (support_init c g0) = (G, wk, s, e) -> forall q, In q wk -> waiting_gen (ac_W c) (fst q).
Proof. intros Eb E q Hq. destruct (back_each_in _ _ _ _ _ _ _ _ _ _ _ E q Hq) as [[]|X]. eapply bs_in; eauto. Qed.

Lemma fd_one_start u : one_start (o_work (finite_diff_alloc c d u false g H)).
Proof.
  unfold finite_diff_alloc. destruct (negb _ && _); [apply one_start_nil|]. three.
  destruct (back_each _ _ _ _ _ _ _) as [[[H1 wk1] s1] e1] eqn:E1. pose proof (back_one _ _ _ _ _ _ _ _ Eb E1) as B1.
  destruct e1 as [e1|]; [exists 0; intros w k Hin _; left; now apply (B1 (w, k))|].
  destruct (pick_sims _ _ _ _ _ _ _ _) as [[[wk2 s2] pts] e2] eqn:E2. pose proof (pick_sims_in _ _ _ _ _ _ _ _ _ _ _ _ E2) as B2.
  assert (O2 : forall q, In q wk2 -> k_tag (snd q) = EVAL_GEN -> waiting_gen (ac_W c) (fst q)) by (intros q Hq T; destruct (B2 q Hq) as [X|X]; [now apply B1|rewrite T in X; discriminate]).
  destruct e2 as [e2|]; [exists 0; intros w k Hin T; left; now apply (O2 (w, k))|].
  destruct (_ =? 0); [|exists 0; intros w k Hin T; left; now apply (O2 (w, k))]. destruct (start_first _ _ _ _ _) as [[wk3 s3] e3] eqn:E3.
  exists (hd 0 gs). intros w k Hin T. destruct (start_first_in _ _ _ _ _ _ _ _ E3 _ Hin) as [X|X]; [left; now apply (O2 (w, k))|now right].
Qed.
Lemma bayes_one_start n : one_start (o_work (inverse_bayes_alloc c d n false g H)).
Proof.
  unfold inverse_bayes_alloc. three.
  destruct (back_each _ _ _ _ _ _ _) as [[[H1 wk1] s1] e1] eqn:E1. pose proof (back_one _ _ _ _ _ _ _ _ Eb E1) as B1.
  destruct e1 as [e1|]; [exists 0; intros w k Hin _; left; now apply (B1 (w, k))|]. destruct (to_evaluate H1).
  - destruct (_ =? 0); [|exists 0; intros w k Hin T; left; now apply (B1 (w, k))]. destruct (start_first _ _ _ _ _) as [[wk3 s3] e3] eqn:E3.
    exists (hd 0 gs). intros w k Hin T. destruct (start_first_in _ _ _ _ _ _ _ _ E3 _ Hin) as [X|X]; [left; now apply (B1 (w, k))|now right].
  - destruct (pick_sims _ _ _ _ _ _ _ _) as [[[wk2 s2] pts] e2] eqn:E2. pose proof (pick_sims_in _ _ _ _ _ _ _ _ _ _ _ _ E2) as B2.
    exists 0. intros w k Hin T. left. destruct (B2 _ Hin) as [X|X]; [now apply (B1 (w, k))|cbn in X; rewrite T in X; discriminate].
Qed.
Lemma aposmm_one_start init p : one_start (o_work (fst (aposmm_rest c d init g p H))).
Proof.
  unfold aposmm_rest. three.
  destruct (back_each _ _ _ _ _ _ _) as [[[H1 wk1] s1] e1] eqn:E1. pose proof (back_one _ _ _ _ _ _ _ _ Eb E1) as B1.
  destruct e1 as [e1|]; [exists 0; intros w k Hin _; left; now apply (B1 (w, k))|]. unfold ap_sims.
  destruct (fast_sims _ _ _ _ _ _ _) as [[[wk2 s2] nx] e2] eqn:E2. pose proof (fast_sims_in _ _ _ _ _ _ _ _ _ _ _ E2) as B2.
  assert (O2 : forall q, In q wk2 -> k_tag (snd q) = EVAL_GEN -> waiting_gen (ac_W c) (fst q)) by (intros q Hq T; destruct (B2 q Hq) as [X|X]; [now apply B1|rewrite T in X; discriminate]).
  assert (O3 : one_start wk2) by (exists 0; intros w k Hin T; left; now apply (O2 (w, k))).
  destruct e2 as [e2|]; [exact O3|]. destruct (ap_started p); [destruct gs; exact O3|]. destruct gs as [|w0 gs]; [exact O3|].
  destruct (gen_work _ _ _ _ _ _ _) as [[k0|er] s3]; [|destruct er; exact O3]. exists w0. intros w k Hin T. apply dict_set_In in Hin as [Hin|Hin]; [right; congruence|left; now apply (O2 (w, k))].
Qed.

Lemma settled_same cols G w : same_but cols H G -> ~ In F_gen_worker cols -> ~ In F_sim_ended cols -> ~ In F_cancel_requested cols -> ~ In F_sim_started cols ->
  (forall i r, nth_error H i = Some r -> generated_by H w i -> settled r) -> forall i r, nth_error G i = Some r -> generated_by G w i -> settled r.
Proof.
  intros S N1 N2 N3 N4 HS i r E Hg. destruct (same_but_back _ _ _ _ _ S E) as (r0 & E0 & F). specialize (HS i r0 E0).
  unfold settled in *. rewrite !F; auto. apply HS. now apply (same_but_gen cols H G w i S N1).
Qed.

(** inverse_bayes: the generator whose points are all settled gets its last batch. *)
Lemma bayes_flows n w : waiting_gen (ac_W c) w -> (forall i r, nth_error H i = Some r -> generated_by H w i -> settled r) ->
  o_err (inverse_bayes_alloc c d n false g H) = None ->
  exists k, In (w, k) (o_work (inverse_bayes_alloc c d n false g H)) /\ k_tag k = EVAL_GEN /\ lists (k_rows k) (in_last_batch H w).
Proof.
  intros Hw HS. unfold inverse_bayes_alloc.
  destruct (avail_workers _ (Some EVAL_GEN) _ _ _) as [bs|] eqn:Eb; [|cbn in Eb; discriminate].
  destruct (avail_workers _ (Some 0) false None (Some false)) as [ws|] eqn:Ew; [|cbn in Ew; discriminate].
  destruct (avail_workers _ (Some 0) false None (Some true)) as [gs|] eqn:Eg; [|cbn in Eg; discriminate].
  destruct (back_each _ _ _ _ _ _ _) as [[[H1 wk1] s1] [e1|]] eqn:E1; [discriminate|].
  apply (back_each_all c _ _ (fun G => same_but [F_weight] H G)) in E1 as [_ E1];
    [|intros v G x G' _ S0 Ef; eapply same_but_trans; [exact S0|]; now apply bayes_back_spec in Ef as [Ef _]|apply same_but_refl|exact (avail_sub _ _ _ _ _ _ Eb Hids)].
  destruct (E1 w (fun l => lists l (in_last_batch H w))) as (k & K1 & K2 & K3); [eapply waiting_in; eauto| |].
  { intros G x G' S0 Ef. pose proof (bayes_back_spec _ _ _ _ _ Ef) as [_ X]. destruct x as [ids|].
    - destruct (X ids eq_refl) as (_ & _ & [L1 L2] & _). exists ids. split; auto. split; auto. intros i. rewrite L2. now apply last_batch_same.
    - unfold bayes_back in Ef. assert (Ea : all_sim_ended G (gen_of G w) 0 = true).
      { apply all_done_gen. apply (settled_same [F_weight]); auto; intros [Y|[]]; discriminate. }
      rewrite Ea in Ef. destruct (by_worker G w); [discriminate|]. destruct (_ || _); [|discriminate]. destruct (0 <? _)%Z; [|discriminate]. destruct (shift_weights _ _ _); discriminate. }
  destruct (to_evaluate H1).
  - destruct (count_persis_gens (ac_W c) =? 0); [|intros _; exists k; auto]. destruct (start_first _ _ _ _ _) as [[wk3 s3] e3] eqn:E3.
    pose proof (start_first_keep _ _ _ _ _ _ _ _ E3 _ K1 (not_ws _ _ _ Hw Eg)) as K5. intros _. exists k. auto.
  - destruct (pick_sims _ _ _ _ _ _ _ _) as [[[wk2 s2] pts] e2] eqn:E2.
    pose proof (pick_sims_keep _ _ _ _ _ _ _ _ _ _ _ _ E2 _ K1 (not_ws _ _ _ Hw Ew)) as K4. intros _. exists k. auto.
Qed.

(** local optimisation: the run whose points are all settled gets its latest point. *)
Lemma local_opt_flows o w : waiting_gen (ac_W c) w -> (forall i r, nth_error H i = Some r -> generated_by H w i -> settled r) ->
  o_err (local_opt_alloc c d o false g H) = None ->
  exists k, In (w, k) (o_work (local_opt_alloc c d o false g H)) /\ k_tag k = EVAL_GEN.
Proof.
  intros Hw HS. unfold local_opt_alloc. destruct (lo_err o); [discriminate|].
  assert (S0 : same_but lo_run_cols H (overlay lo_run_cols (lo_runs o) H)) by apply overlay_same.
  destruct (avail_workers _ (Some EVAL_GEN) _ _ _) as [bs|] eqn:Eb; [|cbn in Eb; discriminate].
  destruct (avail_workers _ (Some 0) false None (Some false)) as [ws|] eqn:Ew; [|cbn in Ew; discriminate].
  destruct (avail_workers _ (Some 0) false None (Some true)) as [gs|] eqn:Eg; [|cbn in Eg; discriminate].
  destruct (back_each _ _ _ _ _ _ _) as [[[H1 wk1] s1] [e1|]] eqn:E1; [discriminate|].
  apply (back_each_all c _ _ (fun G => G = overlay lo_run_cols (lo_runs o) H)) in E1 as [_ E1];
    [|intros v G x G' _ -> Ef; now apply lo_back_spec in Ef as [Ef _]|auto|exact (avail_sub _ _ _ _ _ _ Eb Hids)].
  destruct (E1 w (fun _ => True)) as (k & K1 & K2 & _); [eapply waiting_in; eauto| |].
  { intros G x G' -> Ef. destruct x as [ids|]; [eauto|]. unfold lo_back in Ef.
    assert (Ea : all_sim_ended (overlay lo_run_cols (lo_runs o) H) (gen_of (overlay lo_run_cols (lo_runs o) H) w) 0 = true).
    { apply all_done_gen. apply (settled_same lo_run_cols); auto; intros [Y|[Y|[]]]; discriminate. }
    rewrite Ea in Ef. destruct (by_worker _ w); discriminate. }
  destruct (lo_start _ _ _ _ _ _ _) as [[[[H2 wk2] s2] gc] [e2|]] eqn:E2; [discriminate|].
  pose proof (lo_start_keep _ _ _ _ _ _ _ _ _ _ _ _ E2 _ K1 (not_ws _ _ _ Hw Eg)) as K3.
  destruct (pick_sims _ _ _ _ _ _ _ _) as [[[wk3 s3] pts] [e3|]] eqn:E3; [discriminate|].
  pose proof (pick_sims_keep _ _ _ _ _ _ _ _ _ _ _ _ E3 _ K3 (not_ws _ _ _ Hw Ew)) as K4.
  destruct (_ && _); [|intros _; exists k; auto]. destruct (start_first _ _ _ _ _) as [[wk4 s4] e4] eqn:E4.
  pose proof (start_first_keep _ _ _ _ _ _ _ _ E4 _ K4 (not_ws _ _ _ Hw Eg)) as K5. intros _. exists k. auto.
Qed.
End Flows.

(** ** Successive calls of persistent_aposmm_alloc *)
Record ap_step (c : actx) (init : nat) (p p' : ap_state) (H : list row) (out : aout) : Prop := mkApStep {
  as_first : ap_first p' = ap_first p; as_samples : ap_samples p' = ap_samples p; as_next : ap_next p <= ap_next p' <= length H;
  as_rows : NoDup (sim_rows (o_work out)); as_range : forall i, In i (sim_rows (o_work out)) -> ap_next p <= i < ap_next p';
  as_mono : ap_started p = true -> ap_started p' = true;
  as_start : forall w k, In (w, k) (o_work out) -> k_tag k = EVAL_GEN -> ~ waiting_gen (ac_W c) w -> ap_started p = false /\ ap_started p' = true;
  as_one : forall w k w' k', In (w, k) (o_work out) -> k_tag k = EVAL_GEN -> ~ waiting_gen (ac_W c) w -> In (w', k') (o_work out) -> k_tag k' = EVAL_GEN -> ~ waiting_gen (ac_W c) w' -> w = w';
  as_back : forall w k, In (w, k) (o_work out) -> k_tag k = EVAL_GEN -> waiting_gen (ac_W c) w -> ap_done p = true \/ init + ap_samples p <= num_ended H;
  as_done : ap_done p' = true -> ap_done p = true \/ init + ap_samples p <= num_ended H }.

Lemma ap_step_rest c d init g p p' H out : ids_distinct (ac_W c) -> resources_ok c -> ap_next p <= length H ->
  aposmm_rest c d init g p H = (out, p') -> ap_step c init p p' H out.
Proof.
  intros Hi Hr Hn E. destruct (aposmm_facts c d init g p p' H out Hi Hr Hn E) as ((s & A) & HR & F0 & F1 & F2 & F3 & F4 & F5 & F6 & F7 & F8 & _).
  assert (Hu : forall w k, In (w, k) (o_work out) -> k_tag k = EVAL_GEN ->
    waiting_gen (ac_W c) w /\ ap_enough init p H \/ free_worker (ac_W c) w /\ ap_started p = false /\ ap_started p' = true).
  { intros w k Hin T. destruct (acc_units _ _ _ _ _ A _ Hin) as [(U1 & U2 & U3 & U4 & U5 & U6 & U7)|[[[(U & _) _] _]|(U1 & U2 & U3 & U4 & U5 & U6 & U7 & U8)]]; cbn in *;
      [left; auto|rewrite T in U; discriminate|right; auto]. }
  split; auto.
  - apply A.
  - intros i Hin. apply F5, wanted_In in Hin. lia.
  - intros w k Hin T Hnw. destruct (Hu w k Hin T) as [[X _]|(_ & X)]; [contradiction|exact X].
  - intros w k w' k' Hin T Hnw Hin' T' Hnw'. destruct (aposmm_one_start c d g H init p) as (w0 & O). rewrite E in O. cbn in O.
    destruct (O w k Hin T) as [X| ->]; [contradiction|]. destruct (O w' k' Hin' T') as [X| ->]; [contradiction|reflexivity].
  - intros w k Hin T Hw. destruct (Hu w k Hin T) as [[_ X]|[X _]]; [exact X|]. destruct (free_not_waiting _ _ Hi X Hw).
Qed.
Lemma ap_step_nothing c init p H g f e : ap_next p <= length H -> ap_step c init p p H (mkAO H [] f g e).
Proof. intros Hn. split; cbn [o_work]; auto; try (intros ? ? []); try lia; try apply NoDup_nil; intros ? []. Qed.

Lemma calls_fit_tail c H out l : calls_fit ((c, H, out) :: l) -> calls_fit l.
Proof.
  intros [F1 F2]. split; [intros c0 H0 o0 Hin; apply (F1 c0 H0 o0); now right|]. intros k c0 H0 o0 c1 H1 o1 N1 N2. exact (F2 (S k) c0 H0 o0 c1 H1 o1 N1 N2).
Qed.

Lemma aposmm_later d init s l s' : calls_of (aposmm_call d init) s l s' -> let p := snd s in ap_first p = false -> calls_fit l ->
  (forall c H out, nth_error l 0 = Some (c, H, out) -> ap_next p <= length H) ->
  NoDup (all_given l) /\ (forall i, In i (all_given l) -> ap_next p <= i) /\
  (forall j c H out w k, nth_error l j = Some (c, H, out) -> In (w, k) (o_work out) -> k_tag k = EVAL_GEN -> ~ waiting_gen (ac_W c) w -> ap_started p = false) /\
  (forall j c H out w k j' c' H' out' w' k', nth_error l j = Some (c, H, out) -> In (w, k) (o_work out) -> k_tag k = EVAL_GEN -> ~ waiting_gen (ac_W c) w ->
     nth_error l j' = Some (c', H', out') -> In (w', k') (o_work out') -> k_tag k' = EVAL_GEN -> ~ waiting_gen (ac_W c') w' -> j = j' /\ w = w') /\
  (forall j c H out w k, nth_error l j = Some (c, H, out) -> In (w, k) (o_work out) -> k_tag k = EVAL_GEN -> waiting_gen (ac_W c) w ->
     ap_done p = true \/ exists j' c' H' out', j' <= j /\ nth_error l j' = Some (c', H', out') /\ init + ap_samples p <= num_ended H').
Proof.
  intros C. induction C as [[g p]|[g p] [g1 p1] [g2 p2] c H out l E C IH]; cbn [snd] in *; intros Hf Fit Hn.
  - cbn. split; [constructor|]. split; [intros i []|]. split; [intros [|j]; discriminate|]. split; [intros [|j]; discriminate|intros [|j]; discriminate].
  - destruct (proj1 Fit c H out (or_introl eq_refl)) as [Hi Hr]. specialize (Hn c H out eq_refl).
    assert (St : ap_step c init p p1 H out).
    { unfold aposmm_call in E. cbn [fst snd] in E. destruct (persistent_aposmm_alloc c d init false g p H) as [o q] eqn:E'. injection E as <- <- <-.
      rename E' into E. unfold persistent_aposmm_alloc in E. rewrite Hf in E. destruct (_ =? 0); [injection E as <- <-; now apply ap_step_nothing|]. eapply ap_step_rest; eauto. }
    destruct St as [S1 S2 S3 S4 S5 S6 S7 S8 S9 S10]. destruct IH as (I1 & I2 & I3 & I4 & I5); [congruence|eapply calls_fit_tail; eauto| |].
    { intros c0 H0 o0 N0. pose proof (proj2 Fit 0 c H out c0 H0 o0 eq_refl N0). lia. }
    unfold all_given in *. cbn [map concat snd]. split; [|split; [|split; [|split]]].
    + apply NoDup_app_intro; auto. intros i X Y. apply S5 in X. apply I2 in Y. lia.
    + intros i Hin. apply in_app_or in Hin. destruct Hin as [Hin|Hin]; [apply S5 in Hin; lia|apply I2 in Hin; lia].
    + intros [|j] c0 H0 o0 w k N Hin T Hw.
      * injection N as <- <- <-. now apply (S7 w k).
      * destruct (ap_started p) eqn:Es; auto. specialize (S6 eq_refl). rewrite (I3 j c0 H0 o0 w k N Hin T Hw) in S6. discriminate.
    + intros [|j] c0 H0 o0 w k [|j'] c1 H1 o1 w' k' N Hin T Hw N' Hin' T' Hw'.
      * injection N as <- <- <-. injection N' as <- <- <-. split; auto. exact (S8 w k w' k' Hin T Hw Hin' T' Hw').
      * injection N as <- <- <-. destruct (S7 w k Hin T Hw) as [_ X]. rewrite (I3 j' c1 H1 o1 w' k' N' Hin' T' Hw') in X. discriminate.
      * injection N' as <- <- <-. destruct (S7 w' k' Hin' T' Hw') as [_ X]. rewrite (I3 j c0 H0 o0 w k N Hin T Hw) in X. discriminate.
      * destruct (I4 j c0 H0 o0 w k j' c1 H1 o1 w' k' N Hin T Hw N' Hin' T' Hw') as [-> ->]. auto.
    + intros [|j] c0 H0 o0 w k N Hin T Hw.
      * injection N as <- <- <-. destruct (S9 w k Hin T Hw) as [X|X]; [now left|]. right. exists 0, c, H, out. auto.
      * destruct (I5 j c0 H0 o0 w k N Hin T Hw) as [X|(j' & c' & H' & o' & X1 & X2 & X3)].
        -- destruct (S10 X) as [Y|Y]; [now left|]. right. exists 0, c, H, out. split; [lia|]. auto.
        -- right. exists (S j'), c', H', o'. rewrite <- S2. split; [lia|]. auto.
Qed.
