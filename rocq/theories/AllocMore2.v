(** Facts about finite_diff_alloc, inverse_bayes_alloc and persistent_aposmm_alloc. *)
From Coq Require Import String Permutation Sorted.
From Verif Require Import Base BaseLemmas HistoryModel HistoryProofs WorkModel RsetModel RsetSpec SchedModel SchedSpec SchedServe AllocModel AllocSpec AllocProofs AllocLoops AllocFacts AllocFast AllocPersis AllocModel2 AllocSpec2 AllocMore.
Local Notation length := List.length.
Local Open Scope list_scope.
Local Open Scope nat_scope.

(** ** Lists of rows *)
Lemma rows_where_In H q i : In i (rows_where H q) <-> exists r, nth_error H i = Some r /\ q r = true.
Proof.
  unfold rows_where. rewrite filter_In, in_seq. split.
  - intros [_ Hb]. destruct (nth_error H i) as [r|]; [eauto|discriminate].
  - intros (r & Hr & Hq). split; [|now rewrite Hr]. assert (i < length H) by (apply nth_error_Some; congruence). lia.
Qed.
Lemma rows_where_NoDup H q : NoDup (rows_where H q).
Proof. apply NoDup_filter, seq_NoDup. Qed.

Lemma to_evaluate_where H : to_evaluate H = rows_where H (fun r => negb (flag F_sim_started r) && negb (flag F_cancel_requested r)).
Proof.
  unfold to_evaluate, rows_where. set (q := fun r : row => negb (flag F_sim_started r) && negb (flag F_cancel_requested r)).
  assert (X : forall (G : list row) a, map fst (filter (fun p => negb (flag F_sim_started (snd p)) && negb (flag F_cancel_requested (snd p))) (combine (seq a (length G)) G))
    = filter (fun i => match nth_error G (i - a) with Some r => q r | None => false end) (seq a (length G))).
  { induction G as [|r G IH]; intros a; cbn [length seq combine filter]; auto. rewrite Nat.sub_diag. cbn [nth_error fst snd].
    assert (Y : map fst (filter (fun p => negb (flag F_sim_started (snd p)) && negb (flag F_cancel_requested (snd p))) (combine (seq (S a) (length G)) G))
      = filter (fun i => match nth_error (r :: G) (i - a) with Some r => q r | None => false end) (seq (S a) (length G))).
    { rewrite (IH (S a)). apply filter_ext_in. intros i Hi. apply in_seq in Hi. replace (i - a) with (S (i - S a)) by lia. reflexivity. }
    fold (q r). destruct (q r); cbn [map fst]; rewrite Y; reflexivity. }
  rewrite (X H 0). apply filter_ext. intros i. now rewrite Nat.sub_0_r.
Qed.

Lemma sorted_filter (p : nat -> bool) l : StronglySorted lt l -> StronglySorted lt (filter p l).
Proof.
  induction 1 as [|x l Hs IH Hf]; cbn; [constructor|]. destruct (p x); auto. constructor; auto.
  rewrite Forall_forall in *. intros y Hy. apply filter_In in Hy. now apply Hf.
Qed.
Lemma sorted_seq n : forall a, StronglySorted lt (seq a n).
Proof. induction n as [|n IH]; intros a; cbn; constructor; auto. apply Forall_forall. intros x Hx. apply in_seq in Hx. lia. Qed.
Lemma to_evaluate_sorted H : StronglySorted lt (to_evaluate H).
Proof. rewrite to_evaluate_where. apply sorted_filter, sorted_seq. Qed.

(** ** The three lists of workers *)
Lemma bs_waiting W bs w : avail_workers W (Some EVAL_GEN) false None None = Ok bs -> In w bs -> waiting_gen W w.
Proof. intros E Hw. destruct (avail_rows _ _ _ _ _ _ _ E Hw) as (r & R1 & R2 & R3 & R4). exists r. auto. Qed.
Lemma ws_free W g ws w : avail_workers W (Some 0) false None g = Ok ws -> In w ws -> free_worker W w.
Proof. intros E Hw. destruct (avail_rows _ _ _ _ _ _ _ E Hw) as (r & R1 & R2 & R3 & R4). exists r. auto. Qed.
Lemma ws_reserved W ws w : ids_distinct W -> avail_workers W (Some 0) false None (Some false) = Ok ws -> In w ws -> some_gen_only W -> ~ gen_only W w.
Proof.
  intros Hi E Hw Hg (r' & Q1 & Q2 & Q3). destruct (avail_gen _ _ _ _ _ _ E Hw Hg) as (r & R1 & R2 & R3).
  rewrite (id_unique _ r r' Hi R1 Q1) in R3 by congruence. congruence.
Qed.
Lemma gs_reserved W gs w : avail_workers W (Some 0) false None (Some true) = Ok gs -> In w gs -> some_gen_only W -> gen_only W w.
Proof. intros E Hw Hg. destruct (avail_gen _ _ _ _ _ _ E Hw Hg) as (r & R1 & R2 & R3). exists r. auto. Qed.
Lemma free_not_waiting W w : ids_distinct W -> free_worker W w -> waiting_gen W w -> False.
Proof. intros Hi (r & R1 & R2 & _ & R3) (r' & Q1 & Q2 & _ & Q3). rewrite (id_unique _ r r' Hi R1 Q1) in R3 by congruence. unfold EVAL_GEN in *. congruence. Qed.

(** ** Rows that agree outside user columns *)
Definition same_system (H H' : list row) : Prop :=
  length H' = length H /\ forall i r, nth_error H i = Some r -> exists r', nth_error H' i = Some r' /\ forall f, (forall n, f <> F_user n) -> r' f = r f.
Lemma same_system_refl H : same_system H H.
Proof. split; auto. intros i r E. exists r. auto. Qed.
Lemma same_system_trans A B C : same_system A B -> same_system B C -> same_system A C.
Proof.
  intros [L1 H1] [L2 H2]. split; [congruence|]. intros i r E. destruct (H1 _ _ E) as (r1 & E1 & F1). destruct (H2 _ _ E1) as (r2 & E2 & F2).
  exists r2. split; auto. intros f Hf. now rewrite F2, F1.
Qed.
Lemma same_system_back H H' i r' : same_system H H' -> nth_error H' i = Some r' -> exists r, nth_error H i = Some r /\ forall f, (forall n, f <> F_user n) -> r' f = r f.
Proof.
  intros [L S] E. destruct (nth_error H i) as [r|] eqn:Er.
  - destruct (S _ _ Er) as (r2 & E2 & F). rewrite E in E2. injection E2 as <-. eauto.
  - exfalso. apply nth_error_None in Er. assert (i < length H') by (apply nth_error_Some; congruence). lia.
Qed.
Lemma same_system_evaluable H H' i : same_system H H' -> evaluable H' i <-> evaluable H i.
Proof.
  intros S. split.
  - intros (r' & E & A & B). destruct (same_system_back _ _ _ _ S E) as (r & Er & F). exists r. rewrite <- !F by discriminate. auto.
  - intros (r & E & A & B). destruct (proj2 S _ _ E) as (r' & Er & F). exists r'. rewrite !F by discriminate. auto.
Qed.

(** ** From the filled dictionary to the specification *)
Section Sound.
Variables (c : actx) (d : dtype) (H : list row).
Hypothesis (Hids : ids_distinct (ac_W c)) (Hres : resources_ok c).

Definition gen_ok (p : nat * work) : Prop :=
  k_tag (snd p) = EVAL_GEN /\ (waiting_gen (ac_W c) (fst p) /\ k_persistent (snd p) = true \/ free_worker (ac_W c) (fst p)).
Definition sim_ok (H' : list row) (p : nat * work) : Prop :=
  sim_unit c d H' false p /\ free_worker (ac_W c) (fst p) /\ (some_gen_only (ac_W c) -> ~ gen_only (ac_W c) (fst p)).

Lemma acc_sound (E : nat -> Prop) U out s : acc c E U (o_work out) s ->
  (forall q, U q -> gen_ok q \/ sim_ok (o_rows out) q) -> (forall i, E i -> evaluable H i) -> same_system H (o_rows out) -> sound_call c d H out.
Proof.
  intros A HU HE HS. destruct A as [A1 A2 A3 A4 (h & r & A5 & A6)]. split; auto.
  - intros w k Hin. destruct (HU _ (A2 _ Hin)) as [[T G]|[(T & P & _) [F _]]]; cbn in *; [right|left]; auto.
  - intros m Hm. destruct (sinv_free c _ _ m Hm A5) as [N F]. destruct (nodup_perm_l _ _ _ N A6) as [N' I]. split; auto.
  - intros w k Hin T. destruct (HU _ (A2 _ Hin)) as [[T' _]|[X _]]; cbn in *; [unfold EVAL_GEN, EVAL_SIM in *; congruence|]. apply X.
  - intros w k Hin T Hg. destruct (HU _ (A2 _ Hin)) as [[T' _]|[_ [_ X]]]; cbn in *; [unfold EVAL_GEN, EVAL_SIM in *; congruence|]. now apply X.
Qed.
End Sound.

Lemma firstn1_pick (pts : list nat) : NoDup pts -> pts <> [] -> NoDup (firstn 1 pts) /\ incl (firstn 1 pts) pts.
Proof.
  intros _ Hn. destruct pts as [|i pts]; [congruence|]. cbn. split; [constructor; [intros []|constructor]|]. intros x [<-|[]]. now left.
Qed.

(** Oldest first: what is left is younger than everything given. *)
Definition young (H : list row) (pts : list nat) : Prop :=
  StronglySorted lt pts /\ incl pts (to_evaluate H) /\ forall i j, In j pts -> evaluable H i -> ~ In i pts -> i < j.
Lemma young_all H : young H (to_evaluate H).
Proof.
  split; [apply to_evaluate_sorted|]. split; [apply incl_refl|]. intros i j Hj Hi Hn. exfalso. apply Hn. now apply to_evaluate_spec.
Qed.
Lemma young_pick H pts : NoDup pts -> pts <> [] -> young H pts ->
  NoDup (firstn 1 pts) /\ incl (firstn 1 pts) pts /\ young H (filter (fun i => negb (memb i (firstn 1 pts))) pts).
Proof.
  intros Hn Hne (Y1 & Y2 & Y3). destruct (firstn1_pick pts Hn Hne) as [F1 F2]. split; auto. split; auto.
  destruct pts as [|x pts]; [congruence|]. cbn [firstn]. set (p := fun i => negb (memb i [x])).
  split; [now apply sorted_filter|]. split. { intros i Hi. apply filter_In in Hi. now apply Y2. }
  intros i j Hj Hi Hni. apply filter_In in Hj. destruct Hj as [Hj Hp].
  assert (Hxj : j <> x). { intros ->. unfold p in Hp. cbn in Hp. rewrite Nat.eqb_refl in Hp. discriminate. }
  assert (Hlt : x < j). { inversion Y1 as [|? ? _ Hf]; subst. rewrite Forall_forall in Hf. destruct Hj as [->|Hj]; [congruence|auto]. }
  destruct (in_dec Nat.eq_dec i (x :: pts)) as [Hin|Hin]; [|now apply Y3].
  destruct (Nat.eq_dec i x) as [->|Hne2]; auto. exfalso. apply Hni. apply filter_In. split; auto. unfold p. cbn.
  destruct (Nat.eqb_spec i x); [congruence|reflexivity].
Qed.

(** ** finite_diff_alloc *)
Lemma fd_group_spec H x f i : In i (fd_group H x f) <-> pair_result H x f i.
Proof.
  unfold fd_group, pair_result, ended, untold, icell. rewrite rows_where_In. split.
  - intros (r & Hr & Hb). rewrite !andb_true_iff in Hb. destruct Hb as (((B1 & B2) & B3) & B4). apply negb_true_iff in B1. apply Z.eqb_eq in B2, B3. rewrite Hr. eauto 10.
  - intros ((r & Hr & A1) & (r' & Hr' & A2) & A3 & A4). rewrite Hr in Hr'. injection Hr' as <-. rewrite Hr in A3, A4. exists r. split; auto. unfold flag, F_x_ind, F_f_ind. now rewrite A1, A2, A3, A4, !Z.eqb_refl.
Qed.
Lemma fd_group_lists H x f : lists (fd_group H x f) (pair_result H x f).
Proof. split; [apply rows_where_NoDup|apply fd_group_spec]. Qed.
Lemma lists_length {A} (l l' : list A) P : lists l P -> lists l' P -> length l = length l'.
Proof.
  intros [N1 H1] [N2 H2]. apply Nat.le_antisymm; apply NoDup_incl_length; auto; intros x Hx; [apply H2, H1|apply H1, H2]; auto.
Qed.
Lemma fd_complete H nf x f : complete_pair H nf x f <-> length (fd_group H x f) = nf.
Proof.
  split.
  - intros (l & L1 & L2). rewrite <- L2. exact (lists_length _ _ _ (fd_group_lists H x f) L1).
  - intros E. exists (fd_group H x f). split; auto. apply fd_group_lists.
Qed.

(** Simulation ids are row numbers. *)
Lemma numbered_map H l : numbered H -> (forall i, In i l -> i < length H) -> map (fun i => Z.to_nat (intcol H F_sim_id i)) l = l.
Proof.
  intros Hn Hl. rewrite <- (map_id l) at 2. apply map_ext_in. intros i Hi. unfold intcol. destruct (nth_error H i) as [r|] eqn:E.
  - rewrite (Hn i r E). apply Nat2Z.id.
  - apply nth_error_None in E. specialize (Hl i Hi). lia.
Qed.
Lemma pair_in H x f i : pair_result H x f i -> i < length H.
Proof. intros ((r & E & _) & _). apply nth_error_Some. congruence. Qed.

Lemma fd_send_spec u H i : numbered H -> In i (fd_send u H) <-> exists x f, x < fd_n u /\ f < fd_p u /\ complete_pair H (fd_nf u) x f /\ pair_result H x f i.
Proof.
  intros Hn. unfold fd_send. rewrite in_flat_map. split.
  - intros (x & Hx & Hi). apply in_seq in Hx. apply in_flat_map in Hi. destruct Hi as (f & Hf & Hi). apply in_seq in Hf.
    destruct (Nat.eqb_spec (length (fd_group H x f)) (fd_nf u)) as [E|E]; [|destruct Hi].
    rewrite numbered_map in Hi; auto. 2:{ intros j Hj. apply fd_group_spec in Hj. eapply pair_in; eauto. }
    exists x, f. split; [lia|]. split; [lia|]. split; [now apply fd_complete|now apply fd_group_spec].
  - intros (x & f & Hx & Hf & Hc & Hi). exists x. split; [apply in_seq; lia|]. apply in_flat_map. exists f. split; [apply in_seq; lia|].
    apply fd_complete in Hc. rewrite Hc, Nat.eqb_refl. rewrite numbered_map; auto; [now apply fd_group_spec|].
    intros j Hj. apply fd_group_spec in Hj. eapply pair_in; eauto.
Qed.

Lemma pair_unique H x f x' f' i : pair_result H x f i -> pair_result H x' f' i -> x = x' /\ f = f'.
Proof. intros (_ & _ & A1 & A2) (_ & _ & B1 & B2). split; lia. Qed.

Lemma nodup_flat_map {A} (g : A -> list nat) l : NoDup l -> (forall x, In x l -> NoDup (g x)) ->
  (forall x y i, In x l -> In y l -> In i (g x) -> In i (g y) -> x = y) -> NoDup (flat_map g l).
Proof.
  intros Hn Hg Hd. induction Hn as [|x l Hx Hn IH]; cbn; [constructor|]. apply NoDup_app_intro.
  - apply Hg. now left.
  - apply IH; [intros; apply Hg; now right|]. intros; eapply Hd; eauto; now right.
  - intros i Hi Hj. apply in_flat_map in Hj. destruct Hj as (y & Hy & Hj). assert (x = y) by (eapply Hd; eauto; [now left|now right]). congruence.
Qed.
Lemma fd_send_nodup u H : numbered H -> NoDup (fd_send u H).
Proof.
  intros Hn. assert (G : forall x f i, In i (if length (fd_group H x f) =? fd_nf u then map (fun i => Z.to_nat (intcol H F_sim_id i)) (fd_group H x f) else []) -> pair_result H x f i).
  { intros x f i Hi. destruct (_ =? _); [|destruct Hi]. rewrite numbered_map in Hi; auto; [now apply fd_group_spec|]. intros j Hj. apply fd_group_spec in Hj. eapply pair_in; eauto. }
  unfold fd_send. apply nodup_flat_map; [apply seq_NoDup| |].
  - intros x _. apply nodup_flat_map; [apply seq_NoDup| |].
    + intros f _. destruct (_ =? _); [|constructor]. rewrite numbered_map; auto; [apply rows_where_NoDup|]. intros j Hj. apply fd_group_spec in Hj. eapply pair_in; eauto.
    + intros f f' i _ _ H1 H2. apply G in H1, H2. exact (proj2 (pair_unique _ _ _ _ _ _ H1 H2)).
  - intros x y i _ _ H1 H2. apply in_flat_map in H1, H2. destruct H1 as (f & _ & H1), H2 as (f' & _ & H2). apply G in H1, H2. exact (proj1 (pair_unique _ _ _ _ _ _ H1 H2)).
Qed.

Lemma nodup_app_disj (a b : list nat) : NoDup (a ++ b) -> forall i, In i a -> In i b -> False.
Proof. induction a as [|x a IH]; cbn; intros Hn i [] Hb; inversion Hn as [|? ? N1 N2]; subst; [apply N1, in_or_app; now right|eapply IH; eauto]. Qed.

(** After the simulation loop, the points given are those of its orders. *)
Lemma sim_rows_in wk i : In i (sim_rows wk) <-> exists w k, In (w, k) wk /\ k_tag k = EVAL_SIM /\ In i (k_rows k).
Proof.
  unfold sim_rows, sims. rewrite in_concat. split.
  - intros (l & Hl & Hi). apply in_map_iff in Hl. destruct Hl as ([w k] & <- & Hk). apply filter_In in Hk. destruct Hk as [Hk T]. cbn in *. apply Nat.eqb_eq in T. eauto.
  - intros (w & k & Hk & T & Hi). exists (k_rows k). split; auto. apply in_map_iff. exists (w, k). split; auto. apply filter_In. split; auto. cbn. now apply Nat.eqb_eq.
Qed.
Lemma sim_rows_new wk wk' new : (forall q, In q wk -> k_tag (snd q) = EVAL_GEN) ->
  (forall q, In q new -> In q wk' /\ k_tag (snd q) = EVAL_SIM) -> (forall q, In q wk' -> In q wk \/ In q new) ->
  forall i, In i (sim_rows wk') <-> In i (rows_of new).
Proof.
  intros Hg Hn Hi i. rewrite sim_rows_in. unfold rows_of. rewrite in_concat. split.
  - intros (w & k & Hk & T & Hx). exists (k_rows k). split; auto. destruct (Hi _ Hk) as [Hq|Hq]; [specialize (Hg _ Hq); cbn in Hg; unfold EVAL_GEN, EVAL_SIM in *; congruence|].
    apply in_map_iff. exists (w, k). auto.
  - intros (l & Hl & Hx). apply in_map_iff in Hl. destruct Hl as ([w k] & <- & Hk). destruct (Hn _ Hk). exists w, k. auto.
Qed.
Lemma free_avail W ws w : avail_workers W (Some 0) false None (Some false) = Ok ws -> free_worker W w -> (some_gen_only W -> ~ gen_only W w) -> In w ws.
Proof.
  unfold avail_workers. cbn [andb]. intros [= <-] (r & R1 & R2 & R3 & R4) Hg. apply in_map_iff. exists r. split; auto. apply filter_In. split; auto.
  rewrite R3, R4. cbn [Nat.eqb andb]. destruct (negb (existsb w_zero W)); cbn [andb]; (destruct (existsb w_gen W) eqn:Ex; cbn [negb]; auto;
    apply existsb_exists in Ex; destruct Ex as (r0 & X1 & X2); destruct (w_gen r) eqn:Er; auto; exfalso; apply Hg; [exists r0; auto|exists r; auto]).
Qed.

Section FD.
Variables (c : actx) (d : dtype) (u : fd_user) (g : nat) (H : list row).
Hypothesis (Hids : ids_distinct (ac_W c)) (Hres : resources_ok c).
Let out := finite_diff_alloc c d u false g H.

Definition fd_unit (q : nat * work) : Prop :=
  waiting_gen (ac_W c) (fst q) /\ k_tag (snd q) = EVAL_GEN /\ k_persistent (snd q) = true /\ k_rows (snd q) = fd_send u H /\ fd_send u H <> [] /\ k_fields (snd q) = nodup_fields (ac_persis_in c) \/
  sim_ok c d H q /\ length (k_rows (snd q)) = 1 \/
  free_worker (ac_W c) (fst q) /\ (some_gen_only (ac_W c) -> gen_only (ac_W c) (fst q)) /\ k_tag (snd q) = EVAL_GEN /\ k_persistent (snd q) = true /\ k_rows (snd q) = [] /\ H = [] /\ ~ persistent_gen (ac_W c).

Lemma count_persis_zero W : count_persis_gens W = 0 <-> ~ persistent_gen W.
Proof.
  unfold count_persis_gens, persistent_gen. rewrite countb_filter. split.
  - intros E (r & H1 & H2). assert (In r (filter (fun r => w_persis r =? EVAL_GEN) W)) by (apply filter_In; split; auto; now apply Nat.eqb_eq).
    destruct (filter _ W); [contradiction|discriminate].
  - intros Hn. destruct (filter (fun r => w_persis r =? EVAL_GEN) W) as [|r l] eqn:E; auto. exfalso. apply Hn. exists r.
    assert (Hr : In r (filter (fun r => w_persis r =? EVAL_GEN) W)) by (rewrite E; now left). apply filter_In in Hr. destruct Hr as [H1 H2]. split; auto. now apply Nat.eqb_eq.
Qed.

Lemma fd_facts :
  (exists s, acc c (evaluable H) fd_unit (o_work out) s) /\ o_rows out = H /\
  (o_flag out = 1 <-> H <> [] /\ ~ persistent_gen (ac_W c)) /\ (o_flag out = 1 -> o_work out = []) /\
  (forall i j, In i (sim_rows (o_work out)) -> evaluable H j -> ~ In j (sim_rows (o_work out)) -> i < j) /\
  (o_flag out = 0 -> ac_manage c = false -> o_err out = None -> (forall i, evaluable H i -> In i (sim_rows (o_work out))) \/
     (forall w, free_worker (ac_W c) w -> (some_gen_only (ac_W c) -> ~ gen_only (ac_W c) w) -> In w (map fst (o_work out)))).
Proof.
  unfold out, finite_diff_alloc. clear out. pose proof (count_persis_zero (ac_W c)) as CP.
  set (n := count_persis_gens (ac_W c)) in *.
  destruct (negb (length H =? 0) && (n =? 0)) eqn:E0.
  { apply andb_true_iff in E0. destruct E0 as [B1 B2]. apply negb_true_iff, Nat.eqb_neq in B1. apply Nat.eqb_eq in B2.
    cbn [o_work o_rows o_flag]. split; [exists (support_init c g); now apply acc_nil|]. split; auto. split; [split; auto; intros _; split; [intros ->; auto|tauto]|].
    split; auto. split; [intros i j []|discriminate]. }
  assert (Nf : ~ (H <> [] /\ ~ persistent_gen (ac_W c))).
  { intros [N1 N2]. apply CP in N2. rewrite N2 in E0. cbn in E0. rewrite andb_true_r in E0. apply negb_false_iff, Nat.eqb_eq in E0. destruct H; [congruence|discriminate]. }
  destruct (avail_workers _ (Some EVAL_GEN) _ _ _) as [bs|] eqn:Eb; [|cbn in Eb; discriminate].
  destruct (avail_workers _ (Some 0) false None (Some false)) as [ws|] eqn:Ew; [|cbn in Ew; discriminate].
  destruct (avail_workers _ (Some 0) false None (Some true)) as [gs|] eqn:Eg; [|cbn in Eg; discriminate].
  destruct (back_each _ _ _ _ _ _ _) as [[[H1 wk1] s1] e1] eqn:E1.
  eapply (back_each_spec c (evaluable H) fd_unit Hres _ _ (fun G => G = H)) in E1 as (J1 & A1 & B1 & C1); [| | |reflexivity|now apply acc_nil].
  2:{ intros w G x G' _ -> [= <- <-]. reflexivity. }
  2:{ intros w k G ids G' Hw -> [= Ei <-] T1 T2 T3 T4 T5. left. cbn. split; [eapply bs_waiting; eauto|]. split; auto. split; auto. unfold none_if_empty in Ei. destruct (fd_send u H) eqn:Es; [discriminate|]. injection Ei as <-. split; auto. split; [discriminate|auto]. }
  subst H1. assert (Z1 : sim_rows wk1 = []). { destruct (sim_rows wk1) as [|i l]; auto. destruct (C1 i); now left. }
  assert (K1 : forall q, In q wk1 -> In (fst q) bs) by (intros q Hq; destruct (B1 q Hq) as [[]|[K _]]; auto).
  assert (Fin : forall wk s e0, acc c (evaluable H) fd_unit wk s ->
    (forall i j, In i (sim_rows wk) -> evaluable H j -> ~ In j (sim_rows wk) -> i < j) ->
    (ac_manage c = false -> e0 = None -> (forall i, evaluable H i -> In i (sim_rows wk)) \/
     (forall w, free_worker (ac_W c) w -> (some_gen_only (ac_W c) -> ~ gen_only (ac_W c) w) -> In w (map fst wk))) ->
    let o := mkAO H wk 0 (as_gens s) e0 in
    (exists s, acc c (evaluable H) fd_unit (o_work o) s) /\ o_rows o = H /\ (o_flag o = 1 <-> H <> [] /\ ~ persistent_gen (ac_W c)) /\ (o_flag o = 1 -> o_work o = []) /\
    (forall i j, In i (sim_rows (o_work o)) -> evaluable H j -> ~ In j (sim_rows (o_work o)) -> i < j) /\
    (o_flag o = 0 -> ac_manage c = false -> o_err o = None -> (forall i, evaluable H i -> In i (sim_rows (o_work o))) \/
     (forall w, free_worker (ac_W c) w -> (some_gen_only (ac_W c) -> ~ gen_only (ac_W c) w) -> In w (map fst (o_work o))))).
  { intros wk s e0 A O M. cbn. split; [eauto|]. split; auto. split; [split; [discriminate|tauto]|]. split; [discriminate|]. auto. }
  destruct e1 as [e1|]; [apply Fin; [auto|rewrite Z1; intros i j []|discriminate]|].
  destruct (pick_sims _ _ _ _ _ _ _ _) as [[[wk2 s2] pts] e2] eqn:E2.
  eapply (pick_sims_spec c (evaluable H) fd_unit Hres d H (firstn 1) (young H) (young_pick H)) in E2 as (new & rest & P1 & A2 & P2 & P3 & P4 & P5 & P6 & P7);
    [|eapply avail_sub; eauto|apply to_evaluate_nodup|apply young_all|intros i Hi; rewrite Z1; split; [now apply to_evaluate_spec|intros []]| |exact A1].
  2:{ intros w k pts0 Hw Hu _ _ Hne Hr. right. left. split; [|cbn; rewrite Hr; destruct pts0; [congruence|reflexivity]]. split; auto. cbn. split; [exact (ws_free _ _ _ _ Ew Hw)|exact (ws_reserved _ _ _ Hids Ew Hw)]. }
  assert (R2 : forall i, In i (sim_rows wk2) <-> In i (rows_of new)).
  { apply (sim_rows_new wk1); auto. intros q Hq. destruct (B1 q Hq) as [[]|[_ T]]. exact T. }
  assert (O2 : forall i j, In i (sim_rows wk2) -> evaluable H j -> ~ In j (sim_rows wk2) -> i < j).
  { intros i j Hi Hj Hn. rewrite R2 in Hi, Hn. apply to_evaluate_spec in Hj. apply (Permutation_in _ P2) in Hj. apply in_app_or in Hj. destruct Hj as [Hj|Hj]; [contradiction|].
    destruct P6 as (_ & _ & Y). apply (Y i j Hj).
    - apply to_evaluate_spec. apply (Permutation_in _ (Permutation_sym P2)). apply in_or_app. now left.
    - intros Hi2. pose proof (Permutation_NoDup P2 (to_evaluate_nodup H)) as Hnd. exact (nodup_app_disj _ _ Hnd i Hi Hi2). }
  assert (M2 : ac_manage c = false -> (forall i, evaluable H i -> In i (sim_rows wk2)) \/
     (forall w, free_worker (ac_W c) w -> (some_gen_only (ac_W c) -> ~ gen_only (ac_W c) w) -> In w (map fst wk2))).
  { intros M. destruct (P7 M) as [_ [-> | ->]].
    - right. intros w Hf Hg. assert (Hw : In w ws) by (eapply free_avail; eauto). rewrite P1, app_nil_r in Hw. apply in_map_iff in Hw. destruct Hw as (q & <- & Hq). apply in_map, P3, Hq.
    - left. intros i Hi. apply R2. apply to_evaluate_spec in Hi. apply (Permutation_in _ P2) in Hi. now rewrite app_nil_r in Hi. }
  destruct e2 as [e2|]; [apply Fin; [auto|exact O2|discriminate]|].
  destruct (Nat.eqb_spec n 0) as [En|En]; [|apply Fin; [auto|exact O2|auto]].
  assert (HH : H = []). { destruct H as [|r0 l]; auto. exfalso. apply Nf. split; [discriminate|tauto]. }
  assert (Hpts : to_evaluate H = []) by now rewrite HH.
  destruct (start_first _ _ _ _ _) as [[wk3 s3] e3] eqn:E3.
  eapply (start_first_spec c (evaluable H) fd_unit Hres) in E3 as (A3 & D3 & _); [| |exact A2].
  2:{ intros w k Hw T1 T2 T3 T4 T5. right. right. cbn. assert (Hin : In w gs) by (destruct gs; [discriminate|injection Hw as ->; now left]).
      split; [eapply ws_free; eauto|]. split; [eapply gs_reserved; eauto|]. repeat (split; [solve [auto]|]). tauto. }
  assert (NE : forall i, ~ evaluable H i) by (intros i Hi; apply to_evaluate_spec in Hi; rewrite Hpts in Hi; destruct Hi).
  apply Fin; [auto| |].
  - intros i j Hi. exfalso. apply (NE i). now apply (acc_points _ _ _ _ _ A3).
  - intros M _. left. intros i Hi. destruct (NE i Hi).
Qed.
End FD.
