(** Facts about inverse_bayes_alloc, persistent_aposmm_alloc and local_opt_alloc. *)
From Coq Require Import String Permutation Sorted.
From Verif Require Import Base BaseLemmas HistoryModel HistoryProofs WorkModel RsetModel RsetSpec SchedModel SchedSpec SchedServe AllocModel AllocSpec AllocProofs AllocLoops AllocFacts AllocFast AllocPersis AllocModel2 AllocSpec2 AllocMore AllocMore2.
Local Notation length := List.length.
Local Open Scope list_scope.
Local Open Scope nat_scope.

(** ** Histories that differ in some columns only *)
Definition same_but (cols : list field) (H G : list row) : Prop :=
  length G = length H /\ forall i r, nth_error H i = Some r -> exists r', nth_error G i = Some r' /\ forall f, ~ In f cols -> r' f = r f.
Lemma same_but_refl cols H : same_but cols H H.
Proof. split; auto. intros i r E. exists r. auto. Qed.
Lemma same_but_trans cols A B C : same_but cols A B -> same_but cols B C -> same_but cols A C.
Proof.
  intros [L1 H1] [L2 H2]. split; [congruence|]. intros i r E. destruct (H1 _ _ E) as (r1 & E1 & F1). destruct (H2 _ _ E1) as (r2 & E2 & F2).
  exists r2. split; auto. intros f Hf. now rewrite F2, F1.
Qed.
Lemma same_but_back cols H G i r' : same_but cols H G -> nth_error G i = Some r' -> exists r, nth_error H i = Some r /\ forall f, ~ In f cols -> r' f = r f.
Proof.
  intros [L S] E. destruct (nth_error H i) as [r|] eqn:Er.
  - destruct (S _ _ Er) as (r2 & E2 & F). rewrite E in E2. injection E2 as <-. eauto.
  - exfalso. apply nth_error_None in Er. assert (i < length G) by (apply nth_error_Some; congruence). lia.
Qed.
Lemma same_but_more cols cols' H G : incl cols cols' -> same_but cols H G -> same_but cols' H G.
Proof. intros I [L S]. split; auto. intros i r E. destruct (S i r E) as (r' & E' & F). exists r'. split; auto. Qed.
Lemma same_but_system cols H G : (forall f, In f cols -> exists n, f = F_user n) -> same_but cols H G -> same_system H G.
Proof.
  intros Hc [L S]. split; auto. intros i r E. destruct (S _ _ E) as (r' & E' & F). exists r'. split; auto. intros f Hf. apply F. intros Hin. destruct (Hc f Hin) as (n & ->). exact (Hf n eq_refl).
Qed.
Lemma same_but_cell cols H G f i : same_but cols H G -> ~ In f cols ->
  intcol G f i = intcol H f i /\ scol G f i = scol H f i.
Proof.
  intros S Hf. unfold intcol, scol. destruct (nth_error H i) as [r|] eqn:E.
  - destruct (proj2 S _ _ E) as (r' & -> & F). now rewrite F.
  - assert (nth_error G i = None) as -> by (apply nth_error_None; rewrite (proj1 S); now apply nth_error_None). auto.
Qed.
Lemma same_but_gen cols H G w i : same_but cols H G -> ~ In F_gen_worker cols -> generated_by G w i <-> generated_by H w i.
Proof.
  intros S Hf. unfold generated_by. split.
  - intros (r' & E & A). destruct (same_but_back _ _ _ _ _ S E) as (r & Er & F). exists r. rewrite <- F by auto. auto.
  - intros (r & E & A). destruct (proj2 S _ _ E) as (r' & Er & F). exists r'. rewrite F by auto. auto.
Qed.
Lemma gen_of_spec H w i : gen_of H w i = true <-> generated_by H w i.
Proof.
  unfold gen_of, generated_by. destruct (nth_error H i) as [r|].
  - rewrite Z.eqb_eq. split; [eauto|]. intros (r' & [= <-] & A). exact A.
  - split; [discriminate|intros (r & E & _); discriminate].
Qed.
Lemma by_worker_spec H w i : In i (by_worker H w) <-> generated_by H w i.
Proof. unfold by_worker, generated_by. rewrite rows_where_In. split; intros (r & E & A); exists r; split; auto; now apply Z.eqb_eq. Qed.
Lemma all_done_gen H w : all_sim_ended H (gen_of H w) 0 = true <-> forall i r, nth_error H i = Some r -> generated_by H w i -> settled r.
Proof.
  rewrite all_ended_settled. split; intros A i r.
  - intros E Hg. apply (A i r); auto; [lia|now apply gen_of_spec].
  - intros _ E Hg. apply (A i r E). now apply gen_of_spec.
Qed.

Lemma same_but_settled cols H G : same_but cols H G -> ~ In F_sim_ended cols -> ~ In F_cancel_requested cols -> ~ In F_sim_started cols -> ~ In F_gen_worker cols ->
  forall w, (forall i r, nth_error G i = Some r -> generated_by G w i -> settled r) -> forall i r, nth_error H i = Some r -> generated_by H w i -> settled r.
Proof.
  intros S N1 N2 N3 N4 w A i r E Hg. destruct (proj2 S _ _ E) as (r' & E' & F). specialize (A i r' E' (proj2 (same_but_gen _ _ _ w i S N4) Hg)).
  unfold settled in *. now rewrite !F in A by auto.
Qed.

(** ** Maxima and minima *)
Lemma max_of_spec l : forall x, (In (max_of x l) (x :: l)) /\ forall z, In z (x :: l) -> (z <= max_of x l)%Z.
Proof.
  unfold max_of. induction l as [|y l IH]; intros x; cbn [fold_right].
  - split; [now left|]. intros z [<-|[]]. lia.
  - destruct (IH x) as [H1 H2]. split.
    + destruct (Z.max_spec y (fold_right Z.max x l)) as [[_ ->]|[_ ->]]; [|right; now left]. destruct H1 as [H1|H1]; [now left|right; now right].
    + intros z [<-|[<-|Hz]]; [|lia|].
      * specialize (H2 x (or_introl eq_refl)). lia.
      * specialize (H2 z (or_intror Hz)). lia.
Qed.
Lemma min_of_spec l : forall x, (In (min_of x l) (x :: l)) /\ forall z, In z (x :: l) -> (min_of x l <= z)%Z.
Proof.
  unfold min_of. induction l as [|y l IH]; intros x; cbn [fold_right].
  - split; [now left|]. intros z [<-|[]]. lia.
  - destruct (IH x) as [H1 H2]. split.
    + destruct (Z.min_spec y (fold_right Z.min x l)) as [[_ ->]|[_ ->]]; [right; now left|]. destruct H1 as [H1|H1]; [now left|right; now right].
    + intros z [<-|[<-|Hz]]; [|lia|].
      * specialize (H2 x (or_introl eq_refl)). lia.
      * specialize (H2 z (or_intror Hz)). lia.
Qed.

(** ** inverse_bayes_alloc *)
Lemma nth_mapi {A B} (g : nat -> A -> B) (H : list A) a i :
  nth_error (map (fun p => g (fst p) (snd p)) (combine (seq a (length H)) H)) i = option_map (g (a + i)) (nth_error H i).
Proof.
  revert a i. induction H as [|r H IH]; intros a [|i]; cbn; auto.
  - now rewrite Nat.add_0_r.
  - rewrite IH. now replace (S a + i) with (a + S i) by lia.
Qed.
Lemma setf_other f v (r : row) g : g <> f -> setf f v r g = r g.
Proof. intros Hn. unfold setf. rewrite feqb_neq by congruence. reflexivity. Qed.
Lemma setf_this n v (r : row) : setf (F_user n) v r (F_user n) = v.
Proof. unfold setf. now rewrite feqb_refl. Qed.

Lemma shift_same n k H H' : shift_weights n k H = Ok H' -> same_but [F_weight] H H'.
Proof.
  unfold shift_weights. destruct (_ || _); [|discriminate]. intros [= <-]. split; [rewrite map_length, combine_length, seq_length; lia|].
  intros i r E. match goal with |- context [map ?g _] => pose (h := fun (j : nat) (q : row) => g (j, q)) end.
  pose proof (nth_mapi h H 0 i) as X. unfold h in X. cbn [fst snd] in X.
  match goal with |- exists r', nth_error (map ?g ?l) i = _ /\ _ => assert (Y : map g l = map (fun p => h (fst p) (snd p)) l) by (apply map_ext; intros [j q]; reflexivity) end.
  rewrite Y. unfold h. cbn [fst snd]. rewrite X, E. cbn [option_map]. eexists. split; [reflexivity|].
  intros f Hf. destruct (_ && _); auto. match goal with |- context [nth_error H ?a] => destruct (nth_error H a) end; auto. apply setf_other. intros ->. apply Hf. now left.
Qed.

(** The copied weights: for a history of whole batches. *)
Definition weight (H : list row) (i : nat) : option val := option_map (fun r : row => r F_weight) (nth_error H i).
Lemma shift_weight n k H H' i : 0 < k -> length H = n * S k -> shift_weights n k H = Ok H' ->
  weight H' i = if (n * (k - 1) <=? i) && (i <? n * k) then weight H (i + n) else weight H i.
Proof.
  intros Hk HL. unfold shift_weights.
  assert (L1 : Nat.min (n * k) (length H) = n * k) by (rewrite HL; nia). assert (L2 : Nat.min (n * (k - 1)) (length H) = n * (k - 1)) by (rewrite HL; nia).
  assert (L3 : Nat.min (n * S k) (length H) = n * S k) by (rewrite HL; lia). rewrite L1, L2, L3.
  assert (L4 : n * S k - n * k = n) by nia. assert (L5 : n * k - n * (k - 1) = n) by nia. rewrite L4, L5, Nat.eqb_refl. cbn [orb]. intros [= <-].
  assert (L6 : n * (k - 1) + n = n * k) by nia. rewrite L6.
  match goal with |- context [map ?g _] => pose (h := fun (j : nat) (q : row) => g (j, q)) end.
  match goal with |- weight (map ?g ?l) i = _ => assert (Y : map g l = map (fun p => h (fst p) (snd p)) l) by (apply map_ext; intros [j q]; reflexivity) end.
  rewrite Y. unfold weight. rewrite nth_mapi. cbn [Nat.add]. destruct (nth_error H i) as [r|] eqn:E; cbn [option_map].
  - unfold h. cbn [fst snd]. destruct ((n * (k - 1) <=? i) && (i <? n * k)) eqn:Eb; auto. destruct (nth_error H (i + n)) as [q|] eqn:Eq; cbn [option_map]; [unfold F_weight; now rewrite setf_this|].
    exfalso. apply nth_error_None in Eq. apply andb_true_iff in Eb. destruct Eb as [_ Eb]. apply Nat.ltb_lt in Eb. nia.
  - apply nth_error_None in E. destruct (Nat.ltb_spec i (n * k)) as [L|L]; [nia|]. now rewrite andb_false_r.
Qed.

Lemma bayes_back_spec n w G x G' : bayes_back n w G = Ok (x, G') ->
  same_but [F_weight] G G' /\ forall ids, x = Some ids ->
    (forall i r, nth_error G i = Some r -> generated_by G w i -> settled r) /\ ids <> [] /\ lists ids (in_last_batch G w) /\
    (intcol G F_batch (pred (length G)) > 0 -> shift_weights n (Z.to_nat (intcol G F_batch (pred (length G)))) G = Ok G')%Z.
Proof.
  unfold bayes_back. destruct (all_sim_ended G (gen_of G w) 0) eqn:Ea; [|intros [= <- <-]; split; [apply same_but_refl|discriminate]].
  rewrite all_done_gen in Ea. destruct (by_worker G w) as [|i rest] eqn:Eb; [discriminate|]. rewrite <- Eb.
  destruct (_ || _); [|discriminate]. set (m := max_of _ _). set (ids := filter _ (by_worker G w)).
  destruct (max_of_spec (map (intcol G F_batch) rest) (intcol G F_batch i)) as [M1 M2]. fold m in M1, M2.
  assert (Mx : forall j, generated_by G w j -> (intcol G F_batch j <= m)%Z).
  { intros j Hj. apply by_worker_spec in Hj. rewrite Eb in Hj. apply M2. destruct Hj as [<-|Hj]; [now left|right; now apply in_map]. }
  assert (Me : exists j, generated_by G w j /\ intcol G F_batch j = m).
  { destruct M1 as [M1|M1]; [exists i; split; auto; apply by_worker_spec; rewrite Eb; now left|].
    apply in_map_iff in M1. destruct M1 as (j & E & Hj). exists j. split; auto. apply by_worker_spec. rewrite Eb. now right. }
  assert (P : (forall i r, nth_error G i = Some r -> generated_by G w i -> settled r) /\ ids <> [] /\ lists ids (in_last_batch G w)).
  { split; auto. split.
    - destruct Me as (j & Hj & E). intros Hn. assert (In j ids) by (apply filter_In; split; [now apply by_worker_spec|now apply Z.eqb_eq]). rewrite Hn in *. contradiction.
    - split; [apply NoDup_filter, rows_where_NoDup|]. intros j. unfold ids. rewrite filter_In, by_worker_spec, Z.eqb_eq. unfold in_last_batch.
      split; intros [H1 H2]; split; auto.
      + intros l Hl. change (intcol G F_batch l <= intcol G F_batch j)%Z. rewrite H2. now apply Mx.
      + destruct Me as (j' & Hj' & E). specialize (H2 j' Hj'). change (intcol G F_batch j' <= intcol G F_batch j)%Z in H2. specialize (Mx j H1). lia. }
  destruct (Z.ltb_spec 0 (intcol G F_batch (pred (length G)))) as [Hk|Hk].
  - destruct (shift_weights _ _ _) as [H1|] eqn:Es; [|discriminate]. cbn [bindr]. intros [= <- <-]. split; [eapply shift_same; eauto|]. intros ids' [= <-]. split; [apply P|]. split; [apply P|]. split; [apply P|]. auto.
  - intros [= <- <-]. split; [apply same_but_refl|]. intros ids' [= <-]. split; [apply P|]. split; [apply P|]. split; [apply P|]. lia.
Qed.

(** whole subbatches *)
Definition whole (H : list row) (pts : list nat) : Prop :=
  incl pts (to_evaluate H) /\ forall i j, In i pts -> evaluable H j -> intcol H F_subbatch j = intcol H F_subbatch i -> In j pts.
Lemma whole_pick H pts : NoDup pts -> pts <> [] -> whole H pts ->
  NoDup (bayes_pick H pts) /\ incl (bayes_pick H pts) pts /\ whole H (filter (fun i => negb (memb i (bayes_pick H pts))) pts).
Proof.
  intros Hn Hne (W1 & W2). destruct pts as [|x pts]; [congruence|]. cbn [bayes_pick]. set (m := min_of _ _). set (P := filter (fun i => (intcol H F_subbatch i =? m)%Z) (x :: pts)).
  assert (PI : forall i, In i P <-> In i (x :: pts) /\ intcol H F_subbatch i = m) by (intros i; unfold P; rewrite filter_In, Z.eqb_eq; tauto).
  split; [now apply NoDup_filter|]. split; [intros i Hi; now apply PI|]. split.
  - intros i Hi. apply filter_In in Hi. now apply W1.
  - intros i j Hi Hj E. apply filter_In in Hi. destruct Hi as [Hi1 Hi2]. apply filter_In. split; [now apply (W2 i j)|].
    apply negb_true_iff in Hi2. apply negb_true_iff. destruct (memb j P) eqn:Em; auto. apply memb_In, PI in Em. exfalso.
    assert (memb i P = true); [|congruence]. apply memb_In, PI. split; auto. rewrite <- E. apply Em.
Qed.
Lemma whole_all H : whole H (to_evaluate H).
Proof. split; [apply incl_refl|]. intros i j _ Hj _. now apply to_evaluate_spec. Qed.
Lemma bayes_pick_rows H pts : pts <> [] -> whole H pts -> exists b, bayes_pick H pts <> [] /\
  forall i, In i (bayes_pick H pts) <-> evaluable H i /\ intcol H F_subbatch i = b.
Proof.
  intros Hne (W1 & W2). destruct pts as [|x pts]; [congruence|]. cbn [bayes_pick]. set (m := min_of _ _). exists m.
  destruct (min_of_spec (map (intcol H F_subbatch) pts) (intcol H F_subbatch x)) as [M1 _]. fold m in M1.
  assert (Hx : exists j, In j (x :: pts) /\ intcol H F_subbatch j = m).
  { destruct M1 as [M1|M1]; [exists x; split; auto; now left|]. apply in_map_iff in M1. destruct M1 as (j & E & Hj). exists j. split; auto. now right. }
  destruct Hx as (j & Hj & Ej). split.
  - intros Hn. assert (In j (filter (fun i => (intcol H F_subbatch i =? m)%Z) (x :: pts))) by (apply filter_In; split; auto; now apply Z.eqb_eq). rewrite Hn in *. contradiction.
  - intros i. rewrite filter_In, Z.eqb_eq. split; intros [H1 H2]; split; auto; [apply to_evaluate_spec; now apply W1|]. apply (W2 j i); auto. congruence.
Qed.

Section Bayes.
Variables (c : actx) (d : dtype) (n g : nat) (H : list row).
Hypothesis (Hids : ids_distinct (ac_W c)) (Hres : resources_ok c).
Let out := inverse_bayes_alloc c d n false g H.

Definition bayes_unit (G : list row) (q : nat * work) : Prop :=
  waiting_gen (ac_W c) (fst q) /\ k_tag (snd q) = EVAL_GEN /\ k_persistent (snd q) = true /\ k_fields (snd q) = [F_like] /\
    (forall i r, nth_error H i = Some r -> generated_by H (fst q) i -> settled r) /\ k_rows (snd q) <> [] /\ lists (k_rows (snd q)) (in_last_batch H (fst q)) \/
  sim_ok c d G q /\ k_rows (snd q) <> [] /\ (exists b, forall i, In i (k_rows (snd q)) <-> evaluable H i /\ intcol H F_subbatch i = b) \/
  free_worker (ac_W c) (fst q) /\ (some_gen_only (ac_W c) -> gen_only (ac_W c) (fst q)) /\ k_tag (snd q) = EVAL_GEN /\ k_persistent (snd q) = true /\ k_rows (snd q) = [] /\
    ~ persistent_gen (ac_W c) /\ (forall i, ~ evaluable H i).

Lemma last_batch_same G w i : same_but [F_weight] H G -> in_last_batch G w i <-> in_last_batch H w i.
Proof.
  intros S. unfold in_last_batch. assert (N : ~ In F_gen_worker [F_weight]) by (intros [X|[]]; discriminate).
  assert (B : forall j, icell G "batch" j = icell H "batch" j) by (intros j; apply (same_but_cell _ _ _ F_batch j S); intros [X|[]]; discriminate).
  rewrite (same_but_gen _ _ _ w i S N). split; intros [H1 H2]; split; auto; intros j Hj; specialize (H2 j); rewrite !B in *; apply H2; now apply (same_but_gen _ _ _ w j S N).
Qed.

Lemma bayes_facts :
  (exists s, acc c (evaluable H) (bayes_unit (o_rows out)) (o_work out) s) /\ same_but [F_weight] H (o_rows out) /\ o_flag out = 0 /\
  (ac_manage c = false -> o_err out = None -> (forall i, evaluable H i -> In i (sim_rows (o_work out))) \/
     (forall w, free_worker (ac_W c) w -> (some_gen_only (ac_W c) -> ~ gen_only (ac_W c) w) -> In w (map fst (o_work out)))) /\
  (forall k, 0 < k -> intcol H F_batch (pred (length H)) = Z.of_nat k -> length H = n * S k -> forall i,
     weight (o_rows out) i = weight H i \/ n * (k - 1) <= i < n * k /\ weight (o_rows out) i = weight H (i + n)).
Proof.
  unfold out, inverse_bayes_alloc. clear out. pose proof (count_persis_zero (ac_W c)) as CP. set (cnt := count_persis_gens (ac_W c)) in *.
  destruct (avail_workers _ (Some EVAL_GEN) _ _ _) as [bs|] eqn:Eb; [|cbn in Eb; discriminate].
  destruct (avail_workers _ (Some 0) false None (Some false)) as [ws|] eqn:Ew; [|cbn in Ew; discriminate].
  destruct (avail_workers _ (Some 0) false None (Some true)) as [gs|] eqn:Eg; [|cbn in Eg; discriminate].
  destruct (back_each _ _ _ _ _ _ _) as [[[H1 wk1] s1] e1] eqn:E1.
  assert (NG : ~ In F_gen_worker [F_weight]) by (intros [X|[]]; discriminate).
  assert (A1all : forall G0, (same_but [F_weight] H H1 /\ (forall k, 0 < k -> intcol H F_batch (pred (length H)) = Z.of_nat k -> length H = n * S k -> forall i,
     weight H1 i = weight H i \/ n * (k - 1) <= i < n * k /\ weight H1 i = weight H (i + n))) /\ acc c (evaluable H) (bayes_unit G0) wk1 s1 /\
    (forall q, In q wk1 -> In (fst q) bs /\ k_tag (snd q) = EVAL_GEN) /\ sim_rows wk1 = []).
  { intros G0. eapply (back_each_spec c (evaluable H) (bayes_unit G0) Hres _ _ (fun G => same_but [F_weight] H G /\
        (forall k, 0 < k -> intcol H F_batch (pred (length H)) = Z.of_nat k -> length H = n * S k -> forall i,
         (n * k <= i -> weight G i = weight H i) /\ (weight G i = weight H i \/ n * (k - 1) <= i < n * k /\ weight G i = weight H (i + n))))) in E1 as (J1 & A1 & B1 & C1);
      [| | |split; [apply same_but_refl|auto]|now apply acc_nil].
    2:{ intros w G x G' _ [S HW] Ef. destruct (bayes_back_spec _ _ _ _ _ Ef) as [S' HS]. split; [eapply same_but_trans; eauto|].
        intros k Hk Hb HL i. assert (EB : intcol G F_batch (pred (length G)) = Z.of_nat k).
        { rewrite (proj1 S), <- Hb. apply (same_but_cell _ _ _ F_batch _ S). intros [X|[]]; discriminate. }
        destruct x as [ids|].
        - destruct (HS ids eq_refl) as (_ & _ & _ & Sh). rewrite EB, Nat2Z.id in Sh. specialize (Sh ltac:(lia)).
          rewrite (shift_weight n k G G' i Hk) by (auto; rewrite (proj1 S); exact HL).
          destruct (Nat.leb_spec (n * (k - 1)) i) as [L1|L1]; cbn [andb]; [|split; [intros; nia|apply (HW k Hk Hb HL i)]].
          destruct (Nat.ltb_spec i (n * k)) as [L2|L2]; [|apply (HW k Hk Hb HL i)]. split; [lia|]. right. split; auto. apply (HW k Hk Hb HL (i + n)). nia.
        - unfold bayes_back in Ef. destruct (all_sim_ended _ _ _); [|injection Ef as <-; now apply HW]. destruct (by_worker G w); [discriminate|]. destruct (_ || _); [|discriminate].
          destruct (0 <? _)%Z; [destruct (shift_weights _ _ _); discriminate|discriminate]. }
    2:{ intros w k G ids G' Hw [S HW] Ef T1 T2 T3 T4 T5. left. cbn. split; [eapply bs_waiting; eauto|]. split; auto. split; auto. split; [exact T5|].
        destruct (bayes_back_spec _ _ _ _ _ Ef) as [_ HS]. destruct (HS ids eq_refl) as (P1 & P2 & [P3 P4] & _). rewrite T2.
        split. { eapply (same_but_settled _ _ _ S); auto; intros [X|[]]; discriminate. }
        split; auto. split; auto. intros i. rewrite P4. now apply last_batch_same. }
    split; [split; [apply J1|intros k Hk Hb HL i; apply (proj2 J1 k Hk Hb HL i)]|]. split; auto. split; [intros q Hq; destruct (B1 q Hq) as [[]|X]; exact X|].
    destruct (sim_rows wk1) as [|i l]; auto. destruct (C1 i); now left. }
  destruct (A1all H1) as ((S1 & SW) & A1 & B1 & Z1). clear E1.
  assert (SS : same_system H H1). { apply (same_but_system [F_weight]); auto. intros f [<-|[]]. eexists. reflexivity. }
  assert (SB : forall i, intcol H1 F_subbatch i = intcol H F_subbatch i) by (intros i; apply (same_but_cell _ _ _ F_subbatch i S1); intros [X|[]]; discriminate).
  assert (Fin : forall wk s e0, acc c (evaluable H) (bayes_unit H1) wk s ->
    (ac_manage c = false -> e0 = None -> (forall i, evaluable H i -> In i (sim_rows wk)) \/
     (forall w, free_worker (ac_W c) w -> (some_gen_only (ac_W c) -> ~ gen_only (ac_W c) w) -> In w (map fst wk))) ->
    let o := mkAO H1 wk 0 (as_gens s) e0 in
    (exists s, acc c (evaluable H) (bayes_unit (o_rows o)) (o_work o) s) /\ same_but [F_weight] H (o_rows o) /\ o_flag o = 0 /\
    (ac_manage c = false -> o_err o = None -> (forall i, evaluable H i -> In i (sim_rows (o_work o))) \/
     (forall w, free_worker (ac_W c) w -> (some_gen_only (ac_W c) -> ~ gen_only (ac_W c) w) -> In w (map fst (o_work o)))) /\
    (forall k, 0 < k -> intcol H F_batch (pred (length H)) = Z.of_nat k -> length H = n * S k -> forall i,
     weight (o_rows o) i = weight H i \/ n * (k - 1) <= i < n * k /\ weight (o_rows o) i = weight H (i + n))).
  { intros wk s e0 A M. cbn. split; [eauto|]. auto. }
  destruct e1 as [e1|]; [apply Fin; [auto|discriminate]|].
  assert (TE : forall i, In i (to_evaluate H1) <-> evaluable H i) by (intros i; rewrite to_evaluate_spec; now apply same_system_evaluable).
  destruct (to_evaluate H1) as [|i0 pts0] eqn:Ep.
  - assert (NE : forall i, ~ evaluable H i) by (intros i Hi; apply TE in Hi; destruct Hi).
    destruct (Nat.eqb_spec cnt 0) as [En|En]; [|apply Fin; [auto|intros _ _; left; intros i Hi; destruct (NE i Hi)]].
    destruct (start_first _ _ _ _ _) as [[wk3 s3] e3] eqn:E3.
    eapply (start_first_spec c (evaluable H) (bayes_unit H1) Hres) in E3 as (A3 & D3 & _); [| |exact A1].
    2:{ intros w k Hw T1 T2 T3 T4 T5. right. right. cbn. assert (Hin : In w gs) by (destruct gs; [discriminate|injection Hw as ->; now left]).
      split; [eapply ws_free; eauto|]. split; [eapply gs_reserved; eauto|]. repeat (split; [solve [auto]|]). split; [now apply CP|exact NE]. }
    apply Fin; auto. intros _ _. left. intros i Hi. destruct (NE i Hi).
  - rewrite <- Ep in *. clear i0 pts0 Ep.
    destruct (pick_sims _ _ _ _ _ _ _ _) as [[[wk2 s2] pts] e2] eqn:E2.
    eapply (pick_sims_spec c (evaluable H) (bayes_unit H1) Hres d H1 (bayes_pick H1) (whole H1) (whole_pick H1)) in E2 as (new & rest & P1 & A2 & P2 & P3 & P4 & P5 & P6 & P7);
      [|eapply avail_sub; eauto|apply to_evaluate_nodup|apply whole_all|intros i Hi; rewrite Z1; split; [now apply TE|intros []]| |exact A1].
    2:{ intros w k pts0 Hw Hu HQ _ Hne Hr. right. left. split; [split; [exact Hu|cbn; split; [exact (ws_free _ _ _ _ Ew Hw)|exact (ws_reserved _ _ _ Hids Ew Hw)]]|]. cbn. rewrite Hr.
        destruct (bayes_pick_rows H1 pts0 Hne HQ) as (b & K1 & K2). split; auto. exists b. intros i. rewrite K2, SB. now rewrite (same_system_evaluable H H1 i SS). }
    assert (R2 : forall i, In i (sim_rows wk2) <-> In i (rows_of new)).
    { apply (sim_rows_new wk1); auto. intros q Hq. apply (B1 q Hq). }
    apply Fin; auto. intros M _. destruct (P7 M) as [_ [-> | ->]].
    + right. intros w Hf Hg. assert (Hw : In w ws) by (eapply free_avail; eauto). rewrite P1, app_nil_r in Hw. apply in_map_iff in Hw. destruct Hw as (q & <- & Hq). apply in_map, P3, Hq.
    + left. intros i Hi. apply R2. apply TE in Hi. apply (Permutation_in _ P2) in Hi. now rewrite app_nil_r in Hi.
Qed.
End Bayes.

(** ** persistent_aposmm_alloc *)
Lemma sims_nil wk : (forall q, In q wk -> k_tag (snd q) = EVAL_GEN) -> sims wk = [].
Proof. intros G. apply gens_all, Forall_forall, G. Qed.

Lemma acc_append c E U wk s new s' : acc c E U wk s -> (forall handed, sinv c handed s -> sinv c (handed ++ sets_given new) s') ->
  NoDup (map fst new) -> (forall w, In w (map fst new) -> ~ In w (map fst wk)) -> (forall q, In q new -> U q) ->
  (forall i, In i (sim_rows wk) -> ~ In i (sim_rows new)) -> NoDup (sim_rows new) -> (forall i, In i (sim_rows new) -> E i) -> acc c E U (wk ++ new) s'.
Proof.
  intros [A1 A2 A3 A4 (h & r & A5 & A6)] Hs Hn Hd HU Hr1 Hr2 Hr3.
  assert (Es : sim_rows (wk ++ new) = sim_rows wk ++ sim_rows new) by (unfold sim_rows; now rewrite sims_app, map_app, concat_app).
  split.
  - rewrite map_app. apply NoDup_app_intro; auto. intros w Hw Hw2. exact (Hd w Hw2 Hw).
  - intros q Hq. apply in_app_or in Hq. destruct Hq; auto.
  - rewrite Es. apply NoDup_app_intro; auto.
  - rewrite Es. intros i Hi. apply in_app_or in Hi. destruct Hi; auto.
  - exists (h ++ sets_given new), r. split; auto. rewrite sets_given_app. eapply Permutation_trans; [apply Permutation_app_tail; exact A6|].
    rewrite <- !app_assoc. apply Permutation_app_head, Permutation_app_comm.
Qed.

Section Aposmm.
Variables (c : actx) (d : dtype) (init g : nat) (p p' : ap_state) (H : list row) (out : aout).
Hypothesis (Hids : ids_distinct (ac_W c)) (Hres : resources_ok c) (Hnext : ap_next p <= length H).
Hypothesis Hrun : aposmm_rest c d init g p H = (out, p').

Definition ap_enough : Prop := ap_done p = true \/ init + ap_samples p <= countb (flag F_sim_ended) H.
Definition ap_unit (q : nat * work) : Prop :=
  waiting_gen (ac_W c) (fst q) /\ k_tag (snd q) = EVAL_GEN /\ k_persistent (snd q) = true /\ k_fields (snd q) = nodup_fields (ac_persis_in c) /\
    k_rows (snd q) = ap_returned H /\ k_rows (snd q) <> [] /\ ap_enough \/
  sim_ok c d H q /\ length (k_rows (snd q)) = 1 \/
  free_worker (ac_W c) (fst q) /\ (some_gen_only (ac_W c) -> gen_only (ac_W c) (fst q)) /\ k_tag (snd q) = EVAL_GEN /\ k_persistent (snd q) = true /\
    k_rows (snd q) = seq 0 (length H) /\ k_fields (snd q) = nodup_fields (ac_gen_in c) /\ ap_started p = false /\ ap_started p' = true.

Lemma aposmm_facts :
  (exists s, acc c (fun i => In i (wanted_between H (ap_next p) (length H))) ap_unit (o_work out) s) /\ o_rows out = H /\ o_flag out = 0 /\
  ap_first p' = ap_first p /\ ap_samples p' = ap_samples p /\ ap_next p <= ap_next p' <= length H /\
  (ap_started p = true \/ ap_next p = length H -> sim_rows (o_work out) = wanted_between H (ap_next p) (ap_next p')) /\ incl (sim_rows (o_work out)) (wanted_between H (ap_next p) (ap_next p')) /\
  (ap_done p' = true -> ap_enough) /\ (ap_done p = true -> ap_done p' = true) /\ (ap_started p = true -> ap_started p' = true) /\
  (ap_started p' = true -> ap_started p = false -> exists w k, In (w, k) (o_work out) /\ k_tag k = EVAL_GEN /\ k_persistent k = true /\ k_rows k = seq 0 (length H) /\ free_worker (ac_W c) w).
Proof.
  revert Hrun. unfold aposmm_rest.
  destruct (avail_workers _ (Some EVAL_GEN) _ _ _) as [bs|] eqn:Eb; [|cbn in Eb; discriminate].
  destruct (avail_workers _ (Some 0) false None (Some false)) as [ws|] eqn:Ew; [|cbn in Ew; discriminate].
  destruct (avail_workers _ (Some 0) false None (Some true)) as [gs|] eqn:Eg; [|cbn in Eg; discriminate].
  set (en := ap_done p || _). set (dn := match bs with [] => ap_done p | _ => en end).
  assert (EN : en = true -> ap_enough) by (unfold en, ap_enough; intros X; apply orb_true_iff in X; destruct X as [X|X]; auto; right; now apply Nat.leb_le).
  assert (DN : dn = true -> ap_enough) by (unfold dn; destruct bs; auto; intros; now left).
  assert (DM : ap_done p = true -> dn = true) by (intros X; unfold dn, en; rewrite X; now destruct bs).
  destruct (back_each _ _ _ _ _ _ _) as [[[H1 wk1] s1] e1] eqn:E1.
  eapply (back_each_spec c (fun i => In i (wanted_between H (ap_next p) (length H))) ap_unit Hres _ _ (fun G => G = H)) in E1 as (J1 & A1 & B1 & C1); [| | |reflexivity|now apply acc_nil].
  2:{ intros w G x G' _ -> [= <- <-]. reflexivity. }
  2:{ intros w k G ids G' Hw -> [= Ei <-] T1 T2 T3 T4 T5. left. cbn. split; [eapply bs_waiting; eauto|]. split; auto. split; auto. split; [exact T5|].
      destruct en eqn:Een; [|discriminate]. unfold none_if_empty in Ei. destruct (ap_returned H) eqn:Es; [discriminate|]. injection Ei as <-. split; auto. split; [rewrite T2; discriminate|auto]. }
  subst H1. assert (G1 : forall q, In q wk1 -> In (fst q) bs /\ k_tag (snd q) = EVAL_GEN) by (intros q Hq; destruct (B1 q Hq) as [[]|X]; exact X).
  assert (Z1 : sims wk1 = []) by (apply sims_nil; intros q Hq; now apply G1).
  destruct e1 as [e1|].
  { intros [= <- <-]. cbn [o_work o_rows o_flag ap_first ap_samples ap_next ap_done ap_started]. split; [eauto|]. repeat (split; [solve [auto]|]).
    split; [unfold sim_rows; rewrite Z1; cbn; intros _; symmetry; apply wanted_empty; lia|]. split; [unfold sim_rows; rewrite Z1; intros i []|]. repeat (split; [solve [auto]|]). congruence. }
  unfold ap_sims. destruct (fast_sims _ _ _ _ _ _ _) as [[[wk2 s2] nx] e2] eqn:E2.
  assert (Fr : forall w, In w ws -> in_dict wk1 w = false).
  { intros w Hw. apply in_dict_false. intros Hin. apply in_map_iff in Hin. destruct Hin as (q & Eq & Hq). destruct (G1 q Hq) as [K _].
    apply (free_not_waiting (ac_W c) w Hids); [exact (ws_free _ _ _ _ Ew Hw)|]. rewrite <- Eq. exact (bs_waiting _ _ _ Eb K). }
  assert (Spec : forall handed, sinv c handed s1 -> exists new, wk2 = wk1 ++ new /\ incl (map fst new) ws /\ NoDup (map fst new) /\ Forall (sim_unit c d H false) new /\ Forall one_row new /\
    ap_next p <= nx <= length H /\ rows_of new = wanted_between H (ap_next p) nx /\ sinv c (handed ++ sets_given new) s2).
  { intros handed Hs. destruct (fast_sims_spec c d H Hres ws _ wk1 s1 handed _ _ _ _ (avail_sub _ _ _ _ _ _ Ew Hids) Fr Hs Hnext E2) as (new & X1 & X2 & X3 & X4 & X5 & X6 & X7 & X8 & _). exists new. auto 10. }
  pose proof A1 as [_ _ _ _ (h1 & r1 & K1 & _)]. destruct (Spec h1 K1) as (new & X1 & X2 & X3 & X4 & X5 & X6 & X7 & _).
  assert (R2 : sim_rows new = wanted_between H (ap_next p) nx) by (rewrite <- X7; exact (rows_of_sims new c d H false X4)).
  assert (A2 : acc c (fun i => In i (wanted_between H (ap_next p) (length H))) ap_unit wk2 s2).
  { rewrite X1. eapply acc_append; [exact A1| |exact X3| | | | |].
    - intros handed Hs. destruct (Spec handed Hs) as (new' & Y1 & _ & _ & _ & _ & _ & _ & Y). assert (new' = new) as ->; [|exact Y]. rewrite X1 in Y1. now apply app_inv_head in Y1.
    - intros w Hw. apply in_dict_false, Fr, X2, Hw.
    - intros q Hq. rewrite Forall_forall in X4, X5. right. left. split; [|exact (X5 q Hq)]. split; [exact (X4 q Hq)|].
      assert (Hw : In (fst q) ws) by (apply X2, in_map, Hq). split; [exact (ws_free _ _ _ _ Ew Hw)|exact (ws_reserved _ _ _ Hids Ew Hw)].
    - unfold sim_rows at 1. rewrite Z1. intros i [].
    - rewrite R2. apply wanted_NoDup.
    - rewrite R2. intros i Hi. apply wanted_In in Hi. apply wanted_In. destruct Hi as [Hi Hr]. split; auto. lia. }
  assert (S2 : sim_rows wk2 = wanted_between H (ap_next p) nx).
  { rewrite X1. unfold sim_rows. rewrite sims_app, Z1. cbn [app]. exact R2. }
  assert (Fin : forall e0 s0, acc c (fun i => In i (wanted_between H (ap_next p) (length H))) ap_unit wk2 s0 ->
    (mkAO H wk2 0 (as_gens s0) e0, mkAP (ap_first p) (ap_samples p) nx dn (ap_started p)) = (out, p') ->
    (exists s, acc c (fun i => In i (wanted_between H (ap_next p) (length H))) ap_unit (o_work out) s) /\ o_rows out = H /\ o_flag out = 0 /\
    ap_first p' = ap_first p /\ ap_samples p' = ap_samples p /\ ap_next p <= ap_next p' <= length H /\
    (ap_started p = true \/ ap_next p = length H -> sim_rows (o_work out) = wanted_between H (ap_next p) (ap_next p')) /\ incl (sim_rows (o_work out)) (wanted_between H (ap_next p) (ap_next p')) /\
    (ap_done p' = true -> ap_enough) /\ (ap_done p = true -> ap_done p' = true) /\ (ap_started p = true -> ap_started p' = true) /\
    (ap_started p' = true -> ap_started p = false -> exists w k, In (w, k) (o_work out) /\ k_tag k = EVAL_GEN /\ k_persistent k = true /\ k_rows k = seq 0 (length H) /\ free_worker (ac_W c) w)).
  { intros e0 s0 A [= <- <-]. cbn [o_work o_rows o_flag ap_first ap_samples ap_next ap_done ap_started]. split; [eauto|]. repeat (split; [solve [auto]|]). split; [rewrite S2; apply incl_refl|]. repeat (split; [solve [auto]|]). congruence. }
  destruct e2 as [e2|]; [apply Fin; auto|]. destruct (ap_started p) eqn:Est; [destruct gs; apply Fin; auto|].
  destruct gs as [|w gs]; [apply Fin; auto|].
  destruct (gen_work c w (ac_gen_in c) (seq 0 (length H)) true None s2) as [a s3] eqn:E3.
  pose proof (acc_gen _ _ _ Hres _ _ _ _ _ _ _ _ _ A2 E3) as X. destruct a as [k|er].
  - destruct X as (T1 & T2 & T3 & T4 & T5 & T6). intros [= <- <-]. cbn [o_work o_rows o_flag ap_first ap_samples ap_next ap_done ap_started].
    assert (Fw : free_worker (ac_W c) w) by (apply (ws_free _ _ _ _ Eg); now left).
    split. { exists s3. apply T6. right. right. cbn. repeat (split; [solve [auto]|]). split; [apply (gs_reserved _ _ _ Eg); now left|].
      repeat (split; [solve [auto]|]). match goal with E : _ = p' |- _ => now rewrite <- E end. }
    repeat (split; [solve [auto]|]). split.
    { intros [Y|Y]; [discriminate|]. rewrite Y in *. replace nx with (length H) in * by lia.
      destruct (dict_set_sims wk2 w k T1) as [r P]. rewrite S2, (wanted_empty H (length H) (length H)) in P by lia. apply Permutation_nil in P. apply app_eq_nil in P. rewrite (proj1 P).
      symmetry. apply wanted_empty. lia. }
    split. { intros i Hi. rewrite <- S2. destruct (dict_set_sims wk2 w k T1) as [r P]. apply (Permutation_in i (Permutation_sym P)), in_or_app. now left. }
    split; auto. split; auto. split; auto. intros _ _. exists w, k. split; [apply dict_set_get|auto].
  - destruct er; apply Fin; auto.
Qed.
End Aposmm.
