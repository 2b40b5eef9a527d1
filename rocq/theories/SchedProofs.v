(** Proofs about the scheduler (C14-C17). *)
From Coq Require Import Permutation Sorted.
From Verif Require Import Base BaseLemmas RsetModel RsetSpec RsetProofs RsetLayout RsetWalk RsetGroups SchedModel SchedSpec.

(** ** Small list facts *)
Lemma memb_In x l : memb x l = true <-> In x l.
Proof. unfold memb. rewrite existsb_exists. split; [intros (y & H & E); apply Nat.eqb_eq in E; now subst|]. intros H; exists x; split; auto. apply Nat.eqb_refl. Qed.
Lemma memb_false x l : memb x l = false <-> ~ In x l.
Proof. rewrite <- memb_In. destruct (memb x l); split; congruence. Qed.

Lemma insert_asc_perm x l : Permutation (insert_asc x l) (x :: l).
Proof. induction l; cbn; auto. destruct (x <=? a); auto. rewrite IHl. constructor. Qed.
Lemma sort_asc_perm l : Permutation (sort_asc l) l.
Proof. induction l; cbn; auto. rewrite insert_asc_perm. auto. Qed.
Lemma insert_asc_sorted x l : StronglySorted le l -> StronglySorted le (insert_asc x l).
Proof.
  induction 1 as [|y l Hs IH Hf]; cbn; [repeat constructor|]. destruct (Nat.leb_spec x y).
  - constructor; [constructor; auto|]. constructor; auto. eapply Forall_impl; [|exact Hf]. cbn; lia.
  - constructor; auto. rewrite Forall_forall in *. intros z Hz. apply (Permutation_in _ (insert_asc_perm x l)) in Hz.
    destruct Hz as [<-|Hz]; [lia|auto].
Qed.
Lemma sort_asc_sorted l : StronglySorted le (sort_asc l).
Proof. induction l; cbn; [constructor|]. now apply insert_asc_sorted. Qed.

Lemma insert_desc_perm x l : Permutation (insert_desc x l) (x :: l).
Proof. induction l; cbn; auto. destruct (a <=? x); auto. rewrite IHl. constructor. Qed.
Lemma sorted_lens_perm gs : Permutation (sorted_lens gs) (map (fun p => length (snd p)) gs).
Proof. unfold sorted_lens. induction (map _ gs); cbn; auto. rewrite insert_desc_perm. auto. Qed.
Lemma sorted_lens_length gs : length (sorted_lens gs) = length gs.
Proof. rewrite (Permutation_length (sorted_lens_perm gs)). apply map_length. Qed.
Lemma insert_desc_sorted x l : StronglySorted ge l -> StronglySorted ge (insert_desc x l).
Proof.
  induction 1 as [|y l Hs IH Hf]; cbn; [repeat constructor|]. destruct (Nat.leb_spec y x).
  - constructor; [constructor; auto|]. constructor; auto. eapply Forall_impl; [|exact Hf]. cbn; lia.
  - constructor; auto. rewrite Forall_forall in *. intros z Hz. apply (Permutation_in _ (insert_desc_perm x l)) in Hz.
    destruct Hz as [<-|Hz]; [lia|auto].
Qed.
Lemma sorted_lens_sorted gs : StronglySorted ge (sorted_lens gs).
Proof. unfold sorted_lens. induction (map _ gs); cbn; [constructor|]. now apply insert_desc_sorted. Qed.

(** ** Groups of a table *)
Lemma insert_uniq_In x y l : In y (insert_uniq x l) <-> y = x \/ In y l.
Proof.
  induction l as [|z l IH]; cbn [insert_uniq In]; [|destruct (x <? z); cbn [In]; [|destruct (Nat.eqb_spec x z); cbn [In]; [subst|rewrite IH]]];
  (split; intros H; repeat match goal with H : _ \/ _ |- _ => destruct H as [H|H] end; subst; auto).
Qed.
Lemma insert_uniq_sorted x l : StronglySorted lt l -> StronglySorted lt (insert_uniq x l).
Proof.
  induction 1 as [|y l Hs IH Hf]; cbn [insert_uniq]; [repeat constructor|]. destruct (Nat.ltb_spec x y).
  - constructor; [constructor; auto|]. constructor; auto. eapply Forall_impl; [|exact Hf]. cbn; lia.
  - destruct (Nat.eqb_spec x y); [constructor; auto|]. constructor; auto. rewrite Forall_forall in *. intros z Hz.
    apply insert_uniq_In in Hz. destruct Hz as [->|Hz]; [lia|auto].
Qed.
Lemma unique_groups_In rs g : In g (unique_groups rs) <-> exists r, In r rs /\ rs_group r = g.
Proof.
  induction rs as [|r rs IH]; cbn; [split; [tauto|intros (?&[]&_)]|]. rewrite insert_uniq_In, IH. split.
  - intros [->|(r' & H & E)]; [exists r|exists r']; auto.
  - intros (r' & [<-|H] & E); [left; auto|right; eauto].
Qed.
Lemma unique_groups_sorted rs : StronglySorted lt (unique_groups rs).
Proof. induction rs; cbn; [constructor|]. now apply insert_uniq_sorted. Qed.
Lemma sorted_lt_NoDup l : StronglySorted lt l -> NoDup l.
Proof. induction 1 as [|x l Hs IH Hf]; constructor; auto. intros Hi. rewrite Forall_forall in Hf. specialize (Hf _ Hi). lia. Qed.

Lemma free_in_spec rs g i : In i (free_in rs g) <-> exists r, nth_error rs i = Some r /\ rs_owner r = None /\ rs_group r = g.
Proof.
  unfold free_in. rewrite in_map_iff.
  assert (G : forall k (l : list rset) i r, In (i, r) (combine (seq k (length l)) l) <-> k <= i /\ nth_error l (i - k) = Some r).
  { intros k l. revert k. induction l as [|x l IH]; intros k j r; cbn; [split; [tauto|intros [_ H]; destruct (j-k); discriminate]|].
    rewrite IH. split.
    - intros [H|[H1 H2]]; [inversion H; subst; rewrite Nat.sub_diag; auto|]. split; [lia|]. replace (j - k) with (S (j - S k)) by lia. auto.
    - intros [H1 H2]. destruct (Nat.eq_dec j k); [left; subst; rewrite Nat.sub_diag in H2; cbn in H2; congruence|right].
      split; [lia|]. replace (j - k) with (S (j - S k)) in H2 by lia. auto. }
  split.
  - intros ((j & r) & E & H). cbn in E. subst j. apply filter_In in H. destruct H as [H1 H2]. apply G in H1. cbn in H2.
    rewrite Nat.sub_0_r in H1. exists r. apply andb_true_iff in H2. destruct H2 as [H2 H3]. apply Nat.eqb_eq in H3. unfold is_unassigned in H2.
    mbsplit; try tauto. now destruct (rs_owner r).
  - intros (r & H1 & H2 & H3). exists (i, r). split; auto. apply filter_In. split.
    + apply G. rewrite Nat.sub_0_r. split; [lia|auto].
    + cbn. unfold is_unassigned. rewrite H2, H3. cbn. apply Nat.eqb_refl.
Qed.
Lemma free_in_NoDup rs g : NoDup (free_in rs g).
Proof.
  unfold free_in. apply (NoDup_map_filter fst). 
  assert (E : map fst (combine (seq 0 (length rs)) rs) = seq 0 (length rs)).
  { generalize 0. induction rs; intros k; cbn; [auto|]. f_equal. auto. }
  rewrite E. apply seq_NoDup.
Qed.

(** ** The invariant on the cache *)
Record table_ok (m : rman) : Prop := {
  tk_walk : walk 1 0 (rm_rsets m);
  tk_groups : rm_num_groups m = last_group (rm_rsets m);
  tk_ne : rm_rsets m <> [];
  tk_books : books_balanced m;
  tk_size : forall g, countb (in_group g) (rm_rsets m) <= rm_per_node m;
  tk_gsize : forall g, countb (fun r => in_group g r && rs_gpu r) (rm_rsets m) <= rm_gpu_per_node m;
  tk_nsize : forall g, countb (fun r => in_group g r && negb (rs_gpu r)) (rm_rsets m) <= rm_nongpu_per_node m
}.

(** the cache holds exactly the free sets that are not in [handed] *)
Definition cache_ok (m : rman) (handed : list nat) (gs : groups) : Prop :=
  map fst gs = unique_groups (rm_rsets m) /\
  forall g l, In (g, l) gs -> spare m None handed g l.

Lemma group_of_lt m i : group_of m i <> 0 -> i < length (rm_rsets m).
Proof. unfold group_of. intros H. apply nth_error_Some. destruct (nth_error (rm_rsets m) i); congruence. Qed.

Lemma get_avail_init m s : sc_avail s = None -> cache_ok m [] (get_avail m s).
Proof.
  intros E. unfold get_avail. rewrite E. split.
  - rewrite map_map. apply map_id.
  - intros g l H. apply in_map_iff in H. destruct H as (g' & H & Hg). injection H as -> <-. split; [apply free_in_NoDup|].
    intros i. rewrite free_in_spec. unfold is_free, holder, group_of, of_kind. split.
    + intros (r & H1 & H2 & H3). rewrite H1. mbsplit; auto. apply nth_error_Some. congruence.
    + intros ((H1 & H2) & H3 & _). destruct (nth_error (rm_rsets m) i) as [r|] eqn:Er; [eauto|]. apply nth_error_None in Er. lia.
Qed.

Lemma filter_out_ok m handed gs team : cache_ok m handed gs -> cache_ok m (handed ++ team) (filter_out team gs).
Proof.
  intros [H1 H2]. split.
  - unfold filter_out. rewrite map_map. exact H1.
  - intros g l H. apply in_map_iff in H. destruct H as ((g' & l') & E & Hin). injection E as <- <-. destruct (H2 _ _ Hin) as [N S].
    cbn [fst snd]. split; [now apply NoDup_filter|]. intros i. rewrite filter_In, negb_true_iff, memb_false, S, in_app_iff. tauto.
Qed.

Lemma gpu_of_kind m i b : i < length (rm_rsets m) -> Bool.eqb (gpu_of m i) b = true <-> of_kind m (Some b) i.
Proof.
  intros Hi. unfold gpu_of, of_kind. destruct (nth_error (rm_rsets m) i) as [r|] eqn:E; [|apply nth_error_None in E; lia].
  cbn. rewrite Bool.eqb_true_iff. split; congruence.
Qed.

Lemma filter_type_ok m use handed gs : cache_ok m handed gs ->
  map fst (filter_type m use gs) = unique_groups (rm_rsets m) /\
  forall g l, In (g, l) (filter_type m use gs) -> spare m use handed g l.
Proof.
  intros [H1 H2]. destruct use as [b|]; [|split; auto]. cbn [filter_type]. split.
  - rewrite map_map. exact H1.
  - intros g l H. apply in_map_iff in H. destruct H as ((g' & l') & E & Hin). injection E as <- <-. destruct (H2 _ _ Hin) as [N S].
    cbn [fst snd]. split; [now apply NoDup_filter|]. intros i. rewrite filter_In, S. split.
    + intros [(A & B & C & D) E]. mbsplit; auto. apply gpu_of_kind; auto. apply A.
    + intros (A & B & C & D). split; [mbsplit; auto; exact I|]. apply gpu_of_kind; auto. apply A.
Qed.

Lemma keys_NoDup m (gs : groups) : map fst gs = unique_groups (rm_rsets m) -> NoDup (map fst gs).
Proof. intros ->. apply sorted_lt_NoDup, unique_groups_sorted. Qed.

(** ** Evenness arithmetic (C17) *)
Lemma even_search_spec n : forall tmp req t, even_search n tmp req = Some t -> tmp <= t < tmp + n /\ req mod t = 0 /\ (forall u, tmp <= u < t -> req mod u <> 0).
Proof.
  induction n as [|n IH]; intros tmp req t; cbn; [discriminate|]. destruct (Nat.eqb_spec (req mod tmp) 0) as [E|E].
  - intros H. injection H as <-. mbsplit; auto; lia.
  - intros H. apply IH in H. destruct H as (A & B & C). mbsplit; auto; try lia. intros u Hu. destruct (Nat.eq_dec u tmp); [now subst|]. apply C. lia.
Qed.
Lemma even_search_none n : forall tmp req, even_search n tmp req = None -> forall u, tmp <= u < tmp + n -> req mod u <> 0.
Proof.
  induction n as [|n IH]; intros tmp req; cbn; [lia|]. destruct (Nat.eqb_spec (req mod tmp) 0) as [E|E]; [discriminate|].
  intros H u Hu. destruct (Nat.eq_dec u tmp); [now subst|]. apply (IH _ _ H). lia.
Qed.

Lemma ceil_div_pos a b : a <> 0 -> b <> 0 -> 1 <= ceil_div a b.
Proof. intros. pose proof (ceil_div_ge a b H0). destruct (ceil_div a b); lia. Qed.

Lemma calc_even_spec req maxgrp maxgroups r ng per :
  req <> 0 -> calc_even_grps req maxgrp maxgroups = Ok (r, ng, per) ->
  r = ng * per /\ req <= r /\ 1 <= ng /\ 1 <= per /\ per <= maxgrp /\
  ceil_div req maxgrp <= ng /\ r < req + ng /\
  (req <= maxgrp -> ng = 1 /\ r = req) /\
  ((exists t, ceil_div req maxgrp <= t <= maxgroups /\ req mod t = 0) -> r = req) /\
  (ng <= maxgroups \/ ng = ceil_div req maxgrp).
Proof.
  intros Hr. unfold calc_even_grps. rewrite (proj2 (Nat.eqb_neq _ _) Hr). destruct (Nat.eqb_spec maxgrp 0) as [|Hm]; [discriminate|].
  pose proof (ceil_div_pos req maxgrp Hr Hm) as P. pose proof (ceil_div_ge req maxgrp Hm) as G1. pose proof (ceil_div_lt req maxgrp Hm) as G2.
  set (ng0 := ceil_div req maxgrp) in *. clearbody ng0.
  destruct (Nat.ltb_spec 1 ng0) as [H1|H1].
  - assert (Hgt : maxgrp < req) by nia.
    destruct (even_search _ _ _) as [t|] eqn:Es.
    + intros H. injection H as <- <- <-. apply even_search_spec in Es. destruct Es as (A & B & C).
      assert (Zt : t <> 0) by lia. pose proof (Nat.div_mod req t Zt) as D. rewrite B in D.
      mbsplit; try lia; try nia.
    + intros H. injection H as <- <- <-. assert (Zt : ng0 <> 0) by lia.
      pose proof (ceil_div_ge req ng0 Zt). pose proof (ceil_div_lt req ng0 Zt). pose proof (ceil_div_pos req ng0 Hr Zt).
      mbsplit; try lia; try nia.
      intros (t & Ht & Hd). elim (even_search_none _ _ _ Es t); auto; lia.
  - intros H. injection H as <- <- <-. assert (ng0 = 1) by lia. subst. mbsplit; try lia.
Qed.
