(** * C72: the gpCAM generators choose points that are far apart and uncertain

    gen_funcs/persistent_gpCAM.py and gen_classes/gpCAM.py; model in GridModel. *)
From Coq Require Import QArith Qround Lqa Permutation.
From Verif Require Import Base BaseLemmas PointsModel GridModel.
Local Open Scope nat_scope.

(** ** The mesh *)
Lemma in_product {A} (grids : list (list A)) p : In p (product grids) <-> Forall2 (fun a g => In a g) p grids.
Proof.
  revert p. induction grids as [|g gs IH]; intros p; cbn.
  - split; [intros [<-|[]]; constructor | intros h; inversion h; auto].
  - rewrite in_flat_map. split.
    + intros (a & Ha & h). apply in_map_iff in h as (q & <- & h). constructor; [exact Ha | apply IH; exact h].
    + intros h. inversion h as [|a ? q ? Ha Hq]; subst. exists a. split; [exact Ha|]. apply in_map, IH, Hq.
Qed.
Lemma NoDup_product {A} (grids : list (list A)) : Forall (@NoDup A) grids -> NoDup (product grids).
Proof.
  induction 1 as [|g gs Hg _ IH]; cbn; [repeat constructor; intros []|].
  induction Hg as [|a g Ha Hg IHg]; cbn; [constructor|].
  assert (M : forall l, NoDup l -> NoDup (map (cons a) l)).
  { clear. induction 1 as [|x l h _ IH]; cbn; constructor; [|exact IH]. intros q. apply in_map_iff in q as (y & e & q). injection e as ->. contradiction. }
  assert (D : forall p, In p (map (cons a) (product gs)) -> ~ In p (flat_map (fun a => map (cons a) (product gs)) g)).
  { intros p h1 h2. apply in_map_iff in h1 as (q & <- & _). apply in_flat_map in h2 as (b & Hb & h2). apply in_map_iff in h2 as (q' & e & _). injection e as -> _. contradiction. }
  pose proof (M _ IH) as M1. clear - M1 D IHg. induction (map (cons a) (product gs)) as [|p l IHl]; cbn; [exact IHg|].
  inversion M1; subst. constructor.
  - intros h. apply in_app_or in h as [h|h]; [contradiction|]. exact (D p (or_introl eq_refl) h).
  - apply IHl; [|assumption]. intros q h. apply D. cbn. auto.
Qed.
Lemma swap_swap {A} (p : list A) : swap (swap p) = p.
Proof. destruct p as [|a [|b p]]; reflexivity. Qed.
Lemma Forall2_swap {A B} (R : A -> B -> Prop) p g : Forall2 R p g -> Forall2 R (swap p) (swap g).
Proof. intros h. destruct h as [|a x p g h1 h2]; [constructor|]. destruct h2 as [|b y p g h2 h3]; cbn; repeat constructor; assumption. Qed.
(** The mesh has each combination of grid values exactly once. *)
Theorem C72_mesh {A} (grids : list (list A)) :
  (forall p, In p (mesh grids) <-> Forall2 (fun a g => In a g) p grids) /\
  (Forall (@NoDup A) grids -> NoDup (mesh grids)) /\
  length (mesh grids) = fold_right Nat.mul 1 (map (@length A) grids).
Proof.
  unfold mesh. split; [|split].
  - intros p. rewrite in_map_iff. split.
    + intros (q & <- & h). apply in_product, Forall2_swap in h. rewrite swap_swap in h. exact h.
    + intros h. exists (swap p). split; [apply swap_swap|]. apply in_product, Forall2_swap, h.
  - intros h. assert (N : NoDup (product (swap grids))).
    { apply NoDup_product. destruct h as [|g1 ? h1 h2]; [constructor|]. destruct h2; cbn; repeat constructor; assumption. }
    revert N. generalize (product (swap grids)). induction 1 as [|p l h1 _ IH]; cbn; constructor; [|exact IH].
    intros q. apply in_map_iff in q as (p' & e & q). apply h1. rewrite <- (swap_swap p), <- e, swap_swap. exact q.
  - rewrite map_length.
    assert (K : forall gs : list (list A), length (product gs) = fold_right Nat.mul 1 (map (@length A) gs)).
    { induction gs as [|g gs IH]; [reflexivity|]. cbn [product map fold_right]. rewrite <- IH. clear.
      induction g as [|a g IHg]; cbn; [reflexivity|]. rewrite app_length, map_length, IHg. reflexivity. }
    rewrite K. destruct grids as [|a [|b gs]]; [reflexivity | reflexivity|]. cbn. rewrite !Nat.mul_assoc, (Nat.mul_comm (length b)). reflexivity.
Qed.
Print Assumptions C72_mesh.
Example C72_mesh_nonvacuous : mesh [[1; 2]; [3; 4; 5]] = [[1; 3]; [2; 3]; [1; 4]; [2; 4]; [1; 5]; [2; 5]].
Proof. reflexivity. Qed.

(** Two different points of the mesh differ in some coordinate by at least the minimum
    distance that the search ends at. *)
Lemma fold_min l : forall a x, (fold_left Qmin2 l a <= a)%Q /\ (In x l -> (fold_left Qmin2 l a <= x)%Q).
Proof.
  induction l as [|b l IH]; intros a x; cbn; [split; [apply Qle_refl | intros []]|].
  assert (M : (Qmin2 a b <= a)%Q /\ (Qmin2 a b <= b)%Q).
  { unfold Qmin2. destruct (Qle_bool a b) eqn:E; [apply Qle_bool_iff in E; lra|].
    assert (~ (a <= b)%Q) as h by (intros h; apply Qle_bool_iff in h; congruence). lra. }
  destruct M as [M1 M2]. destruct (IH (Qmin2 a b) x) as [I1 I2]. split; [exact (Qle_trans _ _ _ I1 M1)|].
  intros [<-|h]; [exact (Qle_trans _ _ _ I1 M2) | exact (I2 h)].
Qed.
Lemma Qn_inj_le i j : i < j -> (Qn i + 1 <= Qn j)%Q.
Proof.
  intros h. unfold Qn. change 1%Q with (inject_Z 1). rewrite <- inject_Z_plus. rewrite <- Zle_Qle. lia.
Qed.
Theorem C72_mesh_points_apart lb ub num r p q :
  1 < num -> length ub = length lb -> Forall2 Qlt lb ub -> min_distance lb ub num = Some r ->
  In p (generate_mesh lb ub num) -> In q (generate_mesh lb ub num) -> p <> q ->
  (0 < r)%Q /\ exists j x y, nth_error p j = Some x /\ nth_error q j = Some y /\ ((x + r <= y)%Q \/ (y + r <= x)%Q).
Proof.
  intros Hn L F M Hp Hq D. unfold generate_mesh in Hp, Hq. apply C72_mesh in Hp, Hq.
  assert (N : (0 < Qn (num - 1))%Q) by (unfold Qn, Qlt; cbn; lia).
  set (ws := map (fun '(l, u) => ((u - l) / Qn (num - 1))%Q) (combine lb ub)) in *.
  assert (R : (0 < r)%Q /\ forall w, In w ws -> (r <= w)%Q).
  { unfold min_distance in M. fold ws in M. destruct ws as [|a l] eqn:Ew; [discriminate|]. injection M as <-. split.
    - assert (P : Forall (fun w => (0 < w)%Q) (a :: l)).
      { rewrite <- Ew. unfold ws. clear - F N. induction F as [|x y l l' h _ IH]; cbn; constructor; [apply Qlt_shift_div_l; lra | exact IH]. }
      clear - P. revert a P. induction l as [|b l IH]; intros a P; cbn; [inversion P; assumption|]. apply IH.
      inversion P as [|? ? h1 h2]; subst. inversion h2; subst. constructor; [|assumption]. unfold Qmin2. destruct (Qle_bool a b); assumption.
    - intros w [<-|h]; [exact (proj1 (fold_min l a a)) | exact (proj2 (fold_min l a w) h)]. }
  destruct R as [R0 R1]. split; [exact R0|]. clear M.
  revert p q Hp Hq D R1. unfold ws. clear ws. revert ub L F.
  induction lb as [|l lb IH]; intros [|u ub] L F p q Hp Hq D R1; cbn in L; try lia; cbn [combine map] in *.
  - inversion Hp; inversion Hq; subst. contradiction.
  - inversion Hp as [|xx ? p' ? Hx Hp']; inversion Hq as [|yy ? q' ? Hy Hq']; subst. inversion F as [|? ? ? ? Hlu F']; subst.
    unfold linspace in Hx, Hy. apply in_map_iff in Hx as (i & <- & Hi), Hy as (j & <- & Hj).
    pose proof (R1 _ (or_introl eq_refl)) as Rw. set (w := ((u - l) / Qn (num - 1))%Q) in *.
    destruct (Nat.lt_trichotomy i j) as [h|[h|h]].
    + exists 0. do 2 eexists. split; [reflexivity|]. split; [reflexivity|]. left. pose proof (Qn_inj_le i j h). clearbody w. nra.
    + subst j. destruct (IH ub ltac:(lia) F' p' q' Hp' Hq') as (k & x0 & y0 & A & B & C).
      * congruence.
      * intros w' h'. apply R1. right. exact h'.
      * exists (S k), x0, y0. auto.
    + exists 0. do 2 eexists. split; [reflexivity|]. split; [reflexivity|]. right. pose proof (Qn_inj_le j i h). clearbody w. nra.
Qed.
Print Assumptions C72_mesh_points_apart.
Example C72_mesh_points_apart_nonvacuous :
  map (map Qred) (generate_mesh [0%Q; 0%Q] [1%Q; 4%Q] 2) = [[0; 0]; [1; 0]; [0; 4]; [1; 4]]%Q /\ option_map Qred (min_distance [0%Q; 0%Q] [1%Q; 4%Q] 2) = Some 1%Q.
Proof. split; reflexivity. Qed.

(** ** Points at a distance *)
Section Eligible.
Context {P : Type} (dist : P -> P -> Q).
(** [k]-th and [j]-th point of a list, [j] before [k], are at least [r] apart. *)
Definition apart (r : Q) (l : list P) : Prop :=
  forall j k p q, j < k -> nth_error l j = Some p -> nth_error l k = Some q -> (r <= dist q p)%Q.
(** [p] is within [r] of a point chosen before it. *)
Definition covered (r : Q) (before chosen : list P) (p : P) : Prop :=
  exists e, In e chosen /\ In e before /\ (dist p e < r)%Q.

Lemma far_enough_spec p chosen r : far_enough dist p chosen r = true <-> forall e, In e chosen -> (r <= dist p e)%Q.
Proof. unfold far_enough. rewrite forallb_forall. split; intros h e He; apply Qle_bool_iff, h, He. Qed.
Lemma apart_snoc r l p : apart r l -> (forall e, In e l -> (r <= dist p e)%Q) -> apart r (l ++ [p]).
Proof.
  intros A h j k a c Hjk Ea Ec. assert (Hk : k < length (l ++ [p])) by (apply nth_error_Some; congruence). rewrite app_length in Hk. cbn in Hk.
  rewrite nth_error_app1 in Ea by lia. destruct (Nat.lt_ge_cases k (length l)) as [Hl|Hl].
  - rewrite nth_error_app1 in Ec by exact Hl. exact (A j k a c Hjk Ea Ec).
  - rewrite nth_error_app2 in Ec by exact Hl. replace (k - length l) with 0 in Ec by lia. injection Ec as <-. apply h. eapply nth_error_In, Ea.
Qed.
(** The list [l'] arises from [l] by leaving out points. *)
Inductive sub : list P -> list P -> Prop :=
| sub_nil : sub [] []
| sub_skip p l l' : sub l' l -> sub l' (p :: l)
| sub_take p l l' : sub l' l -> sub (p :: l') (p :: l).
Lemma sub_snoc l l' p : sub l' l -> sub (l' ++ [p]) (l ++ [p]).
Proof. induction 1; cbn; [apply sub_take, sub_nil | apply sub_skip; assumption | apply sub_take; assumption]. Qed.
Lemma sub_skip_r l l' p : sub l' l -> sub l' (l ++ [p]).
Proof. induction 1; cbn; [apply sub_skip, sub_nil | apply sub_skip; assumption | apply sub_take; assumption]. Qed.
Lemma sub_app_r l l' m : sub l' l -> sub l' (l ++ m).
Proof. intros h. revert l h. induction m as [|p m IH]; intros l h; [rewrite app_nil_r; exact h|]. replace (l ++ p :: m) with ((l ++ [p]) ++ m) by (rewrite <- app_assoc; reflexivity). apply IH, sub_skip_r, h. Qed.
Lemma sub_In l l' p : sub l' l -> In p l' -> In p l.
Proof. induction 1; cbn; intuition. Qed.

Lemma eligible_spec r b : 0 < b -> forall cands seen chosen,
  sub chosen seen -> apart r chosen -> length chosen < b ->
  (forall before p after, seen = before ++ p :: after -> In p chosen \/ covered r before chosen p) ->
  exists used rest, cands = used ++ rest /\
    let out := eligible dist cands chosen r b in
    sub out (seen ++ used) /\ apart r out /\ length out <= b /\ (length out < b -> rest = []) /\
    (forall before p after, seen ++ used = before ++ p :: after -> In p out \/ covered r before out p) /\
    (forall e, In e chosen -> In e out).
Proof.
  intros Hb. induction cands as [|p cands IH]; intros seen chosen Sb A Lc Cv.
  - exists [], []. cbn. rewrite app_nil_r. repeat split; auto; lia.
  - cbn [eligible]. destruct (far_enough dist p chosen r) eqn:Ef.
    + rewrite far_enough_spec in Ef.
      assert (Sb1 : sub (chosen ++ [p]) (seen ++ [p])) by (apply sub_snoc; exact Sb).
      assert (A1 : apart r (chosen ++ [p])) by (apply apart_snoc; assumption).
      assert (Cv1 : forall before q after, seen ++ [p] = before ++ q :: after -> In q (chosen ++ [p]) \/ covered r before (chosen ++ [p]) q).
      { intros before q after E. destruct after as [|x after] using rev_ind.
        - apply app_inj_tail in E as [_ <-]. left. apply in_or_app. cbn. auto.
        - clear IHafter. rewrite app_comm_cons, app_assoc in E. apply app_inj_tail in E as [E _]. destruct (Cv _ _ _ E) as [h|(e & h1 & h2 & h3)].
          + left. apply in_or_app. auto.
          + right. exists e. split; [apply in_or_app; auto | auto]. }
      destruct (length (chosen ++ [p]) =? b) eqn:El.
      * apply Nat.eqb_eq in El. exists [p], cands. cbn. split; [reflexivity|]. split; [exact Sb1|]. split; [exact A1|]. split; [lia|].
        split; [lia|]. split; [exact Cv1|]. intros e h. apply in_or_app. auto.
      * apply Nat.eqb_neq in El. rewrite app_length in El. cbn in El.
        destruct (IH (seen ++ [p]) (chosen ++ [p]) Sb1 A1 ltac:(rewrite app_length; cbn; lia) Cv1) as (used & rest & -> & B1 & B2 & B3 & B4 & B5 & B6).
        exists (p :: used), rest. rewrite <- app_assoc in B1, B5. cbn [app] in *. split; [reflexivity|].
        repeat split; auto. intros e h. apply B6, in_or_app. auto.
    + assert (X : exists e, In e chosen /\ (dist p e < r)%Q).
      { clear - Ef. unfold far_enough in Ef. induction chosen as [|e l IH]; cbn in Ef; [discriminate|]. apply andb_false_iff in Ef as [h|h].
        - exists e. split; [cbn; auto|]. apply Qnot_le_lt. intros q. apply Qle_bool_iff in q. congruence.
        - destruct (IH h) as (x & h1 & h2). exists x. cbn. auto. }
      destruct X as (e0 & Xe & Xd).
      destruct (IH (seen ++ [p]) chosen) as (used & rest & -> & B1 & B2 & B3 & B4 & B5 & B6); auto.
      * apply sub_skip_r, Sb.
      * intros before q after E. destruct after as [|x after] using rev_ind.
        -- apply app_inj_tail in E as [<- <-]. right. exists e0. split; [exact Xe|]. split; [eapply sub_In; eassumption | exact Xd].
        -- clear IHafter. rewrite app_comm_cons, app_assoc in E. apply app_inj_tail in E as [E _]. apply (Cv _ _ _ E).
      * exists (p :: used), rest. rewrite <- app_assoc in B1, B5. cbn [app] in *. split; [reflexivity|]. repeat split; auto.
Qed.
End Eligible.

(** The points chosen for a radius [r] are candidates in their order (of variance), any
    two at least [r] apart, at most as many as asked for; and no point is passed over
    without need: each candidate looked at is chosen or has a point with a variance not
    smaller, chosen before it, within [r]; all candidates were looked at if fewer points
    than asked for are chosen. *)
Theorem C72_eligible {P} (dist : P -> P -> Q) candidates r b : 0 < b ->
  exists looked_at rest, candidates = looked_at ++ rest /\
    let out := find_eligible dist candidates r b in
    sub out looked_at /\ apart dist r out /\ length out <= b /\ (length out < b -> rest = []) /\
    (forall before p after, looked_at = before ++ p :: after -> In p out \/ covered dist r before out p).
Proof.
  intros Hb. destruct (eligible_spec dist r b Hb candidates [] []) as (used & rest & E & B1 & B2 & B3 & B4 & B5 & _).
  - constructor.
  - intros j k p q _ h. destruct j; discriminate.
  - exact Hb.
  - intros before p after h. destruct before; discriminate.
  - exists used, rest. cbn [app] in *. split; [exact E|]. cbv zeta. unfold find_eligible. repeat (split; [assumption|]). assumption.
Qed.
Print Assumptions C72_eligible.
Definition line (a b : nat) : Q := Qn (a - b + (b - a)).
Example C72_eligible_nonvacuous :
  find_eligible line [3; 4; 1; 6; 0] 2 3 = [3; 1; 6] /\ find_eligible line [3; 4; 1; 6; 0] 3 3 = [3; 6; 0] /\ find_eligible line [3; 4; 1; 6; 0] 4 3 = [3].
Proof. repeat split. Qed.

(** When the search for a radius ends, it gives as many points as asked for, candidates in
    their order, any two at least the mesh's minimum distance apart. *)
Theorem C72_search {P} (dist : P -> P -> Q) fuel candidates b r_low r_high l :
  0 < b -> (r_low <= r_high)%Q -> grid_points dist fuel candidates b r_low r_high = Some l ->
  length l = b /\ sub l candidates /\ apart dist r_low l.
Proof.
  intros Hb Hr. unfold grid_points.
  assert (K : forall fuel high cand x, (r_low <= high)%Q -> (r_low <= cand)%Q ->
    (length x <= b /\ sub x candidates /\ apart dist r_low x) \/ x = [] ->
    search dist fuel candidates b r_low high cand x = Some l -> length l = b /\ sub l candidates /\ apart dist r_low l).
  { clear Hr r_high fuel. induction fuel as [|fuel IH]; intros high cand x Hh Hc I E; cbn [search] in E; destruct (length x <? b) eqn:El; try discriminate.
    1, 3: apply Nat.ltb_ge in El; injection E as <-; destruct I as [(A & B & C)| ->]; [split; [lia | auto] | cbn in El; lia].
    refine (IH _ _ _ _ _ _ E).
    - destruct (length (find_eligible dist candidates cand b) <? b); assumption.
    - apply Qle_shift_div_l; [lra|]. destruct (length (find_eligible dist candidates cand b) <? b); lra.
    - left. destruct (C72_eligible dist candidates cand b Hb) as (used & rest & -> & B1 & B2 & B3 & _). split; [exact B3|]. split; [apply sub_app_r, B1|].
      intros j k p q h1 h2 h3. eapply Qle_trans; [exact Hc|]. exact (B2 j k p q h1 h2 h3). }
  intros E. apply (K fuel r_high r_high []); auto.
Qed.
Print Assumptions C72_search.
(** The search ends if, for all radii close enough above the minimum distance, enough
    points are found. *)
Theorem C72_search_ends {P} (dist : P -> P -> Q) candidates b r_low r_high eps :
  (r_low < r_high)%Q -> (0 < eps)%Q ->
  (forall r, (r_low < r)%Q -> (r < r_low + eps)%Q -> b <= length (find_eligible dist candidates r b)) ->
  exists fuel l, grid_points dist fuel candidates b r_low r_high = Some l.
Proof.
  intros Hr He h. unfold grid_points.
  (* after the first pass, the distance to r_low is halved in each failing pass *)
  assert (K : forall n high cand x, (r_low < cand)%Q -> (high - r_low < inject_Z (2 ^ Z.of_nat n) * eps)%Q -> (r_low < high)%Q ->
    (cand == (high + r_low) / 2)%Q -> exists fuel l, search dist fuel candidates b r_low high cand x = Some l).
  { induction n as [|n IH]; intros high cand x Hc Hb Hh Ec.
    - destruct (length x <? b) eqn:El; [|exists 0, x; cbn [search]; rewrite El; reflexivity].
      exists 1. eexists. cbn [search]. rewrite El. change (inject_Z (2 ^ Z.of_nat 0)) with 1%Q in Hb.
      assert (Q : b <= length (find_eligible dist candidates cand b)).
      { apply h; [exact Hc|]. rewrite Ec. apply Qlt_shift_div_r; lra. }
      apply Nat.ltb_ge in Q. rewrite Q. reflexivity.
    - destruct (length x <? b) eqn:El; [|exists 0, x; cbn [search]; rewrite El; reflexivity].
      destruct (length (find_eligible dist candidates cand b) <? b) eqn:Ef.
      + destruct (IH cand ((cand + r_low) / 2)%Q (find_eligible dist candidates cand b)) as (fuel & l & E).
        * apply Qlt_shift_div_l; lra.
        * rewrite Nat2Z.inj_succ, Z.pow_succ_r, inject_Z_mult in Hb by lia. change (inject_Z 2) with 2%Q in Hb. rewrite Ec.
          assert (((high + r_low) / 2 == (1#2) * high + (1#2) * r_low)%Q) as -> by field.
          set (t := (inject_Z (2 ^ Z.of_nat n) * eps)%Q) in *. assert ((2 * inject_Z (2 ^ Z.of_nat n) * eps == 2 * t)%Q) as e by (unfold t; ring). rewrite e in Hb. lra.
        * exact Hc.
        * reflexivity.
        * exists (S fuel), l. cbn [search]. rewrite El, Ef. exact E.
      + exists 1. eexists. cbn [search]. rewrite El, Ef. reflexivity. }
  destruct (length (A := P) [] <? b) eqn:El; [|exists 0, []; cbn [search]; rewrite El; reflexivity].
  destruct (length (find_eligible dist candidates r_high b) <? b) eqn:Ef.
  - assert (X : exists n, (r_high - r_low < inject_Z (2 ^ Z.of_nat n) * eps)%Q).
    { set (t := ((r_high - r_low) / eps)%Q). exists (Z.to_nat (Qceiling t) + 1).
      assert (T : (t < inject_Z (2 ^ Z.of_nat (Z.to_nat (Qceiling t) + 1)))%Q).
      { eapply Qle_lt_trans; [apply Qle_ceiling|]. rewrite <- Zlt_Qlt.
        assert (Z.of_nat (Z.to_nat (Qceiling t) + 1) < 2 ^ Z.of_nat (Z.to_nat (Qceiling t) + 1))%Z as q by (apply Z.pow_gt_lin_r; lia). lia. }
      assert ((r_high - r_low == t * eps)%Q) as -> by (unfold t; field; lra).
      apply Qmult_lt_compat_r; assumption. }
    destruct X as [n Hn].
    destruct (K n r_high ((r_high + r_low) / 2)%Q (find_eligible dist candidates r_high b)) as (fuel & l & E); auto; [apply Qlt_shift_div_l; lra | reflexivity|].
    exists (S fuel), l. cbn [search]. rewrite El, Ef. exact E.
  - exists 1. eexists. cbn [search]. rewrite El, Ef. reflexivity.
Qed.
Print Assumptions C72_search_ends.
Example C72_search_ends_nonvacuous : grid_points line 5 [3; 4; 1; 6; 0] 3 1 6 = Some [3; 6; 0] /\
  forall r, (1 < r)%Q -> (r < 1 + 1)%Q -> 3 <= length (find_eligible line [3; 4; 1; 6; 0] r 3).
Proof.
  split; [vm_compute; reflexivity|]. intros r h1 h2. unfold find_eligible.
  assert (E1 : Qle_bool r 1 = false) by (apply not_true_is_false; intros q; apply Qle_bool_iff in q; lra).
  assert (E2 : forall z, (2 <= z)%Q -> Qle_bool r z = true) by (intros z hz; apply Qle_bool_iff; lra).
  cbn [eligible far_enough forallb app length Nat.eqb].
  change (line 4 3) with 1%Q. rewrite E1. change (line 1 3) with 2%Q. rewrite (E2 2%Q) by lra. cbn [andb eligible far_enough forallb app length Nat.eqb].
  change (line 6 3) with 3%Q. change (line 6 1) with 5%Q. rewrite !E2 by lra. cbn. lia.
Qed.
(** With more points asked for than the mesh has, the search never ends; nor does it, in
    exact arithmetic, if more are asked for than can be more than the minimum distance
    apart, although the mesh has enough. *)
Theorem C72_search_ends_refuted :
  ~ (forall P (dist : P -> P -> Q) candidates b r_low r_high, (r_low < r_high)%Q -> 0 < b ->
      exists fuel l, grid_points dist fuel candidates b r_low r_high = Some l).
Proof.
  intros h. destruct (h nat line [0; 1] 3 1%Q 2%Q) as (fuel & l & E); [lra | lia|].
  apply C72_search in E; [|lia | lra]. destruct E as (L & S1 & _).
  assert (length l <= 2); [|lia]. clear - S1. assert (K : forall c l : list nat, sub l c -> length l <= length c) by (induction 1; cbn; lia).
  exact (K _ _ S1).
Qed.
Print Assumptions C72_search_ends_refuted.
Theorem C72_search_ends_on_the_mesh_refuted :
  ~ (forall P (dist : P -> P -> Q) candidates b r_low r_high, (r_low < r_high)%Q -> 0 < b -> b <= length candidates ->
      apart dist r_low candidates -> exists fuel l, grid_points dist fuel candidates b r_low r_high = Some l).
Proof.
  intros h. destruct (h nat line [1; 0; 2] 2 1%Q 2%Q) as (fuel & l & E); [lra | lia | cbn; lia | |].
  - intros [|[|[|j]]] [|[|[|k]]] p q hj Ep Eq; cbn in *; try lia; try discriminate; try (destruct k; discriminate); try (destruct j; discriminate);
      injection Ep as <-; injection Eq as <-; vm_compute; discriminate.
  - unfold grid_points in E.
    assert (N : forall r, (1 < r)%Q -> find_eligible line [1; 0; 2] r 2 = [1]).
    { intros r hr. assert (E1 : Qle_bool r 1 = false) by (apply not_true_is_false; intros q; apply Qle_bool_iff in q; lra).
      unfold find_eligible. cbn [eligible far_enough forallb app length Nat.eqb]. change (line 0 1) with 1%Q. change (line 2 1) with 1%Q. rewrite !E1. reflexivity. }
    assert (K : forall fuel high cand x, (1 < high)%Q -> (1 < cand)%Q -> length x < 2 -> search line fuel [1; 0; 2] 2 1 high cand x = None).
    { clear E fuel. induction fuel as [|fuel IH]; intros high cand x Hh Hc Lx; cbn [search]; replace (length x <? 2) with true by (symmetry; apply Nat.ltb_lt; exact Lx); [reflexivity|].
      rewrite (N cand Hc). cbn [length Nat.ltb Nat.leb]. apply IH; [exact Hc | apply Qlt_shift_div_l; lra | cbn; lia]. }
    rewrite K in E; [discriminate | lra | lra | cbn; lia].
Qed.
Print Assumptions C72_search_ends_on_the_mesh_refuted.

(** ** The points with the largest variance *)
Lemma take_points_spec {X} (pts : list X) inds l : take_points pts inds = Ok l ->
  length l = length inds /\ forall k, nth_error l k = match nth_error inds k with Some i => nth_error pts i | None => None end.
Proof.
  revert l. induction inds as [|i inds IH]; intros l E; cbn in E.
  - injection E as <-. split; [reflexivity|]. intros [|k]; reflexivity.
  - destruct (nth_error pts i) as [x|] eqn:Ex; [|discriminate]. destruct (take_points pts inds) as [l0|]; [|discriminate].
    injection E as <-. destruct (IH l0 eq_refl) as [A B]. split; [cbn; lia|]. intros [|k]; cbn; [congruence|apply B].
Qed.
Lemma take_points_total {X} (pts : list X) inds : Forall (fun i => i < length pts) inds -> exists l, take_points pts inds = Ok l.
Proof.
  induction 1 as [|i inds Hi _ [l IH]]; cbn; [eauto|]. destruct (nth_error pts i) eqn:E; [rewrite IH; cbn; eauto|].
  apply nth_error_None in E. lia.
Qed.
Lemma NoDup_tail {A} (l l' : list A) : NoDup (l ++ l') -> NoDup l'.
Proof. induction l as [|a l IH]; cbn; intros h; [exact h|]. inversion h; subst; auto. Qed.
(** The Python class sends [b] of the points whose variances it has, different ones, none
    left out with a larger variance than one sent. *)
Theorem C72_largest_variance {X} (var : X -> Z) b pts sorted :
  0 < b <= length pts -> is_argsort (map var pts) sorted ->
  exists places l, class_choice b pts sorted = Ok l /\
    NoDup places /\ length places = b /\ length l = b /\
    (forall k i, nth_error places k = Some i -> nth_error l k = nth_error pts i) /\
    (forall i j x y, In i places -> ~ In j places -> nth_error pts i = Some x -> nth_error pts j = Some y -> (var y <= var x)%Z).
Proof.
  intros Hb [P O]. rewrite map_length in P. unfold class_choice, largest, last_of.
  replace (b =? 0) with false by (symmetry; apply Nat.eqb_neq; lia).
  assert (Ls : length sorted = length pts) by (rewrite (Permutation_length P), seq_length; reflexivity).
  assert (ND : NoDup sorted) by (eapply Permutation_NoDup; [symmetry; exact P | apply seq_NoDup]).
  set (d := length sorted - b). destruct (take_points_total pts (skipn d sorted)) as [l El].
  { apply Forall_forall. intros i h. assert (In i sorted) as h1 by (rewrite <- (firstn_skipn d sorted); apply in_or_app; auto).
    apply (Permutation_in i P) in h1. apply in_seq in h1. lia. }
  destruct (take_points_spec _ _ _ El) as [A B]. rewrite El. cbn [bindr]. unfold assign_rows.
  assert (Lp : length (skipn d sorted) = b) by (rewrite skipn_length; unfold d; lia). rewrite A, Lp, Nat.eqb_refl.
  exists (skipn d sorted), l. split; [reflexivity|]. split.
  { rewrite <- (firstn_skipn d sorted) in ND. apply NoDup_tail in ND. exact ND. }
  split; [exact Lp|]. split; [lia|]. split.
  { intros k i E. rewrite B, E. reflexivity. }
  intros i j x y Hi Hj Ei Ej.
  assert (In j sorted) as h by (eapply Permutation_in; [symmetry; exact P|]; apply in_seq; split; [lia|]; apply nth_error_Some; congruence).
  rewrite <- (firstn_skipn d sorted) in h. apply in_app_or in h as [h|h]; [|contradiction].
  apply In_nth_error in Hi as [a Ha], h as [c Hc].
  assert (Hc1 : c < length (firstn d sorted)) by (apply nth_error_Some; congruence).
  assert (Ha1 : nth_error sorted (length (firstn d sorted) + a) = Some i).
  { rewrite <- (firstn_skipn d sorted) at 1. rewrite nth_error_app2 by lia. replace (_ + a - _) with a by lia. exact Ha. }
  assert (Hc2 : nth_error sorted c = Some j) by (rewrite <- (firstn_skipn d sorted); rewrite nth_error_app1 by exact Hc1; exact Hc).
  pose proof (O c (length (firstn d sorted) + a) j i ltac:(lia) Hc2 Ha1) as Q.
  rewrite (nth_error_nth (map var pts) i 0%Z (x := var x)) in Q by (rewrite nth_error_map, Ei; reflexivity).
  rewrite (nth_error_nth (map var pts) j 0%Z (x := var y)) in Q by (rewrite nth_error_map, Ej; reflexivity). exact Q.
Qed.
Print Assumptions C72_largest_variance.
Example C72_largest_variance_nonvacuous :
  is_argsort (map Z.of_nat [5; 1; 3]) [1; 2; 0] /\ class_choice 2 [5; 1; 3] [1; 2; 0] = Ok [3; 5].
Proof.
  split; [|reflexivity]. split; [cbn; apply NoDup_Permutation|].
  - repeat constructor; cbn; intuition discriminate.
  - repeat constructor; cbn; intuition discriminate.
  - intros x. cbn. intuition lia.
  - intros [|[|[|a]]] [|[|[|c]]] i j h Ei Ej; cbn in *; try lia; try discriminate; try (destruct c; discriminate); try (destruct a; discriminate);
      injection Ei as <-; injection Ej as <-; vm_compute; discriminate.
Qed.
(** The class draws ten points for each value of the last results; asked for more points
    than that, or for none, it raises, unless there is one point only, which is then
    repeated. *)
Theorem C72_too_many_asked_for {X} (var : X -> Z) b pts sorted :
  is_argsort (map var pts) sorted -> length pts < b \/ b = 0 -> length pts <> 1 -> length pts <> b -> class_choice b pts sorted = Err EValue.
Proof.
  intros [P _] Hb H1 Hne. rewrite map_length in P. unfold class_choice, largest, last_of.
  assert (Ls : length sorted = length pts) by (rewrite (Permutation_length P), seq_length; reflexivity).
  assert (E : (if b =? 0 then sorted else skipn (length sorted - b) sorted) = sorted).
  { destruct (b =? 0) eqn:Eb; [reflexivity|]. apply Nat.eqb_neq in Eb. replace (length sorted - b) with 0 by lia. reflexivity. }
  rewrite E. destruct (take_points_total pts sorted) as [l El].
  { apply Forall_forall. intros i h. apply (Permutation_in i P) in h. apply in_seq in h. lia. }
  destruct (take_points_spec _ _ _ El) as [A _]. rewrite El. cbn [bindr]. unfold assign_rows.
  replace (length l =? b) with false by (symmetry; apply Nat.eqb_neq; lia).
  destruct l as [|x [|y l]]; [reflexivity | cbn in A; lia | reflexivity].
Qed.
Print Assumptions C72_too_many_asked_for.
Example C72_too_many_asked_for_nonvacuous : class_choice 4 [5; 1; 3] [1; 2; 0] = Err EValue /\ class_choice 0 [5; 1; 3] [1; 2; 0] = Err EValue.
Proof. split; reflexivity. Qed.
(** persistent_gpCAM_covar without the grid draws new points between the evaluation of the
    variances and the choice: the point it sends can be the one with the smallest
    variance, of those drawn before as of those drawn after. *)
Theorem C72_largest_variance_function_refuted :
  ~ (forall X (var : X -> Z) b drawn drawn_again sorted l, length drawn_again = length drawn -> 0 < b <= length drawn ->
      is_argsort (map var drawn) sorted -> gen_choice b drawn drawn_again sorted = Ok l ->
      forall x y, In x l -> In y (drawn ++ drawn_again) -> ~ In y l -> (var y <= var x)%Z).
Proof.
  intros h. specialize (h Z (fun z => z) 1 [1; 2]%Z [2; 0]%Z [0; 1] [0%Z] eq_refl ltac:(cbn; lia)).
  assert (S : is_argsort (map (fun z : Z => z) [1; 2]%Z) [0; 1]).
  { split; [reflexivity|]. intros [|[|a]] [|[|c]] i j q Ei Ej; cbn in *; try lia; try discriminate; try (destruct c; discriminate); try (destruct a; discriminate).
    injection Ei as <-; injection Ej as <-; vm_compute; discriminate. }
  specialize (h S eq_refl 0%Z 1%Z (or_introl eq_refl) (or_introl eq_refl)). assert (~ In 1%Z [0%Z]) as q by (intros [e|[]]; discriminate). specialize (h q). cbn in h. lia.
Qed.
Print Assumptions C72_largest_variance_function_refuted.

(** ** Variances in groups *)
(** The variances evaluated in groups are those of all points, in order. *)
Lemma groups_cover {X} g (pts : list X) : 0 < g -> forall fuel start, length pts <= start + fuel ->
  flat_map (fun s => firstn (Nat.min (s + g) (length pts) - s) (skipn s pts)) (group_starts fuel start g (length pts)) = skipn start pts.
Proof.
  intros Hg. induction fuel as [|fuel IH]; intros start h; cbn [group_starts flat_map].
  - rewrite skipn_all2 by lia. reflexivity.
  - destruct (start <? length pts) eqn:E; [|apply Nat.ltb_ge in E; rewrite skipn_all2 by lia; reflexivity].
    apply Nat.ltb_lt in E. cbn [flat_map]. rewrite IH by lia.
    rewrite <- (firstn_skipn g (skipn start pts)) at 2.
    f_equal.
    + destruct (Nat.le_gt_cases (start + g) (length pts)) as [q|q].
      * rewrite Nat.min_l by exact q. f_equal. lia.
      * rewrite Nat.min_r by lia. rewrite !firstn_all2; [reflexivity | rewrite skipn_length; lia | rewrite skipn_length; lia].
    + assert (SS : forall (a c : nat) (l : list X), skipn a (skipn c l) = skipn (c + a) l).
      { clear. intros a c. induction c as [|c IHc]; intros l; [reflexivity|]. destruct l; [rewrite !skipn_nil; reflexivity | cbn; apply IHc]. }
      rewrite SS. reflexivity.
Qed.
Theorem C72_variances_in_groups {X W} (posterior : X -> W) g pts : 0 < g -> eval_var (map posterior) g pts = Ok (map posterior pts).
Proof.
  intros Hg. unfold eval_var. cbv zeta.
  assert (E : flat_map (fun start => map posterior (firstn (Nat.min (start + g) (length pts) - start) (skipn start pts))) (group_starts (length pts) 0 g (length pts)) = map posterior pts).
  { rewrite <- (groups_cover g pts Hg (length pts) 0) at 3 by lia. cbn [skipn].
    induction (group_starts (length pts) 0 g (length pts)) as [|s l IH]; cbn [flat_map]; [reflexivity|]. rewrite map_app, IH. reflexivity. }
  rewrite E, map_length, Nat.eqb_refl. reflexivity.
Qed.
Print Assumptions C72_variances_in_groups.
Example C72_variances_in_groups_nonvacuous : group_starts 7 0 3 7 = [0; 3; 6] /\ eval_var (map (fun n => n * n)) 3 [1; 2; 3; 4; 5; 6; 7] = Ok [1; 4; 9; 16; 25; 36; 49].
Proof. split; reflexivity. Qed.

(** ** What the process is told *)
(** The class tells its process the point and the value of every result that is a number,
    of all results so far, each value with its point. *)
Theorem C72_told {X} (l : list (list (X * option Z))) :
  length (fst (ingest_all l)) = length (snd (ingest_all l)) /\
  combine (fst (ingest_all l)) (snd (ingest_all l)) =
    flat_map (fun '(x, v) => match v with Some z => [(x, z)] | None => [] end) (concat l).
Proof.
  unfold ingest_all.
  set (good := fun l : list (X * option Z) => flat_map (fun '(x, v) => match v with Some z => [(x, z)] | None => [] end) l).
  assert (W : forall calc : list (X * option Z), without_nan (map fst calc) (map snd calc) = (map fst (good calc), map snd (good calc))).
  { intros calc. unfold without_nan, good. f_equal; induction calc as [|[x [z|]] calc IH]; cbn in *; congruence. }
  assert (K : forall l st, length (fst st) = length (snd st) ->
    let out := fold_left ingest l st in
    fst out = fst st ++ map fst (good (concat l)) /\ snd out = snd st ++ map snd (good (concat l))).
  { clear l. induction l as [|calc l IH]; intros st E; cbn [fold_left concat].
    - unfold good. cbn. rewrite !app_nil_r. auto.
    - unfold good in *. rewrite flat_map_app, !map_app, !app_assoc. destruct (IH (ingest st calc)) as [A B].
      + unfold ingest. rewrite W. cbn. rewrite !app_length, !map_length. lia.
      + unfold ingest in A, B |- *. rewrite W in A, B |- *. cbn [fst snd] in *. auto. }
  destruct (K l ([], []) eq_refl) as [-> ->]. cbn [fst snd app]. split; [rewrite !map_length; reflexivity|].
  clear K W. induction (good (concat l)) as [|[x z] t IH]; cbn; [reflexivity|]. rewrite IH. reflexivity.
Qed.
Print Assumptions C72_told.
Example C72_told_nonvacuous : ingest_all [[(1, Some 10%Z); (2, None); (3, Some 30%Z)]; [(4, Some 40%Z)]] = ([1; 3; 4], [10; 30; 40]%Z).
Proof. reflexivity. Qed.
(** The generator functions do not look at the points of the results: the values are put
    beside the points sent, in order. The process is told the right values if they come
    in the order of the points sent ... *)
Theorem C72_told_by_the_function {X} (f : X -> option Z) sent :
  let '(x, y) := gen_told sent (map f sent) in
  length x = length y /\ forall k p z, nth_error x k = Some p -> nth_error y k = Some z -> f p = Some z.
Proof.
  unfold gen_told, without_nan.
  induction sent as [|p sent IH]; cbn [map combine flat_map].
  - split; [reflexivity|]. intros [|k] p z h; discriminate.
  - destruct IH as [L IH]. destruct (f p) as [z|] eqn:Ef; cbn [app]; [|auto]. cbn [length]. split; [lia|].
    intros [|k] q w; cbn; [congruence | apply IH].
Qed.
Print Assumptions C72_told_by_the_function.
Example C72_told_by_the_function_nonvacuous :
  gen_told [1; 2; 3] (map (fun n => if n =? 2 then None else Some (Z.of_nat n)) [1; 2; 3]) = ([1; 3], [1; 3]%Z).
Proof. reflexivity. Qed.
(** ... and not if they come in another. *)
Theorem C72_told_by_the_function_refuted :
  ~ (forall X (f : X -> option Z) sent results, Permutation results (map (fun p => (p, f p)) sent) ->
      forall k p z, nth_error (fst (gen_told sent (map snd results))) k = Some p -> nth_error (snd (gen_told sent (map snd results))) k = Some z -> f p = Some z).
Proof.
  intros h. specialize (h Z (fun z => Some z) [1; 2]%Z [(2, Some 2); (1, Some 1)]%Z ltac:(cbn; constructor) 0 1%Z 2%Z eq_refl eq_refl). discriminate.
Qed.
Print Assumptions C72_told_by_the_function_refuted.
