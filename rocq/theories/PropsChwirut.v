(** Property theorem C95: residuals one at a time are the residuals all at once. *)
From Coq Require Import QArith.
From Verif Require Import Base BaseLemmas PointsModel PropsPoints ChwirutModel.
Local Open Scope nat_scope.

(** Vocabulary: the residual of the fit exp(-x0 t) / (x1 + x2 t) at one observation. *)
Definition residual (E : Q -> Q) (x0 x1 x2 y t : Q) : Q := (y - E (- x0 * t) / (x1 + x2 * t))%Q.

Lemma nth_py_nat {A} (l : list A) i a : nth_py l (Z.of_nat i) = Ok a <-> nth_error l i = Some a.
Proof.
  unfold nth_py. replace (Z.of_nat i <? 0)%Z with false by (symmetry; apply Z.ltb_ge; lia). cbv zeta iota.
  replace (Z.of_nat i <? 0)%Z with false by (symmetry; apply Z.ltb_ge; lia). rewrite Nat2Z.id.
  destruct (nth_error l i); split; intros H; congruence.
Qed.
Lemma bindr_ok {A B} (m : res A) (f : A -> res B) b : bindr m f = Ok b -> exists a, m = Ok a /\ f a = Ok b.
Proof. destruct m; cbn; [eauto|discriminate]. Qed.

Lemma func_def_ok d x i v : func_def d x (Z.of_nat i) = Ok v <->
  exists x0 x1 x2 rest y t, x = x0 :: x1 :: x2 :: rest /\ nth_error (d_y d) i = Some y /\ nth_error (d_t d) i = Some t /\ v = residual (d_E d) x0 x1 x2 y t.
Proof.
  unfold func_def. split.
  - intros H. apply bindr_ok in H as (y & Hy & H). apply bindr_ok in H as (x0 & H0 & H). apply bindr_ok in H as (t & Ht & H).
    apply bindr_ok in H as (x1 & H1 & H). apply bindr_ok in H as (x2 & H2 & H).
    apply nth_py_nat in Hy, Ht. apply (nth_py_nat x 0) in H0. apply (nth_py_nat x 1) in H1. apply (nth_py_nat x 2) in H2.
    destruct x as [|a [|b [|c rest]]]; try discriminate. cbn in H0, H1, H2.
    exists x0, x1, x2, rest, y, t. split; [congruence|]. split; [exact Hy|]. split; [exact Ht|]. unfold residual. congruence.
  - intros (x0 & x1 & x2 & rest & y & t & -> & Hy & Ht & ->). apply nth_py_nat in Hy, Ht. rewrite Hy, Ht. reflexivity.
Qed.

Lemma residuals_nth d x n : forall i l, all_residuals d x i n = Ok l ->
  length l = n /\ forall c, c < n -> exists v, nth_error l c = Some v /\ func_def d x (Z.of_nat (i + c)) = Ok v.
Proof.
  induction n as [|n IH]; intros i l H; cbn [all_residuals] in H.
  - injection H as <-. split; [reflexivity|]. intros c Hc. lia.
  - apply bindr_ok in H as (a & Ha & H). apply bindr_ok in H as (l' & Hl & H). assert (l = a :: l') by congruence. subst l.
    destruct (IH _ _ Hl) as [L N]. split; [cbn; lia|]. intros [|c] Hc.
    + exists a. rewrite Nat.add_0_r. auto.
    + destruct (N c ltac:(lia)) as (v & V1 & V2). exists v. replace (i + S c) with (S i + c) by lia. auto.
Qed.
Lemma residuals_total d x0 x1 x2 rest : length (d_y d) = length (d_t d) -> forall n i, i + n <= length (d_y d) ->
  exists l, all_residuals d (x0 :: x1 :: x2 :: rest) i n = Ok l.
Proof.
  intros Hl. induction n as [|n IH]; intros i Hi; cbn [all_residuals]; [eauto|].
  destruct (nth_error (d_y d) i) as [y|] eqn:Ey; [|apply nth_error_None in Ey; lia].
  destruct (nth_error (d_t d) i) as [t|] eqn:Et; [|apply nth_error_None in Et; lia].
  assert (F : func_def d (x0 :: x1 :: x2 :: rest) (Z.of_nat i) = Ok (residual (d_E d) x0 x1 x2 y t)).
  { apply func_def_ok. exists x0, x1, x2, rest, y, t. auto. }
  rewrite F. cbn [bindr]. destruct (IH (S i) ltac:(lia)) as [l ->]. cbn [bindr]. eauto.
Qed.

Lemma eval_rows d user r : forall pts k ws, chwirut_eval d user r k pts = Ok ws ->
  length ws = length pts /\
  forall j w, nth_error ws j = Some w -> exists x c k1 k2, nth_error pts j = Some (x, c) /\ k <= k1 /\ chw_point d user r k1 x c = Ok (w, k2).
Proof.
  assert (M : forall k x c w k', chw_point d user r k x c = Ok (w, k') -> k <= k').
  { intros k x c w k' H. unfold chw_point in H. destruct c as [i|].
    - destruct user as [[[p|] g]|]; cbn zeta iota in H.
      + destruct (Qle_bool p (r k)); [apply bindr_ok in H as (v & _ & H)|]; injection H as _ <-; lia.
      + apply bindr_ok in H as (v & _ & H). injection H as _ <-. lia.
      + apply bindr_ok in H as (v & _ & H). injection H as _ <-. lia.
    - apply bindr_ok in H as (l & _ & H). destruct user as [[p [g|]]|]; try discriminate; injection H as _ <-; lia. }
  induction pts as [|[x c] pts IH]; intros k ws H; cbn [chwirut_eval] in H.
  - injection H as <-. split; [reflexivity|]. intros [|j] w; discriminate.
  - apply bindr_ok in H as ([w0 k'] & H1 & H). apply bindr_ok in H as (ws' & H2 & H). assert (ws = w0 :: ws') by congruence. subst ws.
    destruct (IH _ _ H2) as [L N]. split; [cbn; lia|]. intros [|j] w Hw; cbn in Hw.
    + injection Hw as <-. exists x, c, k, k'. auto.
    + destruct (N j w Hw) as (x' & c' & k1 & k2 & A & B & C). apply M in H1. exists x', c', k1, k2. repeat split; auto; lia.
Qed.

(** ** C95 *)

(** Without components: every point gives a row, in order, with the residuals at all
    observations, and their combination: the given one, or the sum of squares. *)
Theorem C95_all_residuals :
  forall d u r k xs ws, length (d_y d) = length (d_t d) ->
  chwirut_eval d (Some u) r k (map (fun x => (x, None)) xs) = Ok ws ->
  length ws = length xs /\
  forall j x w, nth_error xs j = Some x -> nth_error ws j = Some w ->
    length (w_fvec w) = length (d_y d) /\
    (forall c y t, nth_error (d_y d) c = Some y -> nth_error (d_t d) c = Some t ->
       exists x0 x1 x2 rest, x = x0 :: x1 :: x2 :: rest /\ nth_error (w_fvec w) c = Some (residual (d_E d) x0 x1 x2 y t)) /\
    w_f w = match u_combine u with Some g => g (w_fvec w) | None => fold_right (fun a s => (a * a + s)%Q) 0%Q (w_fvec w) end.
Proof.
  intros d u r k xs ws Hd E. apply eval_rows in E as [L N]. rewrite map_length in L. split; [exact L|].
  intros j x w Hx Hw. destruct (N j w Hw) as (x' & c' & k1 & k2 & A & _ & C).
  rewrite (map_nth_error _ _ _ Hx) in A. injection A as <- <-. unfold chw_point in C. apply bindr_ok in C as (l & Hl & C).
  destruct (residuals_nth _ _ _ _ _ Hl) as [Ll Nl]. destruct u as [p g].
  assert (Hw' : w_fvec w = l /\ w_f w = match g with Some g => g l | None => sum_squares l end).
  { destruct g as [g|]; injection C as <- _; auto. }
  destruct Hw' as [-> ->]. split; [exact Ll|]. split; [|destruct g; reflexivity].
  intros c y t Hy Ht. destruct (Nl c) as (v & V1 & V2). { rewrite <- nth_error_Some. congruence. }
  apply func_def_ok in V2 as (x0 & x1 & x2 & rest & y' & t' & -> & Hy' & Ht' & ->). exists x0, x1, x2, rest. split; [reflexivity|].
  change (0 + c) with c in Hy', Ht'. congruence.
Qed.
Print Assumptions C95_all_residuals.

(** Every batch of points with three parameters is evaluated. *)
Theorem C95_every_batch_is_evaluated :
  forall d u r k xs, length (d_y d) = length (d_t d) -> (forall x, In x xs -> 3 <= length x) ->
  exists ws, chwirut_eval d (Some u) r k (map (fun x => (x, None)) xs) = Ok ws.
Proof.
  intros d u r k xs Hd. revert k. induction xs as [|x xs IH]; intros k Hx; cbn [map chwirut_eval]; [eauto|].
  destruct x as [|x0 [|x1 [|x2 rest]]]; try (specialize (Hx _ (or_introl eq_refl)); cbn in Hx; lia).
  unfold chw_point. destruct (residuals_total d x0 x1 x2 rest Hd (length (d_y d)) 0 ltac:(lia)) as [l ->]. cbn [bindr].
  destruct (IH k) as [ws E]. { intros x Hi. apply Hx. right. exact Hi. }
  destruct u as [p [g|]]; cbn [bindr]; rewrite E; cbn [bindr]; eauto.
Qed.
Print Assumptions C95_every_batch_is_evaluated.

(** With components: each row holds the residual asked for, the one at that place when
    all are evaluated, or NaN, and that only if NaNs were asked for and a random number
    is below the frequency (which one: [C95_nan_frequency]). *)
Theorem C95_one_residual :
  forall d user r k pts ws, chwirut_eval d user r k pts = Ok ws ->
  length ws = length pts /\
  forall j x c w, nth_error pts j = Some (x, Some (Z.of_nat c)) -> nth_error ws j = Some w ->
    (w_fi w = None /\ exists p g k', user = Some (mkUser (Some p) g) /\ (r k' < p)%Q) \/
    (forall u r' k' w', chwirut_eval d (Some u) r' k' [(x, None)] = Ok [w'] ->
       exists v, nth_error (w_fvec w') c = Some v /\ w_fi w = Some v).
Proof.
  intros d user r k pts ws E. apply eval_rows in E as [L N]. split; [exact L|]. intros j x c w Hp Hw.
  destruct (N j w Hw) as (x' & c' & k1 & k2 & A & _ & C). rewrite Hp in A. injection A as <- <-.
  assert (D : (w_fi w = None /\ exists p g k', user = Some (mkUser (Some p) g) /\ (r k' < p)%Q) \/ exists v, func_def d x (Z.of_nat c) = Ok v /\ w_fi w = Some v).
  { unfold chw_point in C. destruct user as [[[p|] g]|]; cbn zeta iota in C.
    - destruct (Qle_bool p (r k1)) eqn:Eq.
      + right. apply bindr_ok in C as (v & V & C). injection C as <- _. eauto.
      + left. injection C as <- _. split; [reflexivity|]. exists p, g, k1. split; [reflexivity|].
        apply Qnot_le_lt. intros H. apply Qle_bool_iff in H. congruence.
    - right. apply bindr_ok in C as (v & V & C). injection C as <- _. eauto.
    - right. apply bindr_ok in C as (v & V & C). injection C as <- _. eauto. }
  destruct D as [D|(v & V & ->)]; [left; exact D|]. right. intros u r' k' w' E'. exists v. split; [|reflexivity].
  apply eval_rows in E' as [_ N']. destruct (N' 0 w' eq_refl) as (x' & c' & k3 & k4 & A & _ & C'). injection A as <- <-.
  unfold chw_point in C'. apply bindr_ok in C' as (l & Hl & C'). destruct (residuals_nth _ _ _ _ _ Hl) as [_ Nl].
  assert (Hw' : w_fvec w' = l) by (destruct u as [p [g|]]; injection C' as <- _; reflexivity). rewrite Hw'.
  destruct (Nl c) as (v' & V1 & V2).
  { apply func_def_ok in V as (? & ? & ? & ? & ? & ? & _ & Hy & _). rewrite <- nth_error_Some. congruence. }
  change (0 + c) with c in V2. congruence.
Qed.
Print Assumptions C95_one_residual.

(** If NaNs are asked for, a row is NaN exactly if its own random number is below the
    frequency. *)
Theorem C95_nan_frequency :
  forall d p g r k (pts : list (list Q * Z)) ws,
  chwirut_eval d (Some (mkUser (Some p) g)) r k (map (fun q => (fst q, Some (snd q))) pts) = Ok ws ->
  forall j w, nth_error ws j = Some w -> (w_fi w = None <-> (r (k + j)%nat < p)%Q).
Proof.
  intros d p g r k pts. revert k. induction pts as [|[x i] pts IH]; intros k ws E j w Hw; cbn [map fst snd chwirut_eval] in E.
  - injection E as <-. destruct j; discriminate.
  - apply bindr_ok in E as ([w0 k'] & H1 & E). apply bindr_ok in E as (ws' & H2 & E). assert (ws = w0 :: ws') by congruence. subst ws.
    unfold chw_point in H1. cbn zeta iota in H1.
    assert (F : k' = S k /\ (w_fi w0 = None <-> (r k < p)%Q)).
    { destruct (Qle_bool p (r k)) eqn:Eq.
      - apply bindr_ok in H1 as (v & _ & H1). injection H1 as <- <-. split; [reflexivity|]. cbn [w_fi]. split; [discriminate|].
        intros h. apply Qle_bool_iff in Eq. exfalso. apply (Qlt_not_le _ _ h Eq).
      - injection H1 as <- <-. split; [reflexivity|]. cbn [w_fi]. split; [|reflexivity]. intros _. apply Qnot_le_lt. intros h. apply Qle_bool_iff in h. congruence. }
    destruct F as [-> F]. destruct j as [|j]; cbn in Hw.
    + injection Hw as <-. rewrite Nat.add_0_r. exact F.
    + rewrite Nat.add_succ_r, <- Nat.add_succ_l. eapply IH; eauto.
Qed.
Print Assumptions C95_nan_frequency.

(** The history that the generator of components makes, evaluated one residual at a
    time, holds the same residuals as the points evaluated at once, so that their
    squares add up to the same values. *)
Theorem C95_one_at_a_time_is_all_at_once :
  forall d u r k r' k' (calls : list (nat * (nat -> list Q))) H ws ws', 0 < length (d_y d) ->
  component_calls (length (d_y d)) calls [] = Ok H -> u_nan u = None ->
  chwirut_eval d (Some u) r k (map (fun row => (c_x row, Some (Z.of_nat (c_component row)))) H) = Ok ws ->
  chwirut_eval d (Some u) r' k' (map (fun x => (x, None)) (drawn calls)) = Ok ws' ->
  forall i w', nth_error ws' i = Some w' ->
    map w_fi (firstn (length (d_y d)) (skipn (i * length (d_y d)) ws)) = map Some (w_fvec w').
Proof.
  intros d u r k r' k' calls H ws ws' Hm Hc Hu E E' i w' Hw'. set (m := length (d_y d)) in *.
  destruct (C70_components m calls H Hc Hm) as [LH NH].
  apply eval_rows in E as [L N]. apply eval_rows in E' as [L' N']. rewrite map_length in L, L'.
  destruct (N' i w' Hw') as (x & c & k1 & k2 & A & _ & C).
  assert (Hi : i < length (drawn calls)). { rewrite <- L'. apply nth_error_Some. congruence. }
  destruct (nth_error (drawn calls) i) as [x'|] eqn:Ex; [|apply nth_error_None in Ex; lia].
  rewrite (map_nth_error _ _ _ Ex) in A. injection A as -> <-.
  unfold chw_point in C. apply bindr_ok in C as (l & Hl & C). fold m in Hl. destruct (residuals_nth _ _ _ _ _ Hl) as [Ll Nl].
  assert (Hv : w_fvec w' = l) by (destruct u as [p [g|]]; injection C as <- _; reflexivity). rewrite Hv.
  assert (Hlen : length ws = m * length (drawn calls)) by lia.
  apply nth_error_ext. intros j. destruct (Nat.lt_ge_cases j m) as [Hj|Hj].
  - assert (Hk : i * m + j < length ws) by nia.
    destruct (nth_error ws (i * m + j)) as [w|] eqn:Ew; [|apply nth_error_None in Ew; lia].
    assert (Hs : nth_error (firstn m (skipn (i * m) ws)) j = Some w).
    { rewrite <- Ew. clear - Hj. revert j Hj ws. generalize (i * m) as a. intros a. revert m.
      intros m j Hj ws. transitivity (nth_error (skipn a ws) j).
      - generalize (skipn a ws) as q. revert j Hj. induction m as [|m IH]; intros j Hj q; [lia|]. destruct q; [reflexivity|]. destruct j; [reflexivity|]. cbn. apply IH. lia.
      - revert ws. induction a as [|a IH]; intros ws; [reflexivity|]. destruct ws; [destruct j; reflexivity|]. cbn. apply IH. }
    rewrite (map_nth_error _ _ _ Hs). destruct (Nl j Hj) as (v & V1 & V2). rewrite (map_nth_error _ _ _ V1). f_equal.
    destruct (N _ _ Ew) as (x1 & c1 & k3 & k4 & A1 & _ & C1).
    destruct (nth_error H (i * m + j)) as [row|] eqn:Er; [|apply nth_error_None in Er; lia].
    rewrite (map_nth_error _ _ _ Er) in A1. injection A1 as <- <-. destruct (NH _ _ Er) as (_ & R1 & R2).
    replace ((i * m + j) / m) with i in R2. 2:{ rewrite Nat.div_add_l by lia. rewrite Nat.div_small by lia. lia. }
    replace ((i * m + j) mod m) with j in R1. 2:{ rewrite Nat.add_comm, Nat.mod_add by lia. symmetry. apply Nat.mod_small. lia. }
    rewrite Ex in R2. injection R2 as ->. rewrite R1 in C1. unfold chw_point in C1. destruct u as [p g]. cbn [u_nan] in Hu. subst p. cbn zeta iota in C1.
    apply bindr_ok in C1 as (v1 & V3 & C1). injection C1 as <- _. change (0 + j) with j in V2. cbn [w_fi]. congruence.
  - rewrite !(proj2 (nth_error_None _ _)); [reflexivity| |]; rewrite map_length; [lia|]. rewrite firstn_length. lia.
Qed.
Print Assumptions C95_one_at_a_time_is_all_at_once.

(** A component that does not exist raises. *)
Theorem C95_no_such_residual :
  forall d u r k x c, length (d_y d) <= c -> u_nan u = None ->
  chwirut_eval d (Some u) r k [(x, Some (Z.of_nat c))] = Err EIndex.
Proof.
  intros d [p g] r k x c Hc Hu. cbn in Hu. subst p. cbn [chwirut_eval chw_point]. unfold func_def, nth_py at 1.
  replace (Z.of_nat c <? 0)%Z with false by (symmetry; apply Z.ltb_ge; lia). cbv zeta iota.
  replace (Z.of_nat c <? 0)%Z with false by (symmetry; apply Z.ltb_ge; lia). rewrite Nat2Z.id, (proj2 (nth_error_None _ _) Hc). reflexivity.
Qed.
Print Assumptions C95_no_such_residual.

(** With E q = 1 + q, two observations and two points. *)
Definition chw_example : chw_data := mkData (fun q => 1 + q)%Q [5; 7]%Q [1; 2]%Q.
Definition chw_draw (i : nat) : list Q := match i with O => [3; 1; 1]%Q | _ => [1; 2; 0]%Q end.
Example C95_example :
  exists H ws ws', component_calls 2 [(2, chw_draw)] [] = Ok H /\
  chwirut_eval chw_example (Some (mkUser None None)) (fun _ => 0%Q) 0 (map (fun row => (c_x row, Some (Z.of_nat (c_component row)))) H) = Ok ws /\
  chwirut_eval chw_example (Some (mkUser None None)) (fun _ => 0%Q) 0 (map (fun x => (x, None)) (drawn [(2, chw_draw)])) = Ok ws' /\
  map (fun w => option_map Qred (w_fi w)) ws = [Some 6; Some (26 # 3); Some 5; Some (15 # 2)]%Q /\
  map (fun w => map Qred (w_fvec w)) ws' = [[6; 26 # 3]; [5; 15 # 2]]%Q /\
  map (fun w => Qred (w_f w)) ws' = [1000 # 9; 325 # 4]%Q.
Proof. do 3 eexists. repeat split; vm_compute; reflexivity. Qed.
Example C95_example_nan :
  option_map (map w_fi) (match chwirut_eval chw_example (Some (mkUser (Some (1 # 2)%Q) None)) (fun k => if (k =? 1)%nat then 0%Q else 1%Q) 0
    [([3; 1; 1]%Q, Some 0%Z); ([3; 1; 1]%Q, Some 0%Z)] with Ok l => Some l | Err _ => None end) = Some [Some (5 - (1 + - (3) * 1) / (1 + 1 * 1))%Q; None].
Proof. vm_compute. reflexivity. Qed.
