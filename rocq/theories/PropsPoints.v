(** * C70: the points of the sampling functions are what their documentation says

    Latin hypercubes, points split into components, numbers of GPUs taken from a point,
    the best points of a batch, and the weights of a batch (model in PointsModel). *)
From Coq Require Import QArith Qround Lqa Permutation.
From Verif Require Import Base BaseLemmas SamplerModel SamplerSpec PointsModel.
Local Open Scope nat_scope.

(** ** Latin hypercubes *)
(** [x] lies in the [s]-th of [k] equal parts of [l, u). *)
Definition in_part (k s : nat) (l u x : Q) : Prop :=
  (l + Qn s * ((u - l) / Qn k) <= x)%Q /\ (x < l + Qn (S s) * ((u - l) / Qn k))%Q.

Lemma Qn_pos k : 0 < k -> (0 < Qn k)%Q.
Proof. intros h. unfold Qn, Qlt. cbn. lia. Qed.
Lemma Qn_S s : (Qn (S s) == Qn s + 1)%Q.
Proof. unfold Qn. rewrite Nat2Z.inj_succ. unfold Z.succ. rewrite inject_Z_plus. reflexivity. Qed.
Lemma Qn_le a b : a <= b -> (Qn a <= Qn b)%Q.
Proof. intros h. unfold Qn. rewrite <- Zle_Qle. lia. Qed.
Lemma rand_in_part k r p j l u s : 0 < k -> (l < u)%Q -> (0 <= r p j < 1)%Q ->
  in_part k s l u (rand_pt k r p j * (u - l) + l) <-> s = p.
Proof.
  intros Hk Hlu [R0 R1]. unfold in_part. pose proof (Qn_pos k Hk) as K.
  set (w := ((u - l) / Qn k)%Q).
  assert (W : (0 < w)%Q) by (unfold w; apply Qlt_shift_div_l; lra).
  assert (E : (rand_pt k r p j * (u - l) + l == l + (Qn p + r p j) * w)%Q).
  { unfold rand_pt, interval, w. rewrite Qn_S. field. lra. }
  rewrite E, Qn_S. set (t := r p j) in *. clearbody w t. clear E K. split.
  - intros [A B].
    assert (A1 : (Qn s <= Qn p + t)%Q) by nra. assert (B1 : (Qn p + t < Qn s + 1)%Q) by nra.
    destruct (Nat.lt_trichotomy s p) as [h|[h|h]]; [|exact h|].
    + pose proof (Qn_le (S s) p h) as Q. rewrite Qn_S in Q. lra.
    + pose proof (Qn_le (S p) s h) as Q. rewrite Qn_S in Q. lra.
  - intros ->. split; nra.
Qed.
Lemma lhs_nth k r perm lb ub i j l u : length ub = length lb ->
  nth_error lb j = Some l -> nth_error ub j = Some u ->
  nth_error (lhs_row k r perm lb ub i) j = Some (rand_pt k r (nth i (perm j) 0%nat) j * (u - l) + l)%Q.
Proof.
  intros L El Eu. unfold lhs_row. rewrite nth_error_map.
  assert (Z : forall (lb ub : list Q) s j l u, length ub = length lb -> nth_error lb j = Some l -> nth_error ub j = Some u ->
            nth_error (combine (seq s (length lb)) (combine lb ub)) j = Some (s + j, (l, u))).
  { clear. induction lb as [|a lb IH]; intros [|b ub] s j l u L El Eu; destruct j as [|j]; cbn in *; try discriminate; try lia.
    - rewrite Nat.add_0_r. congruence.
    - rewrite (IH ub (S s) j l u) by (auto; lia). do 2 f_equal. lia. }
  rewrite (Z lb ub 0 j l u L El Eu). reflexivity.
Qed.

(** Each of the [k] equal parts of each dimension's range contains the coordinate of
    exactly one of the [k] points, and no coordinate is outside the range. *)
Theorem C70_latin_hypercube k r perm lb ub :
  length ub = length lb ->
  (forall i j, (0 <= r i j < 1)%Q) ->                     (* draws from [0, 1) *)
  (forall j, Permutation (perm j) (seq 0 k)) ->
  let points := latin_hypercube k r perm lb ub in
  length points = k /\
  forall j l u, nth_error lb j = Some l -> nth_error ub j = Some u -> (l < u)%Q ->
    (forall s, s < k -> exists! i, exists p x,
        nth_error points i = Some p /\ nth_error p j = Some x /\ in_part k s l u x) /\
    (forall i p, nth_error points i = Some p -> exists x, nth_error p j = Some x /\ (l <= x < u)%Q).
Proof.
  intros L R P points. split; [unfold points, latin_hypercube; rewrite map_length, seq_length; reflexivity|].
  intros j l u El Eu Hlu.
  assert (N : forall i, i < k -> nth_error points i = Some (lhs_row k r perm lb ub i)).
  { intros i Hi. unfold points, latin_hypercube. rewrite nth_error_map, nth_error_nth' with (d := 0) by (rewrite seq_length; exact Hi).
    rewrite seq_nth by exact Hi. reflexivity. }
  assert (Lp : length (perm j) = k) by (rewrite (Permutation_length (P j)), seq_length; reflexivity).
  assert (ND : NoDup (perm j)) by (eapply Permutation_NoDup; [symmetry; apply P | apply seq_NoDup]).
  assert (Bd : forall i, nth_error points i <> None -> i < k).
  { intros i h. apply nth_error_Some in h. unfold points, latin_hypercube in h. rewrite map_length, seq_length in h. exact h. }
  split.
  - intros s Hs. assert (In s (perm j)) as h by (eapply Permutation_in; [symmetry; apply P | apply in_seq; lia]).
    apply (In_nth _ _ 0) in h as (i & Hi & Ei). rewrite Lp in Hi. exists i. split.
    + do 2 eexists. split; [apply N; exact Hi|]. split; [apply lhs_nth; eassumption|]. apply rand_in_part; auto; lia.
    + intros i' (p & x & E1 & E2 & E3). assert (Hi' : i' < k) by (apply Bd; congruence).
      rewrite (N i' Hi') in E1. injection E1 as <-. rewrite (lhs_nth _ _ _ _ _ _ _ _ _ L El Eu) in E2. injection E2 as <-.
      apply rand_in_part in E3; auto; [|lia]. apply (proj1 (NoDup_nth (perm j) 0) ND); congruence.
  - intros i p E. assert (Hi : i < k) by (apply Bd; congruence). rewrite (N i Hi) in E. injection E as <-.
    eexists. split; [apply lhs_nth; eassumption|].
    set (q := nth i (perm j) 0).
    assert (Hq : q < k).
    { assert (In q (seq 0 k)) as h by (eapply Permutation_in; [apply P | apply nth_In; lia]). apply in_seq in h. lia. }
    destruct (proj2 (rand_in_part k r q j l u q ltac:(lia) Hlu (R q j)) eq_refl) as [A B].
    pose proof (Qn_pos k ltac:(lia)) as K. pose proof (Qn_le 0 q ltac:(lia)) as Q0. pose proof (Qn_le (S q) k Hq) as Q1.
    assert (W : (0 < (u - l) / Qn k)%Q) by (apply Qlt_shift_div_l; lra).
    assert (W1 : (Qn k * ((u - l) / Qn k) == u - l)%Q) by (field; lra).
    change (Qn 0) with 0%Q in Q0. set (w := ((u - l) / Qn k)%Q) in *. clearbody w. split; nra.
Qed.
Print Assumptions C70_latin_hypercube.
Example C70_latin_hypercube_nonvacuous :
  map (map Qred) (latin_hypercube 2 (fun i j => 1 # 2)%Q (fun j => if j =? 0 then [1; 0] else [0; 1]) [0%Q; 0%Q] [4%Q; 8%Q]) =
  [[3%Q; 2%Q]; [1%Q; 6%Q]].
Proof. reflexivity. Qed.

(** ** Points split into components *)
(** If each call gets the history with the rows of all earlier calls, the rows made are,
    for each point, one for each component, all with the same point and a number no other
    point has: the numbers are consecutive. *)
Lemma flat_map_len {X} m b (f : nat -> nat -> X) s : length (flat_map (fun i => map (f i) (seq 0 m)) (seq s b)) = b * m.
Proof. revert s. induction b as [|b IH]; intros s; cbn; [reflexivity|]. rewrite app_length, map_length, seq_length, IH. reflexivity. Qed.
Lemma flat_map_shift {X} n (f : nat -> list X) s : flat_map f (seq s n) = flat_map (fun i => f (s + i)) (seq 0 n).
Proof.
  revert s f. induction n as [|n IH]; intros s f; cbn; [reflexivity|]. rewrite Nat.add_0_r. f_equal.
  rewrite IH. rewrite (IH 1). apply flat_map_ext. intros i. f_equal. lia.
Qed.
Definition drawn {X} (calls : list (nat * (nat -> X))) : list X :=
  flat_map (fun c => map (snd c) (seq 0 (fst c))) calls.
Theorem C70_components {X} m (calls : list (nat * (nat -> X))) H :
  component_calls m calls [] = Ok H -> 0 < m ->
  length H = m * length (drawn calls) /\
  forall k row, nth_error H k = Some row ->
    c_pt_id row = k / m /\ c_component row = k mod m /\ nth_error (drawn calls) (k / m) = Some (c_x row).
Proof.
  intros E Hm.
  assert (K : forall calls H0 pts H, component_calls m calls H0 = Ok H ->
    length H0 = m * length pts ->
    (forall k row, nth_error H0 k = Some row -> c_pt_id row = k / m /\ c_component row = k mod m /\ nth_error pts (k / m) = Some (c_x row)) ->
    length H = m * length (pts ++ drawn calls) /\
    forall k row, nth_error H k = Some row -> c_pt_id row = k / m /\ c_component row = k mod m /\
      nth_error (pts ++ drawn calls) (k / m) = Some (@c_x X row)).
  { clear - Hm. induction calls as [|[b draw] calls IH]; intros H0 pts H E L Q; cbn [component_calls] in E.
    - injection E as <-. cbn. rewrite app_nil_r. auto.
    - unfold obj_components in E. replace (m =? 0) with false in E by (symmetry; apply Nat.eqb_neq; lia). cbn [andb] in E.
      cbn [drawn flat_map fst snd]. fold (drawn calls). rewrite app_assoc.
      apply (IH _ (pts ++ map draw (seq 0 b)) _ E).
      + rewrite app_length, (flat_map_len m b (fun i c => mkcrow (draw i) c (length H0 / m + i))), app_length, map_length, seq_length. lia.
      + intros k row Ek. assert (D : length H0 / m = length pts) by (rewrite L, Nat.mul_comm, Nat.div_mul; lia).
        destruct (Nat.lt_ge_cases k (length H0)) as [Hk|Hk].
        * rewrite nth_error_app1 in Ek by exact Hk. destruct (Q k row Ek) as (A & B & C). split; [exact A|]. split; [exact B|].
          rewrite nth_error_app1; [exact C|]. apply nth_error_Some. congruence.
        * rewrite nth_error_app2 in Ek by exact Hk. rewrite D in Ek. remember (k - length H0) as k0 eqn:Ek0.
          assert (k = m * length pts + k0) by lia. subst k.
          assert (D1 : (m * length pts + k0) / m = length pts + k0 / m) by (rewrite (Nat.mul_comm m); apply Nat.div_add_l; lia).
          assert (D2 : (m * length pts + k0) mod m = k0 mod m) by (rewrite (Nat.mul_comm m), Nat.add_comm; apply Nat.mod_add; lia).
          rewrite D1, D2.
          rewrite nth_error_app2 by apply Nat.le_add_r. replace (length pts + k0 / m - length pts) with (k0 / m) by (rewrite Nat.add_comm; symmetry; apply Nat.add_sub).
          assert (Z : forall b s k0 row, nth_error (flat_map (fun i => map (fun c => mkcrow (draw i) c (length pts + i)) (seq 0 m)) (seq s b)) k0 = Some row ->
                 c_pt_id row = length pts + (s + k0 / m) /\ c_component row = k0 mod m /\ nth_error (map draw (seq s b)) (k0 / m) = Some (c_x row)).
          { clear - Hm. induction b as [|b IH]; intros s k0 row E; cbn [seq flat_map map] in E; [destruct k0; discriminate|].
            destruct (Nat.lt_ge_cases k0 m) as [Hk|Hk].
            - rewrite nth_error_app1 in E by (rewrite map_length, seq_length; exact Hk).
              rewrite nth_error_map, nth_error_nth' with (d := 0) in E by (rewrite seq_length; exact Hk).
              rewrite seq_nth in E by exact Hk. injection E as <-. cbn [c_pt_id c_component c_x plus].
              rewrite Nat.div_small, Nat.mod_small by exact Hk. cbn. split; [lia|auto].
            - rewrite nth_error_app2 in E by (rewrite map_length, seq_length; exact Hk). rewrite map_length, seq_length in E.
              destruct (IH _ _ _ E) as (A & B & C). 
              assert (D1 : k0 / m = S ((k0 - m) / m)) by (replace k0 with (1 * m + (k0 - m)) at 1 by lia; rewrite Nat.div_add_l by lia; reflexivity).
              assert (D2 : k0 mod m = (k0 - m) mod m) by (replace k0 with ((k0 - m) + 1 * m) at 1 by lia; apply Nat.mod_add; lia).
              rewrite D1, D2. cbn [seq map nth_error].
              split; [rewrite A; lia|]. split; [exact B|exact C]. }
          destruct (Z b 0 k0 row Ek) as (A & B & C). cbn [plus] in A. auto. }
  destruct (K calls [] [] H E) as [A B]; [cbn; lia | intros [|k] row h; discriminate|]. auto.
Qed.
Print Assumptions C70_components.
(** It raises exactly if there are points but no components. *)
Theorem C70_components_raises {X} m b H (draw : nat -> X) :
  (exists e, obj_components m b H draw = Err e) <-> m = 0 /\ 0 < b.
Proof.
  unfold obj_components. destruct m as [|m], b as [|b]; cbn [Nat.eqb andb negb]; split.
  all: try (intros [e h]; discriminate).
  all: try (intros [h1 h2]; exfalso; lia).
  all: try (intros _; split; [reflexivity|lia]).
  all: intros _; eauto.
Qed.
Print Assumptions C70_components_raises.
Example C70_components_nonvacuous :
  component_calls 2 [(1, fun i => 10 + i); (2, fun i => 20 + i)] [] =
  Ok [mkcrow 10 0 0; mkcrow 10 1 0; mkcrow 20 0 1; mkcrow 20 1 1; mkcrow 21 0 2; mkcrow 21 1 2].
Proof. reflexivity. Qed.
(** If the history has not grown between two calls, different points get one number. *)
Theorem C70_components_same_history_refuted :
  ~ (forall X m b H (d1 d2 : nat -> X) l1 l2, 0 < m -> obj_components m b H d1 = Ok l1 -> obj_components m b H d2 = Ok l2 ->
      forall a c, In a l1 -> In c l2 -> c_pt_id a = c_pt_id c -> c_x a = c_x c).
Proof.
  intros h. specialize (h nat 1 1 0 (fun _ => 0) (fun _ => 1) _ _ ltac:(lia) eq_refl eq_refl (mkcrow 0 0 0) (mkcrow 1 0 0)).
  assert (0 = 1) by (apply h; cbn; auto). discriminate.
Qed.
Print Assumptions C70_components_same_history_refuted.

(** ** Numbers of GPUs *)
(** [g] GPUs are asked for exactly if the point is in the [g]-th of [max_gpus] equal parts
    of the range, and so never none and never more than [max_gpus]. *)
Theorem C70_gpus max_gpus lb ub x g :
  (lb <= x)%Q -> (x < ub)%Q ->
  let w := ((ub - lb) / inject_Z (Zpos max_gpus))%Q in
  (ngpus max_gpus lb ub x = g <-> (lb + inject_Z (g - 1) * w <= x)%Q /\ (x < lb + inject_Z g * w)%Q) /\
  (1 <= ngpus max_gpus lb ub x <= Zpos max_gpus)%Z.
Proof.
  intros A B w. unfold ngpus. fold w.
  assert (M : (0 < inject_Z (Zpos max_gpus))%Q) by (unfold Qlt; cbn; lia).
  assert (W : (0 < w)%Q) by (unfold w; apply Qlt_shift_div_l; lra).
  assert (W1 : (inject_Z (Zpos max_gpus) * w == ub - lb)%Q) by (unfold w; field; lra).
  set (t := ((x - lb) / w)%Q). assert (T : (t * w == x - lb)%Q) by (unfold t; field; lra).
  assert (T0 : (0 <= t)%Q) by (unfold t; apply Qle_shift_div_l; lra).
  assert (Et : trunc t = Qfloor t) by (unfold trunc; apply Qle_bool_iff in T0; rewrite T0; reflexivity).
  rewrite Et. pose proof (Qfloor_le t) as F0. pose proof (Qlt_floor t) as F1.
  rewrite inject_Z_plus in F1. change (inject_Z 1) with 1%Q in F1.
  clearbody w t. split; [split|].
  - intros <-. replace (Qfloor t + 1 - 1)%Z with (Qfloor t) by lia. rewrite inject_Z_plus. change (inject_Z 1) with 1%Q. split; nra.
  - intros [C D]. assert (C1 : (inject_Z (g - 1) <= t)%Q) by nra. assert (D1 : (t < inject_Z g)%Q) by nra.
    assert (inject_Z (g - 1) < inject_Z (Qfloor t + 1))%Q as E1 by (rewrite inject_Z_plus; change (inject_Z 1) with 1%Q; lra).
    assert (inject_Z (Qfloor t) < inject_Z g)%Q as E2 by lra.
    rewrite <- Zlt_Qlt in E1, E2. lia.
  - assert (0 <= Qfloor t)%Z as E1.
    { change 0%Z with (Qfloor 0). apply Qfloor_resp_le. exact T0. }
    assert (inject_Z (Qfloor t) < inject_Z (Zpos max_gpus))%Q as E2 by nra.
    rewrite <- Zlt_Qlt in E2. lia.
Qed.
Print Assumptions C70_gpus.
Example C70_gpus_nonvacuous : map (ngpus 4 (-1) 1)%Q [-1; -(1#2); -(1#3); 0; 1#2; 999#1000]%Q = [1; 2; 2; 3; 4; 4]%Z.
Proof. reflexivity. Qed.
(** At the upper bound itself, one GPU too many is asked for. *)
Theorem C70_gpus_at_the_bound_refuted : ~ (forall max_gpus lb ub x, (lb < ub)%Q -> (lb <= x <= ub)%Q -> (ngpus max_gpus lb ub x <= Zpos max_gpus)%Z).
Proof. intros h. specialize (h 4%positive 0%Q 1%Q 1%Q ltac:(lra) ltac:(lra)). vm_compute in h. apply h. reflexivity. Qed.
Print Assumptions C70_gpus_at_the_bound_refuted.

(** ** The best points of a batch *)
Lemma take_points_spec {X} (pts : list X) inds l : take_points pts inds = Ok l ->
  length l = length inds /\ forall k, nth_error l k = match nth_error inds k with Some i => nth_error pts i | None => None end.
Proof.
  revert l. induction inds as [|i inds IH]; intros l E; cbn in E.
  - injection E as <-. split; [reflexivity|]. intros [|k]; reflexivity.
  - destruct (nth_error pts i) as [x|] eqn:Ex; [|discriminate]. destruct (take_points pts inds) as [l0|]; [|discriminate].
    injection E as <-. destruct (IH l0 eq_refl) as [A B]. split; [cbn; lia|]. intros [|k]; cbn; [congruence|apply B].
Qed.
Lemma take_points_total {X} (pts : list X) inds : Forall (fun i => i < length pts) inds -> exists l, take_points pts inds = Ok l.
Proof.
  induction 1 as [|i inds Hi _ [l IH]]; cbn; [eauto|]. destruct (nth_error pts i) eqn:E; [rewrite IH; cbn; eauto|].
  apply nth_error_None in E. lia.
Qed.
Lemma NoDup_head {A} (l l' : list A) : NoDup (l ++ l') -> NoDup l.
Proof. induction l as [|a l IH]; cbn; intros h; inversion h; subst; constructor; [|auto]. intros q. apply H1, in_or_app. auto. Qed.
(** If the value in place [i] belongs to point [i], the next mean and covariance are made
    from [q] of the points (all, if there are fewer), different places of the batch, none
    of which has a larger value than a point left out. *)
Theorem C70_best_points {X} (f : X -> Z) q pts sorted :
  is_argsort (map f pts) sorted ->
  exists places l, best_points q sorted pts = Ok l /\
    NoDup places /\ length places = Nat.min q (length pts) /\
    length l = length places /\
    (forall k i, nth_error places k = Some i -> nth_error l k = nth_error pts i) /\
    (forall i j x y, In i places -> ~ In j places -> nth_error pts i = Some x -> nth_error pts j = Some y -> (f x <= f y)%Z).
Proof.
  intros [P O]. rewrite map_length in P. unfold best_points.
  assert (Ls : length sorted = length pts) by (rewrite (Permutation_length P), seq_length; reflexivity).
  assert (ND : NoDup sorted) by (eapply Permutation_NoDup; [symmetry; exact P | apply seq_NoDup]).
  destruct (take_points_total pts (firstn q sorted)) as [l El].
  { apply Forall_forall. intros i h. assert (In i sorted) as h1 by (rewrite <- (firstn_skipn q sorted); apply in_or_app; auto).
    apply (Permutation_in i P) in h1. apply in_seq in h1. lia. }
  destruct (take_points_spec _ _ _ El) as [A B].
  exists (firstn q sorted), l. split; [exact El|]. split.
  { rewrite <- (firstn_skipn q sorted) in ND. apply NoDup_head in ND. exact ND. }
  split; [rewrite firstn_length, Ls; reflexivity|]. split; [exact A|]. split.
  { intros k i E. rewrite B, E. reflexivity. }
  intros i j x y Hi Hj Ei Ej.
  assert (In j sorted) as h by (eapply Permutation_in; [symmetry; exact P|]; apply in_seq; split; [lia|]; apply nth_error_Some; congruence).
  rewrite <- (firstn_skipn q sorted) in h. apply in_app_or in h as [h|h]; [contradiction|].
  apply In_nth_error in Hi as [a Ha], h as [b Hb].
  assert (Ha1 : a < length (firstn q sorted)) by (apply nth_error_Some; congruence).
  assert (Hb1 : nth_error sorted (length (firstn q sorted) + b) = Some j).
  { rewrite <- (firstn_skipn q sorted) at 1. rewrite nth_error_app2 by lia. replace (_ + b - _) with b by lia. exact Hb. }
  assert (Ha2 : nth_error sorted a = Some i) by (rewrite <- (firstn_skipn q sorted); rewrite nth_error_app1 by exact Ha1; exact Ha).
  pose proof (O a (length (firstn q sorted) + b) i j ltac:(lia) Ha2 Hb1) as Q.
  rewrite (nth_error_nth (map f pts) i 0%Z (x := f x)) in Q by (rewrite nth_error_map, Ei; reflexivity).
  rewrite (nth_error_nth (map f pts) j 0%Z (x := f y)) in Q by (rewrite nth_error_map, Ej; reflexivity). exact Q.
Qed.
Print Assumptions C70_best_points.
Example C70_best_points_nonvacuous :
  is_argsort (map Z.of_nat [5; 1; 3]) [1; 2; 0] /\ best_points 2 [1; 2; 0] [5; 1; 3] = Ok [1; 3].
Proof.
  split; [|reflexivity]. split; [cbn; apply NoDup_Permutation|].
  - repeat constructor; cbn; intuition discriminate.
  - repeat constructor; cbn; intuition discriminate.
  - intros x. cbn. intuition.
  - intros [|[|[|a]]] [|[|[|b]]] i j h Ei Ej; cbn in *; try discriminate; try lia; try (destruct a; discriminate); try (destruct b; discriminate);
      injection Ei as <-; injection Ej as <-; cbn; lia.
Qed.
(** If the results come in another order, the places of the values are taken for places of
    points: the worst may be chosen. *)
Theorem C70_best_points_any_order_refuted :
  ~ (forall (pts given : list Z) sorted l, Permutation given pts -> is_argsort given sorted -> best_points 1 sorted pts = Ok l ->
      forall x y, In x l -> In y pts -> (x <= y)%Z).
Proof.
  intros h. specialize (h [2%Z; 1%Z] [1%Z; 2%Z] [0; 1] [2%Z]).
  assert (2 <= 1)%Z; [|lia]. apply h.
  - apply perm_swap.
  - split; [reflexivity|]. intros [|[|[|a]]] [|[|[|b]]] i j q Ei Ej; cbn in *; try discriminate; try lia; try (destruct a; discriminate); try (destruct b; discriminate);
      injection Ei as <-; injection Ej as <-; cbn; lia.
  - reflexivity.
  - cbn. auto.
  - cbn. auto.
Qed.
Print Assumptions C70_best_points_any_order_refuted.

(** ** Batches and their weights *)
Lemma map_plus a n : forall z, map (fun i => a + i) (seq z n) = seq (a + z) n.
Proof. induction n as [|n IH]; intros z; cbn; [reflexivity|]. rewrite IH. do 2 f_equal. lia. Qed.
Lemma rows_seq size num : forall s, flat_map (fun j => map (fun i => size * j + i) (seq 0 size)) (seq s num) = seq (size * s) (size * num).
Proof.
  induction num as [|num IH]; intros s; cbn [seq flat_map]; [rewrite Nat.mul_0_r; reflexivity|].
  rewrite IH, map_plus. replace (size * S num) with (size + size * num) by lia. rewrite seq_app. f_equal; f_equal; lia.
Qed.
(** The weight that row [i] should get: prior + likelihood - proposal of row [i] of the
    batch before, and nothing if a likelihood of that batch is nan. *)
Definition due (prior prop : nat -> Z) (like : list value) (i : nat) : Z :=
  if forallb (fun v : value => match v with Some _ => true | None => false end) like
  then match nth_error like i with Some (Some f) => (prior i + f - prop i)%Z | _ => 0%Z end
  else 0%Z.
(** If each message has one result for each row, in order: the batches are numbered from
    0, each has [num] groups of [size] rows numbered in order, and each row carries the
    weight due to the same row of the batch before (0 in the first batch). *)
Theorem C70_weights size num prior prop (ms : list (mail value)) outs r :
  run_bayes size num prior prop ms = (outs, r) ->
  Forall (fun m => exists l, m = Go l /\ length l = size * num) ms ->
  r = None /\ length outs = S (length ms) /\
  forall k out, nth_error outs k = Some out ->
    length out = size * num /\
    forall i row, nth_error out i = Some row ->
      b_batch row = k /\ b_subbatch row = i / size /\
      b_weight row = match k with
                     | 0 => 0%Z
                     | S k' => match nth_error ms k' with Some (Go l) => due (prior k') (prop k') l i | _ => 0%Z end
                     end.
Proof.
  unfold run_bayes. intros E F.
  assert (B : forall batch w, (all_numbers w = true -> length w = size * num) ->
     exists out, bayes_batch size num batch w = Ok out /\ length out = size * num /\
       forall i row, nth_error out i = Some row -> b_batch row = batch /\ b_subbatch row = i / size /\
         b_weight row = if all_numbers w then match nth_error w i with Some (Some z) => z | _ => 0%Z end else 0%Z).
  { intros batch w Hw. unfold bayes_batch. rewrite rows_seq, Nat.mul_0_r.
    destruct (all_numbers w).
    - rewrite (Hw eq_refl), Nat.eqb_refl. cbn [orb]. eexists. split; [reflexivity|]. split; [rewrite map_length, seq_length; reflexivity|].
      intros i row Er. assert (Hi : i < size * num) by (erewrite <- seq_length, <- map_length; apply nth_error_Some; rewrite Er; discriminate).
      rewrite nth_error_map, nth_error_nth' with (d := 0) in Er by (rewrite seq_length; exact Hi). rewrite seq_nth in Er by exact Hi.
      injection Er as <-. cbn. split; [reflexivity|]. split; [reflexivity|]. unfold weight_of.
      specialize (Hw eq_refl). destruct w as [|v [|v' w]]; try reflexivity. cbn in Hw. replace i with 0 by lia. reflexivity.
    - eexists. split; [reflexivity|]. split; [rewrite map_length, seq_length; reflexivity|].
      intros i row Er. assert (Hi : i < size * num) by (erewrite <- seq_length, <- map_length; apply nth_error_Some; rewrite Er; discriminate).
      rewrite nth_error_map, nth_error_nth' with (d := 0) in Er by (rewrite seq_length; exact Hi). rewrite seq_nth in Er by exact Hi.
      injection Er as <-. cbn. auto. }
  assert (K : forall (ms : list (mail value)) batch w outs r, bayes size num prior prop batch w ms = (outs, r) ->
    (all_numbers w = true -> length w = size * num) ->
    Forall (fun m => exists l, m = Go l /\ length l = size * num) ms ->
    r = None /\ length outs = S (length ms) /\
    forall k out, nth_error outs k = Some out -> length out = size * num /\
      forall i row, nth_error out i = Some row ->
        b_batch row = batch + k /\ b_subbatch row = i / size /\
        b_weight row = match k with
                     | 0 => if all_numbers w then match nth_error w i with Some (Some z) => z | _ => 0%Z end else 0%Z
                     | S k' => match nth_error ms k' with Some (Go l) => due (prior (batch + k')) (prop (batch + k')) l i | _ => 0%Z end
                     end).
  { clear - B. induction ms as [|m ms IH]; intros batch w outs r E Hw F; cbn [bayes] in E;
      destruct (B batch w Hw) as (out & Eb & Lo & Q); rewrite Eb in E.
    - injection E as <- <-. split; [reflexivity|]. split; [reflexivity|]. intros [|[|k]] out0 Eo; try discriminate.
      injection Eo as <-. rewrite Nat.add_0_r. auto.
    - inversion F as [|? ? (l & -> & Ll) F']; subst. cbn [rows stops] in E. unfold new_weights in E. rewrite Ll, Nat.eqb_refl in E.
      set (w1 := map (fun i => add_nan (Some (prior batch i - prop batch i)%Z) (nth i l None)) (seq 0 (size * num))) in E.
      destruct (bayes size num prior prop (S batch) w1 ms) as [o r0] eqn:Eu. injection E as <- <-.
      assert (Lw : length w1 = size * num) by (unfold w1; rewrite map_length, seq_length; reflexivity).
      destruct (IH _ _ _ _ Eu (fun _ => Lw) F') as (-> & Lo' & Q'). split; [reflexivity|]. split; [cbn; lia|].
      intros [|k] out0 Eo; cbn in Eo.
      + injection Eo as <-. rewrite Nat.add_0_r. auto.
      + destruct (Q' k out0 Eo) as [A C]. split; [exact A|]. intros i row Er. destruct (C i row Er) as (C1 & C2 & C3).
        split; [lia|]. split; [exact C2|]. rewrite C3. destruct k as [|k]; cbn [nth_error].
        * rewrite Nat.add_0_r. unfold due.
          assert (Ew : all_numbers w1 = forallb (fun v : value => match v with Some _ => true | None => false end) l).
          { unfold w1, all_numbers. rewrite <- Ll. clear. generalize (prior batch) (prop batch). intros pr pp.
            assert (G : forall (l0 : list value) s, forallb (fun v : value => match v with Some _ => true | None => false end)
                      (map (fun i => add_nan (Some (pr i - pp i)%Z) (nth (i - s) l0 None)) (seq s (length l0))) =
                      forallb (fun v : value => match v with Some _ => true | None => false end) l0).
            { clear. induction l0 as [|v l IHl]; intros s; cbn [length seq map forallb]; [reflexivity|].
              rewrite Nat.sub_diag. cbn [nth]. f_equal; [destruct v; reflexivity|]. rewrite <- (IHl (S s)). f_equal.
              apply map_ext_in. intros i Hi. apply in_seq in Hi. replace (i - s) with (S (i - S s)) by lia. reflexivity. }
            rewrite <- (G l 0). f_equal. apply map_ext. intros i. rewrite Nat.sub_0_r. reflexivity. }
          rewrite Ew. destruct (forallb _ l) eqn:Ef; [|reflexivity].
          assert (Hi : i < size * num) by (rewrite <- A; apply nth_error_Some; congruence).
          unfold w1. rewrite nth_error_map, nth_error_nth' with (d := 0) by (rewrite seq_length; exact Hi). rewrite seq_nth by exact Hi. cbn [option_map plus].
          destruct (nth_error l i) as [v|] eqn:Ev; [|apply nth_error_None in Ev; lia]. rewrite (nth_error_nth l i None Ev).
          destruct v as [z|]; cbn; [lia|reflexivity].
        * replace (S batch + k) with (batch + S k) by lia. reflexivity. }
  destruct (K ms 0 [None] outs r E) as (A & C & D); [discriminate | exact F|].
  split; [exact A|]. split; [exact C|]. intros k out Ek. destruct (D k out Ek) as [D1 D2]. split; [exact D1|]. intros i row Er.
  destruct (D2 i row Er) as (G1 & G2 & G3). split; [exact G1|]. split; [exact G2|]. rewrite G3. destruct k; reflexivity.
Qed.
Print Assumptions C70_weights.
Example C70_weights_nonvacuous :
  run_bayes 2 1 (fun _ i => Z.of_nat i) (fun _ _ => 1%Z) [Go [Some 5%Z; Some 6%Z]; Go [Some 1%Z; None]; Stop] =
  ([[mkbrow 0 0 0; mkbrow 0 0 0]; [mkbrow 1 0 4; mkbrow 1 0 6]; [mkbrow 2 0 0; mkbrow 2 0 0]]%Z, Some (Ok tt)).
Proof. reflexivity. Qed.
(** With fewer results than rows the function raises. *)
Theorem C70_fewer_results_refuted :
  ~ (forall size num prior prop (ms : list (mail value)) outs e, run_bayes size num prior prop ms <> (outs, Some (Err e))).
Proof. intros h. exact (h 3 1 (fun _ _ => 0%Z) (fun _ _ => 0%Z) [Go [Some 1%Z; Some 1%Z]] _ _ eq_refl). Qed.
Print Assumptions C70_fewer_results_refuted.
