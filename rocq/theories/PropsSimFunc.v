(** Property theorem C90: the test simulators evaluate every point, and their gradients are gradients. *)
From Coq Require Import QArith Qabs Qminmax List Lia Lqa.
From Verif Require Import Base BaseLemmas SimFuncModel.
Import ListNotations.
Local Open Scope Q_scope.

(** Vocabulary. [d] is the derivative of [g] at [x]. *)
Definition derivative (g : Q -> Q) (x d : Q) : Prop :=
  forall eps, 0 < eps -> exists delta, 0 < delta /\
    forall h, ~ h == 0 -> Qabs h < delta -> Qabs ((g (x + h) - g x) / h - d) < eps.

(** The six-hump camel function as in the literature, and Rosenbrock's function of two variables. *)
Definition camel (a b : Q) : Q := 4 * a * a - (21 # 10) * (a * a * a * a) + (1 # 3) * (a * a * a * a * a * a) + a * b - 4 * b * b + 4 * (b * b * b * b).
Definition rosen (a b : Q) : Q := 100 * ((a * a - b) * (a * a - b)) + (a - 1) * (a - 1).

(** If the difference is h d + h^2 R(h) with R bounded near 0, then d is the derivative. *)
Lemma derivative_by g x d (R : Q -> Q) M :
  0 <= M -> (forall h, g (x + h) - g x == h * d + h * h * R h) -> (forall h, Qabs h <= 1 -> Qabs (R h) <= M) -> derivative g x d.
Proof.
  intros HM Hg HR eps He. exists (Qmin 1 (eps / (M + 1))).
  assert (Hd : 0 < eps / (M + 1)) by (apply Qlt_shift_div_l; [lra|]; lra).
  split; [apply Q.min_glb_lt; auto; reflexivity|]. intros h Hh Hl.
  assert (E : (g (x + h) - g x) / h - d == h * R h) by (rewrite Hg; field; auto).
  rewrite E, Qabs_Qmult. apply Q.min_glb_lt_iff in Hl as [H1 H2].
  assert (Hb : Qabs (R h) <= M) by (apply HR; now apply Qlt_le_weak).
  apply Qle_lt_trans with (Qabs h * (M + 1)).
  - rewrite (Qmult_comm (Qabs h)), (Qmult_comm (Qabs h)). apply Qmult_le_compat_r; [lra|apply Qabs_nonneg].
  - setoid_replace eps with (eps / (M + 1) * (M + 1)) by (field; lra). apply Qmult_lt_compat_r; [lra|auto].
Qed.

Fixpoint horner (cs : list Q) (h : Q) : Q := match cs with [] => 0 | c :: cs' => c + h * horner cs' h end.
Fixpoint total (cs : list Q) : Q := match cs with [] => 0 | c :: cs' => Qabs c + total cs' end.
Lemma total_nonneg cs : 0 <= total cs.
Proof. induction cs as [|c cs IH]; cbn; [lra|]. pose proof (Qabs_nonneg c). lra. Qed.
Lemma horner_bound cs h : Qabs h <= 1 -> Qabs (horner cs h) <= total cs.
Proof.
  intros H. induction cs as [|c cs IH]; [cbn; lra|]. cbn [horner total].
  eapply Qle_trans; [apply Qabs_triangle|]. rewrite Qabs_Qmult.
  assert (Qabs h * Qabs (horner cs h) <= 1 * Qabs (horner cs h)) by (apply Qmult_le_compat_r; auto; apply Qabs_nonneg). lra.
Qed.
Lemma derivative_poly g x d cs : (forall h, g (x + h) - g x == h * d + h * h * horner cs h) -> derivative g x d.
Proof. intros H. apply (derivative_by g x d (horner cs) (total cs)); auto; [apply total_nonneg|apply horner_bound]. Qed.

Lemma derivative_ext g g' x d d' : (forall t, g t == g' t) -> d == d' -> derivative g' x d' -> derivative g x d.
Proof.
  intros E Ed H eps He. destruct (H eps He) as (dl & H1 & H2). exists dl. split; auto. intros h Hh Hl.
  rewrite !E, Ed. auto.
Qed.
Lemma derivative_plus_const g x d c : derivative g x d -> derivative (fun t => g t + c) x d.
Proof.
  intros H eps He. destruct (H eps He) as (dl & H1 & H2). exists dl. split; auto. intros h Hh Hl.
  setoid_replace (g (x + h) + c - (g x + c)) with (g (x + h) - g x) by ring. auto.
Qed.
Lemma derivative_const c x : derivative (fun _ => c) x 0.
Proof. apply derivative_poly with []. intros h. cbn. ring. Qed.

Lemma camel_da a b : derivative (fun t => camel t b) a (8 * a - (42 # 5) * (a * a * a) + 2 * (a * a * a * a * a) + b).
Proof.
  apply derivative_poly with [4 - (63 # 5) * (a * a) + 5 * (a * a * a * a); -(42 # 5) * a + (20 # 3) * (a * a * a); -(21 # 10) + 5 * (a * a); 2 * a; 1 # 3].
  intros h. unfold camel. cbn [horner]. ring.
Qed.
Lemma camel_db a b : derivative (camel a) b (a - 8 * b + 16 * (b * b * b)).
Proof. apply derivative_poly with [-(4) + 24 * (b * b); 16 * b; 4]. intros h. unfold camel. cbn [horner]. ring. Qed.
Lemma rosen_da a b : derivative (fun t => rosen t b) a (400 * a * (a * a - b) + 2 * (a - 1)).
Proof. apply derivative_poly with [600 * (a * a) - 200 * b + 1; 400 * a; 100]. intros h. unfold rosen. cbn [horner]. ring. Qed.
Lemma rosen_db a b : derivative (rosen a) b (-(200) * (a * a - b)).
Proof. apply derivative_poly with [100]. intros h. unfold rosen. cbn [horner]. ring. Qed.

(** ** The camel simulator *)
Definition row_ok (want : bool) (x : list Q) (r : out_row) : Prop :=
  exists a b rest, x = a :: b :: rest /\ o_f r == camel a b /\
    (if want then exists ga gb, o_grad r = Some (ga, gb) /\ derivative (fun t => camel t b) a ga /\ derivative (camel a) b gb
     else o_grad r = None).

Lemma camel_func_ok x v : six_hump_camel_func x = Ok v -> exists a b rest, x = a :: b :: rest /\ v == camel a b.
Proof.
  unfold six_hump_camel_func, at_. destruct x as [|a [|b rest]]; cbn [nth_error bindr]; try discriminate.
  cbn zeta. intros H. exists a, b, rest. split; auto. assert (E : forall u w, @Ok Q u = Ok w -> u = w) by congruence. apply E in H.
  rewrite <- H. unfold camel. field.
Qed.
Lemma camel_grad_ok a b rest g : six_hump_camel_grad (a :: b :: rest) = Ok g ->
  derivative (fun t => camel t b) a (fst g) /\ derivative (camel a) b (snd g).
Proof.
  unfold six_hump_camel_grad, at_. cbn [nth_error bindr]. intros H. assert (E : forall u w, @Ok (Q*Q) u = Ok w -> u = w) by congruence. apply E in H.
  rewrite <- H. cbn [fst snd]. split.
  - eapply derivative_ext; [reflexivity| |apply camel_da]. field.
  - eapply derivative_ext; [reflexivity| |apply camel_db]. field.
Qed.

Lemma camel_loop_ok want xs : forall i out out', camel_loop want i xs out = Ok out' ->
  length out = (i + length xs)%nat -> (want = false -> forall r, In r out -> o_grad r = None) ->
  length out' = length out /\
  (forall j, (j < i)%nat -> nth_error out' j = nth_error out j) /\
  (forall j x, nth_error xs j = Some x -> exists r, nth_error out' (i + j) = Some r /\ row_ok want x r).
Proof.
  induction xs as [|x xs IH]; intros i out out' H Hl Hn; cbn [camel_loop] in H.
  - assert (E : out = out') by congruence. subst. repeat split; auto. intros [|j] y Hy; discriminate.
  - destruct (six_hump_camel_func x) as [v|e] eqn:Ev; [|discriminate]. cbn [bindr] in H. cbn zeta in H. cbn [length] in Hl.
    destruct (camel_func_ok _ _ Ev) as (a & b & rest & -> & Hv).
    destruct (nth_error out i) as [r0|] eqn:E0; [|apply nth_error_None in E0; lia].
    destruct want.
    + destruct (six_hump_camel_grad (a :: b :: rest)) as [g|e] eqn:Eg; [|discriminate]. cbn [bindr] in H.
      destruct (camel_grad_ok _ _ _ _ Eg) as [G1 G2].
      apply IH in H as (L & Old & New); [|rewrite !upd_length; lia|discriminate].
      rewrite !upd_length in L. split; [lia|]. split.
      * intros j Hj. rewrite Old by lia. rewrite !upd_nth_other by lia. reflexivity.
      * intros [|j] y Hy; cbn [nth_error] in Hy.
        { assert (y = a :: b :: rest) by congruence. subst y. rewrite Nat.add_0_r, Old by lia.
          eexists. split; [apply upd_nth_same, upd_nth_same, E0|]. exists a, b, rest. split; auto. cbn [o_f o_grad]. split; auto.
          destruct g as [ga gb]. exists ga, gb. auto. }
        { replace (i + S j)%nat with (S i + j)%nat by lia. auto. }
    + apply IH in H as (L & Old & New); [|rewrite !upd_length; lia|].
      * rewrite !upd_length in L. split; [lia|]. split.
        { intros j Hj. rewrite Old by lia. rewrite !upd_nth_other by lia. reflexivity. }
        intros [|j] y Hy; cbn [nth_error] in Hy.
        { assert (y = a :: b :: rest) by congruence. subst y. rewrite Nat.add_0_r, Old by lia.
          eexists. split; [apply upd_nth_same, E0|]. exists a, b, rest. split; auto. cbn [o_f o_grad]. split; auto.
          apply Hn; auto. eapply nth_error_In; eauto. }
        { replace (i + S j)%nat with (S i + j)%nat by lia. auto. }
      * intros _ r Hr. apply In_nth_error in Hr as (j & Hj). rewrite upd_nth in Hj. destruct (Nat.eqb i j).
        { destruct (nth_error out j) as [q|] eqn:Eq; [|discriminate]. cbn [option_map] in Hj. assert (r = mkRow v (o_grad q)) by congruence. subst r. cbn. apply Hn; auto. eapply nth_error_In; eauto. }
        { apply Hn; auto. eapply nth_error_In; eauto. }
Qed.

Lemma nth_Forall2 {A B} (P : A -> B -> Prop) xs : forall ys, length ys = length xs ->
  (forall j x, nth_error xs j = Some x -> exists y, nth_error ys j = Some y /\ P x y) -> Forall2 P xs ys.
Proof.
  induction xs as [|x xs IH]; intros [|y ys] L H; try discriminate; constructor.
  - destruct (H 0%nat x eq_refl) as (y' & E & Hp). cbn in E. congruence.
  - apply IH; [cbn in L; lia|]. intros j z Hz. exact (H (S j) z Hz).
Qed.

(** ** C90 *)

(** Whatever batch of points: one row for each point, in the same order, with the
    value of the function there, and with its partial derivatives if asked for. *)
Theorem C90_every_point_gets_its_value_and_gradient :
  forall want xs out, six_hump_camel want xs = Ok out -> Forall2 (row_ok want) xs out.
Proof.
  intros want xs out H. unfold six_hump_camel in H. apply camel_loop_ok in H as (L & _ & N).
  - rewrite repeat_length in L. apply nth_Forall2; auto.
  - apply repeat_length.
  - intros -> r Hr. apply repeat_spec in Hr. now subst.
Qed.
Print Assumptions C90_every_point_gets_its_value_and_gradient.

(** Points with two or more coordinates are never refused. *)
Lemma camel_total want xs : Forall (fun x => (2 <= length x)%nat) xs -> exists out, six_hump_camel want xs = Ok out.
Proof.
  unfold six_hump_camel. intros H0. generalize (repeat (mkRow 0 (if want then Some (0, 0) else None)) (length xs)). generalize 0%nat. revert H0.
  cut (forall i o, Forall (fun x => (2 <= length x)%nat) xs -> exists out, camel_loop want i xs o = Ok out); [auto|].
  induction xs as [|x xs IH]; intros i o H; cbn [camel_loop]; [eauto|]. inversion H as [|? ? Hx Hxs]; subst.
  destruct x as [|a [|b rest]]; cbn in Hx; try lia.
  unfold six_hump_camel_func at 1, at_. cbn [nth_error bindr]. cbn zeta. destruct want; [|apply (IH _ _ Hxs)].
  unfold six_hump_camel_grad at 1, at_. cbn [nth_error bindr]. apply (IH _ _ Hxs).
Qed.
Theorem C90_points_with_two_coordinates_are_evaluated :
  forall want xs, (exists out, six_hump_camel want xs = Ok out) <-> Forall (fun x => (2 <= length x)%nat) xs.
Proof.
  intros want xs. split; [|apply camel_total]. intros (out & H). apply C90_every_point_gets_its_value_and_gradient in H.
  induction H as [|x r xs rs (a & b & rest & -> & _) _ IH]; constructor; auto. cbn. lia.
Qed.
Print Assumptions C90_points_with_two_coordinates_are_evaluated.

Example C90_camel_hypotheses_met : exists out, six_hump_camel true [[0; 1]; [1; 0]] = Ok out /\
  map (fun r => Qeq_bool (o_f r) (camel 0 1)) out = [true; false].
Proof. eexists. split; [reflexivity|vm_compute; reflexivity]. Qed.

(** ** The persistent simulator *)

(** The orders up to the first stop. *)
Fixpoint orders (msgs : list sim_msg) : list (list (list Q)) :=
  match msgs with SimWork xs :: ms => xs :: orders ms | _ => [] end.

Lemma persis_loop_ok want msgs : forall sent back, persis_loop want msgs = Ok (sent, back) ->
  Forall2 (Forall2 (row_ok want)) (orders msgs) sent /\ (back = true <-> In SimStop msgs \/ In SimPersisStop msgs).
Proof.
  induction msgs as [|m ms IH]; intros sent back H; cbn [persis_loop] in H.
  - assert (E : forall u w, @Ok (list (list out_row) * bool) u = Ok w -> u = w) by congruence. apply E in H. inversion H; subst.
    split; [constructor|]. split; [discriminate|intros [[]|[]]].
  - destruct m as [xs| |].
    + destruct (six_hump_camel want xs) as [o|e] eqn:Eo; [|discriminate]. cbn [bindr] in H.
      destruct (persis_loop want ms) as [[s b]|e] eqn:Em; [|discriminate]. cbn [bindr fst snd] in H. inversion H; subst.
      destruct (IH _ _ eq_refl) as [I1 I2]. split; [constructor; auto; now apply C90_every_point_gets_its_value_and_gradient|].
      rewrite I2. cbn. intuition discriminate.
    + inversion H; subst. split; [constructor|]. cbn. tauto.
    + inversion H; subst. split; [constructor|]. cbn. tauto.
Qed.

(** Every order up to the stop is answered once, in order, with the values of its
    own points; the function returns if and only if it is told to stop. *)
Theorem C90_the_persistent_simulator_answers_every_order :
  forall want replace first msgs sent final,
  persistent_six_hump_camel want replace first msgs = Ok (sent, final) ->
  Forall2 (Forall2 (row_ok want)) (match first with [] => orders msgs | _ => first :: orders msgs end) sent /\
  (final <> None <-> In SimStop msgs \/ In SimPersisStop msgs) /\
  (replace = false -> final <> None -> final = Some None).
Proof.
  intros want replace first msgs sent final H. unfold persistent_six_hump_camel in H.
  set (ms := match first with [] => msgs | _ => SimWork first :: msgs end) in *.
  destruct (persis_loop want ms) as [[s b]|e] eqn:Em; [|discriminate]. cbn [bindr fst snd] in H.
  apply persis_loop_ok in Em as [P1 P2].
  assert (Eo : orders ms = match first with [] => orders msgs | _ => first :: orders msgs end) by (unfold ms; destruct first; reflexivity).
  assert (Es : (In SimStop ms \/ In SimPersisStop ms) <-> (In SimStop msgs \/ In SimPersisStop msgs))
    by (unfold ms; destruct first; cbn; intuition discriminate).
  rewrite Eo in P1. rewrite Es in P2. destruct b.
  - destruct replace.
    + destruct (six_hump_camel want [[1; 1]]) as [o|e] eqn:Ew; [|discriminate]. cbn [bindr] in H. inversion H; subst.
      split; auto. split; [|discriminate]. rewrite <- P2. split; auto; discriminate.
    + inversion H; subst. split; auto. split; auto. rewrite <- P2. split; auto; discriminate.
  - inversion H; subst. split; auto. split; [|congruence]. rewrite <- P2. split; [congruence|discriminate].
Qed.
Print Assumptions C90_the_persistent_simulator_answers_every_order.

Example C90_persistent_hypotheses_met : exists sent final,
  persistent_six_hump_camel false false [[0; 1]] [SimWork [[1; 0]; [2; 2]]; SimWork []; SimPersisStop; SimWork [[3; 3]]] = Ok (sent, final) /\
  map (@length out_row) sent = [1; 2; 0]%nat /\ final = Some None.
Proof. eexists. eexists. split; [reflexivity|]. split; reflexivity. Qed.

(** ** Rosenbrock's function *)

(** The value for all components: the sum over the pairs of coordinates. *)
Fixpoint rosen_sum (x : list Q) : Q := match x with a :: b :: x' => rosen a b + rosen_sum x' | _ => 0 end.

Lemma qsum_acc l : forall c, fold_left Qplus l c == c + qsum l.
Proof.
  unfold qsum. induction l as [|a l IH]; intros c; cbn [fold_left]; [ring|]. rewrite IH, (IH (0 + a)). ring.
Qed.
Lemma qsum_cons a l : qsum (a :: l) == a + qsum l.
Proof. unfold qsum at 1. cbn [fold_left]. rewrite qsum_acc. ring. Qed.

Lemma pairs_ind (P : list Q -> Prop) : P [] -> (forall a b x, P x -> P (a :: b :: x)) -> forall x, Nat.even (length x) = true -> P x.
Proof.
  intros H0 H2. fix F 1. intros [|a [|b x]] E; [exact H0|discriminate|]. apply H2, F. exact E.
Qed.

Lemma odds_cons a b x : odds (a :: b :: x) = b :: odds x.
Proof. destruct x; reflexivity. Qed.

Lemma full_ok x : Nat.even (length x) = true -> exists v, EvaluateFunction x None = Ok v /\ v == rosen_sum x.
Proof.
  intros E. unfold EvaluateFunction. rewrite E. cbn [negb]. cbn zeta. eexists. split; [reflexivity|]. revert x E. apply pairs_ind.
  - reflexivity.
  - intros a b x IH. rewrite odds_cons. cbn [evens length Nat.div2 repeat zip2 map]. rewrite !qsum_cons. cbn [rosen_sum]. rewrite <- IH.
    unfold rosen. ring.
Qed.

Lemma at_even a b x i : at_ (a :: b :: x) (2 * S i) = at_ x (2 * i) /\ at_ (a :: b :: x) (2 * S i + 1) = at_ x (2 * i + 1).
Proof. unfold at_. replace (2 * S i)%nat with (S (S (2 * i))) by lia. split; reflexivity. Qed.

Lemma comp_step a b x i : EvaluateFunction (a :: b :: x) (Some (S i)) = EvaluateFunction x (Some i).
Proof. unfold EvaluateFunction. destruct (at_even a b x i) as [-> ->]. reflexivity. Qed.
Lemma comp_zero a b x : Nat.even (length x) = true -> exists v, EvaluateFunction (a :: b :: x) (Some 0%nat) = Ok v /\ v == rosen a b.
Proof. intros E. unfold EvaluateFunction. cbn [length Nat.even]. rewrite E. cbn. eexists. split; [reflexivity|]. unfold rosen. ring. Qed.

Definition value (r : res Q) : Q := match r with Ok v => v | Err _ => 0 end.

(** The components add up to the whole function. *)
Theorem C90_the_components_add_up :
  forall x, Nat.even (length x) = true ->
  exists v, EvaluateFunction x None = Ok v /\
    (forall i, (i < Nat.div2 (length x))%nat -> exists w, EvaluateFunction x (Some i) = Ok w) /\
    v == qsum (map (fun i => value (EvaluateFunction x (Some i))) (seq 0 (Nat.div2 (length x)))).
Proof.
  intros x E. destruct (full_ok x E) as (v & Hv & Ev). exists v. split; auto. rewrite Ev. clear v Hv Ev. revert x E.
  assert (G : forall x, Nat.even (length x) = true -> Nat.even (length x) = true /\ 
    (forall i, (i < Nat.div2 (length x))%nat -> exists w, EvaluateFunction x (Some i) = Ok w) /\
    rosen_sum x == qsum (map (fun i => value (EvaluateFunction x (Some i))) (seq 0 (Nat.div2 (length x))))).
  { apply pairs_ind; [split; [reflexivity|split; [intros i Hi; cbn in Hi; lia|reflexivity]]|].
    intros a b x (E & I1 & I2). split; [exact E|]. destruct (comp_zero a b x E) as (w & W1 & W2). cbn [length Nat.div2]. split.
    - intros [|i] Hi; [eauto|]. rewrite comp_step. apply I1. lia.
    - cbn [seq map]. rewrite qsum_cons, W1. cbn [value rosen_sum]. rewrite W2, I2, <- seq_shift, map_map.
      rewrite (map_ext (fun i => value (EvaluateFunction (a :: b :: x) (Some (S i)))) (fun i => value (EvaluateFunction x (Some i)))) by (intros i; now rewrite comp_step). reflexivity. }
  intros x E. destruct (G x E) as (_ & H). exact H.
Qed.
Print Assumptions C90_the_components_add_up.

(** Component i is Rosenbrock's function of the coordinates 2i and 2i+1. *)
Theorem C90_the_value_of_a_component :
  forall x i a b, Nat.even (length x) = true -> nth_error x (2 * i) = Some a -> nth_error x (2 * i + 1) = Some b ->
  exists v, EvaluateFunction x (Some i) = Ok v /\ v == rosen a b.
Proof.
  intros x i a b E Ha Hb. unfold EvaluateFunction, at_. rewrite E, Ha, Hb. cbn [negb bindr]. eexists. split; [reflexivity|].
  unfold rosen. ring.
Qed.
Print Assumptions C90_the_value_of_a_component.

Definition set_coord (x : list Q) (j : nat) (t : Q) : list Q := upd x j (fun _ => t).

Definition jac_all (x : list Q) : list Q :=
  let u := zip2 (fun a b => a ^ 2 - b) (evens x) (odds x) in
  interleave
    (zip2 Qplus (map (Qmult 400) (zip2 Qmult (evens x) u)) (map (Qmult 2) (zip2 Qminus (evens x) (repeat 1 (Nat.div2 (length x))))))
    (map (Qmult (-(200))) u).
Lemma jac_all_cons a b x : jac_all (a :: b :: x) = (400 * (a * (a ^ 2 - b)) + 2 * (a - 1)) :: (-(200) * (a ^ 2 - b)) :: jac_all x.
Proof. unfold jac_all. rewrite odds_cons. reflexivity. Qed.

Lemma jac_all_ok x : Nat.even (length x) = true -> length (jac_all x) = length x /\
  forall j xj d, nth_error x j = Some xj -> nth_error (jac_all x) j = Some d -> derivative (fun t => rosen_sum (set_coord x j t)) xj d.
Proof.
  revert x. apply pairs_ind.
  - split; [reflexivity|]. intros [|j] xj d H; discriminate.
  - intros a b x [L D]. rewrite jac_all_cons. split; [cbn [length]; lia|]. intros [|[|j]] xj d Hx Hd; cbn [nth_error] in Hx, Hd.
    + assert (xj = a) by congruence. assert (d = 400 * (a * (a ^ 2 - b)) + 2 * (a - 1)) by congruence. subst.
      eapply derivative_ext; [intros t; reflexivity| |apply (derivative_plus_const (fun t => rosen t b) a _ (rosen_sum x)), rosen_da]. ring.
    + assert (xj = b) by congruence. assert (d = -(200) * (a ^ 2 - b)) by congruence. subst.
      eapply derivative_ext; [intros t; reflexivity| |apply (derivative_plus_const (rosen a) b _ (rosen_sum x)), rosen_db]. ring.
    + eapply derivative_ext; [|reflexivity|apply (derivative_plus_const (fun t => rosen_sum (set_coord x j t)) xj d (rosen a b)), (D j xj d Hx Hd)].
      intros t. unfold set_coord. cbn [upd rosen_sum]. ring.
Qed.

Lemma even_set x j t : Nat.even (length (set_coord x j t)) = Nat.even (length x).
Proof. unfold set_coord. now rewrite upd_length. Qed.

(** The Jacobian is the gradient of the whole function, divided by [const]. *)
Theorem C90_the_gradient_of_all_components :
  forall x const g, EvaluateJacobian x None const = Ok g -> ~ const == 0 ->
  length g = length x /\
  forall j xj d, nth_error x j = Some xj -> nth_error g j = Some d ->
    derivative (fun t => value (EvaluateFunction (set_coord x j t) None)) xj (const * d).
Proof.
  intros x const g H Hc. unfold EvaluateJacobian in H. destruct (Nat.even (length x)) eqn:E; [|discriminate]. cbn [negb] in H. cbn zeta in H.
  destruct (Qeq_bool const 0) eqn:Ec; [apply Qeq_bool_iff in Ec; contradiction|].
  change (Ok (map (fun d => 1 / const * d) (jac_all x)) = Ok g) in H.
  assert (Hg : map (fun d => 1 / const * d) (jac_all x) = g) by congruence. clear H. subst g. destruct (jac_all_ok x E) as [L D].
  split; [now rewrite map_length|]. intros j xj d Hx Hd. rewrite nth_error_map in Hd.
  destruct (nth_error (jac_all x) j) as [d0|] eqn:E0; [|discriminate]. cbn [option_map] in Hd.
  assert (d = 1 / const * d0) by congruence. subst d.
  eapply derivative_ext; [| |apply (D j xj d0 Hx E0)].
  - intros t. destruct (full_ok (set_coord x j t)) as (v & Hv & Ev); [now rewrite even_set|]. rewrite Hv. exact Ev.
  - field. auto.
Qed.
Print Assumptions C90_the_gradient_of_all_components.

Lemma jac_comp_ok x : Nat.even (length x) = true -> forall i x1 x2, at_ x (2 * i) = Ok x1 -> at_ x (2 * i + 1) = Ok x2 ->
  forall j xj d, nth_error x j = Some xj ->
  nth_error (upd (upd (repeat 0 (length x)) (2 * i) (fun _ => 400 * x1 * (x1 ^ 2 - x2) + 2 * (x1 - 1))) (2 * i + 1) (fun _ => -(200) * (x1 ^ 2 - x2))) j = Some d ->
  derivative (fun t => value (EvaluateFunction (set_coord x j t) (Some i))) xj d.
Proof.
  intros E i x1 x2 H1 H2 j xj d Hx Hd.
  assert (A1 : nth_error x (2 * i) = Some x1) by (unfold at_ in H1; destruct (nth_error x (2 * i)); congruence).
  assert (A2 : nth_error x (2 * i + 1) = Some x2) by (unfold at_ in H2; destruct (nth_error x (2 * i + 1)); congruence).
  assert (Hf : forall t y1 y2, nth_error (set_coord x j t) (2 * i) = Some y1 -> nth_error (set_coord x j t) (2 * i + 1) = Some y2 ->
    value (EvaluateFunction (set_coord x j t) (Some i)) == rosen y1 y2).
  { intros t y1 y2 B1 B2. unfold EvaluateFunction. rewrite even_set, E. cbn [negb]. cbn zeta. unfold at_. rewrite B1, B2. cbn [bindr value]. unfold rosen. ring. }
  assert (Hj : (j < length x)%nat) by (apply nth_error_Some; congruence).
  unfold set_coord in *. rewrite !upd_nth in Hd. rewrite nth_error_repeat in Hd by lia. cbn [option_map] in Hd.
  destruct (Nat.eqb_spec (2 * i + 1) j) as [E1|N1].
  - subst j. destruct (Nat.eqb_spec (2 * i) (2 * i + 1)); [lia|]. cbn [option_map] in Hd. assert (d = -(200) * (x1 ^ 2 - x2)) by congruence. subst d. assert (xj = x2) by congruence. subst xj.
    eapply derivative_ext; [| |apply (rosen_db x1 x2)]; [|ring]. intros t. apply Hf.
    + rewrite upd_nth_other by lia. auto.
    + apply (upd_nth_same x (2 * i + 1) (fun _ => t) _ A2).
  - destruct (Nat.eqb_spec (2 * i) j) as [E2|N2].
    + subst j. cbn [option_map] in Hd. assert (d = 400 * x1 * (x1 ^ 2 - x2) + 2 * (x1 - 1)) by congruence. subst d. assert (xj = x1) by congruence. subst xj.
      eapply derivative_ext; [| |apply (rosen_da x1 x2)]; [|ring]. intros t. apply (Hf t t x2).
      * apply (upd_nth_same x (2 * i) (fun _ => t) _ A1).
      * rewrite upd_nth_other by lia. auto.
    + assert (d = 0) by congruence. subst d. eapply derivative_ext; [|reflexivity|apply (derivative_const (rosen x1 x2))].
      intros t. apply Hf; rewrite upd_nth_other by lia; auto.
Qed.

(** And so it is for each component on its own. *)
Theorem C90_the_gradient_of_one_component :
  forall x i const g, EvaluateJacobian x (Some i) const = Ok g -> ~ const == 0 ->
  length g = length x /\
  forall j xj d, nth_error x j = Some xj -> nth_error g j = Some d ->
    derivative (fun t => value (EvaluateFunction (set_coord x j t) (Some i))) xj (const * d).
Proof.
  intros x i const g H Hc. unfold EvaluateJacobian in H. destruct (Nat.even (length x)) eqn:E; [|discriminate]. cbn [negb] in H. cbn zeta in H.
  destruct (at_ x (2 * i)) as [x1|] eqn:E1; [|discriminate]. cbn [bindr] in H.
  destruct (at_ x (2 * i + 1)) as [x2|] eqn:E2; [|discriminate]. cbn [bindr] in H.
  destruct (Qeq_bool const 0) eqn:Ec; [apply Qeq_bool_iff in Ec; contradiction|].
  assert (E' : forall u w, @Ok (list Q) u = Ok w -> u = w) by congruence. apply E' in H. rewrite <- H.
  split; [now rewrite map_length, !upd_length, repeat_length|]. intros j xj d Hx Hd. rewrite nth_error_map in Hd.
  destruct (nth_error (upd _ _ _) j) as [d0|] eqn:E0; [|discriminate]. cbn [option_map] in Hd.
  assert (d = 1 / const * d0) by congruence. subst d.
  eapply derivative_ext; [intros t; reflexivity| |apply (jac_comp_ok x E i x1 x2 E1 E2 j xj d0 Hx E0)]. field. auto.
Qed.
Print Assumptions C90_the_gradient_of_one_component.

(** Vectors of even length with a component that exists are never refused. *)
Theorem C90_vectors_of_even_length_are_evaluated :
  forall x const i, ~ const == 0 ->
  ((exists g, EvaluateJacobian x None const = Ok g) <-> Nat.even (length x) = true) /\
  (Nat.even (length x) = true -> ((exists g, EvaluateJacobian x (Some i) const = Ok g) <-> (2 * i < length x)%nat)).
Proof.
  intros x const i Hc. unfold EvaluateJacobian. destruct (Qeq_bool const 0) eqn:Ec; [apply Qeq_bool_iff in Ec; contradiction|].
  split.
  - destruct (Nat.even (length x)); cbn [negb]; split; eauto; try discriminate. intros [g Hg]. discriminate Hg.
  - intros E. rewrite E. cbn [negb]. cbn zeta. unfold at_. split.
    + intros [g Hg]. destruct (nth_error x (2 * i)) eqn:E1; [|discriminate]. apply nth_error_Some. congruence.
    + intros Hi. assert (Hi2 : (2 * i + 1 < length x)%nat).
      { apply Nat.even_spec in E as [m Em]. lia. }
      destruct (nth_error x (2 * i)) eqn:E1; [|apply nth_error_None in E1; lia].
      destruct (nth_error x (2 * i + 1)) eqn:E2; [|apply nth_error_None in E2; lia]. cbn [bindr]. eauto.
Qed.
Print Assumptions C90_vectors_of_even_length_are_evaluated.

Example C90_rosenbrock_hypotheses_met : exists v g h,
  EvaluateFunction [2; 1; 1; 3] None = Ok v /\ Qeq v 1301 /\ EvaluateJacobian [2; 1; 1; 3] None 1000 = Ok g /\
  EvaluateJacobian [2; 1; 1; 3] (Some 1%nat) 1000 = Ok h /\
  map (Qeq_bool 0) g = [false; false; false; false] /\ map (Qeq_bool 0) h = [true; true; false; false].
Proof. do 3 eexists. repeat split; try reflexivity; vm_compute; reflexivity. Qed.

(** ** Batches of points for Rosenbrock's function *)

Lemma rosen_loop_ok info pts : forall i out out', rosen_loop info i pts out = Ok out' -> length out = (i + length pts)%nat ->
  length out' = length out /\
  (forall j, (j < i)%nat -> nth_error out' j = nth_error out j) /\
  (forall j x c, nth_error pts j = Some (x, c) -> exists r, nth_error out' (i + j) = Some r /\ EvaluateFunction x c = Ok (rr_f r) /\
     (if i_get_grad info then EvaluateJacobian x c (rosen_const info) = Ok (rr_grad r)
      else exists r0, nth_error out (i + j) = Some r0 /\ rr_grad r = rr_grad r0)).
Proof.
  induction pts as [|[x c] pts IH]; intros i out out' H Hl; cbn [rosen_loop] in H.
  - assert (E : out = out') by congruence. subst. repeat split; auto. intros [|j] y d Hy; discriminate.
  - destruct (EvaluateFunction x c) as [v|e] eqn:Ev; [|discriminate]. cbn [bindr] in H. cbn zeta in H. cbn [length] in Hl.
    destruct (nth_error out i) as [r0|] eqn:E0; [|apply nth_error_None in E0; lia].
    destruct (i_get_grad info) eqn:Eg.
    + destruct (EvaluateJacobian x c (rosen_const info)) as [g|e] eqn:Ej; [|discriminate]. cbn [bindr] in H.
      apply IH in H as (L & Old & New); [|rewrite !upd_length; lia]. rewrite !upd_length in L. split; [lia|]. split.
      * intros j Hj. rewrite Old by lia. rewrite !upd_nth_other by lia. reflexivity.
      * intros [|j] y d Hy; cbn [nth_error] in Hy.
        { assert (y = x) by congruence. assert (d = c) by congruence. subst y d. rewrite Nat.add_0_r, Old by lia.
          eexists. split; [apply upd_nth_same, upd_nth_same, E0|]. auto. }
        { replace (i + S j)%nat with (S i + j)%nat by lia. auto. }
    + apply IH in H as (L & Old & New); [|rewrite !upd_length; lia]. rewrite !upd_length in L. split; [lia|]. split.
      * intros j Hj. rewrite Old by lia. rewrite !upd_nth_other by lia. reflexivity.
      * intros [|j] y d Hy; cbn [nth_error] in Hy.
        { assert (y = x) by congruence. assert (d = c) by congruence. subst y d. rewrite Nat.add_0_r, Old by lia.
          eexists. split; [apply upd_nth_same, E0|]. split; auto. exists r0. auto. }
        { destruct (New j y d Hy) as (r & N1 & N2 & r1 & N3 & N4). replace (i + S j)%nat with (S i + j)%nat by lia.
          exists r. split; auto. split; auto. exists r1. split; auto. rewrite upd_nth_other in N3 by lia. auto. }
Qed.

Lemma rosen_eval_ok info dim xs comps out : rosenbrock_eval info dim xs comps = Ok out ->
  (forall cs, comps = Some cs -> length cs = length xs) -> length out = length xs /\
  forall j x, nth_error xs j = Some x ->
  exists r c, nth_error out j = Some r /\ (match comps with None => c = None | Some cs => c = nth_error cs j end) /\
    EvaluateFunction x c = Ok (rr_f r) /\
    (if i_get_grad info then EvaluateJacobian x c (rosen_const info) = Ok (rr_grad r) else rr_grad r = repeat 0 dim).
Proof.
  unfold rosenbrock_eval. cbn zeta. intros H Hcs.
  set (pts := match comps with None => map (fun x => (x, None)) xs | Some cs => combine xs (map Some cs) end) in *.
  assert (Lp : length pts = length xs).
  { unfold pts. destruct comps as [cs|]; [|now rewrite map_length]. rewrite combine_length, map_length, (Hcs cs eq_refl). lia. }
  apply rosen_loop_ok in H as (L & _ & N); [|now rewrite repeat_length]. rewrite repeat_length in L. split; [lia|].
  intros j x Hx. assert (Hj : (j < length xs)%nat) by (apply nth_error_Some; congruence).
  assert (Hp : exists c, nth_error pts j = Some (x, c) /\ match comps with None => c = None | Some cs => c = nth_error cs j end).
  { unfold pts. destruct comps as [cs|].
    - specialize (Hcs cs eq_refl). clear - Hx Hcs. revert cs j Hx Hcs. induction xs as [|y xs IH]; intros [|k cs] [|j] Hx Hcs; try discriminate.
      + cbn in *. exists (Some k). split; congruence.
      + cbn in *. apply IH; auto.
    - exists None. split; auto. now rewrite nth_error_map, Hx. }
  destruct Hp as (c & Hp & Hc). destruct (N j x c Hp) as (r & R1 & R2 & R3). exists r, c. split; auto. split; auto. split; auto.
  destruct (i_get_grad info); auto. destruct R3 as (r0 & R4 & R5). rewrite R5. apply nth_error_In, repeat_spec in R4. now subst r0.
Qed.

(** Every point of a batch gets its own row with the value of the function, or of
    its own component, and the gradient of that, divided by the constant of
    persis_info or by 1000, if it is asked for. *)
Theorem C90_every_point_of_a_batch_is_evaluated :
  forall info dim xs comps out, rosenbrock_eval info dim xs comps = Ok out ->
  (forall cs, comps = Some cs -> length cs = length xs) ->
  length out = length xs /\
  forall j x, nth_error xs j = Some x -> exists r c, nth_error out j = Some r /\
    (match comps with None => c = None | Some cs => c = nth_error cs j end) /\
    EvaluateFunction x c = Ok (rr_f r) /\
    (i_get_grad info = false -> rr_grad r = repeat 0 dim) /\
    (i_get_grad info = true -> forall s, (s = match i_params info with Some (Some v) => v | _ => 1000 end) -> ~ s == 0 ->
       length (rr_grad r) = length x /\
       forall m xm d, nth_error x m = Some xm -> nth_error (rr_grad r) m = Some d ->
         derivative (fun t => value (EvaluateFunction (set_coord x m t) c)) xm (s * d)).
Proof.
  intros info dim xs comps out H Hcs. destruct (rosen_eval_ok _ _ _ _ _ H Hcs) as [L N]. split; auto.
  intros j x Hx. destruct (N j x Hx) as (r & c & R1 & R2 & R3 & R4). exists r, c. split; auto. split; auto. split; auto.
  split; intros Eg; rewrite Eg in R4; auto. intros s -> Hs. change (~ rosen_const info == 0) in Hs.
  destruct c as [k|]; [exact (C90_the_gradient_of_one_component _ _ _ _ R4 Hs)|exact (C90_the_gradient_of_all_components _ _ _ R4 Hs)].
Qed.
Print Assumptions C90_every_point_of_a_batch_is_evaluated.

Example C90_batch_hypotheses_met : exists out,
  rosenbrock_eval (mkInfo None true) 4 [[2; 1; 1; 3]; [1; 1; 0; 0]] (Some [1; 1]%nat) = Ok out /\
  map (fun r => Qeq_bool (rr_f r) 400) out = [true; false] /\ map (fun r => Qeq_bool (rr_f r) 1) out = [false; true].
Proof. eexists. split; [reflexivity|]. split; vm_compute; reflexivity. Qed.
