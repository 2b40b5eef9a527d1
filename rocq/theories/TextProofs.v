(** Facts about the text operations. *)
From Coq Require Import Ascii String Decimal DecimalNat Sorted Permutation.
From Verif Require Import Base BaseLemmas TextModel.
Local Notation length := List.length.
Local Open Scope nat_scope.

Lemma ceqb_spec a b : reflect (a = b) (ceqb a b).
Proof. apply Ascii.eqb_spec. Qed.
Lemma ceqb_refl a : ceqb a a = true.
Proof. apply Ascii.eqb_refl. Qed.
Lemma teqb_spec a b : reflect (a = b) (teqb a b).
Proof.
  revert b. induction a as [|c a IH]; intros [|d b]; cbn; try (constructor; congruence).
  destruct (ceqb_spec c d) as [->|]; cbn; [|constructor; congruence]. destruct (IH b); constructor; congruence.
Qed.
Lemma teqb_refl a : teqb a a = true.
Proof. destruct (teqb_spec a a); congruence. Qed.

Lemma digit_code d : d < 10 -> nat_of_ascii (digit d) = 48 + d.
Proof. intros H. unfold digit. apply nat_ascii_embedding. lia. Qed.
Lemma digit_val d : d < 10 -> digit_of (digit d) = d.
Proof. intros H. unfold digit_of. rewrite digit_code by exact H. lia. Qed.
Lemma digit_is d : d < 10 -> is_digit (digit d) = true.
Proof. intros H. unfold is_digit. rewrite digit_code by exact H. apply andb_true_iff. split; apply Nat.leb_le; lia. Qed.

Lemma chars_digits u : forallb is_digit (chars u) = true.
Proof. induction u; cbn [chars forallb]; rewrite ?IHu, ?digit_is by lia; reflexivity. Qed.
Lemma dec_digits n : forallb is_digit (dec n) = true.
Proof. apply chars_digits. Qed.

Lemma number_chars u : forall a, fold_left (fun a c => 10 * a + digit_of c) (chars u) a = Nat.of_uint_acc u a.
Proof.
  induction u; intros a; cbn [chars fold_left Nat.of_uint_acc]; [reflexivity|..];
  rewrite digit_val by lia; rewrite IHu; f_equal; rewrite ?Nat.tail_mul_spec; cbn [Nat.mul]; lia.
Qed.
Lemma number_dec n : number (dec n) = n.
Proof. unfold number, dec. rewrite number_chars. change (Nat.of_uint (Nat.to_uint n) = n). apply Unsigned.of_to. Qed.
Lemma dec_inj a b : dec a = dec b -> a = b.
Proof. intros E. rewrite <- (number_dec a), <- (number_dec b). now rewrite E. Qed.
Lemma dec_nonempty n : dec n <> [].
Proof.
  unfold dec. intros E. assert (H : Nat.to_uint n = Nil) by (destruct (Nat.to_uint n); [reflexivity|discriminate..]).
  assert (n = 0) by (rewrite <- (Unsigned.of_to n), H; reflexivity). subst n. discriminate.
Qed.
Lemma int_of_dec n : int_of (dec n) = Ok n.
Proof. unfold int_of. destruct (dec n) eqn:E; [now apply dec_nonempty in E|]. rewrite <- E, dec_digits, number_dec. reflexivity. Qed.

Lemma number_app a b : number (a ++ b) = fold_left (fun a c => 10 * a + digit_of c) b (number a).
Proof. unfold number. apply fold_left_app. Qed.
Lemma number_zeros k t : number (repeat (digit 0) k ++ t) = number t.
Proof. rewrite number_app. f_equal. induction k as [|k IH]; [reflexivity|]. unfold number in *. cbn [repeat fold_left]. rewrite digit_val by lia. exact IH. Qed.
Lemma number_rjust w t : number (rjust w (digit 0) t) = number t.
Proof. apply number_zeros. Qed.
Lemma zeros_digits k t : forallb is_digit (repeat (digit 0) k ++ t) = forallb is_digit t.
Proof. induction k as [|k IH]; [reflexivity|]. cbn [repeat app forallb]. rewrite digit_is by lia. exact IH. Qed.
Lemma zfill_length w t : length (zfill w t) = Nat.max w (length t).
Proof. unfold zfill, rjust. rewrite app_length, repeat_length. lia. Qed.

Lemma digits_not c t : is_digit c = false -> forallb is_digit t = true -> ~ In c t.
Proof. intros Hc Ht Hi. rewrite forallb_forall in Ht. rewrite (Ht _ Hi) in Hc. discriminate. Qed.

(** ** Splitting and joining *)
Lemma split_none c t : ~ In c t -> split c t = [t].
Proof.
  induction t as [|d t IH]; intros H; [reflexivity|]. cbn. destruct (ceqb_spec d c) as [->|]; [exfalso; apply H; now left|].
  rewrite IH; [reflexivity|]. intros Hi. apply H. now right.
Qed.
Lemma split_app c a t : ~ In c a -> split c (a ++ c :: t) = a :: split c t.
Proof.
  induction a as [|d a IH]; intros H; cbn; [now rewrite ceqb_refl|].
  destruct (ceqb_spec d c) as [->|]; [exfalso; apply H; now left|]. rewrite IH; [reflexivity|]. intros Hi. apply H. now right.
Qed.
Lemma split_join c l : l <> [] -> (forall p, In p l -> ~ In c p) -> split c (join c l) = l.
Proof.
  induction l as [|p l IH]; [congruence|]. intros _ H. destruct l as [|q l]; [apply split_none, H; now left|].
  change (join c (p :: q :: l)) with (p ++ c :: join c (q :: l)). rewrite split_app by (apply H; now left). f_equal. apply IH; [discriminate|]. intros r Hr. apply H. now right.
Qed.
Lemma split1_none c t : ~ In c t -> split1 c t = (t, None).
Proof.
  induction t as [|d t IH]; intros H; [reflexivity|]. cbn. destruct (ceqb_spec d c) as [->|]; [exfalso; apply H; now left|].
  rewrite IH; [reflexivity|]. intros Hi. apply H. now right.
Qed.
Lemma split1_app c a t : ~ In c a -> split1 c (a ++ c :: t) = (a, Some t).
Proof.
  induction a as [|d a IH]; intros H; cbn; [now rewrite ceqb_refl|].
  destruct (ceqb_spec d c) as [->|]; [exfalso; apply H; now left|]. rewrite IH; [reflexivity|]. intros Hi. apply H. now right.
Qed.

(** ** Sorting *)
Lemma tleb_total a b : tleb a b = true \/ tleb b a = true.
Proof.
  revert b. induction a as [|c a IH]; intros [|d b]; cbn [tleb]; auto.
  destruct (Nat.ltb_spec (nat_of_ascii c) (nat_of_ascii d)), (Nat.ltb_spec (nat_of_ascii d) (nat_of_ascii c)); auto; try lia.
Qed.
Lemma tleb_trans a b c : tleb a b = true -> tleb b c = true -> tleb a c = true.
Proof.
  revert b c. induction a as [|x a IH]; intros [|y b] [|z c]; cbn [tleb]; auto; try discriminate.
  destruct (Nat.ltb_spec (nat_of_ascii x) (nat_of_ascii y)), (Nat.ltb_spec (nat_of_ascii y) (nat_of_ascii x)), (Nat.ltb_spec (nat_of_ascii y) (nat_of_ascii z)), (Nat.ltb_spec (nat_of_ascii z) (nat_of_ascii y)),
   (Nat.ltb_spec (nat_of_ascii x) (nat_of_ascii z)), (Nat.ltb_spec (nat_of_ascii z) (nat_of_ascii x)); intros; auto; try discriminate; try lia; eapply IH; eauto.
Qed.
Lemma insert_perm {A} (le : A -> A -> bool) x l : Permutation (insert le x l) (x :: l).
Proof. induction l as [|y l IH]; cbn; [reflexivity|]. destruct (le x y); [reflexivity|]. rewrite IH. apply perm_swap. Qed.
Lemma sort_perm {A} (le : A -> A -> bool) l : Permutation (sort le l) l.
Proof. induction l as [|x l IH]; cbn; [reflexivity|]. rewrite insert_perm. now constructor. Qed.
Lemma insert_sorted {A} (le : A -> A -> bool) (tot : forall a b, le a b = true \/ le b a = true) x l :
  Sorted (fun a b => le a b = true) l -> Sorted (fun a b => le a b = true) (insert le x l).
Proof.
  induction l as [|y l IH]; intros H; cbn; [repeat constructor|]. destruct (le x y) eqn:E; [constructor; [exact H|now constructor]|].
  inversion H as [|y' l' Hs Hh]; subst. constructor; [now apply IH|]. assert (le y x = true) by (destruct (tot x y); congruence).
  destruct l as [|z l]; cbn; [now constructor|]. destruct (le x z); constructor; auto. now inversion Hh.
Qed.
Lemma sort_sorted {A} (le : A -> A -> bool) (tot : forall a b, le a b = true \/ le b a = true) l : Sorted (fun a b => le a b = true) (sort le l).
Proof. induction l as [|x l IH]; cbn; [constructor|]. now apply insert_sorted. Qed.

(** ** Unique entries *)
Lemma nubs_In seen l x : In x (nubs seen l) <-> In x l /\ ~ In x seen.
Proof.
  revert seen. induction l as [|y l IH]; intros seen; cbn; [tauto|].
  destruct (existsb (teqb y) seen) eqn:E.
  - apply existsb_exists in E as (z & Hz & Ez). destruct (teqb_spec y z) as [<-|]; [|discriminate]. rewrite IH. split; [tauto|]. intros ([<-|H] & Hn); [contradiction|auto].
  - assert (Hy : ~ In y seen). { intros Hy. assert (existsb (teqb y) seen = true) by (apply existsb_exists; exists y; split; [exact Hy|apply teqb_refl]). congruence. }
    cbn. rewrite IH. cbn. split.
    + intros [<-|(H1 & H2)]; [auto|]. split; [auto|tauto].
    + intros ([<-|H1] & H2); [auto|]. destruct (teqb_spec y x) as [->|Hne]; [auto|]. right. tauto.
Qed.
Lemma nubs_NoDup seen l : NoDup (nubs seen l).
Proof.
  revert seen. induction l as [|y l IH]; intros seen; cbn; [constructor|]. destruct (existsb (teqb y) seen); [apply IH|]. constructor; [|apply IH].
  rewrite nubs_In. cbn. tauto.
Qed.

Lemma nubs_app seen a b : exists r, nubs seen (a ++ b) = nubs seen a ++ r.
Proof.
  revert seen. induction a as [|x a IH]; intros seen; cbn; [eauto|]. destruct (existsb (teqb x) seen); [apply IH|]. destruct (IH (x :: seen)) as (r & ->). exists r. reflexivity.
Qed.
