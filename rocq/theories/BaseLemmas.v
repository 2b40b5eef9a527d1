From Verif Require Import Base.

Section Upd.
Context {A : Type}.
Implicit Types (l : list A).

Lemma upd_length l i f : length (upd l i f) = length l.
Proof. revert i; induction l; destruct i; simpl; auto. Qed.

Lemma upd_nth_same l i f x :
  nth_error l i = Some x -> nth_error (upd l i f) i = Some (f x).
Proof.
  revert i; induction l; destruct i; simpl; intros; try discriminate; auto. congruence.
Qed.

Lemma upd_nth_other l i j f :
  i <> j -> nth_error (upd l i f) j = nth_error l j.
Proof.
  revert i j; induction l; destruct i, j; simpl; intros; auto; try lia.
Qed.

Lemma upd_nth l i j f :
  nth_error (upd l i f) j =
  if Nat.eqb i j then option_map f (nth_error l j) else nth_error l j.
Proof.
  destruct (Nat.eqb_spec i j).
  - subst. destruct (nth_error l j) eqn:E; simpl.
    + now apply upd_nth_same.
    + apply nth_error_None. rewrite upd_length. now apply nth_error_None.
  - now apply upd_nth_other.
Qed.

Lemma upd_app_l l l2 i f : i < length l -> upd (l ++ l2) i f = upd l i f ++ l2.
Proof.
  revert i; induction l; destruct i; simpl; intros; try lia; auto.
  rewrite IHl by lia; auto.
Qed.

Lemma upd_none l i f : length l <= i -> upd l i f = l.
Proof. revert i; induction l; destruct i; simpl; intros; auto; try lia. rewrite IHl; auto; lia. Qed.

Lemma countb_upd (p : A -> bool) l i f x :
  nth_error l i = Some x ->
  countb p (upd l i f) + (if p x then 1 else 0) = countb p l + (if p (f x) then 1 else 0).
Proof.
  unfold countb. revert i; induction l; destruct i; simpl; intros; try discriminate.
  - inversion H; subst. destruct (p x), (p (f x)); simpl; lia.
  - specialize (IHl _ H). destruct (p a); simpl; lia.
Qed.

Lemma countb_app (p : A -> bool) l l2 : countb p (l ++ l2) = countb p l + countb p l2.
Proof. unfold countb. now rewrite filter_app, app_length. Qed.

Lemma countb_le (p : A -> bool) l : countb p l <= length l.
Proof. unfold countb. induction l; simpl; auto. destruct (p a); simpl; lia. Qed.

Lemma countb_0 (p : A -> bool) l : (forall x, In x l -> p x = false) -> countb p l = 0.
Proof.
  unfold countb; induction l; simpl; intros; auto.
  rewrite H by auto. apply IHl; auto.
Qed.

Lemma countb_ext (p q : A -> bool) l : (forall x, In x l -> p x = q x) -> countb p l = countb q l.
Proof.
  unfold countb; induction l; simpl; intros; auto.
  rewrite H by auto. destruct (q a); simpl; rewrite IHl; auto.
Qed.

Lemma countb_impl (p q : A -> bool) l :
  (forall x, In x l -> p x = true -> q x = true) -> countb p l <= countb q l.
Proof.
  unfold countb; induction l; simpl; intros; auto.
  assert (length (filter p l) <= length (filter q l)) by (apply IHl; auto).
  destruct (p a) eqn:E.
  - rewrite (H a) by auto. simpl; lia.
  - destruct (q a); simpl; lia.
Qed.

Lemma nth_error_ext l l2 :
  (forall i, nth_error l i = nth_error l2 i) -> l = l2.
Proof.
  revert l2; induction l; destruct l2; intros; auto.
  - specialize (H 0); discriminate.
  - specialize (H 0); discriminate.
  - pose proof (H 0) as H0; simpl in H0; inversion H0; subst. f_equal. apply IHl.
    intros i. apply (H (S i)).
Qed.
End Upd.

Lemma nth_error_firstn {A} (l : list A) n i :
  nth_error (firstn n l) i = if Nat.ltb i n then nth_error l i else None.
Proof.
  revert n i; induction l; destruct n, i; simpl; auto.
  - destruct (_ <? _); auto.
  - rewrite IHl. reflexivity.
Qed.

Lemma memb_In x l : memb x l = true <-> In x l.
Proof.
  unfold memb. rewrite existsb_exists. split.
  - intros (y & Hy & E). apply Nat.eqb_eq in E; subst; auto.
  - intros H; exists x; split; auto. apply Nat.eqb_refl.
Qed.

Lemma memb_false x l : memb x l = false <-> ~ In x l.
Proof. rewrite <- memb_In. destruct (memb x l); split; congruence. Qed.

Lemma maxl_le x l : In x l -> x <= maxl l.
Proof. induction l; simpl; intros H; [tauto|]; destruct H as [H|H]; subst; [lia|specialize (IHl H); lia]. Qed.

Lemma maxl_In l : l <> [] -> In (maxl l) l.
Proof.
  induction l; intros; try congruence. simpl.
  destruct l. - simpl. lia.
  - destruct (Nat.max_spec a (maxl (n :: l))) as [[]|[]]; rewrite H1; auto.
    right. apply IHl. discriminate.
Qed.

Lemma maxl_lub l b : (forall x, In x l -> x <= b) -> maxl l <= b.
Proof. induction l; simpl; intros; try lia. assert (maxl l <= b) by (apply IHl; auto). specialize (H a (or_introl eq_refl)). lia. Qed.

Lemma bindx_None {S} (m : ex S) k s' :
  bindx m k = (s', None) -> exists s, m = (s, None) /\ k s = (s', None).
Proof. destruct m as [s [e|]]; simpl; intros; [discriminate|eauto]. Qed.

(** State invariants through [foldx], error or not. *)
Lemma foldx_inv {A S} (f : A -> S -> ex S) (P : S -> Prop) l s :
  (forall a s, In a l -> P s -> P (fst (f a s))) ->
  P s -> P (fst (foldx f l s)).
Proof.
  revert s; induction l; simpl; intros; auto.
  destruct (f a s) as [s1 [e|]] eqn:E; simpl.
  - specialize (H a s (or_introl eq_refl) H0). now rewrite E in H.
  - apply IHl; auto. specialize (H a s (or_introl eq_refl) H0). now rewrite E in H.
Qed.

Lemma foldx_app {A S} (f : A -> S -> ex S) l1 l2 s :
  foldx f (l1 ++ l2) s = bindx (foldx f l1 s) (foldx f l2).
Proof.
  revert s; induction l1; simpl; intros; auto.
  destruct (f a s) as [s1 [e|]]; simpl; auto.
Qed.
