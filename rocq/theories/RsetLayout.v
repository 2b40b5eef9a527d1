(** Proofs about splitting nodes into resource sets (C18) and the table's initial layout. *)
From Coq Require Import String.
From Verif Require Import Base BaseLemmas RsetModel RsetSpec RsetProofs.
Local Notation length := List.length.

(** ** best_split *)
Lemma slice_length {A} (a : list A) lo hi : lo <= hi -> hi <= length a -> length (slice a lo hi) = hi - lo.
Proof. intros. unfold slice. rewrite firstn_length, skipn_length. lia. Qed.

Lemma firstn_add {A} (l : list A) x y : firstn (x + y) l = firstn x l ++ firstn y (skipn x l).
Proof. revert x; induction l; destruct x; cbn; auto; [now destruct y|]. now rewrite IHl. Qed.
Lemma skipn_skipn' {A} (l : list A) x y : skipn x (skipn y l) = skipn (y + x) l.
Proof. revert y; induction l; destruct y; cbn; auto. now destruct x. Qed.

Lemma slice_app {A} (a : list A) x y z : x <= y -> y <= z -> slice a x y ++ slice a y z = slice a x z.
Proof.
  intros. unfold slice.
  replace (z - x) with ((y - x) + (z - y)) by lia.
  rewrite firstn_add. f_equal. rewrite skipn_skipn'. do 2 f_equal. lia.
Qed.

Lemma concat_slices {A} (a : list A) (b : nat -> nat) : (forall i, b i <= b (S i)) ->
  forall n i, concat (map (fun j => slice a (b j) (b (S j))) (seq i n)) = slice a (b i) (b (i + n)).
Proof.
  intros Hb. assert (Hm : forall n i, b i <= b (i + n)).
  { induction n; intros; [rewrite Nat.add_0_r; auto|]. rewrite Nat.add_succ_r. specialize (Hb (i+n)). specialize (IHn i). lia. }
  induction n; intros i; cbn [seq map concat].
  - rewrite Nat.add_0_r. unfold slice. now rewrite Nat.sub_diag.
  - rewrite IHn. rewrite slice_app by (auto || apply (Hm n (S i))). f_equal. f_equal. lia.
Qed.

Definition bnd (k m i : nat) := i * k + Nat.min i m.

Lemma best_split_eq {A} (a : list A) n :
  best_split a n = map (fun i => slice a (bnd (length a / n) (length a mod n) i) (bnd (length a / n) (length a mod n) (S i))) (seq 0 n).
Proof. unfold best_split, bnd. apply map_ext. intros i. now rewrite Nat.add_1_r. Qed.

Lemma bnd_mono k m i : bnd k m i <= bnd k m (S i).
Proof. unfold bnd. nia. Qed.
Lemma bnd_mono_le k m i j : i <= j -> bnd k m i <= bnd k m j.
Proof. induction 1; auto. etransitivity; eauto using bnd_mono. Qed.
Lemma bnd_end {A} (a : list A) n : n <> 0 -> bnd (length a / n) (length a mod n) n = length a.
Proof.
  intros. unfold bnd. pose proof (Nat.mod_upper_bound (length a) n H). rewrite Nat.min_r by lia.
  pose proof (Nat.div_mod (length a) n H). lia.
Qed.

Lemma best_split_concat {A} (a : list A) n : n <> 0 -> concat (best_split a n) = a.
Proof.
  intros Hn. rewrite best_split_eq, concat_slices by (intros; apply bnd_mono).
  rewrite Nat.add_0_l, bnd_end by auto. unfold slice, bnd; cbn. rewrite Nat.sub_0_r. apply firstn_all.
Qed.
Lemma best_split_length {A} (a : list A) n : length (best_split a n) = n.
Proof. unfold best_split. now rewrite map_length, seq_length. Qed.
Lemma best_split_sizes {A} (a : list A) n s : n <> 0 -> In s (best_split a n) ->
  length s = length a / n \/ length s = length a / n + 1 /\ 0 < length a mod n.
Proof.
  intros Hn. rewrite best_split_eq, in_map_iff. intros (i & <- & Hi). apply in_seq in Hi.
  rewrite slice_length; [|apply bnd_mono|].
  - unfold bnd. generalize (length a mod n) (length a / n). intros. destruct (Nat.lt_ge_cases i n0); [right|left]; nia.
  - rewrite <- (bnd_end a n) at 3 by auto. apply bnd_mono_le. lia.
Qed.

Lemma best_split_same {A} (a : list A) : best_split a (length a) = map (fun x => [x]) a.
Proof.
  destruct (length a) eqn:E; [apply length_zero_iff_nil in E; now subst|].
  rewrite best_split_eq, E, Nat.div_same, Nat.mod_same by lia. rewrite <- E.
  assert (B : forall i, bnd 1 0 i = i) by (intros; unfold bnd; lia).
  rewrite (map_ext _ (fun i => slice a i (S i))) by (intros; now rewrite !B).
  clear n E B. induction a as [|x a IH]; [reflexivity|].
  cbn [List.length seq map]. f_equal. rewrite <- seq_shift, map_map. rewrite <- IH. apply map_ext. intros i. reflexivity.
Qed.

(** ** expand_list *)
Section Expand.
Context {A : Type}.
Variables k m : nat.
Let reps i := if i <? m then k + 1 else k.
Definition dup_from (i : nat) (l : list A) : list A :=
  flat_map (fun p : nat * A => repeat (snd p) (reps (fst p))) (combine (seq i (length l)) l).
Definition loc_from (i : nat) (l : list A) : list nat :=
  flat_map (fun p : nat * A => repeat (reps (fst p)) (reps (fst p))) (combine (seq i (length l)) l).
Lemma dup_cons i x l : dup_from i (x :: l) = repeat x (reps i) ++ dup_from (S i) l.
Proof. reflexivity. Qed.
Lemma loc_cons i x l : loc_from i (x :: l) = repeat (reps i) (reps i) ++ loc_from (S i) l.
Proof. reflexivity. Qed.
Lemma dup_length l : forall i, length (dup_from i l) + Nat.min i m = length l * k + Nat.min (i + length l) m.
Proof.
  induction l as [|x l IH]; intros i; [cbn; rewrite Nat.add_0_r; lia|].
  rewrite dup_cons, app_length, repeat_length. specialize (IH (S i)). cbn [List.length].
  replace (i + S (length l)) with (S i + length l) by lia. unfold reps. destruct (Nat.ltb_spec i m); lia.
Qed.
Lemma loc_length l : forall i, length (loc_from i l) = length (dup_from i l).
Proof. induction l; intros; [reflexivity|]. rewrite dup_cons, loc_cons, !app_length, !repeat_length, IHl. auto. Qed.
Lemma dup_In l x : forall i, In x (dup_from i l) -> In x l.
Proof.
  induction l as [|y l IH]; intros i; [intros []|]. rewrite dup_cons, in_app_iff. intros [H|H]; [left|right; eauto].
  now apply repeat_spec in H.
Qed.
Variable eqb : A -> A -> bool.
Hypothesis eqb_ok : forall x y, eqb x y = true <-> x = y.
Lemma count_repeat x y n : length (filter (eqb x) (repeat y n)) = if eqb x y then n else 0.
Proof. induction n; cbn; [now destruct (eqb x y)|]. destruct (eqb x y); cbn; auto. Qed.
Lemma dup_count_notin l x : forall i, ~ In x l -> length (filter (eqb x) (dup_from i l)) = 0.
Proof.
  induction l as [|y l IH]; intros i Hn; [reflexivity|]. rewrite dup_cons, filter_app, app_length, count_repeat, IH.
  - destruct (eqb x y) eqn:E; auto. apply eqb_ok in E. subst. elim Hn. now left.
  - intros H. apply Hn. now right.
Qed.
Lemma dup_count l x j : NoDup l -> nth_error l j = Some x -> forall i, length (filter (eqb x) (dup_from i l)) = reps (i + j).
Proof.
  intros Hnd. revert j. induction Hnd as [|y l Hni Hnd IH]; intros j Hj i; [destruct j; discriminate|].
  rewrite dup_cons, filter_app, app_length, count_repeat. destruct j as [|j].
  - inversion Hj; subst. rewrite (proj2 (eqb_ok x x) eq_refl), dup_count_notin, Nat.add_0_r; auto; lia.
  - cbn in Hj. rewrite (IH _ Hj). destruct (eqb x y) eqn:E.
    + apply eqb_ok in E. subst. elim Hni. eapply nth_error_In; eauto.
    + replace (i + S j) with (S i + j) by lia. reflexivity.
Qed.
Lemma dup_loc l x : NoDup l -> forall i j, nth_error (dup_from i l) j = Some x ->
  nth_error (loc_from i l) j = Some (length (filter (eqb x) (dup_from i l))).
Proof.
  induction 1 as [|y l Hni Hnd IH]; intros i j Hj; [destruct j; discriminate|].
  rewrite dup_cons in *. rewrite loc_cons, filter_app, app_length, count_repeat.
  destruct (Nat.lt_ge_cases j (reps i)).
  - rewrite nth_error_app1 in * by (rewrite repeat_length; auto).
    assert (x = y) by (apply nth_error_In, repeat_spec in Hj; auto). subst.
    rewrite (proj2 (eqb_ok y y) eq_refl), dup_count_notin, Nat.add_0_r by auto. now apply nth_error_repeat.
  - rewrite nth_error_app2 in * by (rewrite repeat_length; auto). rewrite repeat_length in *.
    rewrite (IH _ _ Hj). destruct (eqb x y) eqn:E; auto. apply eqb_ok in E. subst. elim Hni.
    eapply dup_In, nth_error_In; eauto.
Qed.
End Expand.

Lemma expand_eq {A} nn nw (l : list A) : expand_list nn nw l = (dup_from (nw / nn) (nw mod nn) 0 l, loc_from (nw / nn) (nw mod nn) 0 l).
Proof. reflexivity. Qed.

Lemma expand_length {A} nw (l : list A) : l <> [] -> length (dup_from (nw / length l) (nw mod length l) 0 l) = nw.
Proof.
  intros Hl. assert (Hz : length l <> 0) by (destruct l; [congruence|discriminate]).
  pose proof (dup_length (nw / length l) (nw mod length l) l 0) as H. cbn [Nat.min] in H.
  pose proof (Nat.mod_upper_bound nw _ Hz). pose proof (Nat.div_mod nw _ Hz). rewrite Nat.min_r in H by lia. lia.
Qed.

Lemma split_list_error r nodes : (exists e, get_split_list r nodes = Err e) <-> r = 0 \/ nodes = [].
Proof.
  unfold get_split_list. destruct (Nat.eqb_spec r 0); [subst; split; eauto|].
  destruct (Nat.eqb_spec (length nodes) 0) as [E|E].
  - apply length_zero_iff_nil in E. split; eauto.
  - assert (nodes <> []) by (destruct nodes; [elim E; auto|discriminate]).
    destruct (length nodes <=? r); cbn; split; try (intros [? ?]; discriminate); intros [|]; contradiction.
Qed.

Lemma sets_on_single (l : list node) n : sets_on (map (fun x => [x]) l) n = length (filter (String.eqb n) l).
Proof.
  unfold sets_on. induction l as [|x l IH]; [reflexivity|]. cbn [map filter].
  unfold mem_node; cbn [existsb]. rewrite orb_false_r. destruct (String.eqb n x); cbn; auto.
Qed.

Lemma split_list_fair r nodes sl loc :
  NoDup nodes -> get_split_list r nodes = Ok (sl, loc) ->
  length sl = r /\ length loc = r /\
  (length nodes <= r ->
     (forall s, In s sl -> exists n, s = [n] /\ In n nodes) /\
     (forall n, In n nodes -> 1 <= sets_on sl n) /\
     (forall n n', In n nodes -> In n' nodes -> sets_on sl n <= S (sets_on sl n')) /\
     (forall i n, nth_error sl i = Some [n] -> nth_error loc i = Some (sets_on sl n))) /\
  (r < length nodes ->
     concat sl = nodes /\ (forall s, In s sl -> s <> []) /\
     (forall s s', In s sl -> In s' sl -> length s <= S (length s'))).
Proof.
  intros Hnd. unfold get_split_list. destruct (Nat.eqb_spec r 0); [discriminate|].
  destruct (Nat.eqb_spec (length nodes) 0) as [E|E]; [discriminate|].
  assert (Hne : nodes <> []) by (destruct nodes; [elim E; auto|discriminate]).
  destruct (Nat.leb_spec (length nodes) r) as [Hle|Hlt].
  - rewrite expand_eq. intros H. injection H as <- <-.
    set (d := dup_from _ _ 0 nodes). assert (Ld : length d = r) by now apply expand_length.
    assert (Lo : length (loc_from (r / length nodes) (r mod length nodes) 0 nodes) = r) by (rewrite loc_length; auto).
    assert (Ls : best_split d r = map (fun x => [x]) d) by (rewrite <- Ld; apply best_split_same).
    rewrite Ls. rewrite map_length. mbsplit; auto; [|lia]. intros _.
    assert (Hc : forall x j, nth_error nodes j = Some x -> sets_on (map (fun x => [x]) d) x =
       if j <? r mod length nodes then r / length nodes + 1 else r / length nodes).
    { intros x j Hj. rewrite sets_on_single. unfold d. rewrite (dup_count _ _ String.eqb String.eqb_eq nodes x j Hnd Hj). reflexivity. }
    assert (K1 : 1 <= r / length nodes) by (apply Nat.div_str_pos; lia).
    mbsplit.
    + intros s Hs. apply in_map_iff in Hs. destruct Hs as (x & <- & Hx). exists x. split; auto. eapply dup_In; eauto.
    + intros x Hx. apply In_nth_error in Hx. destruct Hx as [j Hj]. rewrite (Hc _ _ Hj). destruct (_ <? _); lia.
    + intros x y Hx Hy. apply In_nth_error in Hx. destruct Hx as [j Hj]. apply In_nth_error in Hy. destruct Hy as [j' Hj'].
      rewrite (Hc _ _ Hj), (Hc _ _ Hj'). destruct (_ <? _), (_ <? _); lia.
    + intros i x Hi. rewrite nth_error_map in Hi. destruct (nth_error d i) eqn:Ed; [|discriminate]. injection Hi as ->.
      rewrite sets_on_single. apply dup_loc; auto. apply String.eqb_eq.
  - intros H. injection H as <- <-. rewrite best_split_length, repeat_length. mbsplit; auto; [lia|]. intros _.
    assert (K1 : 1 <= length nodes / r) by (apply Nat.div_str_pos; lia).
    mbsplit.
    + now apply best_split_concat.
    + intros s Hs ->. apply best_split_sizes in Hs; auto. cbn in Hs. lia.
    + intros s s' Hs Hs'. apply best_split_sizes in Hs; auto. apply best_split_sizes in Hs'; auto. lia.
Qed.
