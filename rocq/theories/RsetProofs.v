(** Proofs about the resource-set table (C12, C13, C19). *)
From Coq Require Import String.
From Verif Require Import Base BaseLemmas RsetModel RsetSpec.
Local Notation length := List.length.

Ltac mbsplit := repeat match goal with |- _ /\ _ => split end.

Lemma rs_owner_own w r : rs_owner (own w r) = w.
Proof. reflexivity. Qed.

Lemma unheld_countb p m :
  unheld p m = Z.of_nat (countb (fun r => match rs_owner r with None => p r | Some _ => false end) (rm_rsets m)).
Proof. reflexivity. Qed.

(** Everything except owners and counters. *)
Definition same_layout (m m' : rman) : Prop :=
  map (fun r => (rs_group r, rs_slot r, rs_gpu r)) (rm_rsets m') = map (fun r => (rs_group r, rs_slot r, rs_gpu r)) (rm_rsets m) /\
  rm_split m' = rm_split m /\ rm_per_node m' = rm_per_node m /\ rm_gpu_per_node m' = rm_gpu_per_node m /\
  rm_nongpu_per_node m' = rm_nongpu_per_node m /\ rm_num_groups m' = rm_num_groups m /\ rm_index m' = rm_index m.
Lemma same_layout_refl m : same_layout m m.
Proof. unfold same_layout; mbsplit; auto. Qed.
Lemma same_layout_trans a b c : same_layout a b -> same_layout b c -> same_layout a c.
Proof. unfold same_layout; intuition congruence. Qed.
Lemma same_layout_length a b : same_layout a b -> length (rm_rsets b) = length (rm_rsets a).
Proof. intros (H&_). apply (f_equal (@List.length _)) in H. now rewrite !map_length in H. Qed.
Lemma same_layout_places a b : same_layout a b -> places (rm_rsets b) = places (rm_rsets a).
Proof.
  intros (H&_). unfold places. apply (f_equal (map (fun p : nat * nat * bool => (fst (fst p), snd (fst p))))) in H.
  rewrite !map_map in H. exact H.
Qed.

Lemma map_upd {A B} (g : A -> B) l i f : (forall x, g (f x) = g x) -> map g (upd l i f) = map g l.
Proof. intros H. revert i; induction l; destruct i; simpl; auto; f_equal; auto. Qed.

Lemma assign_one_layout w p m : same_layout m (assign_one w p m).
Proof.
  destruct p as [i [v|]]; cbn; [apply same_layout_refl|].
  destruct (nth_error (rm_rsets m) i) as [r|]; [|apply same_layout_refl].
  destruct (rs_gpu r); unfold same_layout, set_rsets; cbn; mbsplit; auto; now apply map_upd.
Qed.

Lemma assign_one_holder w i old m j :
  i < length (rm_rsets m) ->
  holder (assign_one w (i, old) m) j =
  if (j =? i) && (match old with None => true | _ => false end) then Some w else holder m j.
Proof.
  intros Hi. unfold assign_one. destruct old as [v|]; [now rewrite andb_false_r|].
  rewrite andb_true_r.
  destruct (nth_error (rm_rsets m) i) as [r|] eqn:E; [|apply nth_error_None in E; lia].
  assert (G : forall f g n, holder (set_rsets m (upd (rm_rsets m) i (own (Some w))) f g n) j = if j =? i then Some w else holder m j).
  { intros. unfold holder; cbn. rewrite upd_nth. rewrite (Nat.eqb_sym i j). destruct (Nat.eqb_spec j i); auto. subst. now rewrite E. }
  destruct (rs_gpu r); apply G.
Qed.

Lemma assign_one_books w i m :
  holder m i = None -> i < length (rm_rsets m) -> books_balanced m -> books_balanced (assign_one w (i, None) m).
Proof.
  intros Hh Hi (B1&B2&B3). unfold assign_one.
  unfold holder in Hh. destruct (nth_error (rm_rsets m) i) as [r|] eqn:E; [|apply nth_error_None in E; lia].
  assert (G : forall p, Z.of_nat (countb (fun r => match rs_owner r with None => p r | Some _ => false end) (upd (rm_rsets m) i (own (Some w)))) =
     (unheld p m - (if p r then 1 else 0))%Z).
  { intros p. pose proof (countb_upd (fun r => match rs_owner r with None => p r | Some _ => false end) _ _ (own (Some w)) _ E) as C.
    cbn in C. rewrite Hh in C. rewrite unheld_countb. destruct (p r); lia. }
  destruct (rs_gpu r) eqn:Eg; unfold books_balanced; rewrite !unheld_countb; cbn [set_rsets rm_rsets rm_free rm_gpu_free rm_nongpu_free];
    rewrite !G, B1, B2, B3, ?Eg; cbn; lia.
Qed.

Lemma fold_assign w : forall ps m,
  NoDup (map fst ps) -> (forall i old, In (i, old) ps -> i < length (rm_rsets m) /\ holder m i = old) ->
  books_balanced m ->
  let m' := fold_left (fun m p => assign_one w p m) ps m in
  books_balanced m' /\ same_layout m m' /\
  (forall j, holder m' j = if existsb (fun p => (fst p =? j) && (match snd p with None => true | _ => false end)) ps then Some w else holder m j).
Proof.
  induction ps as [|[i old] ps IH]; intros m Hnd Hin Hb; cbn [fold_left existsb].
  - mbsplit; auto using same_layout_refl.
  - inversion Hnd as [|? ? Hni Hnd']; subst. destruct (Hin i old (or_introl eq_refl)) as [Hi Ho].
    set (m1 := assign_one w (i, old) m) in *.
    assert (L1 : same_layout m m1) by apply assign_one_layout.
    assert (B1 : books_balanced m1).
    { unfold m1. destruct old; [exact Hb|]. now apply assign_one_books. }
    assert (Hj : forall j, holder m1 j = if (j =? i) && (match old with None => true | _ => false end) then Some w else holder m j)
      by (intros; now apply assign_one_holder).
    specialize (IH m1 Hnd'). destruct IH as (IB & IL & IHj); auto.
    { intros k o Hk. rewrite (same_layout_length _ _ L1), Hj.
      destruct (Nat.eqb_spec k i); [subst; elim Hni; apply in_map_iff; now exists (i, o)|]. cbn. apply Hin. now right. }
    mbsplit; auto.
    + eapply same_layout_trans; eauto.
    + intros j. rewrite IHj, Hj. cbn [fst snd]. rewrite (Nat.eqb_sym i j).
      destruct ((j =? i) && _) eqn:E; cbn [orb]; [|reflexivity]. now destruct (existsb _ ps).
Qed.

Lemma assign_rsets_spec team w m m' :
  NoDup team -> books_balanced m -> assign_rsets team w m = (m', None) ->
  books_balanced m' /\ same_layout m m' /\
  (forall i, holder m' i = if memb i team then match holder m i with None => Some w | o => o end else holder m i).
Proof.
  intros Hnd Hb. unfold assign_rsets. destruct (forallb _ team) eqn:F; [|discriminate]. intros H; inversion H; subst; clear H.
  rewrite forallb_forall in F.
  match goal with |- context [fold_left _ ?l m] => set (ps := l) end.
  assert (E1 : map fst ps = team) by (unfold ps; rewrite map_map; cbn; apply map_id).
  destruct (fold_assign w ps m) as (B & L & Hj); auto.
  - now rewrite E1.
  - intros i old Hin. unfold ps in Hin. apply in_map_iff in Hin. destruct Hin as (k & E & Hk). injection E as -> <-.
    split; [apply F in Hk; now apply Nat.ltb_lt|reflexivity].
  - mbsplit; auto. intros i. rewrite Hj.
    assert (E : existsb (fun p : nat * option nat => (fst p =? i) && match snd p with Some _ => false | None => true end) ps =
      memb i team && match holder m i with None => true | _ => false end).
    { clear E1 F Hj B L Hnd; unfold ps; clear ps. induction team as [|t team IH]; [reflexivity|]. cbn [map existsb memb fst snd].
      unfold memb in *. cbn [existsb]. rewrite IH. fold (holder m t). rewrite (Nat.eqb_sym i t). destruct (Nat.eqb_spec t i).
      - subst. cbn. destruct (holder m i); cbn; auto using andb_false_r.
      - cbn. reflexivity. }
    rewrite E. destruct (memb i team) eqn:Em; cbn; [|reflexivity].
    destruct (holder m i) eqn:Eh; auto.
Qed.

Lemma assign_rsets_raises team w m :
  (exists e, snd (assign_rsets team w m) = Some e) <-> exists i, In i team /\ length (rm_rsets m) <= i.
Proof.
  unfold assign_rsets. destruct (forallb _ team) eqn:F; cbn.
  - rewrite forallb_forall in F. split; [intros [e H]; discriminate|]. intros (i & Hi & Hl). apply F, Nat.ltb_lt in Hi. lia.
  - split; [|eauto]. intros _. apply Bool.not_true_iff_false in F. rewrite forallb_forall in F.
    clear w. induction team as [|t team IH]; [elim F; intros ? []|].
    destruct (Nat.lt_ge_cases t (length (rm_rsets m))) as [Hl|Hl]; [|exists t; split; [now left|auto]].
    destruct IH as (i & Hi & Hle); [|exists i; split; [now right|auto]].
    intros G. apply F. intros x [->|Hx]; [now apply Nat.ltb_lt|auto].
Qed.

Lemma map_own_layout (g : rset -> option nat) l :
  map (fun r => (rs_group r, rs_slot r, rs_gpu r)) (map (fun r => own (g r) r) l) = map (fun r => (rs_group r, rs_slot r, rs_gpu r)) l.
Proof. rewrite map_map. reflexivity. Qed.

Lemma free_rsets_spec w m :
  books_balanced m ->
  books_balanced (free_rsets w m) /\ same_layout m (free_rsets w m) /\
  (forall i, holder (free_rsets w m) i = match holder m i with Some v => if v =? w then None else Some v | None => None end).
Proof.
  intros (B1&B2&B3). mbsplit.
  - unfold books_balanced. rewrite !unheld_countb. cbn [free_rsets set_rsets rm_rsets rm_free rm_gpu_free rm_nongpu_free].
    rewrite B1, B2, B3, !unheld_countb.
    assert (G : forall p q, (forall r, q r = owned_by w r && p r) -> (forall r, p (own None r) = p r) ->
      countb (fun r => match rs_owner r with None => p r | Some _ => false end) (map (fun r => if owned_by w r then own None r else r) (rm_rsets m))
      = countb (fun r => match rs_owner r with None => p r | Some _ => false end) (rm_rsets m) + countb q (rm_rsets m)).
    { intros p q Hq Hp. unfold countb. induction (rm_rsets m) as [|r l IH]; [reflexivity|]. cbn [map filter].
      rewrite Hq. destruct (owned_by w r) eqn:Eo; cbn [andb].
      - assert (E : exists v, rs_owner r = Some v) by (unfold owned_by in Eo; destruct (rs_owner r); [eauto|discriminate]).
        destruct E as [v E]. rewrite rs_owner_own, Hp, E. destruct (p r); cbn [List.length]; rewrite IH; lia.
      - destruct (rs_owner r) as [v|]; [rewrite IH; lia|]. destruct (p r); cbn [List.length]; rewrite IH; lia. }
    rewrite (G (fun _ => true) (owned_by w)), (G rs_gpu (fun r => owned_by w r && rs_gpu r)),
      (G (fun r => negb (rs_gpu r)) (fun r => owned_by w r && negb (rs_gpu r))); try lia; auto.
  - unfold same_layout, free_rsets, set_rsets; cbn; mbsplit; auto.
    rewrite map_map. apply map_ext. intros r. now destruct (owned_by w r).
  - intros i. unfold holder; cbn. rewrite nth_error_map. destruct (nth_error (rm_rsets m) i) as [r|]; cbn; auto.
    unfold owned_by. destruct (rs_owner r) as [v|] eqn:E; cbn; [destruct (v =? w); cbn; auto|]; auto.
Qed.

Lemma free_all_spec m :
  books_balanced (free_all m) /\ same_layout m (free_all m) /\ forall i, holder (free_all m) i = None.
Proof.
  mbsplit.
  - unfold books_balanced. rewrite !unheld_countb. cbn [free_all set_rsets rm_rsets rm_free rm_gpu_free rm_nongpu_free].
    assert (G : forall p, (forall r, p (own None r) = p r) ->
       countb (fun r => match rs_owner r with None => p r | Some _ => false end) (map (own None) (rm_rsets m)) = countb p (rm_rsets m)).
    { intros p Hp. unfold countb. induction (rm_rsets m) as [|r l IH]; [reflexivity|]. cbn [map filter].
      rewrite rs_owner_own, Hp. destruct (p r); cbn; now rewrite IH. }
    rewrite (G (fun _ => true)), (G rs_gpu), (G (fun r => negb (rs_gpu r))) by auto. mbsplit; auto.
    unfold countb. clear. induction (rm_rsets m); cbn; lia.
  - unfold same_layout, free_all, set_rsets; cbn; mbsplit; auto. now rewrite map_map.
  - intros i. unfold holder; cbn. rewrite nth_error_map. now destruct (nth_error _ i).
Qed.
