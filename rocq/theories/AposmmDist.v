(** Proofs about update_dist (AposmmModel): each evaluated point knows its nearest
    better points. *)
From Verif Require Import Base BaseLemmas AposmmModel AposmmSpec.
Local Open Scope nat_scope.

Lemma flt_less a b : flt a b = true <-> less a b.
Proof.
  split.
  - destruct a, b; cbn; intros E; try discriminate; constructor; lia.
  - intros []; cbn; try reflexivity; lia.
Qed.
Lemma flt_irr a : flt a a = false.
Proof. destruct a; cbn; try reflexivity; lia. Qed.
Lemma flt_trans_nn a b d : isnan b = false -> flt a b = false -> flt b d = false -> flt a d = true -> isnan a = true \/ isnan d = true.
Proof. destruct a, b, d; cbn; intros; auto; try discriminate; lia. Qed.
Lemma feq_spec a b : feq a b = true -> a = b /\ isnan a = false.
Proof. destruct a, b; cbn; intros E; try discriminate; split; auto. f_equal. lia. Qed.
Lemma feq_refl a : isnan a = false -> feq a a = true.
Proof. destruct a; cbn; intros; auto; try discriminate; lia. Qed.
Lemma elt_false_Dist z e : elt (Dist z) e = false -> exists y, e = Dist y /\ (y <= z)%Z.
Proof. destruct e; cbn; [intros; eexists; split; [reflexivity|lia] | discriminate]. Qed.

(** ** np.min *)
Lemma fmin_In l : l <> [] -> (forall a, In a l -> isnan a = false) -> In (fmin l) l.
Proof.
  induction l as [|a [|b l'] IH]; intros Hn Hnn; [congruence | left; reflexivity |].
  change (fmin (a :: b :: l')) with
    (let m := fmin (b :: l') in if isnan a || isnan m then Nan else if flt m a then m else a).
  cbv zeta.
  assert (Hi : In (fmin (b :: l')) (b :: l')) by (apply IH; [discriminate | intros; apply Hnn; right; auto]).
  rewrite (Hnn a (or_introl eq_refl)). cbn [orb].
  rewrite (Hnn _ (or_intror Hi)).
  destruct (flt (fmin (b :: l')) a); [right; exact Hi | left; reflexivity].
Qed.
Lemma fmin_low l : (forall a, In a l -> isnan a = false) -> forall a, In a l -> flt a (fmin l) = false.
Proof.
  induction l as [|a [|b l'] IH]; intros Hnn y Hy; [contradiction | |].
  - destruct Hy as [<-|[]]. cbn. apply flt_irr.
  - change (fmin (a :: b :: l')) with
      (let m := fmin (b :: l') in if isnan a || isnan m then Nan else if flt m a then m else a).
    cbv zeta.
    assert (Hnn' : forall z, In z (b :: l') -> isnan z = false) by (intros; apply Hnn; right; auto).
    assert (Hi : In (fmin (b :: l')) (b :: l')) by (apply fmin_In; [discriminate | auto]).
    set (m := fmin (b :: l')) in *.
    rewrite (Hnn a (or_introl eq_refl)), (Hnn' _ Hi). cbn [orb].
    pose proof (Hnn' m Hi) as Hm. pose proof (Hnn a (or_introl eq_refl)) as Ha. pose proof (Hnn y Hy) as Hyn.
    destruct (flt m a) eqn:E.
    + destruct Hy as [<-|Hy].
      * clear - E. destruct m, a; cbn in *; try discriminate; try reflexivity; lia.
      * apply IH; auto.
    + destruct Hy as [<-|Hy]; [apply flt_irr|].
      specialize (IH Hnn' y Hy). fold m in IH.
      destruct (flt y a) eqn:E2; [|reflexivity].
      destruct (flt_trans_nn y m a Hm IH E E2) as [D|D]; congruence.
Qed.

(** ** Reading updated rows *)
Lemma map_nth_error_opt {A B} (g : A -> B) l i : nth_error (map g l) i = option_map g (nth_error l i).
Proof. revert i; induction l as [|a l IH]; intros [|i]; cbn; auto. Qed.

Section D.
Context {X : Type}.
Variable c : conf X.
Hypothesis Sym : symmetric c.
Notation row := (row X).
Implicit Types (H : list row) (r n b : row) (i j : nat).

(** Two rows that differ only in what APOSMM computes about distances. *)
Definition same (a b : row) : Prop :=
  x a = x b /\ f a = f b /\ local a = local b /\ ended a = ended b /\ started a = started b /\
  active a = active b /\ lmin a = lmin b /\ paused a = paused b /\ sid a = sid b.
Lemma same_refl a : same a a. Proof. repeat split. Qed.
Lemma same_trans a b d : same a b -> same b d -> same a d.
Proof. unfold same. intuition congruence. Qed.
Lemma same_sym a b : same a b -> same b a.
Proof. unfold same. intuition congruence. Qed.
Lemma same_usable a b : same a b -> usable a = usable b.
Proof. unfold same, usable. intros (_ & -> & _ & -> & _). reflexivity. Qed.
(** Histories that are the same in this sense. *)
Notation sameH := (Forall2 same).
Lemma sameH_refl H : sameH H H.
Proof. induction H; constructor; auto using same_refl. Qed.
Lemma sameH_len A B : sameH A B -> length A = length B.
Proof. induction 1; cbn; auto. Qed.
Lemma sameH_trans A B D : sameH A B -> sameH B D -> sameH A D.
Proof.
  intros h; revert D; induction h as [|a b A B s h IH]; intros D h2; inversion h2; subst; constructor.
  - eapply same_trans; eauto.
  - apply IH. assumption.
Qed.
Lemma sameH_sym A B : sameH A B -> sameH B A.
Proof. induction 1; constructor; auto using same_sym. Qed.
Lemma sameH_nth A B i a : sameH A B -> nth_error A i = Some a -> exists b, nth_error B i = Some b /\ same a b.
Proof.
  intros h; revert i; induction h as [|p q A B s h IH]; intros [|i] E; cbn in *; try discriminate.
  - inversion E; subst. eauto.
  - eauto.
Qed.
Lemma sameH_map g H : (forall r, same (g r) r) -> sameH (map g H) H.
Proof. induction H; cbn; constructor; auto. Qed.
Lemma sameH_upd g H i : (forall r, same (g r) r) -> sameH (upd H i g) H.
Proof.
  intros h; revert i; induction H as [|a H IH]; intros [|i]; cbn; try constructor; auto using same_refl, sameH_refl.
Qed.

Lemma teach_same i n r : same (teach c i n r) r.
Proof.
  unfold teach. destruct (usable r && flt (f n) (f r)); [|repeat split].
  destruct (local n); destruct (elt _ _); repeat split.
Qed.

(** ** What a row knows *)
(** [e] is not more than the distance of any better row of kind [loc] for which [P]
    holds. *)
Definition low (P : row -> bool) H r (loc : bool) (e : ext) : Prop :=
  forall j b, nth_error H j = Some b -> P b = true -> usable b = true -> local b = loc ->
    flt (f b) (f r) = true -> elt (Dist (dist c (x r) (x b))) e = false.
(** [e] is the distance of some row of kind [loc] that is at least as good, and [k] is
    its number. *)
Definition wit H i r (loc : bool) (e : ext) (k : option nat) : Prop :=
  (e = Far /\ k = None) \/
  exists j b, nth_error H j = Some b /\ j <> i /\ usable b = true /\ local b = loc /\
    flt (f r) (f b) = false /\ e = Dist (dist c (x r) (x b)) /\ k = Some j.

Definition Pinv H : Prop :=
  forall i r, nth_error H i = Some r ->
    sid r = i /\
    (known r = true -> usable r = true /\ edge r = Dist (rim c (x r)) /\
                       low known H r true (dl r) /\ low known H r false (ds r)) /\
    wit H i r true (dl r) (il r) /\ wit H i r false (ds r) (is r) /\
    (usable r = false -> dl r = Far /\ ds r = Far).
(** As [Pinv], and every usable row is known. *)
Definition Dinv H : Prop :=
  Pinv H /\ forall i r, nth_error H i = Some r -> usable r = true -> known r = true.

Lemma closest_In n l b : closest c n l = Some b -> In b l /\ forall r, In r l -> (apart c n b <= apart c n r)%Z.
Proof.
  revert b; induction l as [|a l IH]; intros b E; cbn in E; [discriminate|].
  destruct (closest c n l) as [d|] eqn:E2.
  - destruct (IH d eq_refl) as [Hi Hl].
    destruct (apart c n d <? apart c n a)%Z eqn:E3; inversion E; subst.
    + split; [right; auto|]. intros r [<-|Hr]; [lia | auto].
    + split; [left; auto|]. intros r [<-|Hr]; [lia|]. specialize (Hl r Hr). lia.
  - inversion E; subst. destruct l; [|cbn in E2; destruct (closest c n l); try destruct (_ <? _)%Z; discriminate].
    split; [left; auto|]. intros r [<-|[]]. lia.
Qed.
Lemma closest_None n l : closest c n l = None -> l = [].
Proof. destruct l as [|a l]; cbn; [auto|]. destruct (closest c n l); try destruct (_ <? _)%Z; discriminate. Qed.

Lemma wit_same A B i a b loc e k : sameH A B -> same a b -> wit A i a loc e k -> wit B i b loc e k.
Proof.
  intros hH hr [w|(j & d & Hj & Hne & Hu & Hl & Hf & He & Hk)]; [left; exact w | right].
  destruct (sameH_nth A B j d hH Hj) as (d' & Hj' & hs).
  exists j, d'. rewrite <- (same_usable _ _ hs).
  destruct hr as (hx & hf & _). destruct hs as (sx & sf & sl & _).
  rewrite <- hx, <- sx, <- hf, <- sf, <- sl. repeat split; auto.
Qed.

(** The row [i], [n], after it was learned. *)
Definition knows H i n : row :=
  let n1 := teach c i n (set_known (Dist (rim c (x n))) n) in
  let n2 := match closest c n (filter (as_good i n true) H) with
            | Some b => set_l (Dist (apart c n b)) (Some (sid b)) n1 | None => n1 end in
  match closest c n (filter (as_good i n false) H) with
  | Some b => set_s (Dist (apart c n b)) (Some (sid b)) n2 | None => n2 end.

Lemma teach_self i n e : teach c i n (set_known e n) = set_known e n.
Proof. unfold teach. cbn. rewrite flt_irr, andb_false_r. reflexivity. Qed.

Lemma closest_same n A B : sameH A B ->
  match closest c n A, closest c n B with
  | Some a, Some b => same a b
  | None, None => True
  | _, _ => False
  end.
Proof.
  induction 1 as [|a b A B s h IH]; cbn; [exact I|].
  destruct (closest c n A) as [p|], (closest c n B) as [q|]; try contradiction; [|exact s].
  unfold apart. replace (x p) with (x q) by (symmetry; apply IH). replace (x a) with (x b) by (symmetry; apply s).
  destruct (_ <? _)%Z; assumption.
Qed.
Lemma as_good_same i n loc a b : same a b -> as_good i n loc a = as_good i n loc b.
Proof. intros s. unfold as_good. rewrite (same_usable _ _ s). destruct s as (_ & -> & -> & _ & _ & _ & _ & _ & ->). reflexivity. Qed.
Lemma filter_sameH i n loc A B : sameH A B -> sameH (filter (as_good i n loc) A) (filter (as_good i n loc) B).
Proof.
  induction 1 as [|a b A B s h IH]; cbn; [constructor|].
  rewrite (as_good_same i n loc a b s). destruct (as_good i n loc b); [constructor; auto | auto].
Qed.
Lemma closest_shift i n loc A B : sameH A B ->
  match closest c n (filter (as_good i n loc) A) with
  | Some b => Some (apart c n b, sid b) | None => None end =
  match closest c n (filter (as_good i n loc) B) with
  | Some b => Some (apart c n b, sid b) | None => None end.
Proof.
  intros h. pose proof (closest_same n _ _ (filter_sameH i n loc _ _ h)) as q.
  destruct (closest c n (filter (as_good i n loc) A)) as [a|], (closest c n (filter (as_good i n loc) B)) as [b|]; try contradiction; auto.
  unfold apart. destruct q as (-> & _ & _ & _ & _ & _ & _ & _ & ->). reflexivity.
Qed.

Lemma learn_nth H i n j : nth_error H i = Some n -> usable n = true ->
  nth_error (learn c H i) j =
  if j =? i then Some (knows H i n) else option_map (teach c i n) (nth_error H j).
Proof.
  intros Hn Hu. unfold learn. rewrite Hn, Hu. cbv zeta.
  set (H1 := upd H i _). set (H2 := map (teach c i n) H1).
  assert (s1 : sameH H1 H) by (apply sameH_upd; intros; repeat split).
  assert (s2 : sameH H2 H) by (eapply sameH_trans; [apply sameH_map, teach_same | exact s1]).
  set (H3 := match closest c n (filter (as_good i n true) H2) with Some b => _ | None => H2 end).
  assert (s3 : sameH H3 H).
  { unfold H3. destruct (closest c n (filter (as_good i n true) H2)); [|exact s2].
    eapply sameH_trans; [apply sameH_upd; intros; repeat split | exact s2]. }
  pose proof (closest_shift i n true _ _ s2) as q2. pose proof (closest_shift i n false _ _ s3) as q3.
  assert (E2 : nth_error H2 j = if j =? i then Some (teach c i n (set_known (Dist (rim c (x n))) n)) else option_map (teach c i n) (nth_error H j)).
  { unfold H2, H1. rewrite map_nth_error_opt, upd_nth. rewrite (Nat.eqb_sym i j).
    destruct (j =? i) eqn:E; [|reflexivity]. apply Nat.eqb_eq in E; subst j. rewrite Hn. reflexivity. }
  assert (E3 : nth_error H3 j = if j =? i then Some (match closest c n (filter (as_good i n true) H) with
            | Some b => set_l (Dist (apart c n b)) (Some (sid b)) (teach c i n (set_known (Dist (rim c (x n))) n))
            | None => teach c i n (set_known (Dist (rim c (x n))) n) end) else option_map (teach c i n) (nth_error H j)).
  { unfold H3.
    destruct (closest c n (filter (as_good i n true) H2)) as [a|], (closest c n (filter (as_good i n true) H)) as [b|]; try discriminate.
    - rewrite upd_nth, (Nat.eqb_sym i j), E2. inversion q2 as [[qa qb]]. rewrite qa, qb. destruct (j =? i) eqn:E; reflexivity.
    - exact E2. }
  unfold knows.
  destruct (closest c n (filter (as_good i n false) H3)) as [a|], (closest c n (filter (as_good i n false) H)) as [b|]; try discriminate.
  - rewrite upd_nth, (Nat.eqb_sym i j), E3. inversion q3 as [[qa qb]]. rewrite qa, qb. destruct (j =? i) eqn:E; reflexivity.
  - exact E3.
Qed.
Lemma learn_skip H i n : nth_error H i = Some n -> usable n = false -> learn c H i = H.
Proof. intros Hn Hu. unfold learn. rewrite Hn, Hu. reflexivity. Qed.
Lemma learn_sameH H i : sameH (learn c H i) H.
Proof.
  unfold learn. destruct (nth_error H i) as [n|] eqn:Hn; [|apply sameH_refl].
  destruct (usable n); [|apply sameH_refl]. cbv zeta.
  set (H1 := upd H i _). set (H2 := map (teach c i n) H1).
  assert (s2 : sameH H2 H).
  { eapply sameH_trans; [apply sameH_map, teach_same |]. apply sameH_upd; intros; repeat split. }
  set (H3 := match closest c n (filter (as_good i n true) H2) with Some b => _ | None => H2 end).
  assert (s3 : sameH H3 H).
  { unfold H3. destruct (closest c n (filter (as_good i n true) H2)); [|exact s2].
    eapply sameH_trans; [apply sameH_upd; intros; repeat split | exact s2]. }
  destruct (closest c n (filter (as_good i n false) H3)); [|exact s3].
  eapply sameH_trans; [apply sameH_upd; intros; repeat split | exact s3].
Qed.

Lemma knows_same H i n : same (knows H i n) n.
Proof.
  unfold knows. rewrite teach_self.
  destruct (closest c n (filter (as_good i n false) H)), (closest c n (filter (as_good i n true) H)); repeat split.
Qed.
Lemma knows_known H i n : known (knows H i n) = true /\ edge (knows H i n) = Dist (rim c (x n)).
Proof.
  unfold knows. rewrite teach_self.
  destruct (closest c n (filter (as_good i n false) H)), (closest c n (filter (as_good i n true) H)); split; reflexivity.
Qed.
Lemma knows_l H i n : dl (knows H i n) = match closest c n (filter (as_good i n true) H) with Some b => Dist (apart c n b) | None => dl n end
  /\ il (knows H i n) = match closest c n (filter (as_good i n true) H) with Some b => Some (sid b) | None => il n end.
Proof.
  unfold knows. rewrite teach_self.
  destruct (closest c n (filter (as_good i n false) H)), (closest c n (filter (as_good i n true) H)); split; reflexivity.
Qed.
Lemma knows_s H i n : ds (knows H i n) = match closest c n (filter (as_good i n false) H) with Some b => Dist (apart c n b) | None => ds n end
  /\ is (knows H i n) = match closest c n (filter (as_good i n false) H) with Some b => Some (sid b) | None => is n end.
Proof.
  unfold knows. rewrite teach_self.
  destruct (closest c n (filter (as_good i n false) H)), (closest c n (filter (as_good i n true) H)); split; reflexivity.
Qed.

(** The new row's distances are right with respect to all usable rows. *)
Lemma closest_right H i n loc (e : ext) (k : option nat) :
  Pinv H -> nth_error H i = Some n -> wit H i n loc e k ->
  let q := closest c n (filter (as_good i n loc) H) in
  let e' := match q with Some b => Dist (apart c n b) | None => e end in
  let k' := match q with Some b => Some (sid b) | None => k end in
  low (fun _ => true) H n loc e' /\ wit H i n loc e' k'.
Proof.
  intros HP Hn Hw. cbv zeta.
  assert (Hflip : forall b, flt (f b) (f n) = true -> flt (f n) (f b) = false).
  { intros b. destruct (f b), (f n); cbn; try discriminate; try reflexivity; lia. }
  assert (Hmem : forall j b, nth_error H j = Some b -> usable b = true -> local b = loc -> flt (f b) (f n) = true ->
             In b (filter (as_good i n loc) H)).
  { intros j b Hj Hub Hlb Hf. apply filter_In. split; [eapply nth_error_In; eauto|].
    unfold as_good. rewrite Hub, Hlb, (Hflip b Hf), eqb_reflx. cbn.
    destruct (sid b =? i) eqn:E; [|reflexivity]. apply Nat.eqb_eq in E.
    destruct (HP j b Hj) as [Es _]. assert (Eji : j = i) by congruence.
    rewrite Eji, Hn in Hj. inversion Hj; subst b. rewrite flt_irr in Hf. discriminate. }
  destruct (closest c n (filter (as_good i n loc) H)) as [b|] eqn:E.
  - destruct (closest_In _ _ _ E) as [Hin Hmin]. split.
    + intros j d Hj _ Hud Hld Hf. specialize (Hmin d (Hmem j d Hj Hud Hld Hf)).
      unfold apart in Hmin. cbn. unfold apart. lia.
    + right. apply filter_In in Hin as [Hin Hg]. apply In_nth_error in Hin as [j Hj].
      unfold as_good in Hg. apply andb_true_iff in Hg as [Hg Hne]. apply andb_true_iff in Hg as [Hg Hl].
      apply andb_true_iff in Hg as [Hub Hf]. apply eqb_prop in Hl.
      destruct (HP j b Hj) as [Es _].
      exists j, b. unfold apart. rewrite Es in *. apply negb_true_iff in Hne, Hf. apply Nat.eqb_neq in Hne.
      repeat split; auto.
  - apply closest_None in E. split; [|exact Hw].
    intros j d Hj _ Hud Hld Hf. pose proof (Hmem j d Hj Hud Hld Hf) as Hin. rewrite E in Hin. contradiction.
Qed.

Lemma low_same P A B a b loc e : sameH B A -> same b a ->
  (forall j d d', nth_error A j = Some d -> nth_error B j = Some d' -> P d' = true -> usable d' = true -> flt (f d') (f b) = true -> P d = true) ->
  low P A a loc e -> low P B b loc e.
Proof.
  intros hH hr hP hl j d' Hj HPd Hu Hl Hf.
  destruct (sameH_nth _ _ j d' hH Hj) as (d & Hd & hs).
  pose proof (hP j d d' Hd Hj HPd Hu Hf) as HPd'.
  assert (Hu' : usable d = true) by (rewrite <- (same_usable _ _ hs); auto).
  destruct hr as (hx & hf & _). destruct hs as (sx & sf & sl & _).
  rewrite hx, sx. rewrite sl in Hl. rewrite sf, hf in Hf. exact (hl j d Hd HPd' Hu' Hl Hf).
Qed.

Lemma learn_Pinv H i : Pinv H -> Pinv (learn c H i).
Proof.
  intros HP. destruct (nth_error H i) as [n|] eqn:Hn.
  2:{ unfold learn. rewrite Hn. exact HP. }
  destruct (usable n) eqn:Hu; [|rewrite (learn_skip H i n Hn Hu); exact HP].
  pose proof (learn_sameH H i) as hs.
  intros j r Hj. rewrite (learn_nth H i n j Hn Hu) in Hj.
  destruct (HP i n Hn) as (Hsn & Hkn & Hwl & Hws & Hfar).
  assert (hk : forall j d d', nth_error H j = Some d -> nth_error (learn c H i) j = Some d' -> known d' = true -> j <> i -> known d = true).
  { intros q d d' Hd Hd' Hk Hq. rewrite (learn_nth H i n q Hn Hu) in Hd'.
    apply Nat.eqb_neq in Hq. rewrite Hq, Hd in Hd'. cbn in Hd'. inversion Hd'; subst d'. clear - Hk.
    unfold teach in Hk. destruct (usable d && flt (f n) (f d)); [|exact Hk].
    destruct (local n); destruct (elt _ _); exact Hk. }
  assert (hni : forall d', nth_error (learn c H i) i = Some d' -> x d' = x n /\ f d' = f n /\ local d' = local n).
  { intros d' Hd'. rewrite (learn_nth H i n i Hn Hu), Nat.eqb_refl in Hd'. inversion Hd'; subst d'.
    destruct (knows_same H i n) as (-> & -> & -> & _). auto. }
  destruct (j =? i) eqn:Eji.
  - apply Nat.eqb_eq in Eji; subst j. inversion Hj; subst r.
    pose proof (knows_same H i n) as ks. destruct (knows_known H i n) as [kk ke].
    destruct (knows_l H i n) as [kl kli]. destruct (knows_s H i n) as [ks1 ksi].
    destruct (closest_right H i n true (dl n) (il n) HP Hn Hwl) as [Ll Wl].
    destruct (closest_right H i n false (ds n) (is n) HP Hn Hws) as [Ls Ws].
    cbv zeta in Ll, Wl, Ls, Ws. rewrite <- kl in Ll, Wl. rewrite <- kli in Wl. rewrite <- ks1 in Ls, Ws. rewrite <- ksi in Ws.
    split; [destruct ks as (_ & _ & _ & _ & _ & _ & _ & _ & ->); exact Hsn|].
    split; [intros _; split; [rewrite (same_usable _ _ ks); exact Hu|]; split; [rewrite ke; destruct ks as (-> & _); reflexivity|]; split|].
    + intros q d Hq _. refine (low_same (fun _ => true) H (learn c H i) n (knows H i n) true _ hs ks _ Ll q d Hq eq_refl). auto.
    + intros q d Hq _. refine (low_same (fun _ => true) H (learn c H i) n (knows H i n) false _ hs ks _ Ls q d Hq eq_refl). auto.
    + split; [exact (wit_same _ _ _ _ _ _ _ _ (sameH_sym _ _ hs) (same_sym _ _ ks) Wl)|].
      split; [exact (wit_same _ _ _ _ _ _ _ _ (sameH_sym _ _ hs) (same_sym _ _ ks) Ws)|].
      rewrite (same_usable _ _ ks), Hu. discriminate.
  - destruct (nth_error H j) as [o|] eqn:Hjo; [|discriminate]. cbn in Hj. inversion Hj; subst r. clear Hj.
    apply Nat.eqb_neq in Eji.
    destruct (HP j o Hjo) as (Hso & Hko & Hwlo & Hwso & Hfaro).
    pose proof (teach_same i n o) as ts.
    split; [destruct ts as (_ & _ & _ & _ & _ & _ & _ & _ & ->); exact Hso|].
    assert (Hno : nth_error (learn c H i) i = Some (knows H i n)).
    { rewrite (learn_nth H i n i Hn Hu), Nat.eqb_refl. reflexivity. }
    assert (kno : known (teach c i n o) = known o /\ edge (teach c i n o) = edge o).
    { unfold teach. destruct (usable o && flt (f n) (f o)); [|auto].
      destruct (local n); destruct (elt _ _); auto. }
    destruct kno as [kno keo].
    (* the two distances after teaching *)
    assert (Hdl : (dl (teach c i n o) = dl o /\ il (teach c i n o) = il o /\ (usable o && flt (f n) (f o) && local n = true -> elt (Dist (apart c n o)) (dl o) = false)) \/
                  (local n = true /\ usable o = true /\ flt (f n) (f o) = true /\ elt (Dist (apart c n o)) (dl o) = true /\ dl (teach c i n o) = Dist (apart c n o) /\ il (teach c i n o) = Some i)).
    { unfold teach. destruct (usable o), (flt (f n) (f o)); cbn [andb]; try (left; repeat split; auto; discriminate).
      destruct (local n).
      - destruct (elt _ (dl o)) eqn:Ee; [right; auto 10|left; auto].
      - left. destruct (elt _ (ds o)); repeat split; auto; discriminate. }
    assert (Hds : (ds (teach c i n o) = ds o /\ is (teach c i n o) = is o /\ (usable o && flt (f n) (f o) && negb (local n) = true -> elt (Dist (apart c n o)) (ds o) = false)) \/
                  (local n = false /\ usable o = true /\ flt (f n) (f o) = true /\ elt (Dist (apart c n o)) (ds o) = true /\ ds (teach c i n o) = Dist (apart c n o) /\ is (teach c i n o) = Some i)).
    { unfold teach. destruct (usable o), (flt (f n) (f o)); cbn [andb]; try (left; repeat split; auto; discriminate).
      destruct (local n).
      - left. destruct (elt _ (dl o)); repeat split; auto; discriminate.
      - destruct (elt _ (ds o)) eqn:Ee; [right; auto 10|left; auto]. }
    assert (Hap : apart c n o = dist c (x o) (x n)) by (unfold apart; apply Sym).
    assert (Hlow : forall loc e e', low known H o loc e ->
              (usable o && flt (f n) (f o) && eqb (local n) loc = true -> elt (Dist (apart c n o)) e' = false) ->
              (forall z, elt (Dist z) e = false -> elt (Dist z) e' = false) ->
              usable o = true -> low known (learn c H i) (teach c i n o) loc e').
    { intros loc e e' L Hnew Hmon Huo q d' Hq Hk Hud Hld Hf.
      assert (Ex : x (teach c i n o) = x o) by apply ts. assert (Ef : f (teach c i n o) = f o) by apply ts.
      rewrite Ex. rewrite Ef in Hf.
      destruct (Nat.eq_dec q i) as [->|Hqi].
      - destruct (hni d' Hq) as (e1 & e2 & e3). rewrite e1, <- Hap. apply Hnew.
        rewrite Huo, <- e2, Hf, <- e3, Hld, eqb_reflx. reflexivity.
      - destruct (sameH_nth _ _ q d' hs Hq) as (d & Hd & sd).
        apply Hmon. destruct sd as (sx & sf & sl & se & rest). rewrite sx.
        apply (L q d Hd (hk q d d' Hd Hq Hk Hqi)); [| congruence | congruence].
        unfold usable in *. rewrite <- sf, <- se. exact Hud. }
    split; [|split; [|split]].
    + rewrite kno, keo. intros Hk. destruct (Hko Hk) as (Huo & He & Llo & Lso).
      assert (Ex : x (teach c i n o) = x o) by apply ts.
      split; [rewrite (same_usable _ _ ts); exact Huo|]. split; [rewrite Ex; exact He|]. split.
      * destruct Hdl as [(-> & _ & hh)|(hloc & _ & hf & he & -> & _)].
        -- apply (Hlow true (dl o) (dl o) Llo); auto. intros hc. apply hh. destruct (local n); [exact hc|rewrite andb_false_r in hc; discriminate].
        -- apply (Hlow true (dl o) _ Llo); auto.
           ++ intros _. cbn. apply Z.ltb_irrefl.
           ++ intros z hz. clear - he hz. destruct (dl o) as [y|]; cbn in *; [lia|discriminate].
      * destruct Hds as [(-> & _ & hh)|(hloc & _ & hf & he & -> & _)].
        -- apply (Hlow false (ds o) (ds o) Lso); auto.
        -- apply (Hlow false (ds o) _ Lso); auto.
           ++ intros _. cbn. apply Z.ltb_irrefl.
           ++ intros z hz. clear - he hz. destruct (ds o) as [y|]; cbn in *; [lia|discriminate].
    + destruct Hdl as [(-> & -> & _)|(hloc & _ & hf & he & -> & ->)].
      * exact (wit_same _ _ _ _ _ _ _ _ (sameH_sym _ _ hs) (same_sym _ _ ts) Hwlo).
      * right. exists i, (knows H i n). pose proof (knows_same H i n) as ks.
        rewrite (same_usable _ _ ks). destruct ks as (kx & kf & kl & _). destruct ts as (tx & tf & _).
        rewrite kl, kf, tf, kx, tx, Hap. repeat split; auto.
        clear - hf. destruct (f n), (f o); cbn in *; try discriminate; try reflexivity; lia.
    + destruct Hds as [(-> & -> & _)|(hloc & _ & hf & he & -> & ->)].
      * exact (wit_same _ _ _ _ _ _ _ _ (sameH_sym _ _ hs) (same_sym _ _ ts) Hwso).
      * right. exists i, (knows H i n). pose proof (knows_same H i n) as ks.
        rewrite (same_usable _ _ ks). destruct ks as (kx & kf & kl & _). destruct ts as (tx & tf & _).
        rewrite kl, kf, tf, kx, tx, Hap. repeat split; auto.
        clear - hf. destruct (f n), (f o); cbn in *; try discriminate; try reflexivity; lia.
    + rewrite (same_usable _ _ ts). intros Huo. destruct (Hfaro Huo) as [Fl Fs]. unfold teach. rewrite Huo. cbn. auto.
Qed.

Lemma learn_known_mono H i j r r' : nth_error H j = Some r -> nth_error (learn c H i) j = Some r' -> known r = true -> known r' = true.
Proof.
  intros Hj Hj' Hk. destruct (nth_error H i) as [n|] eqn:Hn.
  2:{ unfold learn in Hj'. rewrite Hn in Hj'. congruence. }
  destruct (usable n) eqn:Hu; [|rewrite (learn_skip H i n Hn Hu) in Hj'; congruence].
  rewrite (learn_nth H i n j Hn Hu) in Hj'. destruct (j =? i).
  - inversion Hj'. apply knows_known.
  - rewrite Hj in Hj'. cbn in Hj'. inversion Hj'. unfold teach.
    destruct (usable r && flt (f n) (f r)); [|auto].
    destruct (local n); destruct (elt _ _); auto.
Qed.
Lemma learn_all l H : Pinv H ->
  let H' := fold_left (learn c) l H in
  Pinv H' /\ sameH H' H /\
  (forall j r r', nth_error H j = Some r -> nth_error H' j = Some r' -> known r = true -> known r' = true) /\
  (forall j r', In j l -> nth_error H' j = Some r' -> usable r' = true -> known r' = true).
Proof.
  revert H; induction l as [|i l IH]; intros H HP; cbv zeta; cbn [fold_left].
  - split; [exact HP|]. split; [apply sameH_refl|]. split; [intros; congruence | intros j r' []].
  - destruct (IH (learn c H i) (learn_Pinv H i HP)) as (P1 & S1 & M1 & K1).
    pose proof (learn_sameH H i) as hs.
    split; [exact P1|]. split; [eapply sameH_trans; eauto|]. split.
    + intros j r r' Hj Hj' Hk. destruct (sameH_nth _ _ j r (sameH_sym _ _ hs) Hj) as (m & Hm & _).
      exact (M1 j m r' Hm Hj' (learn_known_mono H i j r m Hj Hm Hk)).
    + intros j r' [->|Hin] Hj' Hu'; [|eauto].
      destruct (sameH_nth _ _ j r' S1 Hj') as (m & Hm & sm).
      destruct (sameH_nth _ _ j m hs Hm) as (n & Hn & sn).
      assert (Hun : usable n = true) by (rewrite <- (same_usable _ _ sn), <- (same_usable _ _ sm); exact Hu').
      apply (M1 j m r' Hm Hj'). rewrite (learn_nth H j n j Hn Hun), Nat.eqb_refl in Hm. inversion Hm. apply knows_known.
Qed.
Lemma unknown_In H i r : nth_error H i = Some r -> known r = false -> In i (unknown H).
Proof.
  intros Hi Hk. unfold unknown. apply in_map_iff. exists (i, r). split; [reflexivity|].
  apply filter_In. cbn. rewrite Hk. split; [|reflexivity].
  assert (G : forall s L, nth_error L i = Some r -> In (s + i, r) (combine (seq s (length L)) L)).
  { clear. induction i as [|i IH]; intros s [|a L] E; cbn in E; try discriminate.
    - inversion E; subst. cbn. left. f_equal. lia.
    - cbn [length seq combine]. right. replace (s + S i) with (S s + i) by lia. apply IH; auto. }
  exact (G 0 H Hi).
Qed.
Lemma learned_Dinv H : Pinv H ->
  let H' := fold_left (learn c) (unknown H) H in Dinv H' /\ sameH H' H.
Proof.
  intros HP. cbv zeta. destruct (learn_all (unknown H) H HP) as (P1 & S1 & M1 & K1).
  split; [|exact S1]. split; [exact P1|]. intros i r Hi Hu.
  destruct (sameH_nth _ _ i r S1 Hi) as (r0 & H0 & s0).
  destruct (known r0) eqn:E; [eapply M1; eauto|]. eapply K1; eauto. eapply unknown_In; eauto.
Qed.

Lemma settle_Dinv H : Dinv H -> exists H', settle H = Ok H' /\ Dinv H' /\ sameH H' H.
Proof.
  intros [HP HK]. unfold settle.
  set (T := filter (fun r => negb (local r)) H).
  destruct T as [|t T'] eqn:ET.
  - exists H. split; [reflexivity|]. split; [split; auto | apply sameH_refl].
  - rewrite <- ET. destruct (forallb (fun r => finite (ds r)) T) eqn:Efin.
    2:{ exists H. split; [reflexivity|]. split; [split; auto | apply sameH_refl]. }
    assert (HT : forall r, In r T -> exists i, nth_error H i = Some r /\ sid r = i /\ local r = false /\ usable r = true /\ exists z, ds r = Dist z).
    { intros r Hr. unfold T in Hr. apply filter_In in Hr as [Hin Hl]. apply In_nth_error in Hin as [i Hi].
      exists i. destruct (HP i r Hi) as (Hs & _ & _ & _ & Hf).
      apply negb_true_iff in Hl. rewrite forallb_forall in Efin.
      assert (Hfr : finite (ds r) = true) by (apply Efin; unfold T; apply filter_In; split; [eapply nth_error_In; eauto | rewrite Hl; auto]).
      repeat split; auto.
      - destruct (usable r); [auto|]. destruct (Hf eq_refl) as [_ E]. rewrite E in Hfr. discriminate.
      - destruct (ds r); [eauto | discriminate]. }
    assert (Hlen : 2 <= length T).
    { assert (Ht : In t T) by (rewrite ET; left; auto).
      destruct (HT t Ht) as (i & Hi & Hs & Hl & Hu & z & Hz).
      destruct (HP i t Hi) as (_ & _ & _ & Hw & _).
      destruct Hw as [[E _]|(j & b & Hj & Hne & Hub & Hlb & _)]; [congruence|].
      assert (Hb : In b T) by (unfold T; apply filter_In; split; [eapply nth_error_In; eauto | rewrite Hlb; auto]).
      destruct (HP j b Hj) as (Hsb & _).
      destruct T as [|u [|v T2]]; cbn; try lia.
      - contradiction.
      - destruct Ht as [->|[]], Hb as [->|[]]. exfalso. apply Hne. congruence. }
    assert (E2 : (length T <? 2) = false) by (apply Nat.ltb_ge; lia). rewrite E2.
    assert (Hnn : forall a, In a (map f T) -> isnan a = false).
    { intros a Ha. apply in_map_iff in Ha as (r & <- & Hr). destruct (HT r Hr) as (i & _ & _ & _ & Hu & _).
      unfold usable in Hu. apply andb_true_iff in Hu as [_ Hu]. apply negb_true_iff in Hu. exact Hu. }
    assert (HneT : map f T <> []) by (rewrite ET; discriminate).
    pose proof (fmin_In _ HneT Hnn) as Hmin. pose proof (fmin_low _ Hnn) as Hlow.
    set (m := fmin (map f T)) in *.
    destruct (filter (fun r => feq (f r) m) T) as [|b B] eqn:EB.
    + exfalso. apply in_map_iff in Hmin as (r & Er & Hr).
      assert (In r (filter (fun r => feq (f r) m) T)).
      { apply filter_In. split; [exact Hr|]. rewrite Er. apply feq_refl. apply Hnn. rewrite <- Er. apply in_map; auto. }
      rewrite EB in *. contradiction.
    + assert (Hb : In b T /\ feq (f b) m = true).
      { apply (proj1 (filter_In (fun r => feq (f r) m) b T)). rewrite EB. left; auto. }
      destruct Hb as [Hb Hfb]. destruct (HT b Hb) as (i & Hi & Hs & Hl & Hu & z & Hz).
      rewrite Hs.
      exists (upd H i (set_s Far None)). split; [reflexivity|].
      assert (s : sameH (upd H i (set_s Far None)) H) by (apply sameH_upd; intros; repeat split).
      split; [|exact s].
      assert (Hknown : forall j d, nth_error (upd H i (set_s Far None)) j = Some d -> exists d0, nth_error H j = Some d0 /\ same d d0 /\ known d = known d0 /\ edge d = edge d0 /\ dl d = dl d0 /\ il d = il d0 /\ (ds d = ds d0 /\ is d = is d0 \/ j = i /\ ds d = Far /\ is d = None)).
      { intros j d Hj. rewrite upd_nth in Hj. destruct (i =? j) eqn:E.
        - apply Nat.eqb_eq in E; subst j. rewrite Hi in Hj. cbn in Hj. inversion Hj; subst d.
          exists b. split; [auto|]. split; [repeat split|]. cbn. auto 10.
        - exists d. rewrite Hj. split; [auto|]. split; [apply same_refl|]. auto 10. }
      split.
      * intros j d Hj. destruct (Hknown j d Hj) as (d0 & Hd0 & sd & Ek & Ee & Edl & Eil & Eds).
        destruct (HP j d0 Hd0) as (Hs0 & Hk0 & Hw1 & Hw2 & Hf0).
        assert (hP : forall loc e, low known H d0 loc e -> low known (upd H i (set_s Far None)) d loc e).
        { intros loc e L. apply (low_same known H _ d0 d loc e s sd); auto.
          intros q u u' Hq Hq' Hk' _ _. destruct (Hknown q u' Hq') as (u0 & Hu0 & _ & Ek' & _). congruence. }
        split; [destruct sd as (_ & _ & _ & _ & _ & _ & _ & _ & ->); exact Hs0|].
        split; [|split; [|split]].
        -- rewrite Ek. intros hk. destruct (Hk0 hk) as (Hu0 & He0 & L1 & L2).
           split; [rewrite (same_usable _ _ sd); exact Hu0|].
           split; [rewrite Ee, He0; destruct sd as (-> & _); reflexivity|].
           split; [rewrite Edl; apply hP; exact L1|].
           destruct Eds as [[-> _]|(-> & -> & _)]; [apply hP; exact L2|].
           intros q u Hq _ Huu Hlu Hfu. exfalso.
           destruct (Hknown q u Hq) as (u0 & Hu0' & su & _).
           assert (In u0 T).
           { unfold T. apply filter_In. split; [eapply nth_error_In; eauto|]. destruct su as (_ & _ & El & _). rewrite <- El, Hlu. reflexivity. }
           rewrite Hi in Hd0. inversion Hd0; subst d0.
           assert (flt (f u0) m = false) by (apply Hlow, in_map; auto).
           destruct (feq_spec _ _ Hfb) as [Em _]. rewrite <- Em in *.
           destruct su as (_ & Ef & _). destruct sd as (_ & Ef2 & _). congruence.
        -- rewrite Edl, Eil. exact (wit_same _ _ _ _ _ _ _ _ (sameH_sym _ _ s) (same_sym _ _ sd) Hw1).
        -- destruct Eds as [[-> ->]|(-> & -> & ->)].
           ++ exact (wit_same _ _ _ _ _ _ _ _ (sameH_sym _ _ s) (same_sym _ _ sd) Hw2).
           ++ left; auto.
        -- rewrite (same_usable _ _ sd). intros hu. destruct (Hf0 hu) as [F1 F2]. rewrite Edl.
           split; [exact F1|]. destruct Eds as [[-> _]|(-> & -> & _)]; auto.
      * intros j d Hj Hud. destruct (Hknown j d Hj) as (d0 & Hd0 & sd & Ek & _).
        rewrite Ek. apply (HK j d0 Hd0). rewrite <- (same_usable _ _ sd). exact Hud.
Qed.

Lemma update_dist_ok H : Pinv H -> exists H', update_dist c H = Ok H' /\ Dinv H' /\ sameH H' H.
Proof.
  intros HP. destruct (learned_Dinv H HP) as [D1 S1]. unfold update_dist.
  destruct (settle_Dinv _ D1) as (H' & E & D2 & S2).
  exists H'. split; [exact E|]. split; [exact D2|]. eapply sameH_trans; eauto.
Qed.
End D.
