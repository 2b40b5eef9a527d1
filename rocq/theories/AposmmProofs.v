(** Proofs about APOSMM (AposmmModel): what holds in every state it can reach. *)
From Verif Require Import Base BaseLemmas AposmmModel AposmmSpec AposmmDist.
Local Open Scope nat_scope.

(** ** Lists *)
Lemma nth_app_new {A} (l l2 : list A) j a :
  nth_error (l ++ l2) j = Some a -> nth_error l j = Some a \/ (length l <= j /\ nth_error l2 (j - length l) = Some a).
Proof.
  intros E. destruct (Nat.lt_ge_cases j (length l)).
  - rewrite nth_error_app1 in E by lia. auto.
  - rewrite nth_error_app2 in E by lia. auto.
Qed.
Lemma nth_app_old {A} (l l2 : list A) j a : nth_error l j = Some a -> nth_error (l ++ l2) j = Some a.
Proof. intros E. rewrite nth_error_app1; [exact E|]. apply nth_error_Some. congruence. Qed.
Lemma nth_lt {A} (l : list A) j a : nth_error l j = Some a -> j < length l.
Proof. intros E. apply nth_error_Some. congruence. Qed.
Lemma in_asked {X} (r : run X) i : In i (asked r) <-> exists m, nth_error (pts r) (S m) = Some i.
Proof.
  unfold asked. destruct (pts r) as [|p l]; cbn.
  - split; [contradiction|]. intros [m E]. discriminate.
  - split; [apply In_nth_error | intros [m E]; eapply nth_error_In; eauto].
Qed.
Lemma NoDup_fst {A B} (l : list (A * B)) a b b' :
  NoDup (map fst l) -> In (a, b) l -> In (a, b') l -> b = b'.
Proof.
  induction l as [|[u v] l IH]; cbn; intros N h h'; [contradiction|].
  inversion N as [|? ? Hni N']; subst.
  destruct h as [e|h], h' as [e'|h'].
  - congruence.
  - inversion e; subst. exfalso. apply Hni. apply in_map_iff. exists (a, b'). auto.
  - inversion e'; subst. exfalso. apply Hni. apply in_map_iff. exists (a, b). auto.
  - eauto.
Qed.

Section P.
Context {X : Type}.
Variable c : conf X.
Hypothesis Sym : symmetric c.
Notation row := (row X).
Notation run := (run X).
Notation inc := (inc X).
Notation st := (st X).
Implicit Types (H : list row) (r q : row) (u : run) (P l : list inc) (s : st).

(** ** Distances are kept when nothing about values and points changes *)
Definition core (a b : row) : Prop :=
  x a = x b /\ f a = f b /\ local a = local b /\ ended a = ended b /\ known a = known b /\ sid a = sid b /\
  edge a = edge b /\ dl a = dl b /\ il a = il b /\ ds a = ds b /\ is a = is b.
Lemma core_refl a : core a a. Proof. repeat split. Qed.
Lemma core_sym a b : core a b -> core b a. Proof. unfold core. intuition congruence. Qed.
Lemma core_usable a b : core a b -> usable a = usable b.
Proof. unfold core, usable. intros (_ & -> & _ & -> & _). reflexivity. Qed.

(** [H'] has the rows of [H], equal as far as distances go, and more rows that are
    not evaluated. *)
Definition grows H H' : Prop :=
  (forall i r, nth_error H i = Some r -> exists r', nth_error H' i = Some r' /\ core r r') /\
  (forall i r', nth_error H' i = Some r' ->
     (exists r, nth_error H i = Some r /\ core r r') \/
     (length H <= i /\ sid r' = i /\ ended r' = false /\ known r' = false /\ dl r' = Far /\ il r' = None /\ ds r' = Far /\ is r' = None)).
Lemma grows_Dinv H H' : grows H H' -> Dinv c H -> Dinv c H'.
Proof.
  intros [Gf Gb] [HP HK].
  assert (hw : forall i r r' loc e k, core r r' -> wit c H i r loc e k -> wit c H' i r' loc e k).
  { intros i r r' loc e k hr [w|(j & d & Hj & Hne & Hu & Hl & Hf & He & Hk)]; [left; exact w | right].
    destruct (Gf j d Hj) as (d' & Hj' & hs). exists j, d'. rewrite <- (core_usable _ _ hs).
    destruct hr as (hx & hf & _). destruct hs as (sx & sf & sl & _).
    rewrite <- hx, <- sx, <- hf, <- sf, <- sl. repeat split; auto. }
  assert (hl : forall r r' loc e, core r r' -> low c known H r loc e -> low c known H' r' loc e).
  { intros r r' loc e hr L j d' Hj Hk Hu Hl Hf.
    destruct (Gb j d' Hj) as [(d & Hd & hs)|(_ & _ & Hen & _)].
    2:{ unfold usable in Hu. rewrite Hen in Hu. discriminate. }
    rewrite <- (core_usable _ _ hs) in Hu.
    destruct hr as (hx & hf & _). destruct hs as (sx & sf & sl & _ & sk & _).
    rewrite <- hx, <- sx. apply (L j d Hd); congruence. }
  split.
  - intros i r' Hi. destruct (Gb i r' Hi) as [(r & Hr & hc)|(Hge & Hs & Hen & Hk & F1 & F2 & F3 & F4)].
    + destruct (HP i r Hr) as (Hs & Hkn & W1 & W2 & Hf).
      pose proof hc as (hx & hf & hloc & he & hkn & hs & hedge & h1 & h2 & h3 & h4).
      split; [congruence|]. split; [|split; [|split]].
      * rewrite <- hkn. intros hk. destruct (Hkn hk) as (Hu & He & L1 & L2).
        split; [rewrite <- (core_usable _ _ hc); exact Hu|]. split; [congruence|].
        rewrite <- h1, <- h3. split; eapply hl; eauto.
      * rewrite <- h1, <- h2. eapply hw; eauto.
      * rewrite <- h3, <- h4. eapply hw; eauto.
      * rewrite <- (core_usable _ _ hc), <- h1, <- h3. exact Hf.
    + split; [exact Hs|]. split; [congruence|]. split; [left; auto|]. split; [left; auto|]. auto.
  - intros i r' Hi Hu. destruct (Gb i r' Hi) as [(r & Hr & hc)|(_ & _ & Hen & _)].
    + rewrite <- (core_usable _ _ hc) in Hu. pose proof (HK i r Hr Hu).
      destruct hc as (_ & _ & _ & _ & <- & _). assumption.
    + unfold usable in Hu. rewrite Hen in Hu. discriminate.
Qed.

(** ** Histories only grow *)
(** What is known of a point stays, and marks are not taken away. *)
Definition keeps (q q' : row) : Prop :=
  x q = x q' /\ f q = f q' /\ local q = local q' /\ ended q = ended q' /\ paused q = paused q' /\
  (started q = true -> started q' = true) /\ (lmin q = true -> lmin q' = true).
Definition keep H H' : Prop :=
  forall i q, nth_error H i = Some q -> exists q', nth_error H' i = Some q' /\ keeps q q'.
Lemma keeps_refl q : keeps q q. Proof. repeat split; auto. Qed.
Lemma keep_refl H : keep H H. Proof. intros i q E. eauto using keeps_refl. Qed.
Lemma keep_trans A B D : keep A B -> keep B D -> keep A D.
Proof.
  intros h1 h2 i q E. destruct (h1 i q E) as (q1 & E1 & k1). destruct (h2 i q1 E1) as (q2 & E2 & k2).
  exists q2. split; [exact E2|]. unfold keeps in *. intuition congruence.
Qed.
Lemma keep_app H T : keep H (H ++ T).
Proof. intros i q E. exists q. split; [apply nth_app_old; exact E | apply keeps_refl]. Qed.

(** ** Adding points *)
Lemma add_pts_nth H ps loc j r : nth_error (add_pts c H ps loc) j = Some r ->
  nth_error H j = Some r \/
  (length H <= j /\ exists p, nth_error ps (j - length H) = Some p /\ r = fresh_row c loc j p).
Proof.
  intros E. apply nth_app_new in E as [E|[Hge E]]; [auto|right]. split; [exact Hge|].
  rewrite map_nth_error_opt in E.
  destruct (nth_error (combine (seq (length H) (length ps)) ps) (j - length H)) as [[n p]|] eqn:Ec; [|discriminate].
  cbn in E. inversion E; subst r.
  assert (G : forall (L : list X) (b k n : nat) p, nth_error (combine (seq b (length L)) L) k = Some (n, p) -> n = b + k /\ nth_error L k = Some p).
  { clear. induction L as [|y L IH]; intros b [|k] n p e; cbn in e; try discriminate.
    - inversion e; subst. split; [lia|reflexivity].
    - destruct (IH _ _ _ _ e) as [-> e2]. split; [lia|exact e2]. }
  destruct (G _ _ _ _ _ Ec) as [-> Ep]. exists p. split; [exact Ep|]. f_equal. lia.
Qed.
Lemma add_pts_len H ps loc : length (add_pts c H ps loc) = length H + length ps.
Proof. unfold add_pts. rewrite app_length, map_length, combine_length, seq_length. lia. Qed.
Lemma add_pts_keep H ps loc : keep H (add_pts c H ps loc).
Proof. apply keep_app. Qed.
Lemma add_pts_grows H ps loc : grows H (add_pts c H ps loc).
Proof.
  split.
  - intros i r E. exists r. split; [apply nth_app_old; exact E | apply core_refl].
  - intros i r E. destruct (add_pts_nth _ _ _ _ _ E) as [E'|(Hge & p & _ & ->)]; [left; eauto using core_refl|].
    right. cbn. auto 10.
Qed.
Lemma add_one_nth H p : nth_error (add_pts c H [p] true) (length H) = Some (fresh_row c true (length H) p).
Proof. unfold add_pts. rewrite nth_error_app2, Nat.sub_diag by lia. reflexivity. Qed.

(** ** Changing marks *)
Lemma upd_grows H i g : (forall r, core r (g r)) -> grows H (upd H i g).
Proof.
  intros hg. split.
  - intros j r E. rewrite upd_nth. destruct (i =? j); rewrite E; cbn; eauto using core_refl.
  - intros j r E. rewrite upd_nth in E. left. destruct (i =? j) eqn:Eij.
    + destruct (nth_error H j) as [r0|] eqn:E0; [|discriminate]. cbn in E. inversion E; subst.
      exists r0. auto.
    + exists r. split; [exact E | apply core_refl].
Qed.
Lemma upd_keep H i g : (forall r, keeps r (g r)) -> keep H (upd H i g).
Proof.
  intros hg j r E. rewrite upd_nth. destruct (i =? j); rewrite E; cbn; eauto using keeps_refl.
Qed.
Lemma grows_trans A B D : length A <= length B -> grows A B -> grows B D -> grows A D.
Proof.
  assert (ct : forall a b d, core a b -> core b d -> core a d) by (unfold core; intuition congruence).
  intros Hlen [f1 b1] [f2 b2]. split.
  - intros i r E. destruct (f1 i r E) as (r1 & E1 & c1). destruct (f2 i r1 E1) as (r2 & E2 & c2). eauto.
  - intros i r E. destruct (b2 i r E) as [(r1 & E1 & c1)|(Hge & h)].
    + destruct (b1 i r1 E1) as [(r0 & E0 & c0)|(Hge & h)]; [left; eauto|]. right.
      destruct c1 as (_ & _ & _ & <- & <- & <- & _ & <- & <- & <- & <-). auto.
    + right. split; [lia | exact h].
Qed.

(** ** Runs *)
Definition ids l : list nat := map i_id l.
Definition runok P H (k : nat) u : Prop :=
  length (pts u) = length (fed u) + (if live u then 1 else 0) /\
  1 <= length (fed u) /\
  (forall m m' i i', m < m' -> nth_error (pts u) m = Some i -> nth_error (pts u) m' = Some i' -> i < i') /\
  (forall m i p, nth_error (pts u) m = Some i -> nth_error (fed u) m = Some p ->
     exists q, nth_error H i = Some q /\ ended q = true /\ (x q, f q) = p /\ ~ In i (ids P)) /\
  (forall i, nth_error (pts u) (length (fed u)) = Some i ->
     exists q, nth_error H i = Some q /\ (ended q = true <-> In i (ids P))) /\
  (forall m i, nth_error (pts u) (S m) = Some i ->
     exists q p, nth_error H i = Some q /\ local q = true /\ opt c k (firstn (S m) (fed u)) = Next p /\ x q = store c p) /\
  (live u = false -> exists p b, opt c k (fed u) = Converged p b) /\
  (exists q, nth_error H (origin u) = Some q /\ started q = true).
Lemma runok_keep P H H' k u : keep H H' -> runok P H k u -> runok P H' k u.
Proof.
  intros hk (h1 & h2 & h3 & h4 & h5 & h6 & h7 & h8).
  split; [exact h1|]. split; [exact h2|]. split; [exact h3|]. split; [|split; [|split; [|split]]].
  - intros m i p Em Ef. destruct (h4 m i p Em Ef) as (q & Eq & He & Ep & Hn).
    destruct (hk i q Eq) as (q' & Eq' & kq). exists q'. destruct kq as (<- & <- & _ & <- & _). auto.
  - intros i Ei. destruct (h5 i Ei) as (q & Eq & He). destruct (hk i q Eq) as (q' & Eq' & kq).
    exists q'. destruct kq as (_ & _ & _ & <- & _). auto.
  - intros m i Ei. destruct (h6 m i Ei) as (q & p & Eq & Hl & Ho & Ex). destruct (hk i q Eq) as (q' & Eq' & kq).
    exists q', p. destruct kq as (<- & _ & <- & _). auto.
  - exact h7.
  - destruct h8 as (q & Eq & Hs). destruct (hk _ q Eq) as (q' & Eq' & kq). exists q'. split; [exact Eq'|].
    apply kq. exact Hs.
Qed.

(** Point [i] was asked for by a run that has not ended. *)
Definition taken s i : Prop := exists k u, nth_error (runs s) k = Some u /\ live u = true /\ In i (asked u).

Variable extra : nat.               (* sample points given without a value *)
Record Inv P s : Prop := mkInv {
  iD : Dinv c (hist s);
  iP : NoDup (ids P) /\
       forall a, In a P -> exists q, nth_error (hist s) (i_id a) = Some q /\ ended q = true /\ x q = i_x a /\ f q = i_f a;
  iR : forall k u, nth_error (runs s) k = Some u -> runok P (hist s) k u;
  iK : NoDup (map fst (kids s)) /\
       forall j k, In (j, k) (kids s) <-> exists u, nth_error (runs s) k = Some u /\ In j (asked u);
  iO : forall k k' u u', nth_error (runs s) k = Some u -> nth_error (runs s) k' = Some u' -> origin u = origin u' -> k = k';
  iA1 : forall i q, nth_error (hist s) i = Some q -> taken s i -> started q = false /\ active q = 1%Z;
  iA2 : forall i q, nth_error (hist s) i = Some q -> ~ taken s i -> started q = false -> active q = 0%Z;
  iQ : NoDup (quit s) /\ forall k, In k (quit s) <-> exists u, nth_error (runs s) k = Some u /\ live u = false;
  iC : match max_runs c with Some m => countb live (runs s) <= m | None => True end;
  iN : n_s s = countb (fun r => negb (local r) && ended r) (hist s) + extra }.

Lemma pts_lt P H k u i : runok P H k u -> In i (pts u) -> i < length H.
Proof.
  intros (h1 & h2 & h3 & h4 & h5 & h6 & h7 & h8) Hi. apply In_nth_error in Hi as [m Em].
  pose proof (nth_lt _ _ _ Em) as Hm.
  destruct (Nat.lt_ge_cases m (length (fed u))) as [Hlt|Hge].
  - apply nth_error_Some in Hlt. destruct (nth_error (fed u) m) as [p|] eqn:Ef; [|congruence].
    destruct (h4 m i p Em Ef) as (q & Eq & _). eapply nth_lt; eauto.
  - assert (m = length (fed u)) by (destruct (live u); lia). subst m.
    destruct (h5 i Em) as (q & Eq & _). eapply nth_lt; eauto.
Qed.
Lemma origin_pts P H k u : runok P H k u -> In (origin u) (pts u) /\ exists t, pts u = origin u :: t /\ asked u = t.
Proof.
  intros (h1 & h2 & _). unfold origin, asked. destruct (pts u) as [|p t] eqn:E; cbn in *; [lia|].
  split; [left; auto | eauto].
Qed.
Lemma pts_NoDup P H k u : runok P H k u -> NoDup (pts u).
Proof.
  intros (_ & _ & h3 & _). apply NoDup_nth_error. intros m m' Hm E.
  destruct (nth_error (pts u) m) as [i|] eqn:E1; [|apply nth_error_None in E1; lia].
  destruct (Nat.lt_trichotomy m m') as [h|[h|h]]; [|exact h|].
  - pose proof (h3 m m' i i h E1 (eq_sym E)). lia.
  - pose proof (h3 m' m i i h (eq_sym E) E1). lia.
Qed.

(** ** Counting *)
Lemma countb_keep (p : row -> bool) H H' :
  (forall i q q', nth_error H i = Some q -> nth_error H' i = Some q' -> p q = p q') ->
  length H <= length H' ->
  (forall i q', length H <= i -> nth_error H' i = Some q' -> p q' = false) ->
  countb p H' = countb p H.
Proof.
  revert H'; induction H as [|r H IH]; intros H' h1 h2 h3.
  - apply countb_0. intros q Hq. apply In_nth_error in Hq as [i Ei]. apply (h3 i q); [cbn; lia | exact Ei].
  - destruct H' as [|r' H']; [cbn in h2; lia|].
    assert (countb p H' = countb p H).
    { apply IH.
      - intros i q q' E E'. exact (h1 (S i) q q' E E').
      - cbn in h2. lia.
      - intros i q' Hi E. apply (h3 (S i) q'); [cbn; lia | exact E]. }
    unfold countb in *. cbn [filter]. rewrite <- (h1 0 r r' eq_refl eq_refl).
    destruct (p r); cbn [length]; lia.
Qed.

(** ** Changing the history only *)
(** Marks of old rows as they were; new rows are not evaluated and in no run. *)
Lemma Inv_hist P s H' :
  Inv P s -> length (hist s) <= length H' ->
  (forall i q, nth_error (hist s) i = Some q -> exists q', nth_error H' i = Some q' /\ keeps q q' /\ started q = started q' /\ active q = active q') ->
  (forall i q, length (hist s) <= i -> nth_error H' i = Some q -> ended q = false /\ (active q = 0%Z)) ->
  Dinv c H' ->
  Inv P (mkst H' (n_s s) (runs s) (kids s) (quit s) (first s)).
Proof.
  intros I Hlen Hold Hnew HD.
  assert (hk : keep (hist s) H').
  { intros i q E. destruct (Hold i q E) as (q' & E' & k & _). eauto. }
  assert (hback : forall i q', nth_error H' i = Some q' -> (exists q, nth_error (hist s) i = Some q /\ keeps q q' /\ started q = started q' /\ active q = active q') \/ length (hist s) <= i).
  { intros i q' E'. destruct (nth_error (hist s) i) as [q|] eqn:E.
    - left. destruct (Hold i q E) as (q2 & E2 & h). exists q. split; [auto|]. congruence.
    - right. apply nth_error_None. exact E. }
  constructor; cbn [hist n_s runs kids quit first].
  - exact HD.
  - destruct (iP _ _ I) as [N h]. split; [exact N|]. intros a Ha. destruct (h a Ha) as (q & E & h').
    destruct (hk _ q E) as (q' & E' & k). exists q'. destruct k as (<- & <- & _ & <- & _). auto.
  - intros k u E. eapply runok_keep; [exact hk|]. eapply (iR _ _ I); eauto.
  - exact (iK _ _ I).
  - exact (iO _ _ I).
  - intros i q' E' T. destruct (hback i q' E') as [(q & E & _ & es & ea)|Hge].
    + rewrite <- es, <- ea. exact (iA1 _ _ I i q E T).
    + exfalso. destruct T as (k & u & Ek & _ & Hi). cbn in Ek.
      assert (Hp : In i (pts u)) by (unfold asked in Hi; destruct (pts u); cbn in *; auto).
      pose proof (pts_lt _ _ _ _ _ (iR _ _ I k u Ek) Hp). lia.
  - intros i q' E' T Hs. destruct (hback i q' E') as [(q & E & _ & es & ea)|Hge].
    + rewrite <- ea. apply (iA2 _ _ I i q E T). congruence.
    + apply (Hnew i q' Hge E').
  - exact (iQ _ _ I).
  - exact (iC _ _ I).
  - rewrite (iN _ _ I). f_equal. symmetry. apply countb_keep; [|exact Hlen|].
    + intros i q q' E E'. destruct (Hold i q E) as (q2 & E2 & k & _). rewrite E' in E2. inversion E2; subst q2.
      destruct k as (_ & _ & -> & -> & _). reflexivity.
    + intros i q Hi E. destruct (Hnew i q Hi E) as [-> _]. apply andb_false_r.
Qed.

Lemma Inv_samples P s ps : Inv P s ->
  Inv P (mkst (add_pts c (hist s) ps false) (n_s s) (runs s) (kids s) (quit s) (first s)).
Proof.
  intros I. apply Inv_hist; [exact I | rewrite add_pts_len; lia | | |].
  - intros i q E. exists q. split; [apply nth_app_old; exact E|]. split; [apply keeps_refl | auto].
  - intros i q Hi E. destruct (add_pts_nth _ _ _ _ _ E) as [E'|(_ & p & _ & ->)]; [|cbn; auto].
    apply nth_lt in E'. lia.
  - eapply grows_Dinv; [apply add_pts_grows | exact (iD _ _ I)].
Qed.
Lemma Inv_add_samples P s k : Inv P s ->
  Inv P (mkst (add_samples c k (hist s)) (n_s s) (runs s) (kids s) (quit s) (first s)).
Proof.
  intros I. unfold add_samples. cbv zeta.
  apply (Inv_samples P (mkst (add_pts c (hist s) _ false) (n_s s) (runs s) (kids s) (quit s) (first s))).
  apply Inv_samples. exact I.
Qed.
Lemma Inv_first P s b : Inv P s -> Inv P (mkst (hist s) (n_s s) (runs s) (kids s) (quit s) b).
Proof. intros []. constructor; cbn; assumption. Qed.

(** ** Receiving results *)
Lemma write_spec l H :
  NoDup (ids l) -> (forall a, In a l -> i_id a < length H) ->
  exists H1, write l H = Ok H1 /\ length H1 = length H /\
    (forall a q, In a l -> nth_error H (i_id a) = Some q ->
       nth_error H1 (i_id a) = Some (set_result (i_id a) (i_x a) (i_f a) q)) /\
    (forall j, ~ In j (ids l) -> nth_error H1 j = nth_error H j).
Proof.
  revert H; induction l as [|a l IH]; intros H N R.
  - exists H. cbn. repeat split; auto. intros a q [].
  - inversion N as [|? ? Hni N']; subst. cbn [write].
    assert (Ha : i_id a < length H) by (apply R; left; auto).
    apply Nat.ltb_lt in Ha. rewrite Ha. apply Nat.ltb_lt in Ha.
    destruct (IH (upd H (i_id a) (set_result (i_id a) (i_x a) (i_f a))) N') as (H1 & E & Hlen & Hin & Hout).
    { intros b Hb. rewrite upd_length. apply R. right; auto. }
    exists H1. split; [exact E|]. split; [rewrite Hlen; apply upd_length|]. split.
    + intros b q [<-|Hb] Eq.
      * rewrite Hout by exact Hni. apply upd_nth_same. exact Eq.
      * apply Hin; [exact Hb|]. rewrite upd_nth_other; [exact Eq|].
        intros Ee. apply Hni. rewrite Ee. apply in_map. exact Hb.
    + intros j Hj. cbn in Hj. rewrite Hout by tauto. apply upd_nth_other. tauto.
Qed.
Lemma write_count l H H1 :
  NoDup (ids l) -> (forall a, In a l -> exists q, nth_error H (i_id a) = Some q /\ ended q = false) ->
  write l H = Ok H1 ->
  countb (fun r => negb (local r) && ended r) H1 =
  countb (fun r => negb (local r) && ended r) H + countb (fun a => is_sample H1 (i_id a)) l.
Proof.
  intros N R E.
  assert (Hs : forall l H H1, write l H = Ok H1 -> forall i, is_sample H1 i = is_sample H i).
  { clear. induction l as [|a l IH]; intros H H1 E i; cbn [write] in E; [inversion E; reflexivity|].
    destruct (i_id a <? length H); [|discriminate]. rewrite (IH _ _ E i). unfold is_sample. rewrite upd_nth.
    destruct (i_id a =? i); [|reflexivity]. destruct (nth_error H i); reflexivity. }
  rewrite (countb_ext _ (fun a => is_sample H (i_id a))) by (intros; apply (Hs l H H1 E)).
  revert H N R E; induction l as [|a l IH]; intros H N R E; cbn [write] in E.
  - inversion E; subst. cbn. lia.
  - inversion N as [|? ? Hni N']; subst.
    destruct (i_id a <? length H); [|discriminate].
    set (H0 := upd H (i_id a) (set_result (i_id a) (i_x a) (i_f a))) in *.
    destruct (R a (or_introl eq_refl)) as (q & Eq & Hen).
    assert (R' : forall b, In b l -> exists q, nth_error H0 (i_id b) = Some q /\ ended q = false).
    { intros b Hb. destruct (R b (or_intror Hb)) as (q' & Eq' & Hen'). exists q'. split; [|exact Hen'].
      unfold H0. rewrite upd_nth_other; [exact Eq'|]. intros Ee. apply Hni. rewrite Ee. apply in_map; auto. }
    rewrite (IH H0 N' R' E).
    rewrite (countb_ext (fun b => is_sample H0 (i_id b)) (fun b => is_sample H (i_id b))).
    2:{ intros b Hb. unfold is_sample, H0. rewrite upd_nth_other; [reflexivity|]. intros Ee. apply Hni. rewrite Ee. apply in_map; auto. }
    pose proof (countb_upd (fun r => negb (local r) && ended r) H (i_id a) (set_result (i_id a) (i_x a) (i_f a)) q Eq) as Hc.
    fold H0 in Hc. cbn [local ended set_result] in Hc. rewrite Hen, andb_false_r, andb_true_r in Hc.
    assert (Hcons : countb (fun b => is_sample H (i_id b)) (a :: l) =
              (if is_sample H (i_id a) then 1 else 0) + countb (fun b => is_sample H (i_id b)) l).
    { unfold countb. cbn [filter]. destruct (is_sample H (i_id a)); reflexivity. }
    assert (Hsa : is_sample H (i_id a) = negb (local q)) by (unfold is_sample; rewrite Eq; reflexivity).
    rewrite Hcons, Hsa. lia.
Qed.

Lemma write_Pinv l H H1 : Dinv c H -> answers l H -> write l H = Ok H1 -> Pinv c H1.
Proof.
  intros [HP HK] [N A] E.
  destruct (write_spec l H N) as (H1' & E' & Hlen & Hin & Hout).
  { intros a Ha. destruct (A a Ha) as (q & Eq & _). eapply nth_lt; eauto. }
  rewrite E in E'. inversion E'; subst H1'. clear E'.
  assert (hcase : forall j q', nth_error H1 j = Some q' ->
     (~ In j (ids l) /\ nth_error H j = Some q') \/
     exists a q, In a l /\ i_id a = j /\ nth_error H j = Some q /\ ended q = false /\ q' = set_result j (i_x a) (i_f a) q).
  { intros j q' Ej. destruct (in_dec Nat.eq_dec j (ids l)) as [Hj|Hj].
    - right. unfold ids in Hj. apply in_map_iff in Hj as (a & Ea & Ha).
      destruct (A a Ha) as (q & Eq & Hen & _). exists a, q. rewrite <- Ea.
      rewrite <- Ea in Ej. rewrite (Hin a q Ha Eq) in Ej. inversion Ej. auto 6.
    - left. rewrite Hout in Ej by exact Hj. auto. }
  assert (hus : forall j q, nth_error H j = Some q -> usable q = true -> nth_error H1 j = Some q).
  { intros j q Ej Hu. rewrite Hout; [exact Ej|]. intros Hj. apply in_map_iff in Hj as (a & Ea & Ha).
    destruct (A a Ha) as (q' & Eq & Hen & _). unfold at_row in Eq. rewrite Ea, Ej in Eq. inversion Eq; subst q'.
    unfold usable in Hu. rewrite Hen in Hu. discriminate. }
  assert (hw : forall i r loc e k, wit c H i r loc e k -> wit c H1 i r loc e k).
  { intros i r loc e k [w|(j & d & Hj & h)]; [left; exact w|right]. exists j, d. split; [|exact h]. apply hus; [exact Hj | tauto]. }
  intros i r Ei. destruct (hcase i r Ei) as [[Hni E0]|(a & q & Ha & Eia & E0 & Hen & ->)].
  - destruct (HP i r E0) as (Hs & Hk & W1 & W2 & F). split; [exact Hs|]. split; [|auto].
    intros hk. destruct (Hk hk) as (Hu & He & L1 & L2).
    assert (hl : forall loc e, low c known H r loc e -> low c known H1 r loc e).
    { intros loc e L j d Hj Hkd Hud Hld Hf. destruct (hcase j d Hj) as [[_ Hj0]|(a & q & _ & _ & Hj0 & Hen & ->)].
      - exact (L j d Hj0 Hkd Hud Hld Hf).
      - exfalso. cbn in Hkd. destruct (HP j q Hj0) as (_ & Hkq & _). destruct (Hkq Hkd) as [Huq _].
        unfold usable in Huq. rewrite Hen in Huq. discriminate. }
    auto.
  - destruct (HP i q E0) as (Hs & Hk & W1 & W2 & F).
    assert (Hu : usable q = false) by (unfold usable; rewrite Hen; reflexivity).
    destruct (F Hu) as [F1 F2].
    cbn [sid set_result known dl il ds is]. split; [reflexivity|]. split.
    { intros hk. destruct (Hk hk) as [Hu' _]. congruence. }
    assert (I1 : il q = None) by (destruct W1 as [[_ ?]|(j & b & _ & _ & _ & _ & _ & Ee & _)]; [auto | congruence]).
    assert (I2 : is q = None) by (destruct W2 as [[_ ?]|(j & b & _ & _ & _ & _ & _ & Ee & _)]; [auto | congruence]).
    rewrite F1, F2, I1, I2. split; [left; auto|]. split; [left; auto|]. auto.
Qed.

(** Results arrive: [q'] is [q] unless there is a result for it. *)
Lemma receive_ok l s :
  Inv [] s -> answers l (hist s) ->
  exists s1, receive c l s = Ok s1 /\ Inv l s1 /\
    runs s1 = runs s /\ kids s1 = kids s /\ quit s1 = quit s /\ first s1 = first s /\
    length (hist s1) = length (hist s) /\
    (forall i q, nth_error (hist s) i = Some q -> exists q', nth_error (hist s1) i = Some q' /\
       x q' = x q /\ local q' = local q /\ paused q' = paused q /\ started q' = started q /\ active q' = active q /\ lmin q' = lmin q /\
       (In i (ids l) -> ended q = false /\ ended q' = true) /\
       (~ In i (ids l) -> f q' = f q /\ ended q' = ended q)).
Proof.
  intros I [N A]. pose proof (iD _ _ I) as HD.
  destruct (write_spec l (hist s) N) as (H1 & E & Hlen & Hin & Hout).
  { intros a Ha. destruct (A a Ha) as (q & Eq & _). eapply nth_lt; eauto. }
  destruct (update_dist_ok c Sym H1 (write_Pinv l (hist s) H1 HD (conj N A) E)) as (H2 & E2 & D2 & S2).
  unfold receive. rewrite E. cbn [bindr]. rewrite E2. cbn [bindr].
  eexists. split; [reflexivity|]. cbn [hist n_s runs kids quit first].
  assert (rows : forall i q, nth_error (hist s) i = Some q -> exists q', nth_error H2 i = Some q' /\
       x q' = x q /\ local q' = local q /\ paused q' = paused q /\ started q' = started q /\ active q' = active q /\ lmin q' = lmin q /\
       (In i (ids l) -> ended q = false /\ ended q' = true) /\
       (~ In i (ids l) -> f q' = f q /\ ended q' = ended q)).
  { intros i q Eq. destruct (in_dec Nat.eq_dec i (ids l)) as [Hi|Hi].
    - apply in_map_iff in Hi as (a & Ea & Ha). destruct (A a Ha) as (q0 & Eq0 & Hen & Hx).
      unfold at_row in Eq0. rewrite Ea, Eq in Eq0. inversion Eq0; subst q0.
      pose proof (Hin a q Ha) as h. rewrite Ea in h. specialize (h Eq).
      destruct (sameH_nth _ _ _ _ (sameH_sym _ _ S2) h) as (q' & Eq' & sq). exists q'. split; [exact Eq'|].
      destruct sq as (sx & sf & sl & se & ss & sa & sm & sp & si). cbn in *.
      split; [congruence|]. split; [congruence|]. split; [congruence|]. split; [congruence|]. split; [congruence|].
      split; [congruence|]. split; [intros _; split; congruence|].
      intros Hni. exfalso. apply Hni. rewrite <- Ea. apply in_map. exact Ha.
    - pose proof (Hout i Hi) as h. rewrite Eq in h.
      destruct (sameH_nth _ _ _ _ (sameH_sym _ _ S2) h) as (q' & Eq' & sq). exists q'. split; [exact Eq'|].
      destruct sq as (sx & sf & sl & se & ss & sa & sm & sp & si).
      split; [congruence|]. split; [congruence|]. split; [congruence|]. split; [congruence|]. split; [congruence|].
      split; [congruence|]. split; [contradiction|]. intros _. split; congruence. }
  assert (Hl2 : length H2 = length (hist s)) by (rewrite (sameH_len _ _ S2); exact Hlen).
  split; [|auto 10].
  assert (hback : forall i q', nth_error H2 i = Some q' -> exists q, nth_error (hist s) i = Some q).
  { intros i q' E'. apply nth_lt in E'. rewrite Hl2 in E'. apply nth_error_Some in E'.
    destruct (nth_error (hist s) i); [eauto | congruence]. }
  constructor; cbn [hist n_s runs kids quit first].
  - exact D2.
  - split; [exact N|]. intros a Ha. destruct (A a Ha) as (q & Eq & _).
    pose proof (Hin a q Ha Eq) as h. destruct (sameH_nth _ _ _ _ (sameH_sym _ _ S2) h) as (q' & Eq' & sq).
    exists q'. destruct sq as (sx & sf & sl & se & _). cbn in *. auto.
  - intros k u Ek. destruct (iR _ _ I k u Ek) as (h1 & h2 & h3 & h4 & h5 & h6 & h7 & h8).
    split; [exact h1|]. split; [exact h2|]. split; [exact h3|]. split; [|split; [|split; [|split]]].
    + intros m i p Em Ef. destruct (h4 m i p Em Ef) as (q & Eq & He & Ep & _).
      destruct (rows i q Eq) as (q' & Eq' & ex & _ & _ & _ & _ & _ & hin & hout).
      assert (Hni : ~ In i (ids l)) by (intros Hi; destruct (hin Hi); congruence).
      destruct (hout Hni) as [ef ee]. exists q'. rewrite ex, ef, ee. auto.
    + intros i Ei. destruct (h5 i Ei) as (q & Eq & He).
      destruct (rows i q Eq) as (q' & Eq' & _ & _ & _ & _ & _ & _ & hin & hout).
      exists q'. split; [exact Eq'|]. split.
      * intros He'. destruct (in_dec Nat.eq_dec i (ids l)) as [Hi|Hi]; [exact Hi|].
        destruct (hout Hi) as [_ ee]. rewrite He' in ee. symmetry in ee. apply He in ee. contradiction.
      * intros Hi. destruct (hin Hi). assumption.
    + intros m i Ei. destruct (h6 m i Ei) as (q & p & Eq & Hl & Ho & Ex).
      destruct (rows i q Eq) as (q' & Eq' & ex & el & _). exists q', p. rewrite ex, el. auto.
    + exact h7.
    + destruct h8 as (q & Eq & Hs). destruct (rows _ q Eq) as (q' & Eq' & _ & _ & _ & es & _).
      exists q'. rewrite es. auto.
  - exact (iK _ _ I).
  - exact (iO _ _ I).
  - intros i q' E' T. destruct (hback i q' E') as (q & Eq). destruct (rows i q Eq) as (q2 & E2' & _ & _ & _ & es & ea & _).
    rewrite E' in E2'. inversion E2'; subst q2. rewrite es, ea. exact (iA1 _ _ I i q Eq T).
  - intros i q' E' T Hs. destruct (hback i q' E') as (q & Eq). destruct (rows i q Eq) as (q2 & E2' & _ & _ & _ & es & ea & _).
    rewrite E' in E2'. inversion E2'; subst q2. rewrite ea. apply (iA2 _ _ I i q Eq T). congruence.
  - exact (iQ _ _ I).
  - exact (iC _ _ I).
  - rewrite (iN _ _ I).
    assert (Hc : countb (fun r => negb (local r) && ended r) H2 = countb (fun r => negb (local r) && ended r) H1).
    { clear - S2. induction S2 as [|p p' L L' sp h IH]; [reflexivity|].
      unfold countb in *. cbn [filter]. destruct sp as (_ & _ & -> & -> & _). destruct (_ && _); cbn [length]; auto. }
    rewrite Hc, (write_count l (hist s) H1 N); [lia | | exact E].
    intros a Ha. destruct (A a Ha) as (q & Eq & Hen & _). eauto.
Qed.

(** ** A run is given its result *)
Lemma kids_unique s P j k k' u u' : Inv P s ->
  nth_error (runs s) k = Some u -> nth_error (runs s) k' = Some u' -> In j (asked u) -> In j (asked u') -> k = k'.
Proof.
  intros I E E' h h'. destruct (iK _ _ I) as [N hk].
  eapply (NoDup_fst (kids s) j); [exact N | apply hk; eauto | apply hk; eauto].
Qed.
Lemma last_asked P H k u i : runok P H k u -> nth_error (pts u) (length (fed u)) = Some i -> In i (asked u).
Proof.
  intros (_ & h2 & _) E. apply in_asked. exists (length (fed u) - 1). replace (S (length (fed u) - 1)) with (length (fed u)) by lia. exact E.
Qed.
(** A run that asked for a point whose result is at hand waits for this result. *)
Lemma awaits P s a k u : Inv (a :: P) s -> nth_error (runs s) k = Some u -> In (i_id a) (asked u) ->
  live u = true /\ nth_error (pts u) (length (fed u)) = Some (i_id a).
Proof.
  intros I E Hi. destruct (iR _ _ I k u E) as (h1 & h2 & h3 & h4 & _).
  apply in_asked in Hi as [m Em]. pose proof (nth_lt _ _ _ Em) as Hm.
  destruct (Nat.lt_ge_cases (S m) (length (fed u))) as [Hlt|Hge].
  - apply nth_error_Some in Hlt. destruct (nth_error (fed u) (S m)) as [p|] eqn:Ef; [|congruence].
    destruct (h4 _ _ _ Em Ef) as (q & _ & _ & _ & Hn). exfalso. apply Hn. left. reflexivity.
  - destruct (live u); [|lia]. split; [reflexivity|]. replace (length (fed u)) with (S m) by lia. exact Em.
Qed.
(** Runs that did not ask for [a] do not mind. *)
Lemma runok_drop P s a k u : Inv (a :: P) s -> nth_error (runs s) k = Some u -> ~ In (i_id a) (asked u) ->
  runok P (hist s) k u.
Proof.
  intros I E Hn. destruct (iR _ _ I k u E) as (h1 & h2 & h3 & h4 & h5 & h6 & h7 & h8).
  split; [exact h1|]. split; [exact h2|]. split; [exact h3|]. split; [|split; [|auto]].
  - intros m i p Em Ef. destruct (h4 m i p Em Ef) as (q & Eq & He & Ep & Hni). exists q. repeat split; auto.
    intros h. apply Hni. right. exact h.
  - intros i Ei. destruct (h5 i Ei) as (q & Eq & He). exists q. split; [exact Eq|]. rewrite He. cbn.
    split; [|auto]. intros [h|h]; [|exact h]. exfalso. apply Hn. rewrite h.
    eapply last_asked; [exact (iR _ _ I k u E) | exact Ei].
Qed.

Lemma taken_asked s P i : Inv P s -> taken s i -> exists q, nth_error (hist s) i = Some q /\ local q = true.
Proof.
  intros I (k & u & E & _ & Hi). apply in_asked in Hi as [m Em].
  destruct (iR _ _ I k u E) as (_ & _ & _ & _ & _ & h6 & _). destruct (h6 m i Em) as (q & p & Eq & Hl & _). eauto.
Qed.

Lemma fold_upd_nth (g : row -> row) (L : list nat) H j :
  NoDup L -> nth_error (fold_left (fun H i => upd H i g) L H) j = if memb j L then option_map g (nth_error H j) else nth_error H j.
Proof.
  revert H; induction L as [|i L IH]; intros H N; cbn [fold_left]; [reflexivity|].
  inversion N as [|? ? Hni N']; subst. rewrite IH by exact N'. rewrite upd_nth. cbn [memb existsb].
  rewrite (Nat.eqb_sym i j). fold (memb j L). destruct (Nat.eqb_spec j i) as [->|Hne]; cbn [orb].
  - destruct (memb i L) eqn:Em; [|reflexivity]. apply memb_In in Em. contradiction.
  - reflexivity.
Qed.
Lemma fold_lmin_nth (L : list nat) H j :
  nth_error (fold_left (fun H i => upd H i set_lmin) L H) j = if memb j L then option_map set_lmin (nth_error H j) else nth_error H j.
Proof.
  revert H; induction L as [|i L IH]; intros H; cbn [fold_left]; [reflexivity|].
  rewrite IH. rewrite upd_nth. cbn [memb existsb].
  rewrite (Nat.eqb_sym i j). fold (memb j L). destruct (Nat.eqb_spec j i) as [->|Hne]; cbn [orb]; [|reflexivity].
  destruct (memb i L), (nth_error H i); reflexivity.
Qed.
Lemma fold_upd_len (g : row -> row) (L : list nat) H : length (fold_left (fun H i => upd H i g) L H) = length H.
Proof. revert H; induction L as [|i L IH]; intros H; cbn; [reflexivity|]. rewrite IH. apply upd_length. Qed.

(** The marks of a run that ended. *)
Lemma mark_optimal_nth p flag H L H' o : NoDup L -> mark_optimal c p flag H L = Ok (H', o) ->
  length H' = length H /\
  forall i q, nth_error H i = Some q -> exists q', nth_error H' i = Some q' /\ core q q' /\ keeps q q' /\ started q' = started q /\
    active q' = (if memb i L then (active q - 1)%Z else active q).
Proof.
  intros N E. unfold mark_optimal in E. destruct (nearest c p (rows_of H L)) as [[o' b]|]; [|discriminate].
  inversion E as [[E1 E2]]. clear E. split; [rewrite !fold_upd_len; reflexivity|].
  intros i q Ei. rewrite fold_upd_nth by exact N. rewrite fold_lmin_nth, Ei.
  set (M := if flag then _ else _). destruct (memb i L), (memb i M); cbn [option_map]; eexists; (split; [reflexivity|]);
    (split; [repeat split|]); (split; [repeat split; auto|]); split; reflexivity.
Qed.

Lemma taken_upd s k u u' i H n kd qt b : nth_error (runs s) k = Some u ->
  taken (mkst H n (upd (runs s) k (fun _ => u')) kd qt b) i ->
  (live u' = true /\ In i (asked u')) \/ (exists k' v, k' <> k /\ nth_error (runs s) k' = Some v /\ live v = true /\ In i (asked v)).
Proof.
  intros E (k' & v & Ek & Hl & Hi). cbn in Ek. rewrite upd_nth in Ek. destruct (Nat.eqb_spec k k') as [<-|Hne].
  - rewrite E in Ek. cbn in Ek. inversion Ek; subst v. left. auto.
  - right. exists k', v. auto.
Qed.

Lemma feed_ok P a k u s nw op s' nw' op' :
  Inv (a :: P) s -> nth_error (runs s) k = Some u -> In (i_id a) (asked u) ->
  feed c k a s nw op = Ok (s', nw', op') ->
  Inv P s' /\ keep (hist s) (hist s') /\ n_s s' = n_s s /\ first s' = first s /\
  length (hist s) <= length (hist s') /\
  (forall i q, length (hist s) <= i -> nth_error (hist s') i = Some q -> local q = true /\ ended q = false) /\
  nw' = nw ++ seq (length (hist s)) (length (hist s') - length (hist s)) /\
  length (runs s') = length (runs s) /\
  (forall k' v, nth_error (runs s) k' = Some v -> exists v', nth_error (runs s') k' = Some v' /\ origin v' = origin v) /\
  countb live (runs s') <= countb live (runs s).
Proof.
  intros I Eu Hask Ef. unfold feed in Ef. rewrite Eu in Ef.
  destruct (awaits P s a k u I Eu Hask) as [Hlive Hlast]. rewrite Hlive in Ef.
  pose proof (iR _ _ I k u Eu) as Ru. pose proof Ru as (h1 & h2 & h3 & h4 & h5 & h6 & h7 & h8).
  rewrite Hlive in h1.
  destruct (iP _ _ I) as [NP AP]. inversion NP as [|? ? HniP NP']; subst.
  destruct (AP a (or_introl eq_refl)) as (qa & Eqa & Hea & Hxa & Hfa).
  assert (Hk : k < length (runs s)) by (eapply nth_lt; eauto).
  assert (Horig : exists t, pts u = origin u :: t /\ asked u = t) by (eapply origin_pts; eauto).
  destruct Horig as (t & Ept & Eat).
  assert (other : forall k' v, k' <> k -> nth_error (runs s) k' = Some v -> ~ In (i_id a) (asked v)).
  { intros k' v Hne Ev Hi. apply Hne. eapply kids_unique; eauto. }
  set (fd := fed u ++ [(i_x a, i_f a)]) in *.
  assert (h4' : forall m i p, nth_error (pts u) m = Some i -> nth_error fd m = Some p ->
     exists q, nth_error (hist s) i = Some q /\ ended q = true /\ (x q, f q) = p /\ ~ In i (ids P)).
  { intros m i p Em Efm. unfold fd in Efm. apply nth_app_new in Efm as [Efm|[Hge Efm]].
    - destruct (h4 m i p Em Efm) as (q & Eq & He & Ep & Hn). exists q. repeat split; auto. intros h; apply Hn; right; exact h.
    - assert (m = length (fed u)) by (apply nth_lt in Em; lia). subst m. rewrite Nat.sub_diag in Efm. cbn in Efm.
      inversion Efm; subst p. rewrite Hlast in Em. inversion Em; subst i. exists qa. rewrite Hxa, Hfa. auto. }
  assert (fst1 : forall m, S m <= length (fed u) -> firstn (S m) fd = firstn (S m) (fed u)).
  { intros m Hm. unfold fd. rewrite firstn_app. replace (S m - length (fed u)) with 0 by lia. rewrite firstn_O. apply app_nil_r. }
  assert (fst2 : firstn (S (length (fed u))) fd = fd).
  { apply firstn_all2. unfold fd. rewrite app_length. cbn. lia. }
  destruct (opt c k fd) as [p|p flag|] eqn:Eo; [| |discriminate].
  - (* the run asks for another point *)
    inversion Ef as [[E1 E2 E3]]; subst s' nw' op'. clear Ef. cbn [hist n_s runs kids quit first].
    set (j := length (hist s)) in *. set (H' := add_pts c (hist s) [p] true).
    set (u' := mkrun (pts u ++ [j]) fd true).
    assert (hk : keep (hist s) H') by apply add_pts_keep.
    assert (Hlen : length H' = j + 1) by (unfold H'; rewrite add_pts_len; reflexivity).
    assert (Easked : asked u' = asked u ++ [j]).
    { unfold u', asked. cbn. rewrite Ept. reflexivity. }
    assert (Eorig : origin u' = origin u).
    { unfold u', origin. cbn. rewrite Ept. reflexivity. }
    assert (fresh_j : forall k' v, nth_error (runs s) k' = Some v -> ~ In j (pts v)).
    { intros k' v Ev Hj. pose proof (pts_lt _ _ _ _ _ (iR _ _ I k' v Ev) Hj). unfold j in *. lia. }
    assert (fresh_ask : forall k' v, nth_error (runs s) k' = Some v -> ~ In j (asked v)).
    { intros k' v Ev Hj. apply (fresh_j k' v Ev). unfold asked in Hj. destruct (pts v); cbn in *; auto. }
    assert (HnewP : ~ In j (ids P)).
    { intros hj. apply in_map_iff in hj as (b & Eb & Hb). destruct (AP b (or_intror Hb)) as (q & Eq & _).
      apply nth_lt in Eq. rewrite Eb in Eq. unfold j in Eq. lia. }
    assert (Rk : runok P H' k u').
    { split; [cbn; unfold fd; rewrite !app_length; cbn; lia|].
      split; [cbn; unfold fd; rewrite app_length; cbn; lia|].
      split; [|split; [|split; [|split; [|split]]]].
      - cbn [pts u']. intros m m' i i' Hm Em Em'.
        apply nth_app_new in Em as [Em|[Hge Em]].
        + apply nth_app_new in Em' as [Em'|[Hge' Em']]; [exact (h3 m m' i i' Hm Em Em')|].
          assert (i' = j) by (destruct (m' - length (pts u)) as [|[|]]; cbn in Em'; congruence). subst i'.
          apply nth_error_In in Em. pose proof (pts_lt _ _ _ _ _ Ru Em). unfold j. lia.
        + apply nth_app_new in Em' as [Em'|[Hge' Em']]; [apply nth_lt in Em'; lia|].
          destruct (m' - length (pts u)) as [|e] eqn:Ed; [|destruct e; discriminate]. lia.
      - cbn [pts fed u']. intros m i q Em Efm. apply nth_app_new in Em as [Em|[Hge _]].
        + destruct (h4' m i q Em Efm) as (q0 & Eq0 & He & Ep & Hn). destruct (hk i q0 Eq0) as (q1 & Eq1 & kq).
          exists q1. destruct kq as (<- & <- & _ & <- & _). auto.
        + exfalso. apply nth_lt in Efm. unfold fd in Efm. rewrite app_length in Efm. cbn in Efm. lia.
      - cbn [pts fed u']. intros i Ei. unfold fd in Ei. rewrite app_length in Ei. cbn [length] in Ei.
        apply nth_app_new in Ei as [Ei|[Hge Ei]]; [apply nth_lt in Ei; lia|].
        assert (i = j) by (destruct (length (fed u) + 1 - length (pts u)) as [|[|]]; cbn in Ei; congruence). subst i.
        eexists. split; [apply add_one_nth|]. cbn. split; [discriminate | contradiction].
      - cbn [pts fed u']. intros m i Em. apply nth_app_new in Em as [Em|[Hge Em]].
        + destruct (h6 m i Em) as (q & p0 & Eq & Hl & Ho & Ex). destruct (hk i q Eq) as (q1 & Eq1 & kq).
          exists q1, p0. destruct kq as (<- & _ & <- & _). split; [exact Eq1|]. split; [exact Hl|]. split; [|exact Ex].
          rewrite fst1; [exact Ho|]. apply nth_lt in Em. lia.
        + assert (i = j) by (destruct (S m - length (pts u)) as [|[|]]; cbn in Em; congruence). subst i.
          assert (S m = S (length (fed u))).
          { destruct (S m - length (pts u)) as [|e] eqn:Ed; [lia | destruct e; discriminate]. }
          exists (fresh_row c true j p), p. split; [apply add_one_nth|]. split; [reflexivity|]. rewrite H, fst2. split; [exact Eo|reflexivity].
      - cbn. discriminate.
      - rewrite Eorig. destruct h8 as (q & Eq & Hs). destruct (hk _ q Eq) as (q1 & Eq1 & kq). exists q1. split; [exact Eq1|]. apply kq. exact Hs. }
    split; [|split; [exact hk|split; [reflexivity|split; [reflexivity|split; [lia|split; [|split; [|split; [|split]]]]]]]].
    + constructor; cbn [hist n_s runs kids quit first].
      * eapply grows_Dinv; [apply add_pts_grows | exact (iD _ _ I)].
      * split; [exact NP'|]. intros b Hb. destruct (AP b (or_intror Hb)) as (q & Eq & hq).
        destruct (hk _ q Eq) as (q1 & Eq1 & kq). exists q1. destruct kq as (<- & <- & _ & <- & _). auto.
      * intros k' v Ev. rewrite upd_nth in Ev. destruct (Nat.eqb_spec k k') as [<-|Hne].
        -- rewrite Eu in Ev. cbn in Ev. inversion Ev; subst v. exact Rk.
        -- eapply runok_keep; [exact hk|]. eapply runok_drop; eauto.
      * destruct (iK _ _ I) as [NK hkids]. split.
        -- rewrite map_app. cbn [map fst].
           assert (~ In j (map fst (kids s))).
           { intros hj. apply in_map_iff in hj as ([j' k'] & Ej & Hj). cbn in Ej; subst j'.
             apply hkids in Hj as (v & Ev & Hv). exact (fresh_ask k' v Ev Hv). }
           clear - NK H. induction (map fst (kids s)) as [|y L IH]; cbn; [repeat constructor; auto|].
           inversion NK; subst. constructor; [|apply IH; [auto | intros h; apply H; right; exact h]].
           intros h. apply in_app_iff in h as [h|[h|[]]]; [contradiction|]. apply H. left. auto.
        -- intros j' k'. rewrite in_app_iff. cbn [In]. split.
           ++ intros [h|[h|[]]].
              ** apply hkids in h as (v & Ev & Hv). rewrite upd_nth. destruct (Nat.eqb_spec k k') as [<-|Hne].
                 --- rewrite Ev. cbn. exists u'. split; [reflexivity|]. rewrite Easked. apply in_app_iff. left. congruence.
                 --- eauto.
              ** inversion h; subst j' k'. exists u'. rewrite upd_nth, Nat.eqb_refl, Eu. split; [reflexivity|].
                 rewrite Easked. apply in_app_iff. right. left. reflexivity.
           ++ intros (v & Ev & Hv). rewrite upd_nth in Ev. destruct (Nat.eqb_spec k k') as [<-|Hne].
              ** rewrite Eu in Ev. cbn in Ev. inversion Ev; subst v. rewrite Easked in Hv. apply in_app_iff in Hv as [Hv|[<-|[]]].
                 --- left. apply hkids. eauto.
                 --- right. left. reflexivity.
              ** left. apply hkids. eauto.
      * intros k1 k2 v1 v2 E1 E2 Eo12. rewrite upd_nth in E1, E2.
        destruct (Nat.eqb_spec k k1) as [<-|Hne1], (Nat.eqb_spec k k2) as [<-|Hne2].
        -- reflexivity.
        -- rewrite Eu in E1. cbn in E1. inversion E1; subst v1. rewrite Eorig in Eo12. eapply (iO _ _ I); eauto.
        -- rewrite Eu in E2. cbn in E2. inversion E2; subst v2. rewrite Eorig in Eo12. eapply (iO _ _ I); eauto.
        -- eapply (iO _ _ I); eauto.
      * intros i q Ei T. destruct (add_pts_nth _ _ _ _ _ Ei) as [Ei'|(Hge & p' & _ & ->)]; [|cbn; auto].
        apply (iA1 _ _ I i q Ei').
        destruct (taken_upd _ _ _ _ _ _ _ _ _ _ Eu T) as [[_ Hi]|(k' & v & Hne & Ev & Hv)]; [|exists k', v; tauto].
        exists k, u. split; [exact Eu|]. split; [exact Hlive|]. rewrite Easked in Hi. apply in_app_iff in Hi as [Hi|[<-|[]]]; [exact Hi|].
        apply nth_lt in Ei'. unfold j in Ei'. lia.
      * intros i q Ei T Hs. destruct (add_pts_nth _ _ _ _ _ Ei) as [Ei'|(Hge & p' & _ & ->)].
        -- apply (iA2 _ _ I i q Ei'); [|exact Hs]. intros (k' & v & Ev & Hl & Hi). apply T.
           destruct (Nat.eqb_spec k k') as [<-|Hne].
           ++ exists k, u'. cbn [runs]. rewrite upd_nth, Nat.eqb_refl, Eu. split; [reflexivity|]. split; [reflexivity|].
              rewrite Easked. apply in_app_iff. left. congruence.
           ++ exists k', v. cbn [runs]. rewrite upd_nth. apply Nat.eqb_neq in Hne. rewrite Hne. auto.
        -- exfalso. apply T. apply nth_lt in Ei. rewrite Hlen in Ei. assert (i = j) by (unfold j in *; lia). subst i.
           exists k, u'. cbn [runs]. rewrite upd_nth, Nat.eqb_refl, Eu. split; [reflexivity|]. split; [reflexivity|].
           rewrite Easked. apply in_app_iff. right. left. reflexivity.
      * destruct (iQ _ _ I) as [NQ hq]. split; [exact NQ|]. intros k'. rewrite hq. split; intros (v & Ev & Hv).
        -- exists v. rewrite upd_nth. destruct (Nat.eqb_spec k k') as [<-|Hne]; [congruence | auto].
        -- rewrite upd_nth in Ev. destruct (Nat.eqb_spec k k') as [<-|Hne]; [|eauto].
           rewrite Eu in Ev. cbn in Ev. inversion Ev; subst v. discriminate.
      * pose proof (countb_upd live (runs s) k (fun _ => u') u Eu) as Hc. rewrite Hlive in Hc. cbn in Hc.
        pose proof (iC _ _ I) as hC. destruct (max_runs c); [lia | exact Logic.I].
      * rewrite (iN _ _ I). f_equal. symmetry. apply countb_keep; [|lia|].
        -- intros i q q' E1 E2. destruct (hk i q E1) as (q2 & E2' & kq). rewrite E2 in E2'. inversion E2'; subst q2.
           destruct kq as (_ & _ & -> & -> & _). reflexivity.
        -- intros i q Hi Ei. destruct (add_pts_nth _ _ _ _ _ Ei) as [Ei'|(_ & p' & _ & ->)]; [apply nth_lt in Ei'; lia|]. reflexivity.
    + intros i q Hi Ei. destruct (add_pts_nth _ _ _ _ _ Ei) as [Ei'|(_ & p' & _ & ->)]; [|cbn; auto]. apply nth_lt in Ei'. unfold j in Hi. lia.
    + rewrite Hlen. replace (j + 1 - j) with 1 by lia. reflexivity.
    + apply upd_length.
    + intros k' v Ev. rewrite upd_nth. destruct (Nat.eqb_spec k k') as [<-|Hne]; [|eauto].
      rewrite Ev. cbn. exists u'. split; [reflexivity|]. congruence.
    + pose proof (countb_upd live (runs s) k (fun _ => u') u Eu) as Hc. rewrite Hlive in Hc. cbn in Hc. lia.
  - (* the run ends *)
    destruct (mark_optimal c p flag (hist s) (pts u)) as [[H' o]|] eqn:Em; [|discriminate].
    cbn [bindr] in Ef. inversion Ef as [[E1 E2 E3]]; subst s' nw' op'. clear Ef. cbn [hist n_s runs kids quit first].
    destruct (mark_optimal_nth p flag (hist s) (pts u) H' o (pts_NoDup _ _ _ _ Ru) Em) as [Hlen Hrows].
    set (u' := mkrun (pts u) fd false).
    assert (hk : keep (hist s) H').
    { intros i q Ei. destruct (Hrows i q Ei) as (q' & Ei' & _ & kq & _). eauto. }
    assert (hback : forall i q', nth_error H' i = Some q' -> exists q, nth_error (hist s) i = Some q /\ core q q' /\ started q' = started q /\ active q' = (if memb i (pts u) then (active q - 1)%Z else active q)).
    { intros i q' Ei'. pose proof (nth_lt _ _ _ Ei') as Hlt. rewrite Hlen in Hlt. apply nth_error_Some in Hlt.
      destruct (nth_error (hist s) i) as [q|] eqn:Ei; [|congruence]. destruct (Hrows i q Ei) as (q2 & E2 & hc & _ & hs).
      rewrite Ei' in E2. inversion E2; subst q2. eauto. }
    assert (Rk : runok P H' k u').
    { split; [cbn; unfold fd; rewrite app_length; cbn; lia|].
      split; [cbn; unfold fd; rewrite app_length; cbn; lia|].
      split; [exact h3|]. split; [|split; [|split; [|split]]].
      - cbn [pts fed u']. intros m i q Em' Efm. destruct (h4' m i q Em' Efm) as (q0 & Eq0 & He & Ep & Hn). destruct (hk i q0 Eq0) as (q1 & Eq1 & kq).
        exists q1. destruct kq as (<- & <- & _ & <- & _). auto.
      - cbn [pts fed u']. intros i Ei. apply nth_lt in Ei. unfold fd in Ei. rewrite app_length in Ei. cbn in Ei. lia.
      - cbn [pts fed u']. intros m i Em'. destruct (h6 m i Em') as (q & p0 & Eq & Hl & Ho & Ex). destruct (hk i q Eq) as (q1 & Eq1 & kq).
        exists q1, p0. destruct kq as (<- & _ & <- & _). split; [exact Eq1|]. split; [exact Hl|]. split; [|exact Ex].
        rewrite fst1; [exact Ho|]. apply nth_lt in Em'. lia.
      - intros _. exists p, flag. exact Eo.
      - destruct h8 as (q & Eq & Hs). destruct (hk _ q Eq) as (q1 & Eq1 & kq). exists q1. split; [exact Eq1|]. apply kq. exact Hs. }
    split; [|split; [exact hk|split; [reflexivity|split; [reflexivity|split; [lia|split; [|split; [|split; [|split]]]]]]]].
    + constructor; cbn [hist n_s runs kids quit first].
      * eapply grows_Dinv; [|exact (iD _ _ I)]. split.
        -- intros i q Ei. destruct (Hrows i q Ei) as (q' & Ei' & hc & _). eauto.
        -- intros i q' Ei'. left. destruct (hback i q' Ei') as (q & Ei & hc & _). eauto.
      * split; [exact NP'|]. intros b Hb. destruct (AP b (or_intror Hb)) as (q & Eq & hq).
        destruct (hk _ q Eq) as (q1 & Eq1 & kq). exists q1. destruct kq as (<- & <- & _ & <- & _). auto.
      * intros k' v Ev. rewrite upd_nth in Ev. destruct (Nat.eqb_spec k k') as [<-|Hne].
        -- rewrite Eu in Ev. cbn in Ev. inversion Ev; subst v. exact Rk.
        -- eapply runok_keep; [exact hk|]. eapply runok_drop; eauto.
      * destruct (iK _ _ I) as [NK hkids]. split; [exact NK|]. intros j' k'. rewrite hkids. rewrite upd_nth.
        destruct (Nat.eqb_spec k k') as [<-|Hne]; [|reflexivity]. rewrite Eu. cbn.
        split; intros (v & Ev & Hv); inversion Ev; subst v; eexists; (split; [reflexivity | exact Hv]).
      * intros k1 k2 v1 v2 E1 E2 Eo12. rewrite upd_nth in E1, E2.
        destruct (Nat.eqb_spec k k1) as [<-|Hne1], (Nat.eqb_spec k k2) as [<-|Hne2].
        -- reflexivity.
        -- rewrite Eu in E1. cbn in E1. inversion E1; subst v1. change (origin u = origin v2) in Eo12. eapply (iO _ _ I); eauto.
        -- rewrite Eu in E2. cbn in E2. inversion E2; subst v2. change (origin v1 = origin u) in Eo12. eapply (iO _ _ I); eauto.
        -- eapply (iO _ _ I); eauto.
      * intros i q' Ei' T. destruct (hback i q' Ei') as (q & Ei & _ & es & ea).
        destruct (taken_upd _ _ _ _ _ _ _ _ _ _ Eu T) as [[hf _]|(k' & v & Hne & Ev & Hl & Hv)]; [discriminate|].
        assert (Ti : taken s i) by (exists k', v; auto).
        destruct (iA1 _ _ I i q Ei Ti) as [hs ha]. rewrite es, ea. split; [exact hs|].
        destruct (memb i (pts u)) eqn:Emb; [|exact ha]. exfalso. apply memb_In in Emb. rewrite Ept in Emb.
        destruct Emb as [<-|Hin].
        -- destruct h8 as (q8 & E8 & hs8). rewrite Ei in E8. inversion E8; subst q8. congruence.
        -- apply Hne. rewrite <- Eat in Hin. eapply kids_unique; eauto.
      * intros i q' Ei' T Hs. destruct (hback i q' Ei') as (q & Ei & _ & es & ea). rewrite ea. rewrite es in Hs.
        assert (Tiff : taken s i -> In i (asked u)).
        { intros (k' & v & Ev & Hl & Hv). destruct (Nat.eq_dec k' k) as [->|Hne]; [congruence|].
          exfalso. apply T. exists k', v. cbn [runs]. rewrite upd_nth_other by auto. auto. }
        destruct (memb i (pts u)) eqn:Emb.
        -- apply memb_In in Emb. rewrite Ept in Emb. destruct Emb as [<-|Hin].
           ++ destruct h8 as (q8 & E8 & hs8). rewrite Ei in E8. inversion E8; subst q8. congruence.
           ++ assert (Ti : taken s i) by (exists k, u; rewrite Eat; auto). destruct (iA1 _ _ I i q Ei Ti) as [_ ->]. reflexivity.
        -- apply (iA2 _ _ I i q Ei); [|exact Hs]. intros Ti. apply Tiff in Ti. apply memb_false in Emb. apply Emb. rewrite Ept. right. congruence.
      * destruct (iQ _ _ I) as [NQ hq]. split.
        -- assert (Hnk : ~ In k (quit s)) by (intros h; apply hq in h as (v & Ev & Hv); congruence).
           clear - NQ Hnk. induction (quit s) as [|y L IH]; cbn; [repeat constructor; auto|].
           inversion NQ; subst. constructor; [|apply IH; [auto | intros h; apply Hnk; right; exact h]].
           intros h. apply in_app_iff in h as [h|[h|[]]]; [contradiction|]. apply Hnk. left. auto.
        -- intros k'. rewrite in_app_iff, hq. cbn [In]. split.
           ++ intros [(v & Ev & Hv)|[<-|[]]].
              ** exists v. rewrite upd_nth. destruct (Nat.eqb_spec k k') as [<-|Hne]; [congruence | auto].
              ** exists u'. rewrite upd_nth, Nat.eqb_refl, Eu. auto.
           ++ intros (v & Ev & Hv). rewrite upd_nth in Ev. destruct (Nat.eqb_spec k k') as [<-|Hne]; [right; auto | left; eauto].
      * pose proof (countb_upd live (runs s) k (fun _ => u') u Eu) as Hc. rewrite Hlive in Hc. cbn in Hc.
        pose proof (iC _ _ I) as hC. destruct (max_runs c); [lia | exact Logic.I].
      * rewrite (iN _ _ I). f_equal. symmetry. apply countb_keep; [|lia|].
        -- intros i q q' E1 E2. destruct (hk i q E1) as (q2 & E2' & kq). rewrite E2 in E2'. inversion E2'; subst q2.
           destruct kq as (_ & _ & -> & -> & _). reflexivity.
        -- intros i q Hi Ei. apply nth_lt in Ei. lia.
    + intros i q Hi Ei. apply nth_lt in Ei. lia.
    + rewrite Hlen, Nat.sub_diag. cbn. rewrite app_nil_r. reflexivity.
    + apply upd_length.
    + intros k' v Ev. rewrite upd_nth. destruct (Nat.eqb_spec k k') as [<-|Hne]; [|eauto].
      rewrite Ev. cbn. exists u'. split; [reflexivity|]. unfold origin, u'. cbn. congruence.
    + pose proof (countb_upd live (runs s) k (fun _ => u') u Eu) as Hc. rewrite Hlive in Hc. cbn in Hc. lia.
Qed.

(** ** All results are passed on *)
(** From [s] to [s'], with the points [nw] and [nw'] to be sent. *)
Definition adv s (nw : list nat) s' (nw' : list nat) : Prop :=
  keep (hist s) (hist s') /\ n_s s' = n_s s /\ first s' = first s /\
  length (hist s) <= length (hist s') /\
  (forall i q, length (hist s) <= i -> nth_error (hist s') i = Some q -> local q = true /\ ended q = false) /\
  nw' = nw ++ seq (length (hist s)) (length (hist s') - length (hist s)) /\
  length (runs s') = length (runs s) /\
  (forall k' v, nth_error (runs s) k' = Some v -> exists v', nth_error (runs s') k' = Some v' /\ origin v' = origin v) /\
  countb live (runs s') <= countb live (runs s).
Lemma adv_refl s nw : adv s nw s nw.
Proof.
  split; [apply keep_refl|]. split; [reflexivity|]. split; [reflexivity|]. split; [lia|].
  split; [intros i q Hi Ei; apply nth_lt in Ei; lia|]. split; [rewrite Nat.sub_diag; cbn; rewrite app_nil_r; reflexivity|].
  split; [reflexivity|]. split; [eauto | lia].
Qed.
Lemma adv_trans s nw s1 nw1 s2 nw2 : adv s nw s1 nw1 -> adv s1 nw1 s2 nw2 -> adv s nw s2 nw2.
Proof.
  intros (k1 & n1 & f1 & l1 & r1 & w1 & c1 & o1 & v1) (k2 & n2 & f2 & l2 & r2 & w2 & c2 & o2 & v2).
  split; [eapply keep_trans; eauto|]. split; [congruence|]. split; [congruence|]. split; [lia|].
  split; [|split; [|split; [congruence|split; [|lia]]]].
  - intros i q Hi Ei. destruct (Nat.lt_ge_cases i (length (hist s1))) as [Hlt|Hge]; [|exact (r2 i q Hge Ei)].
    apply nth_error_Some in Hlt. destruct (nth_error (hist s1) i) as [q1|] eqn:E1; [|congruence].
    destruct (r1 i q1 Hi E1) as [hl he]. destruct (k2 i q1 E1) as (q2 & E2 & kq). rewrite Ei in E2. inversion E2; subst q2.
    destruct kq as (_ & _ & <- & <- & _). auto.
  - rewrite w2, w1, <- app_assoc. f_equal.
    replace (length (hist s2) - length (hist s)) with ((length (hist s1) - length (hist s)) + (length (hist s2) - length (hist s1))) by lia.
    rewrite seq_app. f_equal. f_equal. lia.
  - intros k' v Ev. destruct (o1 k' v Ev) as (v' & Ev' & e1). destruct (o2 k' v' Ev') as (v'' & Ev'' & e2). exists v''. split; [exact Ev''|congruence].
Qed.

Lemma kids_of_cases s j : NoDup (map fst (kids s)) ->
  (kids_of j s = [] /\ forall k, ~ In (j, k) (kids s)) \/ exists k, kids_of j s = [k] /\ In (j, k) (kids s).
Proof.
  unfold kids_of. induction (kids s) as [|[j' k'] L IH]; intros N; cbn.
  - left. auto.
  - inversion N as [|? ? Hni N']; subst. destruct (Nat.eqb_spec j' j) as [->|Hne].
    + right. exists k'. cbn. split; [|auto]. f_equal. destruct (IH N') as [[-> _]|(k & _ & Hk)]; [reflexivity|].
      exfalso. apply Hni. apply in_map_iff. exists (j, k). auto.
    + destruct (IH N') as [[E hn]|(k & E & Hk)].
      * left. split; [exact E|]. intros k [h|h]; [congruence | exact (hn k h)].
      * right. exists k. auto.
Qed.
Lemma Inv_drop P a s : Inv (a :: P) s -> (forall k, ~ In (i_id a, k) (kids s)) -> Inv P s.
Proof.
  intros I Hn. destruct (iP _ _ I) as [NP AP]. inversion NP as [|? ? HniP NP']; subst.
  assert (hno : forall k u, nth_error (runs s) k = Some u -> ~ In (i_id a) (asked u)).
  { intros k u Ek Hi. apply (Hn k). apply (iK _ _ I). eauto. }
  constructor.
  - exact (iD _ _ I).
  - split; [exact NP'|]. intros b Hb. apply AP. right. exact Hb.
  - intros k u Ek. eapply runok_drop; eauto.
  - exact (iK _ _ I).
  - exact (iO _ _ I).
  - exact (iA1 _ _ I).
  - exact (iA2 _ _ I).
  - exact (iQ _ _ I).
  - exact (iC _ _ I).
  - exact (iN _ _ I).
Qed.
Lemma advance_ok l s nw op s' nw' op' :
  Inv l s -> advance c l s nw op = Ok (s', nw', op') -> Inv [] s' /\ adv s nw s' nw'.
Proof.
  revert s nw op; induction l as [|a l IH]; intros s nw op I E; cbn [advance] in E.
  - inversion E; subst. split; [exact I | apply adv_refl].
  - destruct (kids_of_cases s (i_id a) (proj1 (iK _ _ I))) as [[Ek Hn]|(k & Ek & Hk)]; rewrite Ek in E; cbn [feed_all bindr] in E.
    + apply (IH s nw op); [eapply Inv_drop; eauto | exact E].
    + destruct (feed c k a s nw op) as [[[s1 n1] o1]|] eqn:Ef; [|discriminate]. cbn [bindr] in E.
      apply (iK _ _ I) in Hk as (u & Eu & Hu).
      destruct (feed_ok l a k u s nw op s1 n1 o1 I Eu Hu Ef) as [I1 A1].
      destruct (IH s1 n1 o1 I1 E) as [I2 A2]. split; [exact I2|]. eapply adv_trans; eauto.
Qed.

(** ** Where runs are started *)
Lemma insert_In (p : nat * row) (l : list (nat * row)) y : In y (insert p l) <-> y = p \/ In y l.
Proof.
  induction l as [|q l IH]; cbn; [intuition congruence|].
  destruct (flt _ _); cbn; [rewrite IH|]; intuition congruence.
Qed.
Lemma sort_In (l : list (nat * row)) y : In y (sort_by_f l) <-> In y l.
Proof. induction l as [|p l IH]; cbn; [reflexivity|]. rewrite insert_In, IH. intuition congruence. Qed.
Lemma insert_NoDup p (l : list (nat * row)) : ~ In (fst p) (map fst l) -> NoDup (map fst l) -> NoDup (map fst (insert p l)).
Proof.
  induction l as [|q l IH]; cbn; intros Hn N; [repeat constructor; auto|].
  inversion N as [|? ? Hni N']; subst.
  destruct (flt _ _); cbn.
  - constructor; [|apply IH; tauto]. intros h. apply in_map_iff in h as (y & Ey & Hy). apply insert_In in Hy as [->|Hy].
    + apply Hn. left. auto.
    + apply Hni. rewrite <- Ey. apply in_map. exact Hy.
  - constructor; [cbn; tauto | exact N].
Qed.
Lemma sort_NoDup (l : list (nat * row)) : NoDup (map fst l) -> NoDup (map fst (sort_by_f l)).
Proof.
  induction l as [|p l IH]; cbn; intros N; [constructor|]. inversion N as [|? ? Hni N']; subst.
  apply insert_NoDup; [|auto]. intros h. apply in_map_iff in h as (y & Ey & Hy). apply (proj1 (sort_In l y)) in Hy. apply Hni. rewrite <- Ey. apply in_map. exact Hy.
Qed.
Lemma pairs_In H i r : In (i, r) (combine (seq 0 (length H)) H) <-> nth_error H i = Some r.
Proof.
  assert (G : forall (L : list row) b, In (i, r) (combine (seq b (length L)) L) <-> b <= i /\ nth_error L (i - b) = Some r).
  { clear. induction L as [|y L IH]; intros b; cbn.
    - split; [contradiction|]. intros [_ E]. destruct (i - b); discriminate.
    - rewrite IH. split.
      + intros [E|[Hle E]]; [inversion E; subst; rewrite Nat.sub_diag; auto|].
        split; [lia|]. replace (i - b) with (S (i - S b)) by lia. exact E.
      + intros [Hle E]. destruct (Nat.eq_dec i b) as [->|Hne].
        * left. rewrite Nat.sub_diag in E. cbn in E. congruence.
        * right. split; [lia|]. replace (i - b) with (S (i - S b)) in E by lia. exact E. }
  rewrite G, Nat.sub_0_r. intuition lia.
Qed.
Lemma pairs_NoDup H : NoDup (map fst (combine (seq 0 (length H)) H)).
Proof.
  assert (G : forall (L : list row) b, map fst (combine (seq b (length L)) L) = seq b (length L)).
  { clear. induction L as [|y L IH]; intros b; cbn; [reflexivity|]. rewrite IH. reflexivity. }
  rewrite G. apply seq_NoDup.
Qed.
Lemma NoDup_filter_fst (g : nat * row -> bool) (L : list (nat * row)) : NoDup (map fst L) -> NoDup (map fst (filter g L)).
Proof.
  induction L as [|p L IH]; cbn; intros N; [constructor|]. inversion N as [|? ? Hni N']; subst.
  destruct (g p); cbn; [constructor|]; auto. intros h. apply Hni. apply in_map_iff in h as (y & Ey & Hy).
  apply filter_In in Hy as [Hy _]. rewrite <- Ey. apply in_map. exact Hy.
Qed.
Lemma decide_spec H n L : decide c H n = Ok L ->
  exists rk, calc_rk c n = Ok rk /\ NoDup L /\
    forall i, In i L <-> exists r, nth_error H i = Some r /\ (sample_seed c H rk r = true \/ local_seed c H rk r = true).
Proof.
  unfold decide. destruct (calc_rk c n) as [rk|] eqn:Erk; [|discriminate]. cbn [bindr]. intros E. inversion E; subst L. clear E.
  exists rk. split; [reflexivity|]. set (Q := combine (seq 0 (length H)) H). split.
  - apply sort_NoDup. rewrite map_app.
    assert (Hd : forall i, In i (map fst (filter (fun p => sample_seed c H rk (snd p)) Q)) -> ~ In i (map fst (filter (fun p => local_seed c H rk (snd p)) Q))).
    { intros i h1 h2. apply in_map_iff in h1 as ([i1 r1] & e1 & h1). apply in_map_iff in h2 as ([i2 r2] & e2 & h2). cbn in *; subst i1 i2.
      apply filter_In in h1 as [h1 s1]. apply filter_In in h2 as [h2 s2]. apply pairs_In in h1. apply pairs_In in h2.
      rewrite h1 in h2. inversion h2; subst r2. cbn in *. unfold sample_seed in s1. unfold local_seed in s2.
      destruct (local r1); cbn in *; discriminate. }
    pose proof (NoDup_filter_fst (fun p => sample_seed c H rk (snd p)) Q (pairs_NoDup H)) as N1.
    pose proof (NoDup_filter_fst (fun p => local_seed c H rk (snd p)) Q (pairs_NoDup H)) as N2.
    revert Hd N1 N2. generalize (map fst (filter (fun p => sample_seed c H rk (snd p)) Q)). generalize (map fst (filter (fun p => local_seed c H rk (snd p)) Q)).
    clear. intros B A Hd N1 N2. induction A as [|y A IH]; cbn; [exact N2|]. inversion N1; subst. constructor.
    + intros h. apply in_app_iff in h as [h|h]; [contradiction|]. exact (Hd y (or_introl eq_refl) h).
    + apply IH; [|assumption]. intros i hi. apply Hd. right. exact hi.
  - intros i. rewrite in_map_iff. split.
    + intros ([i' r] & e & h). cbn in e; subst i'. apply (proj1 (sort_In _ _)) in h. apply in_app_iff in h as [h|h]; apply filter_In in h as [h g]; apply pairs_In in h; eauto.
    + intros (r & Er & h). exists (i, r). split; [reflexivity|]. apply (proj2 (sort_In _ _)). apply in_app_iff. rewrite !filter_In. assert (hq : In (i, r) Q) by (apply pairs_In; exact Er). cbn. tauto.
Qed.

(** ** Starting runs *)
(** A point from which a run may be started, as far as the records go. *)
Definition startable s i : Prop :=
  exists r, nth_error (hist s) i = Some r /\ ended r = true /\ started r = false /\ (local r = true -> active r = 0%Z).
(** From [s] to [s'] runs were started and points added; nothing else changed. *)
Definition marks (q q' : row) : Prop :=
  x q = x q' /\ f q = f q' /\ local q = local q' /\ ended q = ended q' /\ paused q = paused q' /\
  (started q = true -> started q' = true) /\ lmin q = lmin q' /\ active q = active q'.
Definition later s s' : Prop :=
  (forall i q, nth_error (hist s) i = Some q -> exists q', nth_error (hist s') i = Some q' /\ marks q q') /\
  (forall i q, length (hist s) <= i -> nth_error (hist s') i = Some q -> ended q = false /\ lmin q = false) /\
  length (hist s) <= length (hist s') /\ n_s s' = n_s s /\ quit s' = quit s.
Lemma marks_keeps q q' : marks q q' -> keeps q q'.
Proof. unfold marks, keeps. intuition congruence. Qed.
Lemma marks_refl q : marks q q. Proof. repeat split; auto. Qed.
Lemma later_refl s : later s s.
Proof. split; [intros i q Ei; eauto using marks_refl|]. split; [intros i q Hi Ei; apply nth_lt in Ei; lia|]. auto. Qed.

Lemma start_ok i s nw s' nw' :
  Inv [] s -> startable s i -> room c s = true -> start c i s nw = Ok (s', nw') ->
  Inv [] s' /\ later s s' /\ first s' = first s /\
  length (hist s') = S (length (hist s)) /\
  nth_error (hist s') (length (hist s)) <> None /\
  (forall q, nth_error (hist s') (length (hist s)) = Some q -> local q = true) /\
  nw' = nw ++ [length (hist s)] /\
  (exists u, runs s' = runs s ++ [u] /\ origin u = i /\ live u = true) /\
  (forall q, nth_error (hist s') i = Some q -> started q = true) /\
  (forall j q q', j <> i -> nth_error (hist s) j = Some q -> nth_error (hist s') j = Some q' -> started q' = started q).
Proof.
  intros I (r & Er & Hen & Hst & Hact) Hroom E. unfold start in E. rewrite Er in E.
  destruct (opt c (length (runs s)) [(x r, f r)]) as [p|p flag|] eqn:Eo; try discriminate.
  inversion E as [[E1 E2]]; subst s' nw'. clear E. cbn [hist n_s runs kids quit first].
  set (k := length (runs s)) in *. set (H0 := upd (hist s) i set_started). set (H' := add_pts c H0 [p] true).
  assert (Hl0 : length H0 = length (hist s)) by apply upd_length. set (j := length (hist s)) in *. rewrite Hl0.
  set (u := mkrun [i; j] [(x r, f r)] true).
  assert (Hi : i < j) by (eapply nth_lt; eauto).
  assert (Hlen : length H' = S j) by (unfold H'; rewrite add_pts_len, Hl0; cbn; lia).
  assert (Hnew : nth_error H' j = Some (fresh_row c true j p)).
  { unfold H'. rewrite <- Hl0. apply add_one_nth. }
  assert (Hold : forall m q, nth_error (hist s) m = Some q -> exists q', nth_error H' m = Some q' /\ marks q q' /\ core q q' /\
            (m = i -> started q' = true) /\ (m <> i -> q' = q)).
  { intros m q Em. destruct (Nat.eq_dec m i) as [->|Hne].
    - rewrite Er in Em. inversion Em; subst q. exists (set_started r).
      split; [apply nth_app_old; apply upd_nth_same; exact Er|]. split; [repeat split; auto|]. split; [repeat split|]. split; [auto | contradiction].
    - exists q. split; [apply nth_app_old; unfold H0; rewrite upd_nth_other by auto; exact Em|].
      split; [apply marks_refl|]. split; [apply core_refl|]. split; [contradiction | auto]. }
  assert (Hback : forall m q', nth_error H' m = Some q' -> (exists q, nth_error (hist s) m = Some q) \/ (m = j /\ q' = fresh_row c true j p)).
  { intros m q' Em. destruct (nth_error (hist s) m) as [q|] eqn:Em0; [left; eauto|right].
    apply nth_error_None in Em0. pose proof (nth_lt _ _ _ Em) as Hm. rewrite Hlen in Hm. assert (m = j) by (unfold j in *; lia). subst m.
    rewrite Hnew in Em. inversion Em. auto. }
  assert (hk : keep (hist s) H').
  { intros m q Em. destruct (Hold m q Em) as (q' & Em' & hm & _). exists q'. split; [exact Em' | apply marks_keeps; exact hm]. }
  assert (hg : grows (hist s) H').
  { split.
    - intros m q Em. destruct (Hold m q Em) as (q' & Em' & _ & hc & _). eauto.
    - intros m q' Em'. destruct (Hback m q' Em') as [(q & Em)|(-> & ->)].
      + left. destruct (Hold m q Em) as (q2 & E2 & _ & hc & _). rewrite Em' in E2. inversion E2; subst q2. eauto.
      + right. cbn. unfold j. auto 10. }
  assert (fresh_j : forall k' v, nth_error (runs s) k' = Some v -> ~ In j (asked v)).
  { intros k' v Ev Hj. assert (Hp : In j (pts v)) by (unfold asked in Hj; destruct (pts v); cbn in *; auto).
    pose proof (pts_lt _ _ _ _ _ (iR _ _ I k' v Ev) Hp). unfold j in *. lia. }
  assert (NT : ~ taken s i).
  { intros T. destruct (taken_asked s [] i I T) as (q & Eq & Hl). rewrite Er in Eq. inversion Eq; subst q.
    destruct (iA1 _ _ I i r Er T) as [_ Ha]. rewrite (Hact Hl) in Ha. discriminate. }
  assert (tk : forall m, taken (mkst H' (n_s s) (runs s ++ [u]) (kids s ++ [(j, k)]) (quit s) (first s)) m <-> taken s m \/ m = j).
  { intros m. split.
    - intros (k' & v & Ev & Hl & Hv). cbn [runs] in Ev. apply nth_app_new in Ev as [Ev|[Hge Ev]].
      + left. exists k', v. auto.
      + right. destruct (k' - length (runs s)) as [|[|]]; cbn in Ev; try discriminate. inversion Ev; subst v. cbn in Hv. destruct Hv as [->|[]]. reflexivity.
    - intros [(k' & v & Ev & h)| ->].
      + exists k', v. cbn [runs]. split; [apply nth_app_old; exact Ev | exact h].
      + exists k, u. cbn [runs]. split; [unfold k; rewrite nth_error_app2, Nat.sub_diag by lia; reflexivity|]. split; [reflexivity|]. left. reflexivity. }
  assert (Hrow_started : forall q', nth_error H' i = Some q' -> started q' = true).
  { intros q' Eq'. destruct (Hold i r Er) as (q2 & E2 & _ & _ & hs & _). rewrite Eq' in E2. inversion E2; subst q2. auto. }
  split; [|split; [|split; [reflexivity|split; [exact Hlen|split; [rewrite Hnew; discriminate|split; [|split; [reflexivity|split; [|split; [exact Hrow_started|]]]]]]]]].
  - constructor; cbn [hist n_s runs kids quit first].
    + eapply grows_Dinv; [exact hg | exact (iD _ _ I)].
    + split; [constructor | intros a []].
    + intros k' v Ev. apply nth_app_new in Ev as [Ev|[Hge Ev]].
      * eapply runok_keep; [exact hk|]. exact (iR _ _ I k' v Ev).
      * assert (k' = k) by (apply nth_lt in Ev; cbn in Ev; unfold k in *; lia). subst k'. unfold k in Ev. rewrite Nat.sub_diag in Ev. cbn in Ev. inversion Ev; subst v.
        split; [reflexivity|]. split; [cbn; lia|]. split; [|split; [|split; [|split; [|split]]]].
        -- cbn [pts u]. intros m m' a a' Hm Em Em'. destruct m as [|[|m]], m' as [|[|m']]; cbn in *; try lia; try (destruct m; discriminate); try (destruct m'; discriminate).
           inversion Em; inversion Em'; subst. lia.
        -- cbn [pts fed u]. intros m a q Em Ef. destruct m as [|[|m]]; cbn in *; try discriminate. inversion Em; inversion Ef; subst.
           destruct (Hold a r Er) as (q' & Eq' & hm & _). exists q'. destruct hm as (<- & <- & _ & <- & _). auto.
        -- cbn [pts fed u length nth_error]. intros a Ea. inversion Ea; subst a. exists (fresh_row c true j p). split; [exact Hnew|]. cbn. split; [discriminate | contradiction].
        -- cbn [pts fed u]. intros m a Ea. destruct m as [|m]; cbn in Ea; [|destruct m; discriminate]. inversion Ea; subst a.
           exists (fresh_row c true j p), p. split; [exact Hnew|]. split; [reflexivity|]. split; [exact Eo | reflexivity].
        -- discriminate.
        -- cbn [origin pts u hd]. destruct (Hold i r Er) as (q' & Eq' & _ & _ & hs & _). exists q'. auto.
    + destruct (iK _ _ I) as [NK hkids]. split.
      * rewrite map_app. cbn [map fst].
        assert (Hnj : ~ In j (map fst (kids s))).
        { intros hj. apply in_map_iff in hj as ([j' k'] & Ej & Hj). cbn in Ej; subst j'.
          apply hkids in Hj as (v & Ev & Hv). exact (fresh_j k' v Ev Hv). }
        clear - NK Hnj. induction (map fst (kids s)) as [|y L IH]; cbn; [repeat constructor; auto|].
        inversion NK; subst. constructor; [|apply IH; [auto | intros h; apply Hnj; right; exact h]].
        intros h. apply in_app_iff in h as [h|[h|[]]]; [contradiction|]. apply Hnj. left. auto.
      * intros j' k'. rewrite in_app_iff. cbn [In]. split.
        -- intros [h|[h|[]]].
           ++ apply hkids in h as (v & Ev & Hv). exists v. split; [apply nth_app_old; exact Ev | exact Hv].
           ++ inversion h; subst j' k'. exists u. split; [unfold k; rewrite nth_error_app2, Nat.sub_diag by lia; reflexivity|]. left. reflexivity.
        -- intros (v & Ev & Hv). apply nth_app_new in Ev as [Ev|[Hge Ev]]; [left; apply hkids; eauto|].
           assert (k' = k) by (apply nth_lt in Ev; cbn in Ev; unfold k in *; lia). subst k'. unfold k in Ev. rewrite Nat.sub_diag in Ev. cbn in Ev. inversion Ev; subst v.
           cbn in Hv. destruct Hv as [<-|[]]. right. left. reflexivity.
    + assert (hdiff : forall k' v, nth_error (runs s) k' = Some v -> origin v <> i).
      { intros k' v Ev Eo'. destruct (iR _ _ I k' v Ev) as (_ & _ & _ & _ & _ & _ & _ & q & Eq & Hs). rewrite Eo', Er in Eq. inversion Eq; subst q. congruence. }
      intros k1 k2 v1 v2 E1 E2 Eo12. apply nth_app_new in E1 as [E1|[Hge1 E1]]; apply nth_app_new in E2 as [E2|[Hge2 E2]].
      * exact (iO _ _ I k1 k2 v1 v2 E1 E2 Eo12).
      * exfalso. destruct (k2 - length (runs s)) as [|[|]]; cbn in E2; try discriminate. inversion E2; subst v2. exact (hdiff k1 v1 E1 Eo12).
      * exfalso. destruct (k1 - length (runs s)) as [|[|]]; cbn in E1; try discriminate. inversion E1; subst v1. exact (hdiff k2 v2 E2 (eq_sym Eo12)).
      * apply nth_lt in E1, E2. cbn in E1, E2. lia.
    + intros m q' Em' T. destruct (Hback m q' Em') as [(q & Em)|(-> & ->)]; [|cbn; auto].
      apply tk in T as [T| ->]; [|apply nth_lt in Em; unfold j in Em; lia].
      assert (Hmi : m <> i) by (intros ->; contradiction).
      destruct (Hold m q Em) as (q2 & E2 & _ & _ & _ & he). rewrite Em' in E2. inversion E2; subst q2. rewrite (he Hmi). exact (iA1 _ _ I m q Em T).
    + intros m q' Em' T Hs. destruct (Hback m q' Em') as [(q & Em)|(-> & ->)]; [|exfalso; apply T; apply tk; auto].
      assert (Hmi : m <> i) by (intros ->; rewrite (Hrow_started q' Em') in Hs; discriminate).
      destruct (Hold m q Em) as (q2 & E2 & _ & _ & _ & he). rewrite Em' in E2. inversion E2; subst q2. rewrite (he Hmi) in *.
      apply (iA2 _ _ I m q Em); [|exact Hs]. intros Tm. apply T. apply tk. auto.
    + destruct (iQ _ _ I) as [NQ hq]. split; [exact NQ|]. intros k'. rewrite hq. split; intros (v & Ev & Hv).
      * exists v. split; [apply nth_app_old; exact Ev | exact Hv].
      * apply nth_app_new in Ev as [Ev|[Hge Ev]]; [eauto|]. destruct (k' - length (runs s)) as [|[|]]; cbn in Ev; try discriminate. inversion Ev; subst v. discriminate.
    + unfold room in Hroom. destruct (max_runs c) as [m|]; [|exact Logic.I]. rewrite countb_app. unfold countb at 2. cbn. apply Nat.ltb_lt in Hroom. lia.
    + rewrite (iN _ _ I). f_equal. symmetry. apply countb_keep; [|unfold j in *; lia|].
      * intros m q q' E1 E2. destruct (hk m q E1) as (q2 & E2' & kq). rewrite E2 in E2'. inversion E2'; subst q2. destruct kq as (_ & _ & -> & -> & _). reflexivity.
      * intros m q Hm Em. destruct (Hback m q Em) as [(q0 & Em0)|(-> & ->)]; [apply nth_lt in Em0; lia | reflexivity].
  - split; [|split; [|split; [cbn [hist]; fold j; lia | auto]]].
    + intros m q Em. destruct (Hold m q Em) as (q' & Em' & hm & _). eauto.
    + intros m q Hm Em. destruct (Hback m q Em) as [(q0 & Em0)|(-> & ->)]; [apply nth_lt in Em0; lia | cbn; auto].
  - intros q Eq. rewrite Hnew in Eq. inversion Eq; reflexivity.
  - exists u. auto.
  - intros m q q' Hne Em Em'. destruct (Hold m q Em) as (q2 & E2 & _ & _ & _ & he). rewrite Em' in E2. inversion E2; subst q2. rewrite (he Hne). reflexivity.
Qed.
End P.
