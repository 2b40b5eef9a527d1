(** Proofs about APOSMM (AposmmModel), continued: a whole pass of its loop, and all
    states that can be reached. *)
From Verif Require Import Base BaseLemmas AposmmModel AposmmSpec AposmmDist AposmmProofs.
Local Open Scope nat_scope.

Section R.
Context {X : Type}.
Variable c : conf X.
Hypothesis Sym : symmetric c.
Variable extra : nat.
Notation row := (row X).
Notation run := (run X).
Notation st := (st X).
Notation Inv := (Inv c extra []).
Implicit Types (H : list row) (r q : row) (u : run) (s : st).

Lemma later_trans s s1 s2 : later s s1 -> later s1 s2 -> later s s2.
Proof.
  intros (o1 & w1 & l1 & n1 & q1) (o2 & w2 & l2 & n2 & q2).
  split; [|split; [|split; [lia|split; congruence]]].
  - intros i q E. destruct (o1 i q E) as (q' & E' & m1). destruct (o2 i q' E') as (q'' & E'' & m2).
    exists q''. split; [exact E''|]. unfold marks in *. intuition congruence.
  - intros i q Hi E. destruct (Nat.lt_ge_cases i (length (hist s1))) as [Hlt|Hge]; [|exact (w2 i q Hge E)].
    apply nth_error_Some in Hlt. destruct (nth_error (hist s1) i) as [p|] eqn:E1; [|congruence].
    pose proof (w1 i p Hi E1) as (a & b). destruct (o2 i p E1) as (p' & E' & m).
    rewrite E in E'. inversion E'; subst p'.
    destruct m as (_ & _ & _ & me & _ & _ & ml & _). split; congruence.
Qed.

Lemma room_mono s s' : countb live (runs s) <= countb live (runs s') -> room c s' = true -> room c s = true.
Proof. unfold room. destruct (max_runs c); [|auto]. intros h E. apply Nat.ltb_lt in E. apply Nat.ltb_lt. lia. Qed.

Lemma start_all_ok L s nw s' nw' :
  Inv s -> NoDup L -> (forall i, In i L -> startable s i) -> start_all c L s nw = Ok (s', nw') ->
  Inv s' /\ later s s' /\ first s' = first s /\
  (forall i q, length (hist s) <= i -> nth_error (hist s') i = Some q -> local q = true) /\
  (exists us, runs s' = runs s ++ us /\ (forall u, In u us -> In (origin u) L) /\
     length (hist s') = length (hist s) + length us /\
     nw' = nw ++ seq (length (hist s)) (length us) /\
     (forall j q q', nth_error (hist s) j = Some q -> nth_error (hist s') j = Some q' ->
        started q' = true -> started q = true \/ exists u, In u us /\ origin u = j)) /\
  (room c s' = true -> forall i, In i L -> exists q, nth_error (hist s') i = Some q /\ started q = true).
Proof.
  revert s nw; induction L as [|i L IH]; intros s nw I N Hst E; cbn [start_all] in E.
  - inversion E; subst. split; [exact I|]. split; [apply later_refl|]. split; [reflexivity|].
    split; [intros i q Hi Ei; apply nth_lt in Ei; lia|]. split; [|intros _ i []].
    exists []. rewrite app_nil_r. cbn. rewrite app_nil_r. repeat split; auto.
    intros j q q' E1 E2 Es. left. congruence.
  - inversion N as [|? ? Hni N']; subst. destruct (room c s) eqn:Er.
    + destruct (start c i s nw) as [[s1 n1]|] eqn:E1; [|discriminate]. cbn [bindr] in E.
      destruct (start_ok c extra i s nw s1 n1 I (Hst i (or_introl eq_refl)) Er E1)
        as (I1 & L1 & F1 & Hlen & _ & Hloc & -> & (u & Eu & Eo & Hl) & Hs & Hoth).
      assert (Hst1 : forall j, In j L -> startable s1 j).
      { intros j Hj. destruct (Hst j (or_intror Hj)) as (r & Er' & a & b & d). destruct L1 as (o1 & _).
        destruct (o1 j r Er') as (r' & Er1 & m). exists r'. split; [exact Er1|].
        assert (Hne : j <> i) by (intros ->; contradiction).
        rewrite (Hoth j r r' Hne Er' Er1). destruct m as (_ & _ & <- & <- & _ & _ & _ & <-). auto. }
      destruct (IH s1 _ I1 N' Hst1 E) as (I2 & L2 & F2 & Hloc2 & (us & Eus & Hus & Hlen2 & Enw & Hsd) & Hall).
      split; [exact I2|]. split; [eapply later_trans; eauto|]. split; [congruence|]. split; [|split].
      * intros m q Hm Em. destruct (Nat.lt_ge_cases m (length (hist s1))) as [Hlt|Hge]; [|exact (Hloc2 m q Hge Em)].
        assert (m = length (hist s)) by lia. subst m. apply nth_error_Some in Hlt.
        destruct (nth_error (hist s1) (length (hist s))) as [p|] eqn:Ep; [|congruence].
        destruct L2 as (o2 & _). destruct (o2 _ p Ep) as (p' & Ep' & mk). rewrite Em in Ep'. inversion Ep'; subst p'.
        destruct mk as (_ & _ & <- & _). apply Hloc. reflexivity.
      * exists (u :: us). rewrite Eus, Eu, <- app_assoc. cbn [app length In]. split; [reflexivity|].
        split; [intros v [<-|Hv]; [left; congruence | right; auto]|]. split; [lia|]. split.
        -- rewrite Enw, Hlen, <- app_assoc. cbn [seq app]. reflexivity.
        -- intros j q q' Ej Ej' Esd. destruct L1 as (o1 & _). destruct (o1 j q Ej) as (p & Ep & _).
           destruct (Hsd j p q' Ep Ej' Esd) as [hp|(v & Hv & Ev)]; [|eauto].
           destruct (Nat.eq_dec j i) as [->|Hne]; [right; exists u; auto|]. left. rewrite <- (Hoth j q p Hne Ej Ep). exact hp.
      * intros Hr m [<-|Hm]; [|exact (Hall Hr m Hm)].
        destruct (Hst i (or_introl eq_refl)) as (r & Eri & _). destruct L1 as (o1 & _). destruct (o1 i r Eri) as (r1 & Er1 & _).
        destruct L2 as (o2 & _). destruct (o2 i r1 Er1) as (r2 & Er2 & mk). exists r2. split; [exact Er2|]. apply mk. apply Hs. exact Er1.
    + destruct (IH s nw I N') as (I2 & L2 & F2 & Hloc2 & (us & Eus & Hus & Hlen2 & Enw & Hsd) & Hall);
        [intros j Hj; apply Hst; right; exact Hj | exact E |].
      split; [exact I2|]. split; [exact L2|]. split; [exact F2|]. split; [exact Hloc2|]. split.
      * exists us. split; [exact Eus|]. split; [intros v Hv; right; auto|]. auto.
      * intros Hr m Hm. exfalso. assert (room c s = true); [|congruence]. apply (room_mono s s'); [|exact Hr].
        rewrite Eus, countb_app. lia.
Qed.

(** ** The conditions, read from the records *)
Lemma beyond_elt e z y : elt e (Dist y) = true -> (y <= z)%Z -> beyond e z.
Proof. destruct e; cbn; [lia | discriminate]. Qed.
Lemma low_beyond H r loc e rk b j : low c known H r loc e -> Dinv c H -> elt rk e = true ->
  nth_error H j = Some b -> usable b = true -> local b = loc -> flt (f b) (f r) = true -> beyond rk (dist c (x r) (x b)).
Proof.
  intros L [_ HK] Hrk Ej Hu Hl Hf. pose proof (L j b Ej (HK j b Ej Hu) Hu Hl Hf) as h.
  apply elt_false_Dist in h as (y & -> & Hy). eapply beyond_elt; eauto.
Qed.
Lemma seed_promising H rk i r : Dinv c H -> nth_error H i = Some r ->
  sample_seed c H rk r = true \/ local_seed c H rk r = true ->
  promising c rk H r /\ started r = false /\ (local r = true -> active r = 0%Z /\ lmin r = false) /\ (local r = false -> paused r = false).
Proof.
  intros HD Er Hseed.
  assert (Hcommon : isinf (f r) = false /\ isnan (f r) = false /\ test_2_to_5 c H rk r = true /\ elt rk (dl r) = true /\
            (local r = true -> active r = 0%Z /\ lmin r = false) /\ (local r = false -> paused r = false)).
  { destruct Hseed as [h|h]; [unfold sample_seed in h | unfold local_seed in h].
    - apply andb_true_iff in h as [h h6]. apply andb_true_iff in h as [h h5]. apply andb_true_iff in h as [h h4].
      apply andb_true_iff in h as [h h3]. apply andb_true_iff in h as [h1 h2]. apply negb_true_iff in h1, h2, h3, h6.
      repeat split; auto; congruence.
    - apply andb_true_iff in h as [h h7]. apply andb_true_iff in h as [h h6]. apply andb_true_iff in h as [h h5].
      apply andb_true_iff in h as [h h4]. apply andb_true_iff in h as [h h3]. apply andb_true_iff in h as [h1 h2].
      apply negb_true_iff in h3, h4, h7. apply Z.eqb_eq in h6. repeat split; auto; congruence. }
  destruct Hcommon as (Hinf & Hnan & Ht & Hdl & Hloc & Hsam). unfold test_2_to_5 in Ht.
  apply andb_true_iff in Ht as [Ht t5]. apply andb_true_iff in Ht as [Ht t4]. apply andb_true_iff in Ht as [Ht t3].
  apply andb_true_iff in Ht as [t1 t2]. apply negb_true_iff in t3, t4.
  assert (Hu : usable r = true) by (unfold usable; rewrite t1, Hnan; reflexivity).
  pose proof HD as [HP HK]. destruct (HP i r Er) as (_ & Hk & _). destruct (Hk (HK i r Er Hu)) as (_ & He & L1 & L2).
  split; [|auto]. split; [exact t1|]. split; [destruct (f r); cbn in *; try discriminate; eauto|]. split; [|split].
  - rewrite He in t4. cbn [elt] in t4. apply Z.ltb_ge in t4. exact t4.
  - intros Hnu j m Em Hm. apply orb_true_iff in t5 as [t5|t5]; [apply negb_true_iff in t5; apply Z.ltb_ge in t5; clear - t5 Hnu; lia|].
    rewrite forallb_forall in t5. specialize (t5 m (nth_error_In _ _ Em)). rewrite Hm in t5. unfold apart in t5. cbn [negb orb] in t5. clear - t5; lia.
  - intros j b Eb Heb Hless. apply flt_less in Hless.
    assert (Hub : usable b = true).
    { unfold usable. rewrite Heb. destruct (f b); cbn in *; try reflexivity; discriminate. }
    destruct (local b) eqn:Elb; [exact (low_beyond H r true (dl r) rk b j L1 HD Hdl Eb Hub Elb Hless) | exact (low_beyond H r false (ds r) rk b j L2 HD t2 Eb Hub Elb Hless)].
Qed.
Lemma promising_seed H z i r : Dinv c H -> nth_error H i = Some r ->
  promising c (Dist z) H r -> no_tie H i r -> started r = false ->
  (local r = true -> active r = 0%Z /\ lmin r = false) -> (local r = false -> paused r = false) ->
  sample_seed c H (Dist z) r = true \/ local_seed c H (Dist z) r = true.
Proof.
  intros HD Er (t1 & (v & Ev) & t4 & t5 & tb) Htie t3 Hloc Hsam.
  assert (Hu : usable r = true) by (unfold usable; rewrite t1, Ev; reflexivity).
  pose proof HD as [HP HK]. destruct (HP i r Er) as (_ & Hk & W1 & W2 & _). destruct (Hk (HK i r Er Hu)) as (_ & He & _).
  assert (hw : forall loc e k, wit c H i r loc e k -> elt (Dist z) e = true).
  { intros loc e k [[-> _]|(j & b & Ej & Hne & Hub & _ & Hf & -> & _)]; [reflexivity|].
    unfold usable in Hub. apply andb_true_iff in Hub as [Heb Hnb]. apply negb_true_iff in Hnb.
    destruct (flt (f b) (f r)) eqn:Efb.
    - apply flt_less in Efb. specialize (tb j b Ej Heb Efb). cbn [elt beyond] in *. clear - tb; lia.
    - exfalso. apply Hne. apply (Htie j b Ej Heb). rewrite Ev in *.
      clear - Hf Efb Hnb. destruct (f b); cbn in *; try discriminate. f_equal. lia. }
  assert (Ht : test_2_to_5 c H (Dist z) r = true).
  { unfold test_2_to_5. rewrite t1, (hw _ _ _ W2), t3, He. cbn [andb negb elt].
    replace (rim c (x r) <? mu c)%Z with false by (symmetry; apply Z.ltb_ge; exact t4). cbn [andb negb].
    destruct (0 <? nu c)%Z eqn:En; [|reflexivity]. cbn [negb orb]. apply forallb_forall. intros m Hm.
    destruct (lmin m) eqn:Em; [|reflexivity]. cbn. apply In_nth_error in Hm as [j Ej]. unfold apart.
    apply Z.ltb_lt in En. assert (hh := t5 En j m Ej Em). clear - hh. cbn [negb orb]. lia. }
  destruct (local r) eqn:El.
  - right. destruct (Hloc eq_refl) as [Ha Hm]. unfold local_seed. rewrite El, (hw _ _ _ W1), Ev, Ht, Ha, Hm. reflexivity.
  - left. unfold sample_seed. rewrite El, Ev, Ht, (hw _ _ _ W1), (Hsam eq_refl). reflexivity.
Qed.

(** ** Samples *)
Lemma add_samples_len k H : length (add_samples c k H) = length H + k.
Proof.
  unfold add_samples. cbv zeta. rewrite !add_pts_len, map_length, seq_length, firstn_length, skipn_length. lia.
Qed.
Lemma add_samples_new k H j q : nth_error (add_samples c k H) j = Some q ->
  nth_error H j = Some q \/ (length H <= j /\ exists p, q = fresh_row c false j p).
Proof.
  unfold add_samples. cbv zeta. intros E. apply add_pts_nth in E as [E|(Hge & p & _ & ->)].
  - apply add_pts_nth in E as [E|(Hge & p & _ & ->)]; [auto | right; eauto].
  - right. rewrite add_pts_len in Hge. split; [lia | eauto].
Qed.
Lemma add_samples_old k H j q : nth_error H j = Some q -> nth_error (add_samples c k H) j = Some q.
Proof. intros E. unfold add_samples. cbv zeta. apply nth_app_old. apply nth_app_old. exact E. Qed.

(** ** The end of a pass *)
Definition wanted (nr : nat) s : nat := if first s then nworkers c - 1 else nr.
Lemma finish_ok nr s nw op s' out :
  Inv s -> finish c nr s nw op = Ok (s', out) ->
  Inv s' /\ later s s' /\ first s' = false /\
  exists rk us, calc_rk c (n_s s') = Ok rk /\ runs s' = runs s ++ us /\
    (forall u, In u us -> exists r, nth_error (hist s') (origin u) = Some r /\ promising c rk (hist s') r /\
        started r = true /\ ~ taken s' (origin u) /\ (local r = true -> lmin r = false) /\ (local r = false -> paused r = false)) /\
    length nw + (length (hist s') - length (hist s)) = Nat.max (wanted nr s) (length nw + length us) /\
    out = nw ++ seq (length (hist s)) (length (hist s') - length (hist s)) ++ op /\
    (room c s' = true -> forall z i r, rk = Dist z -> nth_error (hist s') i = Some r -> promising c rk (hist s') r -> no_tie (hist s') i r ->
       ~ taken s' i -> (local r = true -> lmin r = false) -> (local r = false -> paused r = false) -> started r = true) /\
    (forall j r, j < length (hist s) + length us -> length (hist s) <= j -> nth_error (hist s') j = Some r -> local r = true) /\
    (forall j r, length (hist s) + length us <= j -> nth_error (hist s') j = Some r -> local r = false) /\
    (forall j q q', nth_error (hist s) j = Some q -> nth_error (hist s') j = Some q' ->
        started q' = true -> started q = true \/ exists u, In u us /\ origin u = j).
Proof.
  intros I E. unfold finish in E. destruct (decide c (hist s) (n_s s)) as [L|] eqn:EL; [|discriminate]. cbn [bindr] in E.
  destruct (start_all c L s nw) as [[s1 n1]|] eqn:Es; [|discriminate]. cbn [bindr] in E.
  fold (wanted nr s) in E. set (k := wanted nr s - length n1) in *. inversion E as [[E1 E2]]; subst s' out. clear E.
  destruct (decide_spec c (hist s) (n_s s) L EL) as (rk & Erk & N & HL).
  pose proof (iD _ _ _ _ I) as HD.
  assert (Hst : forall i, In i L -> startable s i).
  { intros i Hi. apply HL in Hi as (r & Er & Hseed). destruct (seed_promising _ rk i r HD Er Hseed) as ((Hen & _) & Hs & Hl & _).
    exists r. split; [exact Er|]. split; [exact Hen|]. split; [exact Hs|]. intros h. apply Hl; exact h. }
  destruct (start_all_ok L s nw s1 n1 I N Hst Es) as (I1 & L1 & F1 & Hloc & (us & Eus & Hus & Hlen & En1 & Hsd) & Hall).
  set (s' := mkst (add_samples c k (hist s1)) (n_s s1) (runs s1) (kids s1) (quit s1) false).
  assert (I' : Inv s').
  { apply (Inv_first c extra [] (mkst (add_samples c k (hist s1)) (n_s s1) (runs s1) (kids s1) (quit s1) (first s1))). apply Inv_add_samples. exact I1. }
  assert (L2 : later s1 s').
  { split; [|split; [|split; [cbn; rewrite add_samples_len; lia | auto]]].
    - intros i q Ei. exists q. split; [apply add_samples_old; exact Ei | apply marks_refl].
    - intros i q Hi Ei. apply add_samples_new in Ei as [Ei|(_ & p & ->)]; [apply nth_lt in Ei; lia | cbn; auto]. }
  pose proof (later_trans _ _ _ L1 L2) as L'.
  split; [exact I'|]. split; [exact L'|]. split; [reflexivity|].
  exists rk, us. cbn [hist n_s runs kids quit first s'].
  destruct L' as (Lo & Lw & Ll & Ln & Lq).
  (* old rows and new ones *)
  assert (back : forall i q', nth_error (hist s') i = Some q' -> ended q' = true \/ lmin q' = true -> exists q, nth_error (hist s) i = Some q /\ marks q q').
  { intros i q' Ei He. destruct (Nat.lt_ge_cases i (length (hist s))) as [Hlt|Hge].
    - apply nth_error_Some in Hlt. destruct (nth_error (hist s) i) as [q|] eqn:Eq; [|congruence].
      destruct (Lo i q Eq) as (q2 & E2 & m). rewrite Ei in E2. inversion E2; subst q2. eauto.
    - destruct (Lw i q' Hge Ei) as [h1 h2]. destruct He; congruence. }
  assert (prom : forall i q q', nth_error (hist s) i = Some q -> nth_error (hist s') i = Some q' ->
            (promising c rk (hist s) q <-> promising c rk (hist s') q') /\ marks q q').
  { intros i q q' Eq Eq'. destruct (Lo i q Eq) as (q2 & E2 & m). rewrite Eq' in E2. inversion E2; subst q2. split; [|exact m].
    destruct m as (mx & mf & ml & me & mp & ms & mm & ma). unfold promising. rewrite <- mx, <- mf, <- me.
    split; intros (a & b & d & e & g); (split; [exact a|]; split; [exact b|]; split; [exact d|]; split).
    - intros Hnu j p Ep Hp. destruct (back j p Ep (or_intror Hp)) as (p0 & Ep0 & m0).
      destruct m0 as (<- & _ & _ & _ & _ & _ & hm & _). apply (e Hnu j p0 Ep0). congruence.
    - intros j b0 Eb Heb Hf. destruct (back j b0 Eb (or_introl Heb)) as (p0 & Ep0 & m0).
      destruct m0 as (mx0 & mf0 & _ & me0 & _). rewrite <- mx0. apply (g j p0 Ep0); congruence.
    - intros Hnu j p Ep Hp. destruct (Lo j p Ep) as (p0 & Ep0 & m0).
      destruct m0 as (-> & _ & _ & _ & _ & _ & hm & _). apply (e Hnu j p0 Ep0). congruence.
    - intros j b0 Eb Heb Hf. destruct (Lo j b0 Eb) as (p0 & Ep0 & m0).
      destruct m0 as (mx0 & mf0 & _ & me0 & _). rewrite mx0. apply (g j p0 Ep0); congruence. }
  assert (runs_s' : runs s' = runs s ++ us) by exact Eus.
  split; [cbn in Ln; rewrite Ln; exact Erk|]. split; [exact Eus|].
  split; [|split; [|split; [|split; [|split; [|split]]]]].
  - intros u Hu. pose proof (Hus u Hu) as Hi. apply HL in Hi as (r & Er & Hseed).
    destruct (seed_promising _ rk _ r HD Er Hseed) as (Hp & Hs & Hl & Hpa).
    destruct (Lo _ r Er) as (r' & Er' & m'). exists r'. split; [exact Er'|].
    destruct (prom _ r r' Er Er') as [hp m]. split; [apply hp; exact Hp|].
    assert (Hsr : started r' = true).
    { assert (Hin : In u (runs s')) by (rewrite runs_s'; apply in_app_iff; auto). apply In_nth_error in Hin as [k' Ek'].
      destruct (iR _ _ _ _ I' k' u Ek') as (_ & _ & _ & _ & _ & _ & _ & q & Eq & Hsq).
      assert (q = r') by (cbn [hist s'] in Eq; cbn [hist s'] in Er'; congruence). congruence. }
    split; [exact Hsr|]. split.
    + intros T. destruct (iA1 _ _ _ _ I' _ r' Er' T) as [h _]. congruence.
    + destruct m as (_ & _ & <- & _ & <- & _ & <- & _). split; [intros h; apply Hl; exact h | exact Hpa].
  - rewrite add_samples_len, Hlen. unfold k. rewrite En1, app_length, seq_length. clear. lia.
  - rewrite add_samples_len, Hlen. rewrite En1, <- app_assoc. f_equal. rewrite app_assoc. f_equal.
    replace (length (hist s) + length us + k - length (hist s)) with (length us + k) by lia. rewrite seq_app. reflexivity.
  - intros Hroom z i r' Hz Er' Hp Htie HT Hlm Hpa.
    destruct (started r') eqn:Est; [reflexivity|]. exfalso.
    assert (Hen : ended r' = true) by apply Hp.
    destruct (back i r' Er' (or_introl Hen)) as (r & Er & m).
    destruct (prom i r r' Er Er') as [hp _]. apply hp in Hp.
    destruct m as (mx & mf & ml & me & mp & ms & mm & ma).
    assert (HiL : In i L).
    { apply HL. exists r. split; [exact Er|]. subst rk. apply (promising_seed (hist s) z i r HD Er Hp).
      - intros j b Eb Heb Hf. destruct (Lo j b Eb) as (b' & Eb' & mb). destruct mb as (_ & mf' & _ & me' & _).
        apply (Htie j b' Eb'); congruence.
      - destruct (started r); [|reflexivity]. rewrite ms in Est by reflexivity. discriminate.
      - intros h. split; [|rewrite mm; apply Hlm; congruence]. rewrite ma. exact (iA2 _ _ _ _ I' i r' Er' HT Est).
      - intros h. rewrite mp. apply Hpa. congruence. }
    assert (Hr1 : room c s1 = true) by exact Hroom.
    destruct (Hall Hr1 i HiL) as (q & Eq & Hq). pose proof (add_samples_old k _ _ _ Eq) as Eq'.
    cbn [hist s'] in Er'. congruence.
  - intros j r Hj1 Hj2 Ej. apply add_samples_new in Ej as [Ej|(Hge & _)]; [|lia]. exact (Hloc j r Hj2 Ej).
  - intros j r Hj Ej. apply add_samples_new in Ej as [Ej|(Hge & p & ->)]; [apply nth_lt in Ej; lia | reflexivity].
  - intros j q q' Ej Ej' Esd. destruct L1 as (o1 & _). destruct (o1 j q Ej) as (q1 & Ej1 & _).
    pose proof (add_samples_old k _ _ _ Ej1) as Ej2. assert (q1 = q') by congruence. subst q1. exact (Hsd j q q' Ej Ej1 Esd).
Qed.

Lemma pass_split l s s' out : Inv s -> answers l (hist s) -> pass c l s = Ok (s', out) ->
  exists s1 s2 nw op, receive c l s = Ok s1 /\ AposmmProofs.Inv c extra l s1 /\
    advance c l s1 [] [] = Ok (s2, nw, op) /\ Inv s2 /\ adv s1 [] s2 nw /\
    finish c (length l) s2 nw op = Ok (s', out).
Proof.
  intros I A E. destruct (receive_ok c Sym extra l s I A) as (s1 & E1 & I1 & _).
  unfold pass in E. rewrite E1 in E. cbn [bindr] in E.
  destruct (advance c l s1 [] []) as [[[s2 nw] op]|] eqn:E2; [|discriminate]. cbn [bindr] in E.
  destruct (advance_ok c extra l s1 [] [] s2 nw op I1 E2) as [I2 A2].
  exists s1, s2, nw, op. auto 10.
Qed.
Lemma pass_Inv l s s' out : Inv s -> answers l (hist s) -> pass c l s = Ok (s', out) -> Inv s'.
Proof.
  intros I A E. destruct (pass_split l s s' out I A E) as (s1 & s2 & nw & op & _ & _ & _ & I2 & _ & E3).
  exact (proj1 (finish_ok _ _ _ _ _ _ I2 E3)).
Qed.
End R.

(** ** From the start *)
Definition pending {X} (given : list (row X)) : nat := countb (fun r => negb (local r) && negb (ended r)) given.
Section B.
Context {X : Type}.
Variable c : conf X.
Hypothesis Sym : symmetric c.

Lemma initialize_Inv given size s : given_ok given -> initialize c given size = Ok s ->
  Inv c (pending given) [] s /\ runs s = [] /\ Forall2 same (hist s) (map reset given) /\ first s = true /\ quit s = [].
Proof.
  intros G E.
  assert (HP : Pinv c (map reset given)).
  { intros i r Ei. rewrite map_nth_error_opt in Ei. destruct (nth_error given i) as [g|] eqn:Eg; [|discriminate].
    cbn in Ei. inversion Ei; subst r. destruct (G i g Eg) as (a & b & d). cbn. split; [exact a|]. split; [congruence|].
    split; [left; auto|]. split; [left; auto|]. auto. }
  assert (HH : exists H', (match given with [] => Ok [] | _ => update_dist c (map reset given) end) = Ok H' /\ Dinv c H' /\ Forall2 same H' (map reset given)).
  { destruct given as [|g0 gs].
    - exists []. split; [reflexivity|]. split; [|constructor]. split; intros i r Ei; destruct i; discriminate.
    - exact (update_dist_ok c Sym _ HP). }
  destruct HH as (H' & E1 & D1 & S1). unfold initialize in E. rewrite E1 in E. cbn [bindr] in E.
  destruct (_ && _); [discriminate|]. inversion E; subst s. clear E. cbn [runs hist first quit].
  split; [|auto].
  constructor; cbn [hist n_s runs kids quit first].
  - exact D1.
  - split; [constructor | intros a []].
  - intros [|k] u Ek; discriminate.
  - split; [constructor|]. intros j k. split; [contradiction|]. intros (u & Eu & _). destruct k; discriminate.
  - intros [|k] k' u u' Ek; discriminate.
  - intros i q Ei (k & u & Ek & _). destruct k; discriminate.
  - intros i q Ei _ _. destruct (sameH_nth _ _ i q S1 Ei) as (q' & Eq' & sq). rewrite map_nth_error_opt in Eq'.
    destruct (nth_error given i) as [g|] eqn:Eg; [|discriminate]. cbn in Eq'. inversion Eq'; subst q'.
    destruct (G i g Eg) as (_ & _ & d). destruct sq as (_ & _ & _ & _ & _ & -> & _). exact d.
  - split; [constructor|]. intros k. split; [contradiction|]. intros (u & Eu & _). destruct k; discriminate.
  - destruct (max_runs c); [cbn; lia | exact Logic.I].
  - unfold pending. clear - S1. revert H' S1. induction given as [|g gs IH]; intros H' S1; inversion S1 as [|p ? L ? sp hL]; subst; [reflexivity|].
    specialize (IH L hL). unfold countb in *. cbn [filter]. destruct sp as (_ & _ & -> & -> & _). cbn [reset local ended].
    destruct (local g), (ended g); cbn [negb andb length]; lia.
Qed.
Lemma boot_Inv given size s out : given_ok given -> boot c given size = Ok (s, out) -> Inv c (pending given) [] s.
Proof.
  intros G E. unfold boot in E. destruct (initialize c given size) as [s0|] eqn:E0; [|discriminate]. cbn [bindr] in E.
  destruct (initialize_Inv given size s0 G E0) as (I0 & _).
  destruct (size =? 0).
  - exact (proj1 (finish_ok c (pending given) _ _ _ _ _ _ I0 E)).
  - inversion E; subst s out. apply Inv_add_samples. exact I0.
Qed.
Lemma Reach_Inv given size s : given_ok given -> Reach c given size s -> Inv c (pending given) [] s.
Proof.
  intros G. induction 1 as [s out E | s l s1 out R IH A E].
  - exact (boot_Inv given size s out G E).
  - exact (pass_Inv c Sym _ l s s1 out IH A E).
Qed.
End B.
