(** Proofs about APOSMM (AposmmModel), continued: a pass does not fail, the best
    points are taken first, the workers are kept busy, and the user's sample points
    are used in order. *)
From Verif Require Import Base BaseLemmas AposmmModel AposmmSpec AposmmDist AposmmProofs AposmmReach AposmmMinima.
Local Open Scope nat_scope.

Section T.
Context {X : Type}.
Variable c : conf X.
Hypothesis Sym : symmetric c.
Variable extra : nat.
Notation row := (row X).
Notation run := (run X).
Notation st := (st X).
Notation Inv := (Inv c extra).
Implicit Types (H : list row) (r q : row) (u : run) (s : st).

(** ** No failure *)
Lemma feed_total P a k u s nw op :
  (forall k l, opt c k l <> Fails) ->
  Inv (a :: P) s -> nth_error (runs s) k = Some u -> In (i_id a) (asked u) ->
  exists z, feed c k a s nw op = Ok z.
Proof.
  intros Hf I Eu Hask. unfold feed. rewrite Eu.
  destruct (awaits c extra P s a k u I Eu Hask) as [-> _].
  destruct (opt c k (fed u ++ [(i_x a, i_f a)])) as [p|p flag|] eqn:Eo; [eauto| |exfalso; exact (Hf _ _ Eo)].
  unfold mark_optimal. pose proof (nearest_spec c p (rows_of (hist s) (pts u))) as NS.
  destruct (nearest c p (rows_of (hist s) (pts u))) as [[o b]|]; [cbn [bindr]; eauto|]. exfalso.
  pose proof (iR _ _ _ _ I k u Eu) as Ru. destruct (origin_pts _ _ _ _ _ Ru) as [Ho _].
  pose proof (pts_lt _ _ _ _ _ _ Ru Ho) as Hlt. apply nth_error_Some in Hlt. destruct (nth_error (hist s) (origin u)) as [q|] eqn:Eq; [|congruence].
  assert (In (origin u, q) (rows_of (hist s) (pts u))) by (apply rows_of_In; auto). rewrite NS in *. contradiction.
Qed.
Lemma advance_total l s nw op : (forall k l, opt c k l <> Fails) -> Inv l s -> exists z, advance c l s nw op = Ok z.
Proof.
  intros Hf. revert s nw op; induction l as [|a l IH]; intros s nw op I; cbn [advance]; [eauto|].
  destruct (kids_of_cases s (i_id a) (proj1 (iK _ _ _ _ I))) as [[Ek Hn]|(k & Ek & Hk)]; rewrite Ek; cbn [feed_all bindr].
  - apply IH. eapply Inv_drop; eauto.
  - apply (iK _ _ _ _ I) in Hk as (u & Eu & Hu). destruct (feed_total l a k u s nw op Hf I Eu Hu) as ([[s1 n1] o1] & Ef).
    rewrite Ef. cbn [bindr]. apply IH. exact (proj1 (feed_ok c extra l a k u s nw op s1 n1 o1 I Eu Hu Ef)).
Qed.
Lemma start_all_total L s nw : (forall k l, opt c k l <> Fails) -> (forall k a p b, opt c k [a] <> Converged p b) ->
  (forall i, In i L -> i < length (hist s)) -> exists z, start_all c L s nw = Ok z.
Proof.
  intros Hf Hc. revert s nw; induction L as [|i L IH]; intros s nw HL; cbn [start_all]; [eauto|].
  destruct (room c s).
  - unfold start. assert (Hi : i < length (hist s)) by (apply HL; left; auto). apply nth_error_Some in Hi.
    destruct (nth_error (hist s) i) as [r|]; [|congruence].
    destruct (opt c (length (runs s)) [(x r, f r)]) as [p|p b|] eqn:Eo; [|exfalso; exact (Hc _ _ _ _ Eo)|exfalso; exact (Hf _ _ Eo)].
    cbn [bindr]. apply IH. intros j Hj. cbn [hist]. rewrite add_pts_len, upd_length. specialize (HL j (or_intror Hj)). lia.
  - apply IH. intros j Hj. apply HL. right; auto.
Qed.
Lemma finish_total nr s nw op : (forall k l, opt c k l <> Fails) -> (forall k a p b, opt c k [a] <> Converged p b) ->
  0 < n_s s -> exists z, finish c nr s nw op = Ok z.
Proof.
  intros Hf Hc Hn. unfold finish.
  assert (Hrk : exists rk, calc_rk c (n_s s) = Ok rk).
  { unfold calc_rk. destruct (ld c =? 0); [|cbv zeta; destruct (_ <=? 1); eauto]. destruct (n_s s =? 1); [eauto|].
    replace (n_s s =? 0) with false by (symmetry; apply Nat.eqb_neq; lia). eauto. }
  destruct Hrk as [rk Erk].
  destruct (decide c (hist s) (n_s s)) as [L|e] eqn:EL; [|unfold decide in EL; rewrite Erk in EL; discriminate]. cbn [bindr].
  destruct (decide_spec c (hist s) (n_s s) L EL) as (rk2 & _ & _ & HL).
  destruct (start_all_total L s nw Hf Hc) as ([s1 n1] & Es).
  { intros i Hi. apply HL in Hi as (r & Er & _). eapply nth_lt; eauto. }
  rewrite Es. cbn [bindr]. eauto.
Qed.
Lemma pass_total l s : (forall k l, opt c k l <> Fails) -> (forall k a p b, opt c k [a] <> Converged p b) ->
  Inv [] s -> answers l (hist s) ->
  0 < n_s s \/ (exists a r, In a l /\ nth_error (hist s) (i_id a) = Some r /\ local r = false) ->
  exists z, pass c l s = Ok z.
Proof.
  intros Hf Hc I A Hn. destruct (receive_ok c Sym extra l s I A) as (s1 & E1 & I1 & r1 & k1 & q1 & f1 & len1 & rows).
  unfold pass. rewrite E1. cbn [bindr].
  destruct (advance_total l s1 [] [] Hf I1) as ([[s2 nw] op] & E2). rewrite E2. cbn [bindr].
  destruct (advance_ok c extra l s1 [] [] s2 nw op I1 E2) as [I2 (_ & n2 & _)].
  apply finish_total; auto. rewrite n2. destruct Hn as [Hn|(a & r & Ha & Er & Hl)].
  - unfold receive in E1. destruct (write l (hist s)) as [H1|]; [|discriminate]. cbn [bindr] in E1.
    destruct (update_dist c H1) as [H2|]; [|discriminate]. cbn [bindr] in E1. inversion E1; subst s1. cbn [n_s]. lia.
  - rewrite (iN _ _ _ _ I1). destruct (rows _ r Er) as (r' & Er' & _ & hl & _ & _ & _ & _ & he & _).
    destruct (he (in_map i_id _ _ Ha)) as [_ He].
    assert (0 < countb (fun r => negb (local r) && ended r) (hist s1)); [|lia].
    unfold countb. assert (Hin : In r' (filter (fun r => negb (local r) && ended r) (hist s1))).
    { apply filter_In. split; [eapply nth_error_In; eauto|]. rewrite hl, Hl, He. reflexivity. }
    destruct (filter _ (hist s1)); [contradiction | cbn; lia].
Qed.

(** ** The best first *)
Definition num (p : nat * row) : Prop := exists z, f (snd p) = Val z.
Inductive best_first : list (nat * row) -> Prop :=
| bf_nil : best_first []
| bf_cons p l : (forall y, In y l -> flt (f (snd y)) (f (snd p)) = false) -> best_first l -> best_first (p :: l).
Lemma insert_best p l : num p -> (forall y, In y l -> num y) -> best_first l -> best_first (insert p l).
Proof.
  intros [zp Ep] Hl B. induction B as [|a l Ha B IH]; cbn [insert].
  - constructor; [intros q [] | constructor].
  - destruct (Hl a (or_introl eq_refl)) as [za Ea]. destruct (flt (f (snd a)) (f (snd p))) eqn:E.
    + constructor; [|apply IH; intros q Hq; apply Hl; right; auto]. intros q Hq. apply insert_In in Hq as [->|Hq]; [|auto].
      rewrite Ep, Ea in *. cbn in *. lia.
    + constructor; [|constructor; auto]. intros q [<-|Hq]; [exact E|]. specialize (Ha q Hq).
      destruct (Hl q (or_intror Hq)) as [zq Eq]. rewrite Ep, Ea, Eq in *. cbn in *. lia.
Qed.
Lemma sort_best l : (forall y, In y l -> num y) -> best_first (sort_by_f l).
Proof.
  induction l as [|a l IH]; intros h; [constructor|]. cbn. apply insert_best.
  - apply h. left; auto.
  - intros q Hq. apply (proj1 (sort_In l q)) in Hq. apply h. right; auto.
  - apply IH. intros q Hq. apply h. right; auto.
Qed.
Lemma best_app l1 l2 (p q : nat * row) : best_first (l1 ++ l2) -> In p l1 -> In q l2 -> flt (f (snd q)) (f (snd p)) = false.
Proof.
  induction l1 as [|a l1 IH]; cbn [app]; intros B Hp Hq; [contradiction|]. inversion B as [|? ? Ha B']; subst.
  destruct Hp as [<-|Hp]; [apply Ha; apply in_app_iff; auto | auto].
Qed.
Lemma start_all_none L s nw s' nw' : room c s = false -> start_all c L s nw = Ok (s', nw') -> s' = s.
Proof.
  revert s nw; induction L as [|i L IH]; intros s nw Hr E; cbn [start_all] in E; [inversion E; reflexivity|].
  rewrite Hr in E. eauto.
Qed.
Lemma start_all_prefix L s nw s' nw' : start_all c L s nw = Ok (s', nw') ->
  exists us L2, runs s' = runs s ++ us /\ L = map origin us ++ L2.
Proof.
  revert s nw; induction L as [|i L IH]; intros s nw E.
  - cbn in E. inversion E; subst. exists [], []. rewrite app_nil_r. auto.
  - cbn [start_all] in E. destruct (room c s) eqn:Er.
    + destruct (start c i s nw) as [[s1 n1]|] eqn:E1; [|discriminate]. cbn [bindr] in E.
      destruct (IH s1 n1 E) as (us & L2 & Eu & EL). unfold start in E1. destruct (nth_error (hist s) i) as [r|]; [|discriminate].
      destruct (opt c (length (runs s)) [(x r, f r)]) as [p| |]; try discriminate. inversion E1; subst s1 n1. cbn [runs] in Eu.
      eexists (_ :: us), L2. split; [rewrite Eu, <- app_assoc; reflexivity|]. cbn. congruence.
    + rewrite (start_all_none _ _ _ _ _ Er E). exists [], (i :: L). rewrite app_nil_r. auto.
Qed.
Lemma combine_seq_In (A : Type) (l : list A) k i a : In (i, a) (combine (seq k (length l)) l) <-> k <= i /\ nth_error l (i - k) = Some a.
Proof.
  revert k; induction l as [|b l IH]; intros k; cbn [length seq combine In].
  - split; [contradiction|]. intros [_ E]. destruct (i - k); discriminate.
  - rewrite IH. split.
    + intros [E|[Hi E]].
      * inversion E; subst. rewrite Nat.sub_diag. auto.
      * split; [lia|]. replace (i - k) with (S (i - S k)) by lia. exact E.
    + intros [Hi E]. destruct (Nat.eq_dec i k) as [->|Hne].
      * rewrite Nat.sub_diag in E. cbn in E. left. congruence.
      * right. split; [lia|]. replace (i - k) with (S (i - S k)) in E by lia. exact E.
Qed.
Lemma finish_best nr s nw op s' out : Inv [] s -> finish c nr s nw op = Ok (s', out) ->
  exists rk us, calc_rk c (n_s s') = Ok rk /\ runs s' = runs s ++ us /\
  forall u ru z i r, In u us -> nth_error (hist s') (origin u) = Some ru ->
    rk = Dist z -> nth_error (hist s') i = Some r -> promising c rk (hist s') r -> no_tie (hist s') i r ->
    ~ taken s' i -> (local r = true -> lmin r = false) -> (local r = false -> paused r = false) ->
    started r = false -> less (f ru) (f r).
Proof.
  intros I E. destruct (finish_ok c extra nr s nw op s' out I E) as (I' & (Lo & Lw & Ll & Ln & Lq) & _ & rk & us & Erk & Eus & Hor & _).
  exists rk, us. split; [exact Erk|]. split; [exact Eus|].
  intros u ru z i r' Hu Eru Hz Er' Hp Htie HT Hlm Hpa Hns.
  pose proof E as E0. unfold finish in E0. destruct (decide c (hist s) (n_s s)) as [L|] eqn:EL; [|discriminate]. cbn [bindr] in E0.
  destruct (start_all c L s nw) as [[s1 n1]|] eqn:Es; [|discriminate]. cbn [bindr] in E0. inversion E0 as [[E1 E2]]. clear E0 E2.
  destruct (start_all_prefix L s nw s1 n1 Es) as (us' & L2 & Eus' & EL').
  assert (us' = us). { apply (f_equal runs) in E1. cbn [runs] in E1. rewrite Eus', Eus in E1. apply app_inv_head in E1. exact E1. } subst us'.
  destruct (decide_spec c (hist s) (n_s s) L EL) as (rk' & Erk' & N & HL).
  assert (rk' = rk) by (rewrite Ln in Erk; congruence). subst rk'.
  (* i is in L *)
  assert (back : forall i q', nth_error (hist s') i = Some q' -> ended q' = true \/ lmin q' = true -> exists q, nth_error (hist s) i = Some q /\ marks q q').
  { intros i0 q' Ei He. destruct (Nat.lt_ge_cases i0 (length (hist s))) as [Hlt|Hge].
    - apply nth_error_Some in Hlt. destruct (nth_error (hist s) i0) as [q|] eqn:Eq; [|congruence].
      destruct (Lo i0 q Eq) as (q2 & E2 & m). rewrite Ei in E2. inversion E2; subst q2. eauto.
    - destruct (Lw i0 q' Hge Ei) as [h1 h2]. destruct He; congruence. }
  assert (Hen : ended r' = true) by apply Hp.
  destruct (back i r' Er' (or_introl Hen)) as (r & Er & m). pose proof m as (mx & mf & ml & me & mp & ms & mm & ma).
  assert (HiL : In i L).
  { apply HL. exists r. split; [exact Er|]. subst rk. apply (promising_seed c (hist s) z i r (iD _ _ _ _ I) Er).
    - destruct Hp as (a & b & d & e & g). split; [congruence|]. split; [rewrite mf; exact b|]. split; [rewrite mx; exact d|]. split.
      + intros Hnu j p Ep Hpl. destruct (Lo j p Ep) as (p0 & Ep0 & m0).
        destruct m0 as (-> & _ & _ & _ & _ & _ & hm & _). rewrite mx. apply (e Hnu j p0 Ep0). congruence.
      + intros j b0 Eb Heb Hf. destruct (Lo j b0 Eb) as (p0 & Ep0 & m0).
        destruct m0 as (mx0 & mf0 & _ & me0 & _). rewrite mx0, mx. apply (g j p0 Ep0); congruence.
    - intros j b Eb Heb Hf. destruct (Lo j b Eb) as (b' & Eb' & mb). destruct mb as (_ & mf' & _ & me' & _).
      apply (Htie j b' Eb'); congruence.
    - destruct (started r); [|reflexivity]. rewrite ms in Hns by reflexivity. discriminate.
    - intros h. split; [|rewrite mm; apply Hlm; congruence]. rewrite ma. exact (iA2 _ _ _ _ I' i r' Er' HT Hns).
    - intros h. rewrite mp. apply Hpa. congruence. }
  destruct (Hor u Hu) as (ru0 & Eru0 & (Heu & (zu & Ezu) & _) & Hsu & _). rewrite Eru in Eru0. inversion Eru0; subst ru0. clear Eru0.
  assert (Hni : ~ In i (map origin us)).
  { intros Hi. apply in_map_iff in Hi as (v & Ev & Hv). destruct (Hor v Hv) as (rv & Erv & _ & Hsv & _). rewrite Ev, Er' in Erv. inversion Erv; subst rv. congruence. }
  rewrite EL' in HiL. apply in_app_iff in HiL as [HiL|HiL]; [contradiction|].
  (* order *)
  unfold decide in EL. rewrite Erk' in EL. cbn [bindr] in EL. inversion EL as [EL2]. clear EL.
  set (S1 := sort_by_f _) in EL2.
  assert (HS : forall p, In p S1 -> nth_error (hist s) (fst p) = Some (snd p) /\ num p).
  { intros [j q] Hj. apply (proj1 (sort_In _ _)) in Hj.
    assert (Hj' : nth_error (hist s) j = Some q /\ (sample_seed c (hist s) rk q = true \/ local_seed c (hist s) rk q = true)).
    { apply in_app_iff in Hj as [Hj|Hj]; apply filter_In in Hj as [Hj1 Hj2]; apply combine_seq_In in Hj1 as [_ Hj1]; rewrite Nat.sub_0_r in Hj1; auto. }
    destruct Hj' as [Hj1 Hj2]. destruct (seed_promising c (hist s) rk j q (iD _ _ _ _ I) Hj1 Hj2) as ((_ & Hn & _) & _). auto. }
  assert (B : best_first S1).
  { apply sort_best. intros q Hq. apply (HS q). apply sort_In. exact Hq. }
  rewrite EL' in EL2. apply map_eq_app in EL2 as (l1 & l2 & ES & E1' & E2'). rewrite ES in B.
  assert (Hou : In (origin u) (map fst l1)) by (rewrite E1'; apply in_map; exact Hu).
  apply in_map_iff in Hou as ([ju qu] & Eju & Hqu). rewrite <- E2' in HiL. apply in_map_iff in HiL as ([ji qi] & Eji & Hqi). cbn [fst] in *. subst ju ji.
  pose proof (best_app l1 l2 _ _ B Hqu Hqi) as Hfl. cbn [snd] in Hfl.
  destruct (HS (origin u, qu)) as [Equ _]; [rewrite ES; apply in_app_iff; auto|].
  destruct (HS (i, qi)) as [Eqi _]; [rewrite ES; apply in_app_iff; auto|]. cbn [fst snd] in *.
  assert (qi = r) by congruence. subst qi.
  destruct (Lo _ qu Equ) as (qu' & Equ' & (_ & mfu & _)). rewrite Eru in Equ'. inversion Equ'; subst qu'.
  rewrite mf, mfu in Hfl. destruct Hp as (_ & (zr & Ezr) & _). rewrite Ezr, Ezu in *. constructor. cbn in Hfl. apply Z.ltb_ge in Hfl.
  destruct (Z.eq_dec zu zr) as [->|Hne]; [|lia]. exfalso.
  assert (origin u = i); [|subst i; apply Hni; apply in_map; exact Hu].
  apply (Htie (origin u) ru Eru Heu). congruence.
Qed.

(** ** Counting points out for evaluation *)
Lemma write_ended l H H1 :
  NoDup (ids l) -> (forall a, In a l -> exists q, nth_error H (i_id a) = Some q /\ ended q = false) ->
  write l H = Ok H1 -> countb ended H1 = countb ended H + length l.
Proof.
  revert H; induction l as [|a l IH]; intros H N R E; cbn [write] in E.
  - inversion E; subst. cbn. lia.
  - inversion N as [|? ? Hni N']; subst. destruct (i_id a <? length H); [|discriminate].
    set (H0 := upd H (i_id a) (set_result (i_id a) (i_x a) (i_f a))) in *.
    destruct (R a (or_introl eq_refl)) as (q & Eq & Hen).
    rewrite (IH H0 N'); [|intros b Hb; destruct (R b (or_intror Hb)) as (q' & Eq' & Hen'); exists q'; split; [|exact Hen'] |exact E].
    + pose proof (countb_upd ended H (i_id a) (set_result (i_id a) (i_x a) (i_f a)) q Eq) as Hc. fold H0 in Hc.
      cbn [ended set_result] in Hc. rewrite Hen in Hc. cbn [length]. lia.
    + unfold H0. rewrite upd_nth_other; [exact Eq'|]. intros Ee. apply Hni. rewrite Ee. apply in_map; auto.
Qed.
Lemma out_now_ended H : out_now H + countb ended H = length H.
Proof. unfold out_now, countb. induction H as [|r H IH]; cbn; [reflexivity|]. destruct (ended r); cbn; lia. Qed.
Lemma countb_same (A B : list row) : Forall2 same A B -> countb ended A = countb ended B.
Proof.
  induction 1 as [|a b A B sab h IH]; [reflexivity|]. unfold countb in *. cbn. destruct sab as (_ & _ & _ & -> & _). destruct (ended b); cbn; lia.
Qed.
Lemma pass_count l s s' out : Inv [] s -> answers l (hist s) -> pass c l s = Ok (s', out) ->
  length (hist s) <= length (hist s') /\
  countb ended (hist s') = countb ended (hist s) + length l /\
  wanted c (length l) s <= length (hist s') - length (hist s).
Proof.
  intros I A E. pose proof A as [N R].
  destruct (receive_ok c Sym extra l s I A) as (s1 & E1 & I1 & _ & _ & _ & f1 & len1 & _).
  destruct (pass_split c Sym extra l s s' out I A E) as (s1' & s2 & nw & op & E1' & _ & E2 & I2 & A2 & E3).
  assert (s1' = s1) by congruence. subst s1'. clear E1'.
  assert (C1 : countb ended (hist s1) = countb ended (hist s) + length l).
  { unfold receive in E1. destruct (write l (hist s)) as [H1|] eqn:Ew; [|discriminate]. cbn [bindr] in E1.
    destruct (update_dist_ok c Sym H1 (write_Pinv c l (hist s) H1 (iD _ _ _ _ I) A Ew)) as (H2 & Eu & _ & S2).
    rewrite Eu in E1. cbn [bindr] in E1. inversion E1; subst s1. cbn [hist]. rewrite (countb_same _ _ S2).
    apply write_ended; [exact N | | exact Ew]. intros a Ha. destruct (R a Ha) as (q & Eq & He & _). eauto. }
  destruct A2 as (K2 & _ & f2 & l2 & new2 & Enw & _).
  destruct (finish_ok c extra _ _ _ _ _ _ I2 E3) as (_ & (Lo & Lw & Ll & _) & _ & rk & us & _ & _ & _ & Hcount & _).
  assert (W : wanted c (length l) s2 = wanted c (length l) s) by (unfold wanted; rewrite f2, f1; reflexivity).
  split; [lia|]. split.
  - rewrite <- C1. transitivity (countb ended (hist s2)).
    + apply (countb_keep extra); [|exact Ll|].
      * intros i q q' Ei Ei'. destruct (Lo i q Ei) as (q2 & E2' & m). rewrite Ei' in E2'. inversion E2'; subst q2. apply m.
      * intros i q Hi Ei. apply (Lw i q Hi Ei).
    + apply (countb_keep extra); [|exact l2|].
      * intros i q q' Ei Ei'. destruct (K2 i q Ei) as (q2 & E2' & m). rewrite Ei' in E2'. inversion E2'; subst q2. apply m.
      * intros i q Hi Ei. apply (new2 i q Hi Ei).
  - rewrite W in Hcount. assert (Hn : length nw = length (hist s2) - length (hist s1)) by (rewrite Enw; cbn [app]; apply seq_length).
    rewrite Hn in Hcount. clear - Hcount Ll l2 len1. lia.
Qed.

(** ** Sample points *)
Lemma nth_skip (A : Type) (l : list A) n k : nth_error (skipn n l) k = nth_error l (n + k).
Proof. revert l; induction n as [|n IH]; intros l; [reflexivity|]. destruct l as [|a l]; [destruct k; reflexivity | apply IH]. Qed.
Lemma sample_ext H H' :
  (forall i q q', nth_error H i = Some q -> nth_error H' i = Some q' -> x q' = x q /\ local q' = local q) ->
  length H <= length H' -> (forall i q, length H <= i -> nth_error H' i = Some q -> local q = true) ->
  map x (sample H') = map x (sample H).
Proof.
  revert H'; induction H as [|r H IH]; intros H' h1 h2 h3.
  - assert (E : sample H' = []); [|rewrite E; reflexivity]. unfold sample. induction H' as [|q H' IH']; [reflexivity|]. cbn [filter].
    rewrite (h3 0 q) by (cbn; auto with arith). cbn. apply IH'; [intros i q0 q' E; destruct i; discriminate | cbn; lia |].
    intros i q0 Hi E. apply (h3 (S i) q0); [cbn; lia | exact E].
  - destruct H' as [|r' H']; [cbn in h2; lia|]. unfold sample. cbn [filter]. destruct (h1 0 r r' eq_refl eq_refl) as [hx ->].
    assert (E : map x (sample H') = map x (sample H)).
    { apply IH; [intros i q q' E E'; exact (h1 (S i) q q' E E') | cbn in h2; lia | intros i q Hi E; apply (h3 (S i) q); [cbn; lia | exact E]]. }
    unfold sample in E. destruct (local r); cbn [negb map]; rewrite E; [reflexivity | rewrite hx; reflexivity].
Qed.
Lemma sample_add H ps : map x (sample (add_pts c H ps false)) = map x (sample H) ++ map (store c) ps.
Proof.
  unfold add_pts, sample. rewrite filter_app, map_app. f_equal. generalize (length H) as n. induction ps as [|p ps IH]; intros n; [reflexivity|].
  cbn. f_equal. apply IH.
Qed.
Lemma sample_samples k H : exists D, length D = k - length (firstn k (skipn (length (sample H)) (user_pts c))) /\
  map x (sample (add_samples c k H)) = map x (sample H) ++ map (store c) (firstn k (skipn (length (sample H)) (user_pts c)) ++ D).
Proof.
  unfold add_samples. cbv zeta. fold (sample H). change (countb (fun r => negb (local r)) H) with (length (sample H)).
  eexists. split; [|rewrite !sample_add, map_app, <- app_assoc; reflexivity]. rewrite map_length, seq_length. reflexivity.
Qed.
Definition in_order (g : nat) s : Prop :=
  g <= length (sample (hist s)) /\
  forall j p r, g <= j -> nth_error (user_pts c) j = Some p -> nth_error (sample (hist s)) j = Some r -> x r = store c p.
Lemma in_order_ext g s s' : map x (sample (hist s')) = map x (sample (hist s)) -> in_order g s -> in_order g s'.
Proof.
  intros E [h1 h2]. split; [apply (f_equal (@length X)) in E; rewrite !map_length in E; lia|].
  intros j p r Hj Ep Er. pose proof (map_nth_error x j _ Er) as Em. rewrite E in Em. rewrite map_nth_error_opt in Em.
  destruct (nth_error (sample (hist s)) j) as [r0|] eqn:E0; [|discriminate]. cbn in Em. inversion Em as [Ex]. rewrite <- (h2 j p r0 Hj Ep E0). congruence.
Qed.
Lemma in_order_samples g k s : in_order g s ->
  in_order g (mkst (add_samples c k (hist s)) (n_s s) (runs s) (kids s) (quit s) (first s)).
Proof.
  intros [h1 h2]. destruct (sample_samples k (hist s)) as (D & HD & E).
  set (v := length (sample (hist s))) in *. set (U := firstn k (skipn v (user_pts c))) in *. split; cbn [hist].
  - apply (f_equal (@length X)) in E. rewrite app_length, !map_length in E. fold v in E. lia.
  - intros j p r Hj Ep Er. pose proof (map_nth_error x j _ Er) as Em. rewrite E in Em.
    destruct (Nat.lt_ge_cases j v) as [Hlt|Hge].
    + rewrite nth_error_app1 in Em by (rewrite map_length; exact Hlt). rewrite map_nth_error_opt in Em.
      destruct (nth_error (sample (hist s)) j) as [r0|] eqn:E0; [|discriminate]. cbn in Em. inversion Em as [Ex]. rewrite <- (h2 j p r0 Hj Ep E0). congruence.
    + rewrite nth_error_app2 in Em by (rewrite map_length; exact Hge). rewrite map_length in Em. fold v in Em.
      rewrite map_nth_error_opt in Em. destruct (nth_error (U ++ D) (j - v)) as [p0|] eqn:E0; [|discriminate]. cbn in Em. inversion Em as [Ex]. f_equal.
      pose proof (nth_lt _ _ _ Ep) as Hjl. pose proof (nth_lt _ _ _ E0) as Hm. rewrite app_length, HD in Hm.
      assert (HU : length U = Nat.min k (length (user_pts c) - v)) by (unfold U; rewrite firstn_length, skipn_length; reflexivity).
      assert (Hin : j - v < length U) by (clear - Hm HU Hjl Hge; lia).
      rewrite nth_error_app1 in E0 by exact Hin. unfold U in E0. rewrite nth_error_firstn in E0. replace (j - v <? k) with true in E0 by (symmetry; apply Nat.ltb_lt; clear - Hin HU; lia).
      rewrite nth_skip in E0. replace (v + (j - v)) with j in E0 by lia. congruence.
Qed.
End T.

(** ** Every reachable state *)
Section RR.
Context {X : Type}.
Variable c : conf X.
Hypothesis Sym : symmetric c.
Notation row := (row X).
Notation run := (run X).
Notation st := (st X).
Implicit Types (H : list row) (r q : row) (u : run) (s : st).

(** A run was started from every point marked so, unless it was given like that. *)
Definition started_ok (given : list row) s : Prop :=
  forall i q, nth_error (hist s) i = Some q -> started q = true ->
    (exists g, nth_error given i = Some g /\ started g = true) \/
    exists k u, nth_error (runs s) k = Some u /\ origin u = i.
Lemma feed_started extra P a k u s nw op s' nw' op' :
  Inv c extra (a :: P) s -> nth_error (runs s) k = Some u -> In (i_id a) (asked u) ->
  feed c k a s nw op = Ok (s', nw', op') ->
  forall i q', nth_error (hist s') i = Some q' -> started q' = true -> exists q, nth_error (hist s) i = Some q /\ started q = true.
Proof.
  intros I Eu Hask Ef. unfold feed in Ef. rewrite Eu in Ef.
  destruct (awaits c extra P s a k u I Eu Hask) as [Hlive Hlast]. rewrite Hlive in Ef.
  pose proof (pts_NoDup _ _ _ _ _ (iR _ _ _ _ I k u Eu)) as N.
  destruct (opt c k (fed u ++ [(i_x a, i_f a)])) as [p|p flag|]; [| |discriminate].
  - inversion Ef; subst s' nw' op'. cbn [hist]. intros i q' E' Hs.
    apply add_pts_nth in E' as [E'|(_ & p0 & _ & ->)]; [eauto | discriminate].
  - destruct (mark_optimal c p flag (hist s) (pts u)) as [[H' o]|] eqn:Em; [|discriminate]. cbn [bindr] in Ef.
    inversion Ef; subst s' nw' op'. cbn [hist]. intros i q' E' Hs.
    destruct (mark_optimal_nth c p flag (hist s) (pts u) H' o N Em) as [Hln Hn].
    pose proof (nth_lt _ _ _ E') as Hi. rewrite Hln in Hi. apply nth_error_Some in Hi.
    destruct (nth_error (hist s) i) as [q|] eqn:Eq; [|congruence]. destruct (Hn i q Eq) as (q2 & E2 & _ & _ & hs & _).
    rewrite E' in E2. inversion E2; subst q2. exists q. split; [reflexivity | congruence].
Qed.
Lemma advance_started extra l s nw op s' nw' op' :
  Inv c extra l s -> advance c l s nw op = Ok (s', nw', op') ->
  forall i q', nth_error (hist s') i = Some q' -> started q' = true -> exists q, nth_error (hist s) i = Some q /\ started q = true.
Proof.
  revert s nw op; induction l as [|a l IH]; intros s nw op I E; cbn [advance] in E.
  - inversion E; subst. eauto.
  - destruct (kids_of_cases s (i_id a) (proj1 (iK _ _ _ _ I))) as [[Ek Hn]|(k & Ek & Hk)]; rewrite Ek in E; cbn [feed_all bindr] in E.
    + apply (IH s nw op); [eapply Inv_drop; eauto | exact E].
    + destruct (feed c k a s nw op) as [[[s1 n1] o1]|] eqn:Ef; [|discriminate]. cbn [bindr] in E.
      apply (iK _ _ _ _ I) in Hk as (u & Eu & Hu).
      destruct (feed_ok c extra l a k u s nw op s1 n1 o1 I Eu Hu Ef) as (I1 & _).
      intros i q' E' Hs. destruct (IH s1 n1 o1 I1 E i q' E' Hs) as (q1 & E1 & Hs1).
      exact (feed_started extra l a k u s nw op s1 n1 o1 I Eu Hu Ef i q1 E1 Hs1).
Qed.
Lemma start_all_started L s nw s' nw' : start_all c L s nw = Ok (s', nw') ->
  exists us, runs s' = runs s ++ us /\
  forall i q', nth_error (hist s') i = Some q' -> started q' = true ->
    (exists q, nth_error (hist s) i = Some q /\ started q = true) \/ exists u, In u us /\ origin u = i.
Proof.
  revert s nw; induction L as [|i L IH]; intros s nw E; cbn [start_all] in E.
  - inversion E; subst. exists []. rewrite app_nil_r. eauto.
  - destruct (room c s) eqn:Er; [|eauto].
    destruct (start c i s nw) as [[s1 n1]|] eqn:E1; [|discriminate]. cbn [bindr] in E.
    destruct (IH s1 n1 E) as (us & Eu & h). unfold start in E1. destruct (nth_error (hist s) i) as [r|]; [|discriminate].
    destruct (opt c (length (runs s)) [(x r, f r)]) as [p| |]; try discriminate. inversion E1; subst s1 n1. cbn [runs hist] in *.
    eexists (_ :: us). split; [rewrite Eu, <- app_assoc; reflexivity|]. intros j q' Ej Hs.
    destruct (h j q' Ej Hs) as [(q & Eq & Hq)|(u & Hu & Eo)]; [|right; exists u; split; [right; exact Hu | exact Eo]].
    apply add_pts_nth in Eq as [Eq|(_ & p0 & _ & ->)]; [|discriminate]. rewrite upd_nth in Eq.
    destruct (Nat.eqb_spec i j) as [->|Hne]; [|eauto]. right. eexists. split; [left; reflexivity | reflexivity].
Qed.
Lemma finish_started given nr s nw op s' out : finish c nr s nw op = Ok (s', out) ->
  started_ok given s -> started_ok given s'.
Proof.
  intros E h i q' E' Hs. unfold finish in E. destruct (decide c (hist s) (n_s s)) as [L|] eqn:EL; [|discriminate]. cbn [bindr] in E.
  destruct (start_all c L s nw) as [[s1 n1]|] eqn:Es; [|discriminate]. cbn [bindr] in E. inversion E; subst s' out. clear E. cbn [hist runs] in *.
  destruct (start_all_started L s nw s1 n1 Es) as (us & Eu & h1).
  apply add_samples_new in E' as [E'|(_ & p & ->)]; [|discriminate].
  destruct (h1 i q' E' Hs) as [(q & Eq & Hq)|(u & Hu & Eo)].
  - destruct (h i q Eq Hq) as [hg|(k & u & Ek & Eo)]; [auto|]. right. exists k, u. split; [|exact Eo]. cbn [runs]. rewrite Eu. apply nth_app_old. exact Ek.
  - right. assert (Hin : In u (runs s1)) by (rewrite Eu; apply in_app_iff; auto). apply In_nth_error in Hin as [k Ek]. eauto.
Qed.
Lemma finish_in_order extra g nr s nw op s' out : Inv c extra [] s -> finish c nr s nw op = Ok (s', out) -> in_order c g s -> in_order c g s'.
Proof.
  intros I E h. unfold finish in E. destruct (decide c (hist s) (n_s s)) as [L|] eqn:EL; [|discriminate]. cbn [bindr] in E.
  destruct (start_all c L s nw) as [[s1 n1]|] eqn:Es; [|discriminate]. cbn [bindr] in E. inversion E; subst s' out. clear E.
  destruct (decide_spec c (hist s) (n_s s) L EL) as (rk & Erk & N & HL).
  assert (Hst : forall i, In i L -> startable s i).
  { intros i Hi. apply HL in Hi as (r & Er & Hseed). destruct (seed_promising c _ rk i r (iD _ _ _ _ I) Er Hseed) as ((Hen & _) & Hs & Hl & _).
    exists r. split; [exact Er|]. split; [exact Hen|]. split; [exact Hs|]. intros hl. apply Hl; exact hl. }
  destruct (start_all_ok c extra L s nw s1 n1 I N Hst Es) as (I1 & (Lo & Lw & Ll & _) & _ & Hloc & _).
  assert (h1 : in_order c g s1).
  { apply (in_order_ext c g s); [|exact h]. apply (sample_ext 0); [|exact Ll | exact Hloc].
    intros i q q' Ei Ei'. destruct (Lo i q Ei) as (q2 & E2 & (mx & _ & ml & _)). rewrite Ei' in E2. inversion E2; subst q2. auto. }
  apply (in_order_ext c g (mkst (add_samples c (if first s then nworkers c - 1 - length n1 else nr - length n1) (hist s1)) (n_s s1) (runs s1) (kids s1) (quit s1) (first s1)));
    [cbn [hist]; destruct (first s); reflexivity | apply in_order_samples; exact h1].
Qed.
Lemma pass_all extra given g l s s' out : Inv c extra [] s -> answers l (hist s) -> pass c l s = Ok (s', out) ->
  started_ok given s -> in_order c g s -> started_ok given s' /\ in_order c g s'.
Proof.
  intros I A E h1 h2. destruct (receive_ok c Sym extra l s I A) as (s1 & E1 & I1 & r1 & k1 & q1 & f1 & len1 & rows).
  destruct (pass_split c Sym extra l s s' out I A E) as (s1' & s2 & nw & op & E1' & _ & E2 & I2 & A2 & E3).
  assert (s1' = s1) by congruence. subst s1'.
  assert (back : forall i q', nth_error (hist s1) i = Some q' -> exists q, nth_error (hist s) i = Some q /\ x q' = x q /\ local q' = local q /\ started q' = started q).
  { intros i q' Ei'. pose proof (nth_lt _ _ _ Ei') as Hlt. rewrite len1 in Hlt. apply nth_error_Some in Hlt.
    destruct (nth_error (hist s) i) as [q|] eqn:Eq; [|congruence]. destruct (rows i q Eq) as (q2 & E2' & a & b & _ & d & _).
    rewrite Ei' in E2'. inversion E2'; subst q2. eauto. }
  pose proof A2 as (K2 & _ & _ & l2 & new2 & _ & len2 & or2 & _). split.
  - apply (finish_started given (length l) s2 nw op s' out E3). intros i q2 E2' Hs2.
    destruct (advance_started extra l s1 [] [] s2 nw op I1 E2 i q2 E2' Hs2) as (q1' & Eq1 & Hs1).
    destruct (back i q1' Eq1) as (q & Eq & _ & _ & es). destruct (h1 i q Eq ltac:(congruence)) as [h|(k & u & Ek & Eo)]; [auto|].
    right. rewrite <- r1 in Ek. destruct (or2 k u Ek) as (v & Ev & Eov). exists k, v. split; [exact Ev | congruence].
  - apply (finish_in_order extra g (length l) s2 nw op s' out I2 E3).
    apply (in_order_ext c g s1); [|apply (in_order_ext c g s); [|exact h2]].
    + apply (sample_ext 0); [|exact l2 | intros i q Hi Ei; apply (new2 i q Hi Ei)].
      intros i q q' Ei Ei'. destruct (K2 i q Ei) as (q3 & E3' & kq). rewrite Ei' in E3'. inversion E3'; subst q3. destruct kq as (-> & _ & -> & _). auto.
    + apply (sample_ext 0); [|lia|].
      * intros i q q' Ei Ei'. destruct (rows i q Ei) as (q3 & E3' & a & b & _). rewrite Ei' in E3'. inversion E3'; subst q3. auto.
      * intros i q Hi Ei. apply nth_lt in Ei. lia.
Qed.
Lemma sample_same (A B : list row) : Forall2 same A B -> length (sample A) = length (sample B).
Proof.
  induction 1 as [|a b A B sab h IH]; [reflexivity|]. unfold sample in *. cbn. destruct sab as (_ & _ & -> & _). destruct (local b); cbn; lia.
Qed.
Lemma sample_reset (H : list row) : length (sample (map reset H)) = length (sample H).
Proof. unfold sample. induction H as [|r H IH]; [reflexivity|]. cbn. destruct (local r); cbn; lia. Qed.
Lemma boot_all given size s out : given_ok given -> boot c given size = Ok (s, out) ->
  minok c given s /\ started_ok given s /\ in_order c (length (sample given)) s /\ first s = negb (size =? 0).
Proof.
  intros G E. unfold boot in E. destruct (initialize c given size) as [s0|] eqn:E0; [|discriminate]. cbn [bindr] in E.
  destruct (initialize_Inv c Sym given size s0 G E0) as (I0 & R0 & S0 & F0 & Q0).
  assert (row0 : forall i q, nth_error (hist s0) i = Some q -> exists g, nth_error given i = Some g /\ lmin q = lmin g /\ started q = started g).
  { intros i q Ei. destruct (sameH_nth _ _ i q S0 Ei) as (q' & Eq' & sq). rewrite map_nth_error_opt in Eq'.
    destruct (nth_error given i) as [g|]; [|discriminate]. cbn in Eq'. inversion Eq'; subst q'. exists g. split; [reflexivity|].
    destruct sq as (_ & _ & _ & _ & -> & _ & -> & _). auto. }
  assert (M0 : minok c given s0).
  { split; [|intros k Hk; rewrite Q0 in Hk; contradiction]. intros i q Ei Hl. left. destruct (row0 i q Ei) as (g & Eg & el & _). exists g. split; [exact Eg | congruence]. }
  assert (H0 : started_ok given s0).
  { intros i q Ei Hs. left. destruct (row0 i q Ei) as (g & Eg & _ & es). exists g. split; [exact Eg | congruence]. }
  assert (L0 : length (sample (hist s0)) = length (sample given)) by (rewrite (sample_same _ _ S0); apply sample_reset).
  assert (O0 : in_order c (length (sample given)) s0).
  { split; [lia|]. intros j p r Hj _ Er. apply nth_lt in Er. lia. }
  destruct (size =? 0).
  - destruct (finish_ok c (pending given) _ _ _ _ _ _ I0 E) as (_ & _ & F' & _).
    split; [exact (proj1 (finish_min c _ given _ _ _ _ _ _ I0 E M0))|].
    split; [exact (finish_started given _ _ _ _ _ _ E H0)|]. split; [exact (finish_in_order _ _ _ _ _ _ _ _ I0 E O0) | exact F'].
  - inversion E; subst s out. clear E. split; [|split; [|split; [apply in_order_samples; exact O0 | exact F0]]].
    + apply (minok_after c (pending given) [] given s0); auto.
      * split; [auto|]. intros i q Ei. exists q. split; [apply add_samples_old; exact Ei | auto].
      * cbn [hist]. intros i q' E' Hl. apply add_samples_new in E' as [E'|(_ & p & ->)]; [eauto | discriminate].
    + intros i q E' Hs. cbn [hist runs] in *. apply add_samples_new in E' as [E'|(_ & p & ->)]; [exact (H0 i q E' Hs) | discriminate].
Qed.
Lemma Reach_all given size s : given_ok given -> Reach c given size s ->
  minok c given s /\ started_ok given s /\ in_order c (length (sample given)) s.
Proof.
  intros G R. induction R as [s out E | s l s1 out R IH A E].
  - destruct (boot_all given size s out G E) as (a & b & d & _). auto.
  - destruct IH as (M & S1 & O). pose proof (Reach_Inv c Sym given size s G R) as I.
    split; [exact (proj1 (pass_min c Sym _ given l s s1 out I A E M))|]. exact (pass_all _ given _ l s s1 out I A E S1 O).
Qed.
End RR.
