(** Proofs about APOSMM (AposmmModel), continued: which points are marked as minima,
    which sample points are used, and that a pass does not fail. *)
From Verif Require Import Base BaseLemmas AposmmModel AposmmSpec AposmmDist AposmmProofs AposmmReach.
Local Open Scope nat_scope.

Section M.
Context {X : Type}.
Variable c : conf X.
Hypothesis Sym : symmetric c.
Variable extra : nat.
Notation row := (row X).
Notation run := (run X).
Notation st := (st X).
Notation Inv := (Inv c extra).
Implicit Types (H : list row) (r q : row) (u : run) (s : st).

(** ** The optimum of a run *)
Lemma rows_of_In H L i r : In (i, r) (rows_of H L) <-> In i L /\ nth_error H i = Some r.
Proof.
  unfold rows_of. rewrite in_flat_map. split.
  - intros (j & Hj & E). destruct (nth_error H j) as [q|] eqn:Eq; [|destruct E]. destruct E as [E|[]]. inversion E; subst. auto.
  - intros [Hi E]. exists i. split; [exact Hi|]. rewrite E. left. reflexivity.
Qed.
Lemma nearest_spec a (l : list (nat * row)) : match nearest c a l with
  | None => l = []
  | Some b => In b l /\ forall p, In p l -> (dist c (x (snd b)) a <= dist c (x (snd p)) a)%Z end.
Proof.
  induction l as [|p l IH]; cbn [nearest]; [reflexivity|]. destruct (nearest c a l) as [b|].
  - destruct IH as [Hb Hall]. destruct (dist c (x (snd b)) a <? dist c (x (snd p)) a)%Z eqn:E.
    + apply Z.ltb_lt in E. split; [right; auto|]. intros q [<-|Hq]; [lia | auto].
    + apply Z.ltb_ge in E. split; [left; auto|]. intros q [<-|Hq]; [lia|]. specialize (Hall q Hq). lia.
  - subst l. split; [left; auto|]. intros q [<-|[]]. lia.
Qed.

Definition minok (given : list row) s : Prop :=
  (forall i q, nth_error (hist s) i = Some q -> lmin q = true ->
     (exists g, nth_error given i = Some g /\ lmin g = true) \/ optimum c s i) /\
  (forall k, In k (quit s) -> exists i, found c s k i).

(** A later state: ended runs stay, evaluated points keep their values. *)
Definition after s s' : Prop :=
  (forall k u, nth_error (runs s) k = Some u -> live u = false -> nth_error (runs s') k = Some u) /\
  (forall i q, nth_error (hist s) i = Some q -> exists q', nth_error (hist s') i = Some q' /\
     x q' = x q /\ (ended q = true -> f q' = f q) /\ (lmin q = true -> lmin q' = true)).
Lemma after_refl s : after s s.
Proof. split; [auto|]. intros i q E. exists q. auto. Qed.
Lemma after_trans s s1 s2 : after s s1 -> after s1 s2 ->
  (forall i q q', nth_error (hist s) i = Some q -> nth_error (hist s1) i = Some q' -> ended q = true -> ended q' = true) -> after s s2.
Proof.
  intros [r1 h1] [r2 h2] He. split; [auto|]. intros i q E. destruct (h1 i q E) as (q1 & E1 & a1 & b1 & d1).
  destruct (h2 i q1 E1) as (q2 & E2 & a2 & b2 & d2). exists q2. split; [exact E2|]. split; [congruence|]. split; [|auto].
  intros Hq. rewrite b2 by (eapply He; eauto). auto.
Qed.

Lemma dead_ended P s k u i : Inv P s -> nth_error (runs s) k = Some u -> live u = false -> In i (pts u) ->
  exists q, nth_error (hist s) i = Some q /\ ended q = true /\ ~ In i (ids P).
Proof.
  intros I Ek Hl Hi. destruct (iR _ _ _ _ I k u Ek) as (h1 & _ & _ & h4 & _). rewrite Hl in h1.
  apply In_nth_error in Hi as [m Em]. pose proof (nth_lt _ _ _ Em) as Hm.
  assert (Hf : m < length (fed u)) by lia. apply nth_error_Some in Hf. destruct (nth_error (fed u) m) as [p|] eqn:Ef; [|congruence].
  destruct (h4 m i p Em Ef) as (q & Eq & He & _ & Hn). eauto.
Qed.
Lemma found_after P s s' k i : Inv P s -> after s s' -> found c s k i -> found c s' k i.
Proof.
  intros I [hr hh] (u & p & b & r & Ek & Hl & Eo & Hi & Er & Hall & Hb).
  destruct (hh i r Er) as (r' & Er' & a & _ & d). exists u, p, b, r'. split; [auto|]. split; [exact Hl|]. split; [exact Eo|].
  split; [exact Hi|]. split; [exact Er'|]. split; [|auto].
  intros j q' Hj Eq'. destruct (dead_ended P s k u j I Ek Hl Hj) as (q & Eq & _).
  destruct (hh j q Eq) as (q2 & Eq2 & a2 & _). unfold at_row in *. rewrite Eq' in Eq2. inversion Eq2; subst q2.
  rewrite a, a2. exact (Hall j q Hj Eq).
Qed.
Lemma optimum_after P s s' i : Inv P s -> after s s' -> optimum c s i -> optimum c s' i.
Proof.
  intros I A (k & u & p & r & o & q & Ek & Hl & Eo & Hi & Er & Ho & Eq & Hc).
  pose proof A as [hr hh]. destruct (hh i r Er) as (r' & Er' & a & b & _). destruct (hh o q Eq) as (q' & Eq' & _ & b' & _).
  exists k, u, p, r', o, q'. split; [auto|]. split; [exact Hl|]. split; [exact Eo|]. split; [exact Hi|]. split; [exact Er'|].
  split; [eapply found_after; eauto|]. split; [exact Eq'|]. destruct Hc as [Hc|[Hc Ht]]; [left; exact Hc|]. right.
  destruct (dead_ended P s k u i I Ek Hl Hi) as (r2 & Er2 & He & _). unfold at_row in *. rewrite Er in Er2. inversion Er2; subst r2.
  assert (Ho2 : In o (pts u)). { destruct Ho as (u2 & p2 & b2 & r3 & Ek2 & _ & _ & Hi2 & _). rewrite Ek in Ek2. inversion Ek2; subst u2. exact Hi2. }
  destruct (dead_ended P s k u o I Ek Hl Ho2) as (q2 & Eq2 & He2 & _). rewrite Eq in Eq2. inversion Eq2; subst q2.
  rewrite b, b', a by auto. auto.
Qed.
(** Nothing ends and nothing is marked. *)
Lemma minok_after P given s s' : Inv P s -> after s s' -> quit s' = quit s ->
  (forall i q', nth_error (hist s') i = Some q' -> lmin q' = true -> exists q, nth_error (hist s) i = Some q /\ lmin q = true) ->
  minok given s -> minok given s'.
Proof.
  intros I A Eq Hm [h1 h2]. split.
  - intros i q' E' Hl. destruct (Hm i q' E' Hl) as (q & E & Hq). destruct (h1 i q E Hq) as [h|h]; [auto|]. right. eapply optimum_after; eauto.
  - intros k Hk. rewrite Eq in Hk. destruct (h2 k Hk) as [i Hi]. exists i. eapply found_after; eauto.
Qed.

Lemma mark_optimal_spec p flag H L H' o : NoDup L -> mark_optimal c p flag H L = Ok (H', o) ->
  exists b, In o L /\ nth_error H o = Some b /\
    (forall j q, In j L -> nth_error H j = Some q -> (dist c (x b) p <= dist c (x q) p)%Z) /\
    (forall i q q', nth_error H i = Some q -> nth_error H' i = Some q' ->
       (lmin q' = true <-> lmin q = true \/ (flag = true /\ (i = o \/ (In i L /\ less (f q) (f b) /\ (dist c (x q) p < tol c)%Z))))).
Proof.
  intros N E. unfold mark_optimal in E. pose proof (nearest_spec p (rows_of H L)) as NS.
  destruct (nearest c p (rows_of H L)) as [[o' b]|]; [|discriminate]. destruct NS as [Hin Hall].
  inversion E as [[E1 E2]]. subst o'. clear E. apply rows_of_In in Hin as [Ho Eb]. exists b. split; [exact Ho|]. split; [exact Eb|]. split.
  - intros j q Hj Ej. apply (Hall (j, q)). apply rows_of_In. auto.
  - intros i q q' Ei Ei'. rewrite fold_upd_nth in Ei' by exact N. rewrite fold_lmin_nth, Ei in Ei'.
    set (M := if flag then _ else _) in *.
    assert (HM : lmin q' = true <-> lmin q = true \/ In i M).
    { rewrite <- memb_In. destruct (memb i L), (memb i M); cbn [option_map] in Ei'; inversion Ei'; subst q'; cbn [lmin set_active set_lmin];
      intuition congruence. }
    rewrite HM. unfold M. destruct flag; [|cbn; intuition discriminate]. rewrite in_app_iff, in_map_iff. cbn [In].
    split; (intros [h|h]; [left; exact h|right]).
    + split; [reflexivity|]. destruct h as [((j, r) & Ej & h)|[->|[]]]; [|left; reflexivity]. cbn in Ej. subst j. right.
      apply filter_In in h as [h1 h2]. apply rows_of_In in h1 as [Hi Er]. assert (r = q) by congruence. subst r. cbn [snd] in h2.
      apply andb_true_iff in h2 as [h2 h3]. apply flt_less in h2. apply Z.ltb_lt in h3. auto.
    + destruct h as [_ [->|(Hi & h2 & h3)]]; [right; left; reflexivity|]. left. exists (i, q). split; [reflexivity|]. apply filter_In.
      split; [apply rows_of_In; auto|]. cbn [snd]. apply andb_true_iff. split; [apply flt_less; exact h2 | apply Z.ltb_lt; exact h3].
Qed.

Lemma feed_min P given a k u s nw op s' nw' op' :
  Inv (a :: P) s -> nth_error (runs s) k = Some u -> In (i_id a) (asked u) ->
  feed c k a s nw op = Ok (s', nw', op') -> minok given s ->
  minok given s' /\ after s s' /\
  exists ks os, quit s' = quit s ++ ks /\ op' = op ++ os /\ Forall2 (found c s') ks os.
Proof.
  intros I Eu Hask Ef M. pose proof Ef as Ef0. unfold feed in Ef. rewrite Eu in Ef.
  destruct (awaits c extra P s a k u I Eu Hask) as [Hlive Hlast]. rewrite Hlive in Ef.
  pose proof (iR _ _ _ _ I k u Eu) as Ru. pose proof (pts_NoDup _ _ _ _ _ Ru) as N.
  destruct (feed_ok c extra P a k u s nw op s' nw' op' I Eu Hask Ef0) as (I' & Hkeep & _ & _ & Hlen & _).
  assert (hh : forall i q, nth_error (hist s) i = Some q -> exists q', nth_error (hist s') i = Some q' /\
     x q' = x q /\ (ended q = true -> f q' = f q) /\ (lmin q = true -> lmin q' = true)).
  { intros i q E. destruct (Hkeep i q E) as (q' & E' & (-> & -> & _ & _ & _ & _ & hl)). exists q'. auto. }
  destruct (opt c k (fed u ++ [(i_x a, i_f a)])) as [p|p flag|] eqn:Eo; [| |discriminate].
  - inversion Ef; subst s' nw' op'. clear Ef.
    assert (A : after s (mkst (add_pts c (hist s) [p] true) (n_s s)
                 (upd (runs s) k (fun _ => mkrun (pts u ++ [length (hist s)]) (fed u ++ [(i_x a, i_f a)]) true))
                 (kids s ++ [(length (hist s), k)]) (quit s) (first s))).
    { split; [|exact hh]. intros k' v Ek' Hv. cbn [runs]. rewrite upd_nth_other; [exact Ek'|]. intros ->. congruence. }
    split; [|split; [exact A | exists [], []; cbn [quit]; rewrite !app_nil_r; auto]].
    apply (minok_after (a :: P) given s); auto. cbn [hist]. intros i q' E' Hl.
    apply add_pts_nth in E' as [E'|(_ & p0 & _ & ->)]; [eauto | discriminate].
  - destruct (mark_optimal c p flag (hist s) (pts u)) as [[H' o]|] eqn:Em; [|discriminate]. cbn [bindr] in Ef.
    inversion Ef; subst s' nw' op'. clear Ef. cbn [hist] in *.
    set (u' := mkrun (pts u) (fed u ++ [(i_x a, i_f a)]) false) in *.
    set (s' := mkst H' (n_s s) (upd (runs s) k (fun _ => u')) (kids s) (quit s ++ [k]) (first s)) in *.
    assert (A : after s s').
    { split; [|exact hh]. intros k' v Ek' Hv. cbn [runs s']. rewrite upd_nth_other; [exact Ek'|]. intros ->. congruence. }
    destruct (mark_optimal_spec p flag (hist s) (pts u) H' o N Em) as (b & Ho & Eb & Hall & Hlm).
    destruct (hh o b Eb) as (b' & Eb' & xb & _ & _).
    assert (Hrow : forall j q', In j (pts u) -> nth_error H' j = Some q' -> exists q, nth_error (hist s) j = Some q /\ x q' = x q /\ f q' = f q).
    { intros j q' Hj Ej. pose proof (pts_lt _ _ _ _ _ _ Ru Hj) as Hlt. apply nth_error_Some in Hlt.
      destruct (nth_error (hist s) j) as [q|] eqn:Eq; [|congruence]. destruct (Hkeep j q Eq) as (q2 & E2 & kq). cbn [hist s'] in E2.
      rewrite Ej in E2. inversion E2; subst q2. exists q. destruct kq as (-> & -> & _). auto. }
    assert (Ek : nth_error (runs s') k = Some u') by (cbn [runs s']; exact (upd_nth_same _ _ _ _ Eu)).
    assert (F : found c s' k o).
    { exists u', p, flag, b'. split; [exact Ek|]. split; [reflexivity|]. split; [exact Eo|].
      split; [exact Ho|]. split; [exact Eb'|]. split.
      - intros j q' Hj Ej. destruct (Hrow j q' Hj Ej) as (q & Eq & -> & _). rewrite xb. exact (Hall j q Hj Eq).
      - intros ->. apply (Hlm o b b' Eb Eb'). right. auto. }
    split; [|split; [exact A | exists [k], [o]; split; [reflexivity|]; split; [reflexivity|]; constructor; [exact F | constructor]]].
    destruct M as [M1 M2]. split.
    + intros i q' E' Hl. cbn [hist s'] in E'.
      assert (Hi : i < length (hist s)).
      { destruct (mark_optimal_nth c p flag (hist s) (pts u) H' o N Em) as [Hln _]. rewrite <- Hln. eapply nth_lt; eauto. }
      apply nth_error_Some in Hi. destruct (nth_error (hist s) i) as [q|] eqn:Eq; [|congruence].
      destruct (proj1 (Hlm i q q' Eq E') Hl) as [Hl0|[Hflag Hc]].
      * destruct (M1 i q Eq Hl0) as [h|h]; [left; exact h|]. right. exact (optimum_after (a :: P) s s' i I A h).
      * right. assert (Hip : In i (pts u)) by (destruct Hc as [->|(h & _)]; auto).
        destruct (Hrow i q' Hip E') as (q0 & Eq0 & xq & fq). assert (q0 = q) by congruence. subst q0.
        exists k, u', p, q', o, b'. split; [exact Ek|]. split; [reflexivity|]. split; [rewrite <- Hflag; exact Eo|]. split; [exact Hip|]. split; [exact E'|].
        split; [exact F|]. split; [exact Eb'|]. destruct Hc as [->|(_ & h2 & h3)]; [left; reflexivity|]. right.
        destruct (Hrow o b' Ho Eb') as (b0 & Eb0 & _ & fb). assert (b0 = b) by congruence. subst b0. rewrite xq, fq, fb. auto.
    + intros k' Hk'. cbn [quit s'] in Hk'. apply in_app_iff in Hk' as [Hk'|[<-|[]]]; [|exists o; exact F].
      destruct (M2 k' Hk') as [i Hi]. exists i. exact (found_after (a :: P) s s' k' i I A Hi).
Qed.

Lemma advance_min given l s nw op s' nw' op' :
  Inv l s -> advance c l s nw op = Ok (s', nw', op') -> minok given s ->
  minok given s' /\ after s s' /\ exists ks os, quit s' = quit s ++ ks /\ op' = op ++ os /\ Forall2 (found c s') ks os.
Proof.
  revert s nw op; induction l as [|a l IH]; intros s nw op I E M; cbn [advance] in E.
  - inversion E; subst. split; [exact M|]. split; [apply after_refl|]. exists [], []. rewrite !app_nil_r. auto.
  - destruct (kids_of_cases s (i_id a) (proj1 (iK _ _ _ _ I))) as [[Ek Hn]|(k & Ek & Hk)]; rewrite Ek in E; cbn [feed_all bindr] in E.
    + apply (IH s nw op); [eapply Inv_drop; eauto | exact E | exact M].
    + destruct (feed c k a s nw op) as [[[s1 n1] o1]|] eqn:Ef; [|discriminate]. cbn [bindr] in E.
      apply (iK _ _ _ _ I) in Hk as (u & Eu & Hu).
      destruct (feed_ok c extra l a k u s nw op s1 n1 o1 I Eu Hu Ef) as (I1 & Hkeep & _).
      destruct (feed_min l given a k u s nw op s1 n1 o1 I Eu Hu Ef M) as (M1 & A1 & ks1 & os1 & q1 & p1 & F1).
      destruct (IH s1 n1 o1 I1 E M1) as (M2 & A2 & ks2 & os2 & q2 & p2 & F2).
      split; [exact M2|]. split.
      * apply (after_trans s s1 s'); auto. intros i q q' Eq Eq' He. destruct (Hkeep i q Eq) as (q2' & E2 & kq).
        rewrite Eq' in E2. inversion E2; subst q2'. destruct kq as (_ & _ & _ & <- & _). exact He.
      * exists (ks1 ++ ks2), (os1 ++ os2). rewrite q2, q1, p2, p1, !app_assoc. split; [reflexivity|]. split; [reflexivity|].
        apply Forall2_app; [|exact F2]. clear - F1 A2 I1. induction F1; constructor; auto. eapply found_after; eauto.
Qed.

Lemma finish_min given nr s nw op s' out : Inv [] s -> finish c nr s nw op = Ok (s', out) -> minok given s -> minok given s' /\ after s s' /\ quit s' = quit s.
Proof.
  intros I E M. destruct (finish_ok c extra nr s nw op s' out I E) as (I' & (Lo & Lw & Ll & Ln & Lq) & _ & rk & us & _ & Er & _).
  assert (A : after s s').
  { split; [intros k u Ek _; rewrite Er; apply nth_app_old; exact Ek|].
    intros i q Ei. destruct (Lo i q Ei) as (q' & Ei' & (mx & mf & _ & _ & _ & _ & ml & _)). exists q'. split; [exact Ei'|]. intuition congruence. }
  split; [|auto]. apply (minok_after [] given s); auto. intros i q' Ei' Hl. destruct (Nat.lt_ge_cases i (length (hist s))) as [Hlt|Hge].
  - apply nth_error_Some in Hlt. destruct (nth_error (hist s) i) as [q|] eqn:Eq; [|congruence]. destruct (Lo i q Eq) as (q2 & E2 & m).
    rewrite Ei' in E2. inversion E2; subst q2. exists q. split; [reflexivity|]. destruct m as (_ & _ & _ & _ & _ & _ & ml & _). congruence.
  - destruct (Lw i q' Hge Ei') as [_ h]. congruence.
Qed.

Lemma pass_min given l s s' out : Inv [] s -> answers l (hist s) -> pass c l s = Ok (s', out) -> minok given s ->
  minok given s' /\ exists ks os, quit s' = quit s ++ ks /\ out = seq (length (hist s)) (length (hist s') - length (hist s)) ++ os /\ Forall2 (found c s') ks os.
Proof.
  intros I A E M. destruct (receive_ok c Sym extra l s I A) as (s1 & E1 & I1 & r1 & k1 & q1 & f1 & len1 & rows).
  destruct (pass_split c Sym extra l s s' out I A E) as (s1' & s2 & nw & op & E1' & _ & E2 & I2 & A2 & E3).
  assert (s1' = s1) by congruence. subst s1'.
  assert (M1 : minok given s1).
  { apply (minok_after [] given s); auto.
    - split; [intros k u Ek _; congruence|]. intros i q Ei. destruct (rows i q Ei) as (q' & Ei' & a & _ & _ & _ & _ & b & d & e).
      exists q'. split; [exact Ei'|]. split; [exact a|]. split; [|congruence]. intros He.
      destruct (in_dec Nat.eq_dec i (ids l)) as [h|h]; [destruct (d h); congruence | apply (e h)].
    - intros i q' Ei' Hl. pose proof (nth_lt _ _ _ Ei') as Hlt. rewrite len1 in Hlt. apply nth_error_Some in Hlt.
      destruct (nth_error (hist s) i) as [q|] eqn:Eq; [|congruence]. destruct (rows i q Eq) as (q2 & E2' & _ & _ & _ & _ & _ & b & _).
      rewrite Ei' in E2'. inversion E2'; subst q2. exists q. split; [reflexivity | congruence]. }
  destruct (advance_min given l s1 [] [] s2 nw op I1 E2 M1) as (M2 & _ & ks & os & Eq & Eop & F).
  destruct (finish_min given (length l) s2 nw op s' out I2 E3 M2) as (M3 & A3 & Eq3).
  split; [exact M3|]. exists ks, os. split; [congruence|]. cbn [app] in Eop. subst op. split.
  - destruct (finish_ok c extra _ _ _ _ _ _ I2 E3) as (_ & (_ & _ & Hl & _) & _ & rk & us & _ & _ & _ & _ & -> & _).
    destruct A2 as (_ & _ & _ & Hl2 & _ & -> & _). cbn [app]. rewrite app_assoc. f_equal. rewrite <- len1.
    replace (length (hist s2)) with (length (hist s1) + (length (hist s2) - length (hist s1))) at 2 by lia.
    rewrite <- seq_app. f_equal. lia.
  - clear - F A3 I2. induction F; constructor; auto. eapply found_after; eauto.
Qed.
End M.
