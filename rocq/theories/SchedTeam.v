(** Soundness of the teams the scheduler builds (C14, C15). *)
From Coq Require Import Permutation Sorted.
From Verif Require Import Base BaseLemmas RsetModel RsetSpec RsetProofs RsetLayout RsetWalk RsetGroups SchedModel SchedSpec SchedProofs.

(** ** Reachable tables are well formed *)
Definition key (r : rset) := (rs_group r, rs_slot r, rs_gpu r).
Lemma countb_key (f : rset -> bool) (f' : nat * nat * bool -> bool) rs : (forall r, f r = f' (key r)) -> countb f rs = countb f' (map key rs).
Proof. intros H. unfold countb. induction rs as [|r l IH]; cbn [filter map]; auto. rewrite (H r). destruct (f' (key r)); cbn [length]; auto. Qed.
Lemma walk_key rs : forall rs' g s, map key rs = map key rs' -> walk g s rs -> walk g s rs'.
Proof.
  induction rs as [|r rs IH]; intros [|r' rs'] g s E; cbn in E; try discriminate; auto. unfold key in E at 1 3. injection E as E1 E2 E3 E4.
  cbn. intros (A & B & C). rewrite <- E1, <- E2. mbsplit; auto. destruct C; eauto.
Qed.
Lemma last_group_key rs rs' : map key rs = map key rs' -> last_group rs = last_group rs'.
Proof.
  intros E. unfold last_group. assert (E2 : map key (rev rs) = map key (rev rs')) by (rewrite !map_rev; congruence).
  destruct (rev rs), (rev rs'); cbn in E2; try discriminate; auto. unfold key in E2 at 1 3. congruence.
Qed.

Lemma table_ok_layout m0 m : same_layout m0 m -> books_balanced m -> table_ok m0 -> table_ok m.
Proof.
  intros (E & _ & E2 & E3 & E4 & E5 & _) Hb H. change (map key (rm_rsets m) = map key (rm_rsets m0)) in E.
  assert (C : forall f f', (forall r, f r = f' (key r)) -> countb f (rm_rsets m) = countb f (rm_rsets m0)).
  { intros f f' Hf. rewrite !(countb_key f f') by auto. congruence. }
  destruct H as [Hw Hg Hne Hbk Hs1 Hs2 Hs3]. constructor; auto.
  - eapply walk_key; [symmetry; exact E|auto].
  - rewrite E5, Hg. now apply last_group_key.
  - intros H. rewrite H in E. destruct (rm_rsets m0); [auto|discriminate].
  - intros g. rewrite E2. rewrite (C (in_group g) (fun k => fst (fst k) =? g)); auto.
  - intros g. rewrite E3. rewrite (C _ (fun k => (fst (fst k) =? g) && snd k)); auto.
  - intros g. rewrite E4. rewrite (C _ (fun k => (fst (fst k) =? g) && negb (snd k))); auto.
Qed.

Lemma reachable_table_ok m : reachable_table m -> table_ok m.
Proof.
  intros (nw & p & m0 & os & Hnd & Hgg & Hi & Hf & Hr).
  destruct (rman_init_spec _ _ _ Hi) as (L&Z&Zn&Hh&Hb&Hgpu&Hw&Hl&_).
  destruct (rrun_spec _ _ _ Hf Hb Hr) as [B S]. eapply table_ok_layout; eauto.
  constructor; auto.
  - intros E. rewrite E in L. cbn in L. congruence.
  - intros g. apply (init_kind_sizes _ _ _ g Hnd Hgg Hi).
  - intros g. apply (init_kind_sizes _ _ _ g Hnd Hgg Hi).
  - intros g. apply (init_kind_sizes _ _ _ g Hnd Hgg Hi).
Qed.

Lemma table_groups m : table_ok m -> unique_groups (rm_rsets m) = seq 1 (rm_num_groups m).
Proof.
  intros H. destruct (walk_groups _ _ _ (tk_walk _ H) (tk_ne _ H)) as (A & B & C).
  assert (S1 : forall n k, StronglySorted lt (seq k n)).
  { induction n; intros; cbn; constructor; auto. apply Forall_forall. intros x Hx. apply in_seq in Hx. lia. }
  assert (U : forall l l', StronglySorted lt l -> StronglySorted lt l' -> (forall x, In x l <-> In x l') -> l = l').
  { induction l as [|x l IH]; intros [|y l'] H1 H2 H3; auto; [elim (proj2 (H3 y)); now left|elim (proj1 (H3 x)); now left|].
    inversion H1 as [|? ? Hs Hf]; subst. inversion H2 as [|? ? Hs' Hf']; subst. rewrite Forall_forall in *.
    assert (x = y).
    { destruct (proj1 (H3 x) (or_introl eq_refl)) as [->|Hx]; auto. destruct (proj2 (H3 y) (or_introl eq_refl)) as [->|Hy]; auto.
      apply Hf' in Hx. apply Hf in Hy. lia. }
    subst y. f_equal. apply IH; auto. intros z. split; intros Hz.
    - destruct (proj1 (H3 z) (or_intror Hz)) as [<-|]; auto. apply Hf in Hz. lia.
    - destruct (proj2 (H3 z) (or_intror Hz)) as [<-|]; auto. apply Hf' in Hz. lia. }
  apply U; auto using unique_groups_sorted. intros g. rewrite unique_groups_In, in_seq, (tk_groups _ H). split.
  - intros (r & Hr & <-). apply B in Hr. lia.
  - intros Hg. apply C. lia.
Qed.

(** ** Finding a set by group and slot *)
Lemma find_rset_ok rs : NoDup (places rs) -> forall i k r, nth_error rs i = Some r -> find_rset_from k rs (rs_group r) (rs_slot r) = Some (k + i).
Proof.
  induction rs as [|r0 rs IH]; intros Hnd i k r Hi; [destruct i; discriminate|]. cbn in Hnd. inversion Hnd as [|? ? Hni Hnd']; subst.
  cbn [find_rset_from]. destruct i as [|i].
  - injection Hi as ->. rewrite !Nat.eqb_refl. cbn. f_equal. lia.
  - cbn in Hi. destruct ((rs_group r0 =? rs_group r) && (rs_slot r0 =? rs_slot r)) eqn:E.
    + apply andb_true_iff in E. destruct E as [E1 E2]. apply Nat.eqb_eq in E1, E2. elim Hni. apply in_map_iff. exists r. split; [congruence|]. eapply nth_error_In; eauto.
    + rewrite (IH Hnd' i (S k) r Hi). f_equal. lia.
Qed.
Lemma find_rset_of m i : table_ok m -> i < length (rm_rsets m) -> find_rset_from 0 (rm_rsets m) (group_of m i) (slot_of m i) = Some i.
Proof.
  intros H Hi. unfold group_of, slot_of. destruct (nth_error (rm_rsets m) i) as [r|] eqn:E; [|apply nth_error_None in E; lia].
  apply (find_rset_ok _ (walk_places _ _ _ (tk_walk _ H)) i 0 r E).
Qed.
Lemma place_inj m i j : table_ok m -> i < length (rm_rsets m) -> j < length (rm_rsets m) ->
  group_of m i = group_of m j -> slot_of m i = slot_of m j -> i = j.
Proof.
  intros H Hi Hj E1 E2. pose proof (find_rset_of m i H Hi) as F1. pose proof (find_rset_of m j H Hj) as F2. rewrite E1, E2 in F1. congruence.
Qed.

(** ** Combinations and matching *)
Lemma combs_spec {A B} (f : A -> B) n : forall l c, In c (combs n l) -> length c = n /\ incl c l /\ (NoDup (map f l) -> NoDup (map f c)).
Proof.
  induction n as [|n IHn]; intros l c Hc.
  - cbn in Hc. destruct l; destruct Hc as [<-|[]]; (mbsplit; [auto|intros x []|constructor]).
  - induction l as [|x l IHl]; [destruct Hc|]. cbn [combs] in Hc. apply in_app_iff in Hc. destruct Hc as [Hc|Hc].
    + apply in_map_iff in Hc. destruct Hc as (c' & <- & Hc'). apply IHn in Hc'. destruct Hc' as (A1 & A2 & A3). mbsplit.
      * cbn. now rewrite A1.
      * intros y [<-|Hy]; [now left|right; auto].
      * cbn. intros H. inversion H as [|? ? Hni Hnd]; subst. constructor; auto. intros Hi. apply Hni. apply in_map_iff in Hi.
        destruct Hi as (y & E & Hy). apply in_map_iff. exists y. auto.
    + destruct (IHl Hc) as (A1 & A2 & A3). mbsplit; auto.
      * intros y Hy. right. auto.
      * cbn. intros H. inversion H. auto.
Qed.

Lemma match_loop_spec cs : forall per upper cand c com, match_loop cs per upper cand = Some (c, com) ->
  cand = Some (c, com) \/ (In c cs /\ com = common_slots c /\ per <= length com).
Proof.
  induction cs as [|c0 cs IH]; intros per upper cand c com; cbn [match_loop]; [auto|].
  destruct (Nat.eqb_spec (length (common_slots c0)) per) as [E|E].
  - intros H. injection H as <- <-. right. mbsplit; [now left|auto|lia].
  - destruct ((per <? length (common_slots c0)) && (length (common_slots c0) <? upper)) eqn:E2.
    + intros H. apply IH in H. destruct H as [H|(A & B & C)].
      * injection H as <- <-. right. apply andb_true_iff in E2. destruct E2 as [E2 _]. apply Nat.ltb_lt in E2. mbsplit; [now left|auto|lia].
      * right. mbsplit; auto. now right.
    + intros H. apply IH in H. destruct H as [H|(A & B & C)]; [auto|]. right. mbsplit; auto. now right.
Qed.

Lemma common_slots_spec c s : In s (common_slots c) -> forall p, In p c -> In s (snd p).
Proof.
  destruct c as [|p0 c]; [intros []|]. cbn. rewrite filter_In. intros [H1 H2] p [<-|Hp]; auto.
  rewrite forallb_forall in H2. apply memb_In. auto.
Qed.

Lemma get_matching_spec slots ng per cg cs : 1 <= ng -> NoDup (map fst slots) -> (forall p, In p slots -> NoDup (snd p)) ->
  get_matching slots ng per = Some (cg, cs) ->
  length cg = ng /\ NoDup cg /\ NoDup cs /\ per <= length cs /\
  (forall g, In g cg -> exists ss, In (g, ss) slots /\ incl cs ss).
Proof.
  intros Hng Hk Hs. unfold get_matching. set (viable := filter _ slots). destruct (length viable <? ng); [discriminate|].
  destruct (match_loop _ _ _ _) as [[c com]|] eqn:E; [|discriminate]. cbn. intros H. injection H as <- <-.
  apply match_loop_spec in E. destruct E as [E|(Hc & -> & Hl)]; [discriminate|].
  assert (Hv : NoDup (map fst viable)) by now apply NoDup_map_filter.
  destruct (combs_spec fst _ _ _ Hc) as (L & I & N). mbsplit; auto.
  - now rewrite map_length.
  - destruct c as [|p c]; [cbn in L; lia|]. cbn. apply NoDup_filter. apply Hs.
    specialize (I p (or_introl eq_refl)). apply filter_In in I. tauto.
  - intros g Hg. apply in_map_iff in Hg. destruct Hg as ((g' & ss) & E & Hin). cbn in E. subst g'. exists ss. split.
    + specialize (I _ Hin). apply filter_In in I. tauto.
    + intros s Hss. exact (common_slots_spec _ _ Hss _ Hin).
Qed.

(** ** The shape of a team *)
Definition pos (m : rman) (i : nat) := (group_of m i, slot_of m i).

Lemma collect_spec l t : collect l = Some t -> l = map Some t.
Proof.
  revert t; induction l as [|[x|] l IH]; intros t; cbn; try discriminate; [intros H; injection H as <-; auto|].
  destruct (collect l); cbn; [|discriminate]. intros H; injection H as <-. cbn. f_equal. auto.
Qed.
Lemma collect_some t : collect (map Some t) = Some t.
Proof. induction t; cbn; auto. now rewrite IHt. Qed.

Lemma team_from_slots_spec ord m valid use handed cg cs per : set_order ord -> table_ok m ->
  (forall g l, In (g, l) valid -> spare m use handed g l) ->
  NoDup cg -> NoDup cs -> per <= length cs ->
  (forall g, In g cg -> exists ss, In (g, ss) (avail_slots m valid) /\ incl cs ss) ->
  exists team ss, team_from_slots ord m cg cs per = Ok team /\ StronglySorted le team /\
    NoDup ss /\ length ss = per /\ Permutation (map (pos m) team) (list_prod cg ss) /\
    (forall i, In i team -> exists g l, In (g, l) valid /\ In i l).
Proof.
  intros Ho Ht Hv Ncg Ncs Hper Hcg.
  set (ss := firstn per (ord cs)).
  assert (Pss : forall s, In s ss -> In s cs).
  { intros s Hs. apply (Permutation_in _ (Ho cs)). unfold ss in Hs. rewrite <- (firstn_skipn per (ord cs)). apply in_or_app. auto. }
  assert (Nss : NoDup ss).
  { assert (N : NoDup (ord cs)) by (eapply Permutation_NoDup; [symmetry; apply Ho|auto]).
    unfold ss. rewrite <- (firstn_skipn per (ord cs)) in N. clear - N. induction (firstn per (ord cs)); [constructor|].
    cbn in N. inversion N as [|? ? Hni Hnd]; subst. constructor; auto. intros H. apply Hni. apply in_or_app; auto. }
  assert (Lss : length ss = per).
  { unfold ss. rewrite firstn_length, (Permutation_length (Ho cs)). lia. }
  assert (Hidx : forall g s, In g cg -> In s ss -> exists i l, In (g, l) valid /\ In i l /\ pos m i = (g, s) /\ find_rset_from 0 (rm_rsets m) g s = Some i).
  { intros g s Hg Hs. destruct (Hcg g Hg) as (sl & H1 & H2). unfold avail_slots in H1. apply in_map_iff in H1. destruct H1 as ((g' & l) & E & Hin).
    cbn in E. injection E as -> <-. specialize (H2 s (Pss s Hs)). apply nodup_In, in_map_iff in H2. destruct H2 as (i & Es & Hi).
    destruct (Hv _ _ Hin) as [_ Sp]. pose proof (proj1 (Sp i) Hi) as ((Hlt & _) & Eg & _). exists i, l. mbsplit; auto.
    - unfold pos. congruence.
    - rewrite <- Es, <- Eg. now apply find_rset_of. }
  assert (Hex : exists t, flat_map (fun g => map (fun s => find_rset_from 0 (rm_rsets m) g s) ss) cg = map Some t /\
     map (pos m) t = list_prod cg ss /\ (forall i, In i t -> exists g l, In (g, l) valid /\ In i l)).
  { clear - Hidx. induction cg as [|g cg IH]; [exists []; mbsplit; auto; intros i []|].
    destruct IH as (t & E1 & E2 & E3); [intros; apply Hidx; auto; now right|].
    assert (Hg : exists u, map (fun s => find_rset_from 0 (rm_rsets m) g s) ss = map Some u /\ map (pos m) u = map (fun s => (g, s)) ss /\
        (forall i, In i u -> exists g l, In (g, l) valid /\ In i l)).
    { assert (Hi : forall s, In s ss -> exists i l, In (g, l) valid /\ In i l /\ pos m i = (g, s) /\ find_rset_from 0 (rm_rsets m) g s = Some i)
        by (intros; apply Hidx; auto; now left). clear - Hi.
      induction ss as [|s ss IH]; [exists []; mbsplit; auto; intros i []|]. destruct IH as (u & A & B & C); [intros; apply Hi; now right|].
      destruct (Hi s (or_introl eq_refl)) as (i & l & I1 & I2 & I3 & I4). exists (i :: u). cbn. rewrite I4, A, I3, B. mbsplit; auto.
      intros j [<-|Hj]; [eauto|auto]. }
    destruct Hg as (u & A & B & C). exists (u ++ t). cbn [flat_map list_prod]. rewrite !map_app, A, B, E1, E2. mbsplit; auto.
    intros i Hi. apply in_app_iff in Hi. destruct Hi; auto. }
  destruct Hex as (t & E1 & E2 & E3). exists (sort_asc t), ss. unfold team_from_slots. fold ss. rewrite E1, collect_some.
  mbsplit; auto using sort_asc_sorted.
  - rewrite <- E2. apply Permutation_map, sort_asc_perm.
  - intros i Hi. apply E3. apply (Permutation_in _ (sort_asc_perm t)). auto.
Qed.

(** ** Any-slot teams *)
Lemma find_cand_spec gs : forall used per upper cand g t, find_cand gs used per upper cand = Some (g, t) ->
  cand = Some (g, t) \/ (~ In g used /\ exists l, In (g, l) gs /\ per <= length l /\ t = firstn per l).
Proof.
  induction gs as [|[g0 l0] gs IH]; intros used per upper cand g t; cbn [find_cand]; [auto|].
  assert (K : forall c, find_cand gs used per upper c = Some (g, t) -> c = Some (g, t) \/ (~ In g used /\ exists l, In (g, l) ((g0, l0) :: gs) /\ per <= length l /\ t = firstn per l)).
  { intros c H. apply IH in H. destruct H as [H|(A & l & B & C)]; auto. right. split; auto. exists l. split; auto. now right. }
  destruct (memb g0 used) eqn:Em; [apply K|]. apply memb_false in Em.
  destruct (Nat.eqb_spec (length l0) per) as [E|E].
  - intros H. injection H as <- <-. right. split; auto. exists l0. mbsplit; [now left|lia|]. rewrite <- E. now rewrite firstn_all.
  - destruct ((per <? length l0) && (length l0 <? upper)) eqn:E2; [|apply K].
    intros H. apply IH in H. destruct H as [H|(A & l & B & C)].
    + injection H as <- <-. right. split; auto. exists l0. apply andb_true_iff in E2. destruct E2 as [E2 _]. apply Nat.ltb_lt in E2. mbsplit; [now left|lia|auto].
    + right. split; auto. exists l. split; auto. now right.
Qed.

(** chunks: for each chosen group, the sets taken from it *)
Lemma any_loop_spec gs per upper : forall n used acc (ch : groups),
  used = map fst ch -> acc = flat_map snd ch -> NoDup used ->
  (forall g t, In (g, t) ch -> length t = per /\ exists l, In (g, l) gs /\ per <= length l /\ t = firstn per l) ->
  exists ch', any_loop n gs used per upper acc = flat_map snd ch' /\ NoDup (map fst ch') /\ length ch' <= length ch + n /\
    (forall g t, In (g, t) ch' -> length t = per /\ exists l, In (g, l) gs /\ per <= length l /\ t = firstn per l).
Proof.
  induction n as [|n IH]; intros used acc ch Eu Ea Hnd Hch; cbn [any_loop].
  - exists ch. subst. mbsplit; auto. lia.
  - destruct (find_cand gs used per upper None) as [[g t]|] eqn:E.
    + apply find_cand_spec in E. destruct E as [E|(Hni & l & H1 & H2 & H3)]; [discriminate|].
      destruct (IH (used ++ [g]) (acc ++ t) (ch ++ [(g, t)])) as (ch' & A & B & C & D).
      * rewrite map_app. now subst.
      * rewrite flat_map_app. cbn. rewrite app_nil_r. now subst.
      * apply (Permutation_NoDup (l := g :: used)); [apply Permutation_cons_append|]. constructor; auto.
      * intros g' t' Hin. apply in_app_iff in Hin. destruct Hin as [Hin|[Hin|[]]]; auto. injection Hin as <- <-. split; [subst t; rewrite firstn_length; lia|]. exists l. auto.
      * exists ch'. mbsplit; auto. rewrite app_length in C. cbn in C. lia.
    + destruct (IH used acc ch) as (ch' & A & B & C & D); auto. exists ch'. mbsplit; auto. lia.
Qed.

Lemma flat_map_len (ch : groups) per : (forall g t, In (g, t) ch -> length t = per) -> length (flat_map snd ch) = length ch * per.
Proof.
  induction ch as [|[g t] ch IH]; intros H; cbn; auto. rewrite app_length, IH by (intros; apply (H g0); now right). now rewrite (H g t (or_introl eq_refl)).
Qed.

Lemma find_any_spec m use handed valid maxgrp req ng per team : 
  map fst valid = unique_groups (rm_rsets m) ->
  (forall g l, In (g, l) valid -> spare m use handed g l) ->
  1 <= per -> req = ng * per -> find_any valid maxgrp req ng per = Ok team ->
  StronglySorted le team /\ NoDup team /\ length team = req /\
  (forall i, In i team -> exists g l, In (g, l) valid /\ In i l) /\
  (forall i, In i team -> in_team_on m team (group_of m i) = per).
Proof.
  intros Hk Hv Hper Hreq. unfold find_any. destruct (any_loop_spec valid per (maxgrp + 1) ng [] [] []) as (ch & E & N & L & C); auto.
  { constructor. } { intros g t []. }
  rewrite E. destruct (Nat.eqb_spec (length (flat_map snd ch)) req) as [El|]; [|discriminate]. intros H. injection H as <-.
  assert (P := sort_asc_perm (flat_map snd ch)).
  assert (Hgrp : forall g t i, In (g, t) ch -> In i t -> group_of m i = g).
  { intros g t i Hin Hi. destruct (C _ _ Hin) as (_ & l & H1 & H2 & ->). apply (proj2 (Hv _ _ H1)).
    rewrite <- (firstn_skipn per l). apply in_or_app; auto. }
  assert (Nt : forall g t, In (g, t) ch -> NoDup t).
  { intros g t Hin. destruct (C _ _ Hin) as (_ & l & H1 & H2 & ->). destruct (Hv _ _ H1) as [Nl _]. rewrite <- (firstn_skipn per l) in Nl. clear - Nl.
    induction (firstn per l); [constructor|]. cbn in Nl. inversion Nl; subst. constructor; auto. intros H. apply H1. apply in_or_app; auto. }
  assert (Nf : NoDup (flat_map snd ch)).
  { clear - N Hgrp Nt. induction ch as [|[g t] ch IH]; cbn; [constructor|]. cbn in N. inversion N as [|? ? Hni Hnd]; subst.
    assert (Nf : NoDup (flat_map snd ch)) by (apply IH; auto; [intros g0 t0 i0 HA HB; exact (Hgrp g0 t0 i0 (or_intror HA) HB)|intros g0 t0 HA; exact (Nt g0 t0 (or_intror HA))]).
    assert (D : forall i, In i t -> ~ In i (flat_map snd ch)).
    { intros i Hi Hf. apply in_flat_map in Hf. destruct Hf as ((g' & t') & H1 & H2). cbn in H2.
      assert (group_of m i = g) by exact (Hgrp g t i (or_introl eq_refl) Hi). assert (group_of m i = g') by exact (Hgrp g' t' i (or_intror H1) H2).
      apply Hni. apply in_map_iff. exists (g', t'). split; [cbn; congruence|auto]. }
    pose proof (Nt g t (or_introl eq_refl)) as Ntt. clear - Ntt Nf D. induction Ntt; cbn; auto. constructor.
    - intros H2. apply in_app_iff in H2. destruct H2 as [H2|H2]; [contradiction|]. apply (D x); auto. now left.
    - apply IHNtt. intros; apply D. now right. }
  mbsplit.
  - apply sort_asc_sorted.
  - eapply Permutation_NoDup; [symmetry; exact P|auto].
  - now rewrite (Permutation_length P).
  - intros i Hi. apply (Permutation_in _ P) in Hi. apply in_flat_map in Hi. destruct Hi as ((g & t) & H1 & H2). cbn in H2.
    destruct (C _ _ H1) as (_ & l & H3 & H4 & ->). exists g, l. split; auto. rewrite <- (firstn_skipn per l). apply in_or_app; auto.
  - intros i Hi. apply (Permutation_in _ P) in Hi. unfold in_team_on.
    assert (PL : forall f l l', Permutation l l' -> length (filter f l) = length (filter f l' : list nat)).
    { intros f l l' Hp. induction Hp; cbn; auto; try (destruct (f x); cbn; auto); try (destruct (f y); cbn; auto). congruence. }
    rewrite (PL _ _ _ P). apply in_flat_map in Hi. destruct Hi as ((g & t) & H1 & H2). cbn in H2. rewrite (Hgrp _ _ _ H1 H2).
    clear - H1 N Hgrp C. induction ch as [|[g' t'] ch IH]; [destruct H1|]. cbn [flat_map snd]. rewrite filter_app, app_length.
    cbn in N. inversion N as [|? ? Hni Hnd]; subst. destruct H1 as [H1|H1].
    + injection H1 as -> ->. assert (Z : filter (fun i => group_of m i =? g) (flat_map snd ch) = []).
      { destruct (filter _ (flat_map snd ch)) as [|x l] eqn:E; auto. assert (Hx : In x (x :: l)) by now left. rewrite <- E in Hx.
        apply filter_In in Hx. destruct Hx as [Hx Eg]. apply Nat.eqb_eq in Eg. apply in_flat_map in Hx. destruct Hx as ((g2 & t2) & H3 & H4). cbn in H4.
        elim Hni. apply in_map_iff. exists (g2, t2). split; auto. cbn. rewrite <- Eg. symmetry. exact (Hgrp _ _ _ (or_intror H3) H4). }
      rewrite Z. cbn. rewrite Nat.add_0_r. destruct (C g t (or_introl eq_refl)) as [<- _].
      f_equal. assert (A : forall i, In i t -> group_of m i = g) by (intros i0 Hi0; exact (Hgrp _ _ _ (or_introl eq_refl) Hi0)). clear - A.
      induction t as [|x t IH]; cbn; auto. rewrite (A x) by now left. rewrite Nat.eqb_refl. f_equal. apply IH. intros; apply A; now right.
    + assert (g' <> g) by (intros ->; apply Hni; apply in_map_iff; now exists (g, t)).
      assert (Z : filter (fun i => group_of m i =? g) t' = []).
      { assert (A : forall i, In i t' -> group_of m i = g') by (intros i0 Hi0; exact (Hgrp _ _ _ (or_introl eq_refl) Hi0)). clear - A H.
        induction t' as [|x t' IH]; cbn; auto. rewrite (A x) by now left. destruct (Nat.eqb_spec g' g); [congruence|]. apply IH. intros; apply A; now right. }
      rewrite Z. cbn. apply IH; auto; [intros g0 t0 HA; exact (C g0 t0 (or_intror HA))|intros g0 t0 i0 HA HB; exact (Hgrp g0 t0 i0 (or_intror HA) HB)].
Qed.
