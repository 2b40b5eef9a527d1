(** Lemmas about the allocation support code. *)
From Coq Require Import String Permutation Sorted.
From Verif Require Import Base BaseLemmas HistoryModel WorkModel RsetModel RsetSpec RsetLayout RsetGroups SchedModel SchedSpec SchedProofs SchedTeam SchedRun SchedServe SchedFacts AllocModel AllocSpec.
Local Notation length := List.length.

(** ** Units to resource sets *)
Lemma convert_ceiling per n : 0 < per -> exists k, convert_to_rsets per n = Ok k /\ (n <= Z.of_nat (k * per))%Z /\
  forall j : nat, (n <= Z.of_nat (j * per))%Z -> k <= j.
Proof.
  intros Hp. unfold convert_to_rsets. destruct (Z.ltb_spec 0 n) as [Hn|Hn].
  - destruct (Nat.eqb_spec per 0) as [|_]; [lia|]. eexists. split; [reflexivity|].
    pose proof (Z.div_mod n (Z.of_nat per) ltac:(lia)) as E. pose proof (Z.mod_pos_bound n (Z.of_nat per) ltac:(lia)) as B.
    assert (Q : (0 <= n / Z.of_nat per)%Z) by (apply Z.div_pos; lia).
    set (q := (n / Z.of_nat per)%Z) in *. set (r := (n mod Z.of_nat per)%Z) in *. clearbody q r.
    destruct (Z.ltb_spec 0 r) as [Hr|Hr].
    + split; [nia|]. intros j Hj. nia.
    + split; [nia|]. intros j Hj. nia.
  - exists 0. split; [reflexivity|]. split; [lia|]. intros; lia.
Qed.

Lemma convert_zero n : convert_to_rsets 0 n = if (0 <? n)%Z then Err EInsufficientRes else Ok 0.
Proof. reflexivity. Qed.

(** ** Worker queries *)
Lemma avail_ok W p a z g ws : avail_workers W p a z g = Ok ws ->
  exists ok, ws = map w_id (filter ok W) /\
    forall r, ok r = true <->
      (if a then w_recv r = true else w_active r = 0) /\
      match p with None => True | Some t => w_persis r = t end /\
      match z with None => True | Some b => (exists r', In r' W /\ w_zero r' = true) -> w_zero r = b end /\
      match g with None => True | Some b => (exists r', In r' W /\ w_gen r' = true) -> w_gen r = b end.
Proof.
  unfold avail_workers. destruct (a && _); [discriminate|]. intros H. injection H as <-. eexists. split; [reflexivity|].
  intros r. rewrite !andb_true_iff.
  assert (X : forall (f : wrow -> bool) o, (if negb (existsb f W) then true else match o with Some b => Bool.eqb (f r) b | None => true end) = true <->
              match o with None => True | Some b => (exists r', In r' W /\ f r' = true) -> f r = b end).
  { intros f o. destruct (existsb f W) eqn:Ex; cbn [negb].
    - apply existsb_exists in Ex. destruct o as [b|]; [|tauto]. split; [intros E _; now apply Bool.eqb_prop|intros E; rewrite (E Ex); apply Bool.eqb_reflx].
    - destruct o; split; auto. intros _ H. apply existsb_exists in H. congruence. }
  rewrite !X. destruct a, p as [p|]; rewrite ?Nat.eqb_eq; tauto.
Qed.

Lemma avail_sub W p a z g ws : avail_workers W p a z g = Ok ws -> ids_distinct W -> NoDup ws.
Proof.
  intros H Hd. destruct (avail_ok _ _ _ _ _ _ H) as (ok & -> & _). unfold ids_distinct in Hd. induction W as [|r W IH]; cbn; [constructor|].
  inversion Hd as [|? ? H1 H2]; subst. assert (IH' : NoDup (map w_id (filter ok W))) by (clear - H2; induction W as [|r W IH]; cbn; [constructor|]; inversion H2 as [|? ? H1 H3]; subst; destruct (ok r); [constructor|]; auto; intros Hin; apply H1; apply in_map_iff in Hin; destruct Hin as (x & <- & Hx); apply filter_In in Hx; apply in_map, Hx).
  destruct (ok r); [|exact IH']. constructor; auto. intros Hin. apply H1. apply in_map_iff in Hin. destruct Hin as (x & <- & Hx). apply filter_In in Hx. apply in_map, Hx.
Qed.

(** ** Status queries *)
Lemma in_rows_from (H : list row) lo k r : In (k, r) (skipn lo (combine (seq 0 (length H)) H)) <-> lo <= k /\ nth_error H k = Some r.
Proof.
  assert (X : forall (l : list row) a lo k r, In (k, r) (skipn lo (combine (seq a (length l)) l)) <-> a + lo <= k /\ nth_error l (k - a) = Some r).
  { induction l as [|x l IH]; intros a lo0 k0 r0.
    - cbn. rewrite skipn_nil. cbn. split; [tauto|]. intros [_ H0]. destruct (k0 - a); discriminate.
    - cbn [length seq combine]. destruct lo0 as [|lo0].
      + cbn [skipn]. specialize (IH (S a) 0 k0 r0). cbn [skipn] in IH. cbn [In]. rewrite IH. split.
        * intros [E|[E1 E2]]; [inversion E; subst; split; [lia|]; now rewrite Nat.sub_diag|]. split; [lia|]. replace (k0 - a) with (S (k0 - S a)) by lia. exact E2.
        * intros [E1 E2]. destruct (Nat.eq_dec k0 a) as [->|N]; [left; rewrite Nat.sub_diag in E2; cbn in E2; congruence|].
          right. split; [lia|]. replace (k0 - a) with (S (k0 - S a)) in E2 by lia. exact E2.
      + cbn [skipn]. rewrite (IH (S a) lo0 k0 r0). split; intros [E1 E2].
        * split; [lia|]. replace (k0 - a) with (S (k0 - S a)) by lia. exact E2.
        * split; [lia|]. replace (k0 - a) with (S (k0 - S a)) in E2 by lia. exact E2. }
  rewrite X. now rewrite Nat.sub_0_r.
Qed.

Lemma all_selected_spec bad st H sel lo : all_selected bad st H sel lo = true <->
  forall k r, lo <= k -> nth_error H k = Some r -> sel k = true -> bad r = false -> truthy (r st) = true.
Proof.
  unfold all_selected. rewrite forallb_forall. split.
  - intros A k r Hk Hr Hs Hb. apply (A (k, r)). apply filter_In. split; [now apply in_rows_from|]. cbn. now rewrite Hs, Hb.
  - intros A [k r] Hin. apply filter_In in Hin. destruct Hin as [Hin Hb]. apply in_rows_from in Hin. cbn [fst snd] in *. apply andb_true_iff in Hb. destruct Hb as [B1 B2].
    apply negb_true_iff in B2. exact (A k r (proj1 Hin) (proj2 Hin) B1 B2).
Qed.

(** ** Points *)
Lemma to_evaluate_spec H i : In i (to_evaluate H) <-> evaluable H i.
Proof.
  unfold to_evaluate, evaluable. split.
  - intros Hin. apply in_map_iff in Hin. destruct Hin as ([k r] & <- & Hin). apply filter_In in Hin. destruct Hin as [Hin B]. cbn [fst snd] in *.
    assert (Y : In (k, r) (skipn 0 (combine (seq 0 (length H)) H))) by exact Hin. apply in_rows_from in Y. exists r. split; [apply Y|].
    apply andb_true_iff in B. destruct B as [B1 B2]. apply negb_true_iff in B1, B2. auto.
  - intros (r & Hr & B1 & B2). apply in_map_iff. exists (i, r). split; auto. apply filter_In. split.
    + assert (Y : In (i, r) (skipn 0 (combine (seq 0 (length H)) H))) by (apply in_rows_from; split; [lia|auto]). exact Y.
    + cbn. unfold flag. now rewrite B1, B2.
Qed.

Lemma filtered_fst_nodup (p : nat * row -> bool) (H : list row) a : NoDup (map fst (filter p (combine (seq a (length H)) H))).
Proof.
  revert a. induction H as [|r H IH]; intros a; cbn; [constructor|]. specialize (IH (S a)).
  destruct (p (a, r)); auto. cbn. constructor; auto. intros Hin. apply in_map_iff in Hin. destruct Hin as ([k x] & E & Hk). cbn in E. subst k.
  apply filter_In in Hk. destruct Hk as [Hk _]. apply in_combine_l in Hk. apply in_seq in Hk. lia.
Qed.
Lemma to_evaluate_nodup H : NoDup (to_evaluate H).
Proof. apply filtered_fst_nodup. Qed.

Lemma argmax_in l : forall b, argmax_from b l = fst b \/ In (argmax_from b l) (map fst l).
Proof.
  induction l as [|p l IH]; intros b; cbn [argmax_from map In]; auto.
  set (b' := if is_nan (snd b) then b else _). destruct (IH b') as [E|E]; auto. rewrite E. unfold b'.
  destruct (is_nan (snd b)), (is_nan (snd p)), (sc_lt (snd b) (snd p)); auto.
Qed.

Lemma sc_ge_iff a b : sc_ge a b <-> is_nan a = true \/ (is_nan b = false /\ sc_lt a b = false).
Proof.
  destruct a as [a| |], b as [b| |]; cbn; rewrite ?Z.ltb_ge; intuition discriminate.
Qed.
Lemma sc_ge_refl a : sc_ge a a.
Proof. destruct a; cbn; auto. lia. Qed.
Lemma sc_ge_trans a b c : sc_ge a b -> sc_ge b c -> sc_ge a c.
Proof.
  destruct a as [a| |], b as [b| |], c as [c| |]; cbn; auto; try contradiction. lia.
Qed.
Definition better (b p : nat * sc) : nat * sc :=
  if is_nan (snd b) then b else if is_nan (snd p) then p else if sc_lt (snd b) (snd p) then p else b.
Lemma better_ge b p : sc_ge (snd (better b p)) (snd b) /\ sc_ge (snd (better b p)) (snd p).
Proof.
  unfold better. destruct (snd b) as [x| |] eqn:Eb, (snd p) as [y| |] eqn:Ep; cbn; rewrite ?Eb, ?Ep; cbn; auto; try (split; lia).
  destruct (Z.ltb_spec x y); rewrite ?Eb, ?Ep; cbn; split; lia.
Qed.

Lemma argmax_max l : forall b, exists v, In (argmax_from b l, v) (b :: l) /\ forall p, In p (b :: l) -> sc_ge v (snd p).
Proof.
  induction l as [|p l IH]; intros b; cbn [argmax_from].
  - exists (snd b). split; [left; now destruct b|]. intros p [<-|[]]. apply sc_ge_refl.
  - change (if is_nan (snd b) then b else if is_nan (snd p) then p else if sc_lt (snd b) (snd p) then p else b) with (better b p).
    destruct (IH (better b p)) as (v & H1 & H2). exists v. split.
    + destruct H1 as [H1|H1]; [|right; now right]. unfold better in H1 at 1. destruct (is_nan (snd b)), (is_nan (snd p)), (sc_lt (snd b) (snd p)); rewrite <- H1; cbn; auto.
    + destruct (better_ge b p) as [B1 B2]. intros q [<-|[<-|Hq]].
      * exact (sc_ge_trans _ _ _ (H2 _ (or_introl eq_refl)) B1).
      * exact (sc_ge_trans _ _ _ (H2 _ (or_introl eq_refl)) B2).
      * apply H2. now right.
Qed.

Lemma sc_max_spec l : forall a, In (sc_max a l) (a :: l) /\ forall b, In b (a :: l) -> sc_ge (sc_max a l) b.
Proof.
  induction l as [|b l IH]; intros a; cbn [sc_max].
  - split; [now left|]. intros b [<-|[]]. apply sc_ge_refl.
  - set (m := if is_nan a then a else _). destruct (IH m) as [H1 H2].
    assert (M : (m = a \/ m = b) /\ sc_ge m a /\ sc_ge m b).
    { pose proof (better_ge (0, a) (0, b)) as [B1 B2]. unfold better in B1, B2. cbn [snd] in B1, B2. unfold m. split; [|split].
      - destruct (is_nan a), (is_nan b), (sc_lt a b); auto.
      - destruct (is_nan a), (is_nan b), (sc_lt a b); cbn [snd] in *; auto.
      - destruct (is_nan a), (is_nan b), (sc_lt a b); cbn [snd] in *; auto. }
    destruct M as (M1 & M2 & M3). split.
    + destruct H1 as [H1|H1]; [|right; now right]. rewrite <- H1. destruct M1 as [->| ->]; cbn; auto.
    + intros x [<-|[<-|Hx]].
      * exact (sc_ge_trans _ _ _ (H2 _ (or_introl eq_refl)) M2).
      * exact (sc_ge_trans _ _ _ (H2 _ (or_introl eq_refl)) M3).
      * apply H2. now right.
Qed.

Lemma points_sub d H pts batch rows : points_by_priority d H pts batch = Ok rows -> NoDup pts ->
  NoDup rows /\ incl rows pts /\ (batch = false -> length rows = 1) /\
  (has F_priority (names d) = false -> length rows = 1).
Proof.
  unfold points_by_priority. destruct pts as [|i pts]; [discriminate|]. intros E Hn. destruct (has F_priority (names d)).
  - destruct batch.
    + injection E as <-. split; [|split; [|split; discriminate]].
      * change (NoDup (filter (fun k => sc_eqb (prio H k) (sc_max (prio H i) (map (prio H) pts))) (i :: pts))). now apply NoDup_filter.
      * intros k Hk. change (In k (filter (fun k => sc_eqb (prio H k) (sc_max (prio H i) (map (prio H) pts))) (i :: pts))) in Hk. apply filter_In in Hk. apply Hk.
    + injection E as <-. split; [constructor; [intros []|constructor]|]. split; [|split; auto; discriminate]. intros k [<-|[]].
      destruct (argmax_in (map (fun k => (k, prio H k)) pts) (i, prio H i)) as [E|E]; [left; now rewrite E|]. right. rewrite map_map in E. cbn in E. now rewrite map_id in E.
  - injection E as <-. split; [constructor; [intros []|constructor]|]. split; [|split; auto]. intros k [<-|[]]. now left.
Qed.

(** ** Scheduling for work units *)
Definition resources_ok (c : actx) : Prop :=
  set_order (ac_ord c) /\ match ac_rm c with Some m => reachable_table m | None => True end.

Definition sinv (c : actx) (handed : list nat) (s : ast) : Prop :=
  match ac_rm c, as_sched s with
  | Some m, Some sc => sched_inv m handed sc
  | None, None => handed = []
  | _, _ => False
  end.

Lemma support_init_sinv c g : resources_ok c -> sinv c [] (support_init c g).
Proof.
  intros [_ H]. unfold sinv, support_init. cbn [as_sched]. destruct (ac_rm c) as [m|]; cbn; auto. apply sched_init_inv, reachable_table_ok, H.
Qed.

(** What the scheduler promises about one team. *)
Definition covers (c : actx) (num : nat) (use : option bool) (t : option (list nat)) : Prop :=
  match ac_rm c, t with
  | Some m, Some t => num <= length t /\ forall i, In i t -> of_kind m use i
  | None, None => True
  | _, _ => False
  end.

Lemma assign_step' ord m s handed num use params a s' : set_order ord -> reachable_table m -> sched_inv m handed s ->
  assign_resources ord m s num use params = (a, s') ->
  match a with
  | Ok team => sched_inv m (handed ++ team) s' /\ num <= length team /\ forall i, In i team -> of_kind m use i
  | Err e => sched_inv m handed s' /\ insufficient e = true
  end.
Proof.
  intros Ho Hm Hs E. pose proof (reachable_table_ok m Hm) as Ht.
  destruct (assign_step ord m s handed (mkReq num use params) a s' Ho Ht Hs E) as (_ & _ & H). cbn [rq_num rq_gpus] in H.
  destruct a as [team|e].
  - destruct H as [H1 [[Z ->]|(Z & r & ng & per & Ec & ng1 & per1 & Er & Hng & Hper & G)]].
    + split; auto. split; [lia|]. intros i [].
    + split; auto. destruct G as (_ & _ & G3 & G4 & _). destruct (calc_even_spec _ _ _ _ _ _ Z Ec) as (F1 & F2 & F3 & _). split; [|intros i Hi; now apply G4].
      rewrite G3, <- Er. lia.
  - destruct H as [H1 [[-> _]|[-> _]]]; auto.
Qed.

Lemma support_assign_spec c handed num use params s a s' : resources_ok c -> sinv c handed s ->
  support_assign c num use params s = (a, s') ->
  as_gens s' = as_gens s /\
  match a with
  | Ok t => sinv c (handed ++ match t with Some t => t | None => [] end) s' /\ covers c num use t
  | Err e => sinv c handed s' /\ insufficient e = true
  end.
Proof.
  intros [Ho Hm] Hs. unfold support_assign, sinv, covers in *. destruct (ac_rm c) as [m|]; destruct (as_sched s) as [sc|] eqn:Es; try contradiction.
  - assert (D : forall sc0, sched_inv m handed sc0 -> let (a, sc1) := assign_resources (ac_ord c) m sc0 num use params in
        as_gens (mkAS (Some sc1) (as_gens s)) = as_gens s /\
        match (match a with Ok t => Ok (Some t) | Err e => Err e end) with
        | Ok t => sched_inv m (handed ++ match t with Some t => t | None => [] end) sc1 /\ match t with Some t => num <= length t /\ (forall i, In i t -> of_kind m use i) | None => False end
        | Err e => sched_inv m handed sc1 /\ insufficient e = true end).
    { intros sc0 H0. destruct (assign_resources _ _ _ _ _ _) as [a0 sc1] eqn:E. pose proof (assign_step' _ _ _ _ _ _ _ _ _ Ho Hm H0 E) as X.
      cbn. destruct a0; cbn; auto. }
    destruct use as [b|].
    + specialize (D sc Hs). destruct (assign_resources _ _ _ _ _ _) as [a0 sc1]. intros H. injection H as <- <-. cbn [as_sched]. exact D.
    + destruct (assign_resources (ac_ord c) m sc num (Some false) params) as [a0 sc1] eqn:E. pose proof (assign_step' _ _ _ _ _ _ _ _ _ Ho Hm Hs E) as X. destruct a0 as [t|e].
      * intros H. injection H as <- <-. cbn [as_sched as_gens]. split; auto. destruct X as (X1 & X2 & X3). split; auto. split; auto. intros; exact I.
      * destruct X as [X1 X2]. rewrite X2. specialize (D sc1 X1). destruct (assign_resources (ac_ord c) m sc1 num None params) as [a1 sc2]. intros H. injection H as <- <-. cbn [as_sched]. exact D.
  - intros H. injection H as <- <-. rewrite Es. split; auto. split; auto. now rewrite app_nil_r.
Qed.
