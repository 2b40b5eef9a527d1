(** The initial table: groups are numbered 1,2,... and slots 0,1,2,... within a group. *)
From Coq Require Import String.
From Verif Require Import Base BaseLemmas RsetModel RsetSpec RsetProofs RsetLayout.
Local Notation length := List.length.

(** The sets run through slots s, s+1, ... of group g, then slot 0 of the next group, and so on. *)
Fixpoint walk (g s : nat) (rs : list rset) : Prop :=
  match rs with
  | [] => True
  | r :: rs' => rs_group r = g /\ rs_slot r = s /\ (walk g (S s) rs' \/ walk (S g) 0 rs')
  end.

Lemma walk_lower rs : forall g s, walk g s rs -> forall r, In r rs -> g < rs_group r \/ (rs_group r = g /\ s <= rs_slot r).
Proof.
  induction rs as [|r0 rs IH]; intros g s Hw r Hr; [destruct Hr|]. destruct Hw as (E1 & E2 & Hw). destruct Hr as [<-|Hr]; [right; lia|].
  destruct Hw as [Hw|Hw]; apply (IH _ _ Hw) in Hr; lia.
Qed.

Lemma walk_places rs : forall g s, walk g s rs -> NoDup (places rs).
Proof.
  induction rs as [|r0 rs IH]; intros g s Hw; [constructor|]. destruct Hw as (E1 & E2 & Hw). cbn. constructor.
  - unfold places. rewrite in_map_iff. intros (r & E & Hr). inversion E.
    destruct Hw as [Hw|Hw]; apply (walk_lower _ _ _ Hw) in Hr; lia.
  - destruct Hw as [Hw|Hw]; eauto.
Qed.

Definition last_group (rs : list rset) : nat := match rev rs with r :: _ => rs_group r | [] => 0 end.
Lemma last_group_cons r r' rs : last_group (r :: r' :: rs) = last_group (r' :: rs).
Proof.
  unfold last_group. cbn. destruct (rev rs ++ [r']) eqn:E; [destruct (rev rs); discriminate|]. reflexivity.
Qed.

Lemma walk_groups rs : forall g s, walk g s rs -> rs <> [] ->
  g <= last_group rs /\ (forall r, In r rs -> g <= rs_group r <= last_group rs) /\
  (forall k, g <= k <= last_group rs -> exists r, In r rs /\ rs_group r = k).
Proof.
  induction rs as [|r0 rs IH]; intros g s Hw Hne; [congruence|]. destruct Hw as (E1 & E2 & Hw).
  destruct rs as [|r1 rs].
  - unfold last_group; cbn. mbsplit; try lia; [intros r [<-|[]]; lia|]. intros k Hk. exists r0. split; [now left|lia].
  - rewrite last_group_cons. destruct Hw as [Hw|Hw]; apply IH in Hw; try discriminate; destruct Hw as (A & B & C).
    + mbsplit; auto; [intros r [<-|Hr]; [lia|auto]|]. intros k Hk. destruct (C k Hk) as (r & Hr & Er). exists r. split; [now right|auto].
    + mbsplit; try lia; [intros r [<-|Hr]; [lia|apply B in Hr; lia]|]. intros k Hk. destruct (Nat.eq_dec k g); [exists r0; split; [now left|lia]|].
      destruct (C k) as (r & Hr & Er); [lia|]. exists r. split; [now right|auto].
Qed.

Lemma group_loop_length sl : forall nd g s gpn gpg, length (group_loop sl nd g s gpn gpg) = length sl.
Proof. induction sl; intros; cbn; auto. destruct (_ || _); cbn; auto. Qed.
Lemma group_loop_owner sl : forall nd g s gpn gpg r, In r (group_loop sl nd g s gpn gpg) -> rs_owner r = None.
Proof. induction sl; intros nd g s gpn gpg r; cbn; [intros []|]. destruct (_ || _); intros [<-|H]; eauto. Qed.
Lemma group_loop_walk sl : forall nd g s gpn gpg,
  walk g s (group_loop sl nd g s gpn gpg) \/ walk (S g) 0 (group_loop sl nd g s gpn gpg).
Proof.
  induction sl as [|n sl IH]; intros; [left; exact I|]. cbn [group_loop]. destruct (_ || _).
  - right. rewrite Nat.add_1_r. cbn. mbsplit; auto.
  - left. cbn. mbsplit; auto. rewrite Nat.add_1_r. apply IH.
Qed.
Lemma group_list_walk sl gpn gpg : gpg <> Some 0 -> walk 1 0 (get_group_list sl gpn gpg).
Proof.
  destruct sl as [|n sl]; [exact (fun _ => I)|]. intros Hg. cbn [get_group_list group_loop].
  replace (node_list_eqb n n) with true by (unfold node_list_eqb; destruct (list_eq_dec string_dec n n); congruence).
  assert (E : match gpg with Some g => 0 =? g | None => false end = false).
  { destruct gpg as [[|g]|]; auto. congruence. }
  rewrite E. cbn [negb orb]. cbn. mbsplit; auto. apply group_loop_walk.
Qed.
Lemma group_loop_gpu sl : forall nd g s gpn gpg r, In r (group_loop sl nd g s gpn gpg) -> rs_gpu r = (rs_slot r <? gpn).
Proof. induction sl; intros nd g s gpn gpg r; cbn [group_loop]; [intros []|]. destruct (_ || _); intros [<-|H]; eauto. Qed.

(** ** rman_init *)
Lemma rman_init_spec nw p m : rman_init nw p = Ok m ->
  length (rm_rsets m) = total_rsets nw p /\ total_rsets nw p <> 0 /\ p_nodes p <> [] /\
  (forall i, holder m i = None) /\ books_balanced m /\
  (forall r, In r (rm_rsets m) -> rs_gpu r = (rs_slot r <? p_gpus_per_node p)) /\
  (p_gpus_per_group p <> Some 0 -> walk 1 0 (rm_rsets m)) /\
  rm_num_groups m = last_group (rm_rsets m) /\
  rm_index m = get_index_list nw (total_rsets nw p) (p_zero p) /\
  (exists loc, get_split_list (total_rsets nw p) (p_nodes p) = Ok (rm_split m, loc)) /\
  rm_rsets m = get_group_list (rm_split m) (p_gpus_per_node p) (p_gpus_per_group p) /\
  rm_per_node m = ceil_div (total_rsets nw p) (length (p_nodes p)) /\
  rm_gpu_per_node m = Nat.min (p_gpus_per_node p) (rm_per_node m) /\
  rm_nongpu_per_node m = rm_per_node m - rm_gpu_per_node m.
Proof.
  unfold rman_init. destruct (get_split_list _ _) as [[sl loc]|e] eqn:E; [|discriminate]. cbn [bindr fst].
  intros H; injection H as <-. cbn [rm_rsets rm_num_groups rm_index rm_split rm_per_node rm_gpu_per_node rm_nongpu_per_node rm_free].
  assert (Hz : ~ (total_rsets nw p = 0 \/ p_nodes p = [])).
  { intros Hz. apply split_list_error in Hz. destruct Hz as [e He]. congruence. }
  assert (Ls : length sl = total_rsets nw p).
  { unfold get_split_list in E. destruct (_ =? 0); [discriminate|]. destruct (_ =? 0); [discriminate|]. destruct (_ <=? _).
    - rewrite expand_eq in E. injection E as <- <-. apply best_split_length.
    - injection E as <- <-. apply best_split_length. }
  set (rs := get_group_list sl _ _) in *.
  assert (Lr : length rs = total_rsets nw p).
  { rewrite <- Ls. unfold rs, get_group_list. destruct sl; auto. apply group_loop_length. }
  assert (Lo : forall r, In r rs -> rs_owner r = None).
  { intros r. unfold rs, get_group_list. destruct sl; [intros []|]. apply group_loop_owner. }
  mbsplit; auto.
  - intros i. unfold holder; cbn. destruct (nth_error rs i) eqn:Er; auto. apply Lo. eapply nth_error_In; eauto.
  - unfold books_balanced. rewrite !unheld_countb. cbn [rm_rsets rm_free rm_gpu_free rm_nongpu_free].
    assert (G : forall q, countb (fun r => match rs_owner r with None => q r | Some _ => false end) rs = countb q rs).
    { intros q. apply countb_ext. intros r Hr. now rewrite Lo. }
    rewrite !G. mbsplit; auto. rewrite <- Lr. clear. unfold countb. f_equal. induction rs; cbn; auto.
  - intros r. unfold rs, get_group_list. destruct sl; [intros []|]. apply group_loop_gpu.
  - intros. now apply group_list_walk.
  - exists loc. auto.
Qed.

(** ** Runs of the table *)
Lemma rrun_spec os : forall m m', Forall no_repeats os -> books_balanced m -> rrun os m = (m', None) ->
  books_balanced m' /\ same_layout m m'.
Proof.
  induction os as [|o os IH]; intros m m' Hf Hb Hr.
  - cbn in Hr. inversion Hr; subst. auto using same_layout_refl.
  - inversion Hf as [|? ? H1 H2]; subst. unfold rrun in *. cbn [foldx] in Hr.
    destruct (rstep o m) as [m1 [e|]] eqn:Es; cbn [bindx] in Hr; [discriminate|].
    assert (G : books_balanced m1 /\ same_layout m m1).
    { destruct o; cbn in Es.
      - destruct (assign_rsets_spec _ _ _ _ H1 Hb Es) as (?&?&_); auto.
      - injection Es as <-. destruct (free_rsets_spec w m Hb) as (?&?&_); auto.
      - injection Es as <-. destruct (free_all_spec m) as (?&?&_); auto. }
    destruct G as [G1 G2]. destruct (IH _ _ H2 G1 Hr) as [I1 I2]. split; auto. eapply same_layout_trans; eauto.
Qed.

Lemma rrun_receivers os : forall m m' i w, Forall no_repeats os -> books_balanced m -> rrun os m = (m', None) ->
  holder m' i = Some w -> In w (receivers os) \/ holder m i = Some w.
Proof.
  induction os as [|o os IH]; intros m m' i w Hf Hb Hr Hh.
  - cbn in Hr. inversion Hr; subst. auto.
  - inversion Hf as [|? ? H1 H2]; subst. unfold rrun in *. cbn [foldx] in Hr.
    destruct (rstep o m) as [m1 [e|]] eqn:Es; cbn [bindx] in Hr; [discriminate|].
    assert (Hb1 : books_balanced m1).
    { apply (rrun_spec [o] m m1); auto. unfold rrun; cbn [foldx]. now rewrite Es. }
    destruct (IH _ _ _ _ H2 Hb1 Hr Hh) as [G|G]; [left; cbn; apply in_or_app; auto|].
    destruct o; cbn in Es.
    + destruct (assign_rsets_spec _ _ _ _ H1 Hb Es) as (_&_&Hj). rewrite Hj in G.
      destruct (memb i team); auto. destruct (holder m i); auto. left. cbn. left. congruence.
    + injection Es as <-. destruct (free_rsets_spec w0 m Hb) as (_&_&Hj). rewrite Hj in G.
      destruct (holder m i); [|discriminate]. destruct (n =? w0); [discriminate|auto].
    + injection Es as <-. destruct (free_all_spec m) as (_&_&Hj). rewrite Hj in G. discriminate.
Qed.

Lemma release_list ws : forall m, books_balanced m ->
  let m' := fold_left (fun m w => free_rsets w m) ws m in
  books_balanced m' /\ same_layout m m' /\ forall i, holder m' i = match holder m i with Some v => if memb v ws then None else Some v | None => None end.
Proof.
  induction ws as [|w ws IH]; intros m Hb; cbn.
  - mbsplit; auto using same_layout_refl. intros i. now destruct (holder m i).
  - destruct (free_rsets_spec w m Hb) as (B & L & Hj). destruct (IH _ B) as (B' & L' & Hj').
    mbsplit; auto; [eapply same_layout_trans; eauto|]. intros i. rewrite Hj', Hj. destruct (holder m i) as [v|]; auto.
    unfold memb. cbn. destruct (v =? w); auto.
Qed.

(** ** C19 *)
Lemma index_loop_spec zero nr : forall ws idx i w,
  nth_error ws i = Some w ->
  nth_error (index_loop ws idx nr zero) i = Some (
    if memb w zero then None
    else let k := idx + length (filter (fun v => negb (memb v zero)) (firstn i ws)) in
         if k <? nr then Some k else None).
Proof.
  induction ws as [|v ws IH]; intros idx i w Hi; [destruct i; discriminate|]. destruct i as [|i].
  - inversion Hi; subst. cbn [index_loop firstn filter List.length]. destruct (memb w zero); auto. rewrite Nat.add_0_r. cbn [nth_error]. cbv zeta. f_equal.
    destruct (Nat.leb_spec nr idx), (Nat.ltb_spec idx nr); auto; lia.
  - cbn in Hi. cbn [index_loop firstn filter]. destruct (memb v zero) eqn:Ev; cbn [nth_error negb].
    + now rewrite (IH _ _ _ Hi).
    + rewrite (IH _ _ _ Hi). cbn [List.length]. now rewrite Nat.add_1_r, Nat.add_succ_r.
Qed.
Lemma index_loop_length zero nr : forall ws idx, length (index_loop ws idx nr zero) = length ws.
Proof. induction ws; intros; cbn; auto. destruct (memb a zero); cbn; auto. Qed.

Lemma firstn_seq n : forall k s, k <= n -> firstn k (seq s n) = seq s k.
Proof. induction n; destruct k; intros; cbn; auto; try lia. f_equal. apply IHn. lia. Qed.

Lemma index_list_spec nw nr zero w : 1 <= w <= nw ->
  nth_error (get_index_list nw nr zero) (w - 1) = Some (
    if memb w zero then None
    else let k := length (filter (fun v => negb (memb v zero)) (seq 1 (w - 1))) in
         if k <? nr then Some k else None).
Proof.
  intros Hw. unfold get_index_list. rewrite (index_loop_spec _ _ _ _ _ w).
  - rewrite firstn_seq by lia. reflexivity.
  - rewrite nth_error_nth' with (d := 0) by (rewrite seq_length; lia). rewrite seq_nth by lia. f_equal. lia.
Qed.

Lemma count_le_seq (p : nat -> bool) a b : a <= b -> length (filter p (seq 1 a)) <= length (filter p (seq 1 b)).
Proof.
  intros. replace b with (a + (b - a)) by lia. rewrite seq_app, filter_app, app_length. lia.
Qed.
Lemma count_lt_seq (p : nat -> bool) a b : a < b -> p (S a) = true -> length (filter p (seq 1 a)) < length (filter p (seq 1 b)).
Proof.
  intros Hlt Hp. pose proof (count_le_seq p (S a) b Hlt). rewrite seq_S, filter_app, app_length in H. cbn in H. rewrite Hp in H. cbn in H. lia.
Qed.

Lemma index_list_injective nw nr zero w w' k : 1 <= w <= nw -> 1 <= w' <= nw ->
  nth_error (get_index_list nw nr zero) (w - 1) = Some (Some k) ->
  nth_error (get_index_list nw nr zero) (w' - 1) = Some (Some k) -> w = w'.
Proof.
  intros Hw Hw'. rewrite !index_list_spec by auto.
  destruct (memb w zero) eqn:M1; [discriminate|]. destruct (memb w' zero) eqn:M2; [discriminate|]. cbn zeta.
  destruct (_ <? _) eqn:L1; [|discriminate]. destruct (length (filter _ (seq 1 (w' - 1))) <? nr) eqn:L2; [|discriminate].
  intros H1 H2. injection H1 as H1. injection H2 as H2.
  assert (G : forall a b, 1 <= a -> a < b -> memb a zero = false ->
     length (filter (fun v => negb (memb v zero)) (seq 1 (a - 1))) < length (filter (fun v => negb (memb v zero)) (seq 1 (b - 1)))).
  { intros a b Ha Hab Hz. apply count_lt_seq; [lia|]. replace (S (a - 1)) with a by lia. now rewrite Hz. }
  destruct (Nat.lt_trichotomy w w') as [Hl|[He|Hl]]; auto; apply G in Hl; auto; lia.
Qed.
