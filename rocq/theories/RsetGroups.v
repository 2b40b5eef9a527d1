(** Sizes of node groups in the initial table; agreement of slot numbers (C44). *)
From Coq Require Import String.
From Verif Require Import Base BaseLemmas RsetModel RsetSpec RsetProofs RsetLayout RsetWalk.
Local Notation length := List.length.

Definition in_group (g : nat) (r : rset) : bool := rs_group r =? g.

(** Sets of one group have the same node list. *)
Lemma group_loop_lower sl : forall nd g s gpn gpg r, In r (group_loop sl nd g s gpn gpg) -> g <= rs_group r.
Proof.
  induction sl as [|n sl IH]; intros nd g s gpn gpg r; cbn [group_loop]; [intros []|].
  destruct (_ || _); intros [<-|H]; cbn; try lia; apply IH in H; lia.
Qed.

Lemma node_list_eqb_ok a b : node_list_eqb a b = true <-> a = b.
Proof. unfold node_list_eqb. destruct (list_eq_dec string_dec a b); split; congruence. Qed.

Lemma group_loop_same sl : forall nd g s gpn gpg,
  (forall r n, In (r, n) (combine (group_loop sl nd g s gpn gpg) sl) -> rs_group r = g -> n = nd) /\
  (forall r n r' n', In (r, n) (combine (group_loop sl nd g s gpn gpg) sl) -> In (r', n') (combine (group_loop sl nd g s gpn gpg) sl) ->
     rs_group r = rs_group r' -> n = n').
Proof.
  induction sl as [|n0 sl IH]; intros nd g s gpn gpg; [split; cbn; tauto|]. cbn [group_loop].
  destruct (_ || _) eqn:E; cbn [combine].
  - destruct (IH n0 (g + 1) 1 gpn gpg) as [I1 I2].
    assert (Lo : forall r n, In (r, n) (combine (group_loop sl n0 (g + 1) 1 gpn gpg) sl) -> g + 1 <= rs_group r).
    { intros r n H. apply in_combine_l in H. now apply group_loop_lower in H. }
    split.
    + intros r n [H|H] Eg; [injection H as <- <-; cbn in Eg; lia|]. apply Lo in H. lia.
    + intros r n r' n' [H|H] [H'|H'] Eg.
      * congruence.
      * injection H as <- <-. symmetry. eapply I1; [exact H'|auto].
      * injection H' as <- <-. eapply I1; [exact H|auto].
      * eapply I2; eauto.
  - apply orb_false_iff in E. destruct E as [E _]. apply negb_false_iff, node_list_eqb_ok in E. subst n0.
    destruct (IH nd g (s + 1) gpn gpg) as [I1 I2]. split.
    + intros r n [H|H] Eg; [congruence|eauto].
    + intros r n r' n' [H|H] [H'|H'] Eg.
      * congruence.
      * injection H as <- <-. symmetry. eapply I1; [exact H'|auto].
      * injection H' as <- <-. eapply I1; [exact H|auto].
      * eapply I2; eauto.
Qed.

Lemma group_count (g : nat) : forall (rs : list rset) (sl : list (list node)) (s : list node), length rs = length sl ->
  (forall r n, In (r, n) (combine rs sl) -> rs_group r = g -> n = s) ->
  countb (in_group g) rs <= length (filter (node_list_eqb s) sl).
Proof.
  unfold countb. induction rs as [|r rs IH]; intros sl s Hl Hs; [cbn; lia|]. destruct sl as [|n sl]; [discriminate|]. cbn [filter].
  assert (G : length (filter (in_group g) rs) <= length (filter (node_list_eqb s) sl)).
  { apply IH; [now injection Hl|]. intros. eapply Hs; eauto. now right. }
  unfold in_group at 1. destruct (Nat.eqb_spec (rs_group r) g) as [Eg|].
  - assert (n = s) by (eapply Hs; [now left|auto]). subst.
    rewrite (proj2 (node_list_eqb_ok s s) eq_refl). cbn [List.length]. lia.
  - destruct (node_list_eqb s n); cbn [List.length]; lia.
Qed.

Lemma count_single x d : length (filter (node_list_eqb [x]) (map (fun y => [y]) d)) = length (filter (String.eqb x) d).
Proof.
  induction d as [|y d IH]; [reflexivity|]. cbn [map filter].
  destruct (String.eqb_spec x y) as [->|Hn].
  - rewrite (proj2 (node_list_eqb_ok [y] [y]) eq_refl). cbn. now rewrite IH.
  - destruct (node_list_eqb [x] [y]) eqn:E; auto. apply node_list_eqb_ok in E. congruence.
Qed.

Lemma concat_nodup_count (sl : list (list node)) s : NoDup (concat sl) -> s <> [] -> length (filter (node_list_eqb s) sl) <= 1.
Proof.
  intros Hnd Hs. induction sl as [|n sl IH]; [cbn; lia|]. cbn [concat] in Hnd. cbn [filter].
  assert (Hnd2 : NoDup (concat sl)) by (clear - Hnd; induction n; cbn in *; auto; inversion Hnd; auto).
  destruct (node_list_eqb s n) eqn:E; [|auto]. apply node_list_eqb_ok in E. subst n. cbn [List.length].
  assert (Z : filter (node_list_eqb s) sl = []).
  { destruct (filter (node_list_eqb s) sl) as [|t l] eqn:F; auto. exfalso.
    assert (Ht : In t (filter (node_list_eqb s) sl)) by (rewrite F; now left).
    apply filter_In in Ht. destruct Ht as [Ht Et]. apply node_list_eqb_ok in Et. subst t.
    destruct s as [|x s]; [congruence|]. cbn in Hnd. inversion Hnd as [|? ? Hni ?]; subst. apply Hni. apply in_or_app. right.
    apply in_concat. exists (x :: s). split; auto. now left. }
  rewrite Z. cbn. lia.
Qed.

Lemma ceil_div_ge a b : b <> 0 -> a <= b * ceil_div a b.
Proof.
  intros H. unfold ceil_div. pose proof (Nat.div_mod a b H). pose proof (Nat.mod_upper_bound a b H).
  destruct (Nat.ltb_spec 0 (a mod b)); nia.
Qed.
Lemma ceil_div_lt a b : b <> 0 -> b * ceil_div a b < a + b.
Proof.
  intros H. unfold ceil_div. pose proof (Nat.div_mod a b H). pose proof (Nat.mod_upper_bound a b H).
  destruct (Nat.ltb_spec 0 (a mod b)); nia.
Qed.

(** No entry of the split list occurs more often than rsets_per_node. *)
Lemma split_count r nodes sl loc s : NoDup nodes -> get_split_list r nodes = Ok (sl, loc) -> In s sl ->
  length (filter (node_list_eqb s) sl) <= ceil_div r (length nodes).
Proof.
  intros Hnd Hg Hs. unfold get_split_list in Hg. destruct (Nat.eqb_spec r 0) as [|Hr]; [discriminate|].
  destruct (Nat.eqb_spec (length nodes) 0) as [E|E]; [discriminate|].
  assert (Hne : nodes <> []) by (destruct nodes; [elim E; auto|discriminate]).
  destruct (Nat.leb_spec (length nodes) r) as [Hle|Hlt].
  - rewrite expand_eq in Hg. injection Hg as <- _. set (d := dup_from _ _ 0 nodes) in *.
    assert (Ld : length d = r) by now apply expand_length.
    rewrite <- Ld, best_split_same in *. apply in_map_iff in Hs. destruct Hs as (x & <- & Hx). rewrite count_single.
    assert (Hin : In x nodes) by (eapply dup_In; eauto). apply In_nth_error in Hin. destruct Hin as [j Hj].
    unfold d at 1. rewrite Ld. rewrite (dup_count _ _ String.eqb String.eqb_eq nodes x j Hnd Hj). cbn [Nat.add].
    assert (j < length nodes) by (apply nth_error_Some; congruence).
    unfold ceil_div. destruct (Nat.ltb_spec j (r mod length nodes)), (Nat.ltb_spec 0 (r mod length nodes)); lia.
  - injection Hg as <- _. transitivity 1.
    + apply concat_nodup_count; [rewrite best_split_concat; auto|].
      intros ->. apply best_split_sizes in Hs; auto. cbn in Hs.
      assert (1 <= length nodes / r) by (apply Nat.div_str_pos; lia). lia.
    + pose proof (ceil_div_ge r (length nodes) E). destruct (ceil_div r (length nodes)); lia.
Qed.

Lemma init_group_size nw p m g : NoDup (p_nodes p) -> rman_init nw p = Ok m -> countb (in_group g) (rm_rsets m) <= rm_per_node m.
Proof.
  intros Hnd Hi. destruct (rman_init_spec _ _ _ Hi) as (L&Z&Zn&_&_&_&_&_&_&(loc&Hs)&Er&Ep&_&_).
  destruct (countb (in_group g) (rm_rsets m)) eqn:Ec; [lia|]. rewrite <- Ec.
  assert (Lsl : length (rm_rsets m) = length (rm_split m)).
  { rewrite Er. unfold get_group_list. destruct (rm_split m); auto. apply group_loop_length. }
  assert (Hex : exists r s, In (r, s) (combine (rm_rsets m) (rm_split m)) /\ rs_group r = g).
  { assert (Hf : exists r, In r (filter (in_group g) (rm_rsets m))).
    { unfold countb in Ec. destruct (filter (in_group g) (rm_rsets m)) as [|r l]; [discriminate|]. exists r. now left. }
    destruct Hf as (r & Hr). apply filter_In in Hr. destruct Hr as [Hr Hg]. apply Nat.eqb_eq in Hg.
    apply In_nth_error in Hr. destruct Hr as [i Hi']. assert (i < length (rm_rsets m)) by (apply nth_error_Some; congruence).
    destruct (nth_error (rm_split m) i) as [s|] eqn:Es; [|apply nth_error_None in Es; lia].
    exists r, s. split; auto. clear - Hi' Es. revert i Hi' Es. generalize (rm_split m). induction (rm_rsets m); intros [|n l0] [|i] H1 H2; cbn in *; try discriminate.
    - left. congruence.
    - right. eauto. }
  destruct Hex as (r & s & Hrs & Hg).
  rewrite Ep. etransitivity; [|eapply split_count; eauto; eapply in_combine_r; eauto].
  apply group_count; auto. intros r' n' Hin Hg'.
  rewrite Er in Hin, Hrs. unfold get_group_list in *. destruct (rm_split m) as [|s0 sl0]; [destruct Hin|].
  eapply (proj2 (group_loop_same _ _ _ _ _ _)); eauto. congruence.
Qed.

(** Slots in a group are contiguous. *)
Lemma walk_slots rs : forall g s, walk g s rs -> forall r t, In r rs -> t <= rs_slot r -> (rs_group r = g -> s <= t) ->
  exists r', In r' rs /\ rs_group r' = rs_group r /\ rs_slot r' = t.
Proof.
  induction rs as [|r0 rs IH]; intros g s Hw r t Hr Ht Hs; [destruct Hr|]. destruct Hw as (E1 & E2 & Hw).
  destruct (Nat.eq_dec (rs_group r) g) as [Eg|Eg].
  - destruct (Nat.eq_dec t s); [exists r0; split; [now left|split; congruence]|].
    destruct Hr as [<-|Hr]; [rewrite E2 in Ht; specialize (Hs Eg); lia|].
    destruct Hw as [Hw|Hw]; [|apply (walk_lower _ _ _ Hw) in Hr; lia].
    destruct (IH _ _ Hw r t Hr Ht) as (r' & H1 & H2); [intros; specialize (Hs Eg); lia|]. exists r'. split; [now right|auto].
  - destruct Hr as [<-|Hr]; [congruence|]. destruct Hw as [Hw|Hw].
    + destruct (IH _ _ Hw r t Hr Ht) as (r' & H1 & H2); [congruence|]. exists r'. split; [now right|auto].
    + destruct (IH _ _ Hw r t Hr Ht) as (r' & H1 & H2); [lia|]. exists r'. split; [now right|auto].
Qed.

Lemma NoDup_map_filter {A B} (f : A -> B) p l : NoDup (map f l) -> NoDup (map f (filter p l)).
Proof.
  induction l as [|x l IH]; cbn; auto. intros H. inversion H as [|? ? Hni Hnd]; subst. destruct (p x); auto. cbn. constructor; auto.
  intros Hi. apply Hni. apply in_map_iff in Hi. destruct Hi as (y & E & Hy). apply filter_In in Hy. apply in_map_iff. exists y. tauto.
Qed.

Lemma group_slots_nodup g rs : NoDup (places rs) -> NoDup (map rs_slot (filter (in_group g) rs)).
Proof.
  intros H. apply (NoDup_map_filter _ (in_group g)) in H. revert H. fold (places (filter (in_group g) rs)).
  assert (Hg : forall r, In r (filter (in_group g) rs) -> rs_group r = g) by (intros r Hr; apply filter_In in Hr; apply Nat.eqb_eq; tauto).
  induction (filter (in_group g) rs) as [|r l IH]; cbn; [constructor|]. intros H. inversion H as [|? ? Hni Hnd]; subst. constructor.
  - intros Hi. apply Hni. apply in_map_iff in Hi. destruct Hi as (r' & E & Hr'). apply in_map_iff. exists r'. split; auto.
    rewrite E. f_equal. rewrite (Hg r) by now left. apply Hg. now right.
  - apply IH; auto. intros; apply Hg. now right.
Qed.

Lemma slot_lt_size g rs r : walk 1 0 rs -> In r rs -> rs_group r = g -> rs_slot r < countb (in_group g) rs.
Proof.
  intros Hw Hr Hg. unfold countb. rewrite <- (map_length rs_slot). change (S (rs_slot r) <= length (map rs_slot (filter (in_group g) rs))). rewrite <- (seq_length (S (rs_slot r)) 0). apply NoDup_incl_length; [apply seq_NoDup|].
  intros t Ht. apply in_seq in Ht. destruct (walk_slots _ _ _ Hw r t Hr) as (r' & H1 & H2 & H3); [lia|lia|].
  apply in_map_iff. exists r'. split; auto. apply filter_In. split; auto. apply Nat.eqb_eq. congruence.
Qed.

Lemma walk_gpu_size gpn g rs : walk 1 0 rs -> (forall r, In r rs -> rs_gpu r = (rs_slot r <? gpn)) ->
  countb (fun r => in_group g r && rs_gpu r) rs <= Nat.min gpn (countb (in_group g) rs) /\
  countb (fun r => in_group g r && negb (rs_gpu r)) rs <= countb (in_group g) rs - Nat.min gpn (countb (in_group g) rs).
Proof.
  intros Hw Hgpu. pose proof (group_slots_nodup g rs (walk_places _ _ _ Hw)) as Hnd.
  assert (K : forall q lo n, (forall r, In r rs -> rs_group r = g -> q r = true -> lo <= rs_slot r < lo + n) ->
     countb (fun r => in_group g r && q r) rs <= n).
  { intros q lo n H. unfold countb. rewrite <- (map_length rs_slot), <- (seq_length n lo). apply NoDup_incl_length.
    - assert (E : filter (fun r => in_group g r && q r) rs = filter q (filter (in_group g) rs)).
      { clear. induction rs as [|r l IH]; cbn; auto. destruct (in_group g r); cbn; [destruct (q r); cbn; now rewrite IH|auto]. }
      rewrite E. now apply NoDup_map_filter.
    - intros t Ht. apply in_map_iff in Ht. destruct Ht as (r & <- & Hr). apply filter_In in Hr. destruct Hr as [Hr Hq].
      apply andb_true_iff in Hq. destruct Hq as [Hg Hq]. apply Nat.eqb_eq in Hg. apply in_seq. eauto. }
  split.
  - apply (K rs_gpu 0). intros r Hr Hg Hq. rewrite Hgpu in Hq by auto. apply Nat.ltb_lt in Hq. pose proof (slot_lt_size _ _ _ Hw Hr Hg). lia.
  - apply (K (fun r => negb (rs_gpu r)) (Nat.min gpn (countb (in_group g) rs))). intros r Hr Hg Hq. rewrite Hgpu in Hq by auto.
    apply negb_true_iff, Nat.ltb_ge in Hq. pose proof (slot_lt_size _ _ _ Hw Hr Hg). lia.
Qed.

Lemma init_kind_sizes nw p m g : NoDup (p_nodes p) -> p_gpus_per_group p <> Some 0 -> rman_init nw p = Ok m ->
  countb (in_group g) (rm_rsets m) <= rm_per_node m /\
  countb (fun r => in_group g r && rs_gpu r) (rm_rsets m) <= rm_gpu_per_node m /\
  countb (fun r => in_group g r && negb (rs_gpu r)) (rm_rsets m) <= rm_nongpu_per_node m.
Proof.
  intros Hnd Hgg Hi. pose proof (init_group_size _ _ _ g Hnd Hi) as Hs.
  destruct (rman_init_spec _ _ _ Hi) as (L&Z&Zn&_&_&Hgpu&Hw&_&_&_&_&_&Eg&En).
  destruct (walk_gpu_size (p_gpus_per_node p) g _ (Hw Hgg) Hgpu) as [G1 G2]. rewrite En, Eg. lia.
Qed.

(** ** Slot agreement: rsets divided evenly *)
Fixpoint layout_from (i k : nat) (n : nat) : list (nat * nat) :=
  match n with 0 => [] | S n' => map (fun s => (i, s)) (seq 0 k) ++ layout_from (S i) k n' end.

Lemma group_loop_run x k : forall g s gpn rest,
  places (group_loop (repeat [x] k ++ rest) [x] g s gpn None) = map (fun t => (g, t)) (seq s k) ++ places (group_loop rest [x] g (s + k) gpn None).
Proof.
  induction k as [|k IH]; intros; cbn [repeat app seq map]; [now rewrite Nat.add_0_r|].
  cbn [group_loop]. rewrite (proj2 (node_list_eqb_ok [x] [x]) eq_refl). cbn [negb orb places map app]. f_equal.
  fold (places (group_loop (repeat [x] k ++ rest) [x] g (s + 1) gpn None)). rewrite IH, Nat.add_1_r. now rewrite Nat.add_succ_r.
Qed.

Lemma dup_map k (nodes : list node) i : map (fun y => [y]) (dup_from k 0 i nodes) = flat_map (fun x => repeat [x] k) nodes.
Proof.
  revert i; induction nodes as [|x l IH]; intros; [reflexivity|]. rewrite dup_cons, map_app, IH. cbn [flat_map]. f_equal.
  rewrite (proj2 (Nat.ltb_ge i 0)) by lia. clear. induction k; cbn; congruence.
Qed.

Lemma group_loop_even k : k <> 0 -> forall nodes nd g s gpn, NoDup nodes -> (forall x, In x nodes -> [x] <> nd) ->
  places (group_loop (flat_map (fun x => repeat [x] k) nodes) nd g s gpn None) = layout_from (S g) k (length nodes).
Proof.
  intros Hk. induction nodes as [|x nodes IH]; intros nd g s gpn Hnd Hx; [reflexivity|]. inversion Hnd as [|? ? Hni Hnd']; subst.
  cbn [flat_map List.length layout_from]. destruct k as [|k]; [congruence|]. cbn [repeat app group_loop].
  destruct (node_list_eqb [x] nd) eqn:E; [apply node_list_eqb_ok in E; elim (Hx x (or_introl eq_refl)); auto|]. cbn [negb orb places map].
  fold (places (group_loop (repeat [x] k ++ flat_map (fun x => repeat [x] (S k)) nodes) [x] (g + 1) 1 gpn None)).
  rewrite group_loop_run, Nat.add_1_r. rewrite IH; auto.
  intros y Hy H. inversion H; subst. contradiction.
Qed.

Lemma layout_from_nth k : k <> 0 -> forall n i j, j < n * k -> nth_error (layout_from i k n) j = Some (i + j / k, j mod k).
Proof.
  intros Hk. induction n as [|n IH]; intros i j Hj; [lia|]. cbn [layout_from].
  destruct (Nat.lt_ge_cases j k).
  - rewrite nth_error_app1 by (rewrite map_length, seq_length; auto). rewrite nth_error_map.
    rewrite nth_error_nth' with (d := 0) by (rewrite seq_length; auto). cbn. rewrite seq_nth by auto.
    rewrite Nat.div_small, Nat.mod_small by auto. now rewrite Nat.add_0_r.
  - rewrite nth_error_app2 by (rewrite map_length, seq_length; auto). rewrite map_length, seq_length.
    rewrite IH by (cbn in Hj; lia).
    replace j with (j - k + 1 * k) at 3 4 by lia. rewrite Nat.div_add, Nat.mod_add by auto.
    do 2 f_equal; lia.
Qed.

(** Even division: set j is on node j / per_node, in slot j mod per_node. *)
Lemma even_layout nw p m : NoDup (p_nodes p) -> p_gpus_per_group p = None -> rman_init nw p = Ok m ->
  total_rsets nw p mod length (p_nodes p) = 0 ->
  forall j, j < length (rm_rsets m) -> nth_error (places (rm_rsets m)) j = Some (1 + j / rm_per_node m, j mod rm_per_node m).
Proof.
  intros Hnd Hgg Hi Hm j Hj. destruct (rman_init_spec _ _ _ Hi) as (L&Z&Zn&_&_&_&_&_&_&(loc&Hs)&Er&Ep&_&_).
  assert (Zl : length (p_nodes p) <> 0) by (destruct (p_nodes p); [congruence|discriminate]).
  set (r := total_rsets nw p) in *. set (nodes := p_nodes p) in *.
  assert (K : r = length nodes * (r / length nodes)) by (pose proof (Nat.div_mod r _ Zl); lia).
  assert (K1 : r / length nodes <> 0) by (intros K1; rewrite K1 in K; lia).
  assert (Pn : rm_per_node m = r / length nodes) by (rewrite Ep; unfold ceil_div; rewrite Hm; cbn; lia).
  unfold get_split_list in Hs. rewrite (proj2 (Nat.eqb_neq _ _) Z), (proj2 (Nat.eqb_neq _ _) Zl) in Hs.
  rewrite (proj2 (Nat.leb_le (length nodes) r)) in Hs by nia. rewrite expand_eq in Hs. injection Hs as Hsl _.
  pose proof (expand_length r nodes Zn) as Ld. rewrite Hm in *.
  rewrite <- Ld in Hsl at 2. rewrite best_split_same, dup_map in Hsl.
  rewrite Er, Hgg, <- Hsl. unfold get_group_list.
  assert (E : exists x nodes', nodes = x :: nodes') by (destruct nodes as [|x l]; [congruence|eauto]). destruct E as (x & nodes' & E).
  assert (R : flat_map (fun x => repeat [x] (r / length nodes)) nodes = repeat [x] (r / length nodes) ++ flat_map (fun x => repeat [x] (r / length nodes)) nodes') by (generalize (r / length nodes); intros k0; rewrite E; reflexivity).
  rewrite R. destruct (repeat [x] (r / length nodes) ++ _) eqn:F.
  - destruct (r / length nodes); [congruence|discriminate].
  - assert (l = [x]) by (destruct (r / length nodes); [congruence|]; cbn in F; congruence). subst l. rewrite <- F.
    rewrite group_loop_run. rewrite group_loop_even; auto.
    + fold (layout_from 1 (r / length nodes) (S (length nodes'))).
      change (map (fun t => (1, t)) (seq 0 (r / length nodes)) ++ layout_from 2 (r / length nodes) (length nodes')) with (layout_from 1 (r / length nodes) (S (length nodes'))).
      rewrite Pn. rewrite layout_from_nth; auto. assert (length nodes = S (length nodes')) by (now rewrite E). rewrite <- H. lia.
    + rewrite E in Hnd. now inversion Hnd.
    + intros y Hy H. rewrite E in Hnd. inversion Hnd; subst. inversion H; subst. contradiction.
Qed.

(** ** Worker-side slots *)
Definition node_of (sl : list (list node)) (i : nat) : node := match nth i sl [] with n :: _ => n | [] => EmptyString end.

Lemma fold_slots sl pn : forall team d, (forall i, In i team -> nth i sl [] = [node_of sl i]) ->
  fold_left (team_slots sl pn) team d =
  map (fun p => (fst p, snd p ++ map (fun i => i mod pn) (filter (fun i => String.eqb (fst p) (node_of sl i)) team))) d.
Proof.
  induction team as [|i team IH]; intros d Hs; cbn [fold_left filter map].
  - rewrite <- (map_id d) at 1. apply map_ext. intros [n s]; cbn. now rewrite app_nil_r.
  - rewrite IH by (intros; apply Hs; now right).
    unfold team_slots at 1. rewrite (Hs i (or_introl eq_refl)). unfold push_slot. rewrite map_map. apply map_ext.
    intros [n s]; cbn [fst snd]. destruct (String.eqb n (node_of sl i)); cbn [fst snd map filter].
    + rewrite <- app_assoc. reflexivity.
    + reflexivity.
Qed.

Lemma uniq_spec l : forall seen,
  NoDup (uniq seen l) /\ (forall x, In x (uniq seen l) <-> In x l /\ ~ In x seen).
Proof.
  assert (M : forall x l, mem_node x l = true <-> In x l).
  { intros x l0. unfold mem_node. rewrite existsb_exists. split; [intros (y & Hy & E); apply String.eqb_eq in E; now subst|].
    intros H. exists x. split; auto. apply String.eqb_refl. }
  induction l as [|y l IH]; intros seen; cbn.
  - split; [constructor|]. tauto.
  - destruct (mem_node y seen) eqn:E.
    + apply M in E. destruct (IH seen) as [I1 I2]. split; auto. intros x. rewrite I2. split; [tauto|]. intros [[->|H] Hn]; [contradiction|tauto].
    + destruct (IH (y :: seen)) as [I1 I2]. split.
      * constructor; auto. rewrite I2. cbn. tauto.
      * intros x. cbn. rewrite I2. cbn. assert (~ In y seen) by (rewrite <- M; congruence).
        split; [intros [->|[H1 H2]]; auto; tauto|]. intros [[->|H1] H2]; auto. destruct (string_dec y x); [auto|]. right. tauto.
Qed.

Lemma local_nodelist_spec team sl pn nl d :
  (forall i, In i team -> nth i sl [] = [node_of sl i]) ->
  get_local_nodelist team sl pn = Ok (nl, d) ->
  NoDup nl /\ (forall n, In n nl <-> exists i, In i team /\ node_of sl i = n) /\
  d = map (fun n => (n, map (fun i => i mod pn) (filter (fun i => String.eqb n (node_of sl i)) team))) nl.
Proof.
  intros Hs. unfold get_local_nodelist. destruct (forallb _ team); [|discriminate]. intros H. injection H as <- <-.
  destruct (uniq_spec (flat_map (fun i => nth i sl []) team) []) as [U1 U2]. mbsplit; auto.
  - intros n. rewrite U2, in_flat_map. split.
    + intros [(i & Hi & Hn) _]. exists i. split; auto. rewrite (Hs i Hi) in Hn. destruct Hn as [<-|[]]. auto.
    + intros (i & Hi & <-). split; [|auto]. exists i. split; auto. rewrite (Hs i Hi) at 1. now left.
  - rewrite fold_slots by auto. rewrite map_map. reflexivity.
Qed.

(** Manager and worker agree on slots when the sets divide evenly over the nodes. *)
Lemma slots_agree nw p m team nl d : NoDup (p_nodes p) -> p_gpus_per_group p = None -> rman_init nw p = Ok m ->
  total_rsets nw p mod length (p_nodes p) = 0 ->
  get_local_nodelist team (rm_split m) (rm_per_node m) = Ok (nl, d) ->
  (forall n, In n nl <-> exists i, In i team /\ nth_error (rm_split m) i = Some [n]) /\
  (forall n ss, In (n, ss) d ->
     map Some ss = map (fun i => option_map rs_slot (nth_error (rm_rsets m) i))
       (filter (fun i => match nth_error (rm_split m) i with Some [n'] => String.eqb n n' | _ => false end) team)).
Proof.
  intros Hnd Hgg Hi Hm Hl. pose proof (even_layout _ _ _ Hnd Hgg Hi Hm) as HE.
  destruct (rman_init_spec _ _ _ Hi) as (L&Z&Zn&_&_&_&_&_&_&(loc&Hs)&Er&_&_&_).
  destruct (split_list_fair _ _ _ _ Hnd Hs) as (Ls&_&Hge&_).
  assert (Zl : length (p_nodes p) <> 0) by (destruct (p_nodes p); [congruence|discriminate]).
  assert (Hle : length (p_nodes p) <= total_rsets nw p) by (pose proof (Nat.div_mod (total_rsets nw p) _ Zl) as D; rewrite Hm in D; destruct (total_rsets nw p / length (p_nodes p)); [lia|nia]).
  destruct (Hge Hle) as (H1&_&_&_).
  assert (Hin : forall i, In i team -> i < length (rm_split m)).
  { unfold get_local_nodelist in Hl. destruct (forallb _ team) eqn:F; [|discriminate]. rewrite forallb_forall in F.
    intros i Hii. apply F in Hii. now apply Nat.ltb_lt. }
  assert (Hsing : forall i, i < length (rm_split m) -> nth_error (rm_split m) i = Some [node_of (rm_split m) i]).
  { intros i Hlt. destruct (nth_error (rm_split m) i) as [s|] eqn:E; [|apply nth_error_None in E; lia].
    destruct (H1 s (nth_error_In _ _ E)) as (x & -> & _). unfold node_of. now rewrite (nth_error_nth _ _ [] E). }
  destruct (local_nodelist_spec team (rm_split m) (rm_per_node m) nl d) as (N1 & N2 & N3); auto.
  { intros i Hii. apply nth_error_nth. auto. }
  split.
  - intros n. rewrite N2. split; intros (i & Hii & E); exists i; (split; [auto|]).
    + rewrite Hsing by auto. now rewrite E.
    + rewrite Hsing in E by auto. congruence.
  - intros n ss Hd. rewrite N3 in Hd. apply in_map_iff in Hd. destruct Hd as (n' & E & Hn'). injection E as -> <-.
    rewrite map_map.
    assert (F : filter (fun i => match nth_error (rm_split m) i with Some [n'] => String.eqb n n' | _ => false end) team =
                filter (fun i => String.eqb n (node_of (rm_split m) i)) team).
    { apply filter_ext_in. intros i Hii. now rewrite Hsing by auto. }
    rewrite F. apply map_ext_in. intros i Hii. apply filter_In in Hii. destruct Hii as [Hii _].
    assert (Hlt : i < length (rm_rsets m)) by (rewrite L; rewrite <- Ls; auto).
    specialize (HE i Hlt). unfold places in HE. rewrite nth_error_map in HE. destruct (nth_error (rm_rsets m) i); [|discriminate].
    cbn in *. congruence.
Qed.
