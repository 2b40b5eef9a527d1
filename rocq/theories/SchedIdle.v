(** Fresh tables with equal nodes are uniform, so every request up to the machine size is served (C16). *)
From Coq Require Import Permutation Sorted String.
From Verif Require Import Base BaseLemmas RsetModel RsetSpec RsetProofs RsetLayout RsetWalk RsetGroups SchedModel SchedSpec SchedProofs SchedTeam SchedRun SchedServe SchedSingle SchedFacts.
Local Notation length := List.length.

(** With more nodes than sets every set is a group of its own. *)
Lemma group_loop_distinct gpn : forall sl nd g s, NoDup (nd :: sl) ->
  places (group_loop sl nd g s gpn None) = map (fun k => (g + 1 + k, 0)) (seq 0 (length sl)).
Proof.
  induction sl as [|x sl IH]; intros nd g s Hn; [reflexivity|]. inversion Hn as [|? ? Hni Hn2]; subst. cbn [group_loop].
  destruct (node_list_eqb x nd) eqn:E; [apply node_list_eqb_ok in E; subst; elim Hni; now left|]. cbn [negb orb].
  change (places (mkRset (g + 1) 0 (0 <? gpn) None :: group_loop sl x (g + 1) 1 gpn None)) with ((g + 1, 0) :: places (group_loop sl x (g + 1) 1 gpn None)).
  rewrite IH by auto. cbn [List.length seq map]. f_equal; [f_equal; lia|]. rewrite <- seq_shift, map_map. apply map_ext. intros k. f_equal. lia.
Qed.

Lemma sparse_layout nw p m : NoDup (p_nodes p) -> p_gpus_per_group p = None -> rman_init nw p = Ok m ->
  total_rsets nw p < length (p_nodes p) ->
  rm_per_node m = 1 /\ forall j, j < length (rm_rsets m) -> nth_error (places (rm_rsets m)) j = Some (1 + j / 1, j mod 1).
Proof.
  intros Hnd Hgg Hi Hm. destruct (rman_init_spec _ _ _ Hi) as (L&Z&Zn&_&_&_&_&_&_&(loc&Hs)&Er&Ep&_&_).
  split.
  - rewrite Ep. unfold ceil_div. rewrite Nat.div_small, Nat.mod_small by auto. destruct (Nat.ltb_spec 0 (total_rsets nw p)); [reflexivity|lia].
  - intros j Hj. destruct (split_list_fair _ _ _ _ Hnd Hs) as (Ls & _ & _ & Hlt). destruct (Hlt Hm) as (Hcat & Hne & _).
    assert (Hd : NoDup (rm_split m)).
    { rewrite <- Hcat in Hnd. clear - Hnd Hne. induction (rm_split m) as [|x l IH]; [constructor|]. cbn [concat] in Hnd.
      assert (Hnd2 : NoDup (concat l)) by (clear - Hnd; induction x; cbn in *; auto; inversion Hnd; auto).
      constructor; [|apply IH; auto; intros; apply Hne; now right].
      intros Hin. destruct x as [|n x]; [apply (Hne []); [now left|auto]|]. cbn in Hnd. inversion Hnd as [|? ? Hni _]; subst. apply Hni.
      apply in_or_app. right. apply in_concat. exists (n :: x). split; auto. now left. }
    assert (Epl : places (rm_rsets m) = map (fun k => (1 + k, 0)) (seq 0 (length (rm_rsets m)))).
    { rewrite L, <- Ls. rewrite Er, Hgg. unfold get_group_list. destruct (rm_split m) as [|x l]; [reflexivity|]. cbn [group_loop].
      rewrite (proj2 (node_list_eqb_ok x x) eq_refl). cbn [negb orb].
      change (places (mkRset 1 0 (0 <? p_gpus_per_node p) None :: group_loop l x 1 (0 + 1) (p_gpus_per_node p) None)) with ((1, 0) :: places (group_loop l x 1 1 (p_gpus_per_node p) None)).
      rewrite group_loop_distinct by auto. cbn [List.length seq map]. f_equal. rewrite <- seq_shift, map_map. apply map_ext. intros k. f_equal. }
    rewrite Epl, nth_error_map, nth_error_nth' with (d := 0) by (rewrite seq_length; auto). rewrite seq_nth by auto. cbn [option_map Nat.add].
    rewrite Nat.div_1_r, Nat.mod_1_r. reflexivity.
Qed.

Lemma init_uniform nw p m use : NoDup (p_nodes p) -> p_gpus_per_group p = None -> rman_init nw p = Ok m ->
  total_rsets nw p mod length (p_nodes p) = 0 \/ total_rsets nw p < length (p_nodes p) -> uniform m use.
Proof.
  intros Hnd Hgg Hi Hev. destruct (rman_init_spec _ _ _ Hi) as (L&Z&Zn&Hh&_&Hgpu&Hw&Hlg&_&_&_&Ep&Eg&En).
  assert (Zl : length (p_nodes p) <> 0) by (destruct (p_nodes p); [congruence|discriminate]).
  set (per := rm_per_node m) in *.
  assert (HE : per <> 0 /\ (exists n, length (rm_rsets m) = n * per) /\ forall j, j < length (rm_rsets m) -> nth_error (places (rm_rsets m)) j = Some (1 + j / per, j mod per)).
  { destruct Hev as [Hev|Hev].
    - pose proof (even_layout _ _ _ Hnd Hgg Hi Hev) as HE. fold per in HE. pose proof (Nat.div_mod (total_rsets nw p) _ Zl) as D. rewrite Hev in D.
      assert (Pn : per = total_rsets nw p / length (p_nodes p)) by (rewrite Ep; unfold ceil_div; rewrite Hev; cbn; lia).
      mbsplit; auto; [intros E; rewrite <- Pn, E in D; lia|]. exists (length (p_nodes p)). rewrite L, D, <- Pn. lia.
    - destruct (sparse_layout _ _ _ Hnd Hgg Hi Hev) as [Pn HE]. fold per in Pn. rewrite Pn. mbsplit; auto. exists (length (rm_rsets m)). lia. }
  destruct HE as (Zp & (n & Ln) & HE).
  assert (HG : forall i, i < length (rm_rsets m) -> group_of m i = 1 + i / per /\ slot_of m i = i mod per).
  { intros i Hlt. specialize (HE i Hlt). unfold places in HE. rewrite nth_error_map in HE. unfold group_of, slot_of. destruct (nth_error (rm_rsets m) i); [|discriminate]. cbn in HE. injection HE as -> ->. auto. }
  assert (HK : forall i b, i < length (rm_rsets m) -> of_kind m (Some b) i <-> (i mod per <? p_gpus_per_node p) = b).
  { intros i b Hlt. destruct (HG i Hlt) as [_ HS]. unfold of_kind. unfold slot_of in HS. destruct (nth_error (rm_rsets m) i) as [r|] eqn:E; [|apply nth_error_None in E; lia].
    cbn [option_map]. rewrite (Hgpu r (nth_error_In _ _ E)), HS. split; congruence. }
  set (SS := match use with None => seq 0 per | Some true => seq 0 (rm_gpu_per_node m) | Some false => seq (rm_gpu_per_node m) (rm_nongpu_per_node m) end).
  assert (HS : forall s, In s SS <-> s < per /\ match use with None => True | Some b => (s <? p_gpus_per_node p) = b end).
  { intros s. unfold SS. destruct use as [[]|]; rewrite in_seq.
    - rewrite Nat.ltb_lt. lia.
    - rewrite Nat.ltb_ge. lia.
    - lia. }
  exists SS. split.
  - unfold SS, max_grpsize. destruct use as [[]|]; apply seq_length.
  - intros g l Hg [Hn Hl]. apply NoDup_Permutation.
    + assert (Hl' : forall i, In i l -> i < length (rm_rsets m) /\ group_of m i = g) by (intros i H; apply Hl in H; unfold is_free in H; tauto). clear - Hn Hl' HG Zp.
      induction Hn as [|i l Hi Hn IH]; cbn; constructor.
      * intros H. apply in_map_iff in H. destruct H as (j & E & Hj). destruct (Hl' i (or_introl eq_refl)) as [A1 A2]. destruct (Hl' j (or_intror Hj)) as [B1 B2].
        destruct (HG i A1) as [C1 C2]. destruct (HG j B1) as [D1 D2]. assert (i = j); [|congruence].
        rewrite (Nat.div_mod i per Zp), (Nat.div_mod j per Zp). replace (i / per) with (j / per) by lia. congruence.
      * apply IH. intros; apply Hl'; now right.
    + unfold SS. destruct use as [[]|]; apply seq_NoDup.
    + intros s. rewrite HS, in_map_iff. split.
      * intros (i & <- & Hin). apply Hl in Hin. destruct Hin as ((A & _) & B & C & _). destruct (HG i A) as [_ ->]. split; [now apply Nat.mod_upper_bound|].
        destruct use as [b|]; auto. now apply HK.
      * intros [S1 S2]. assert (Hi2 : (g - 1) * per + s < length (rm_rsets m)).
        { rewrite Hlg in Hg. assert (Hw2 : walk 1 0 (rm_rsets m)) by (apply Hw; congruence). assert (Hne : rm_rsets m <> []) by (intros E; rewrite E in L; cbn in L; congruence).
          destruct (proj2 (proj2 (walk_groups _ _ _ Hw2 Hne)) g Hg) as (r & Hr & Er). apply In_nth_error in Hr. destruct Hr as [j Hj].
          assert (Hlt : j < length (rm_rsets m)) by (apply nth_error_Some; congruence). destruct (HG j Hlt) as [E1 _]. unfold group_of in E1. rewrite Hj, Er in E1.
          assert (j / per < n) by (apply Nat.div_lt_upper_bound; auto; lia). nia. }
        assert (D1 : ((g - 1) * per + s) / per = g - 1) by (rewrite Nat.div_add_l, Nat.div_small by auto; lia).
        assert (D2 : ((g - 1) * per + s) mod per = s) by (rewrite Nat.add_comm, Nat.mod_add, Nat.mod_small by auto; auto).
        set (i := (g - 1) * per + s) in *. destruct (HG i Hi2) as [E1 E2]. rewrite D1 in E1. rewrite D2 in E2.
        exists i. split; [exact E2|]. apply Hl. mbsplit; auto; [split; auto|lia|]. destruct use as [b|]; [|exact I]. apply HK; auto. now rewrite D2.
Qed.

Lemma idle_served ord nw p m sp mt req use params : set_order ord -> NoDup (p_nodes p) -> p_gpus_per_group p = None -> rman_init nw p = Ok m ->
  total_rsets nw p mod length (p_nodes p) = 0 \/ total_rsets nw p < length (p_nodes p) ->
  req <= existing m use -> exists team, fst (assign_resources ord m (sched_init m sp mt) req use params) = Ok team.
Proof.
  intros Ho Hnd Hgg Hi Hev Hr. apply idle_uniform; auto.
  - apply reachable_table_ok. exists nw, p, m, []. mbsplit; auto. congruence.
  - apply (rman_init_spec _ _ _ Hi).
  - eapply init_uniform; eauto.
Qed.
