(** A request that some node can satisfy is always granted, from the tightest such node (C16). *)
From Coq Require Import Permutation Sorted.
From Verif Require Import Base BaseLemmas RsetModel RsetSpec RsetProofs RsetLayout RsetWalk RsetGroups SchedModel SchedSpec SchedProofs SchedTeam SchedRun SchedServe.

Lemma slots_distinct m use handed g l : table_ok m -> spare m use handed g l -> length (nodup Nat.eq_dec (map (slot_of m) l)) = length l.
Proof.
  intros Ht [Hn Hl]. assert (N : NoDup (map (slot_of m) l)).
  { assert (Hl' : forall i, In i l -> is_free m i /\ group_of m i = g) by (intros i Hi; apply Hl in Hi; tauto). clear Hl.
    induction Hn as [|i l Hi Hn IH]; cbn; constructor; auto.
    - intros H. apply in_map_iff in H. destruct H as (j & E & Hj). destruct (Hl' i (or_introl eq_refl)) as [[F1 _] G1]. destruct (Hl' j (or_intror Hj)) as [[F2 _] G2].
      assert (j = i) by (apply (place_inj m); auto; congruence). congruence.
    - apply IH. intros; apply Hl'; now right. }
  rewrite (nodup_fixed_point Nat.eq_dec N). apply map_length.
Qed.

Lemma in_spare_group m use handed valid i g l : map fst valid = unique_groups (rm_rsets m) -> (forall g l, In (g, l) valid -> spare m use handed g l) ->
  In (g, l) valid -> (exists g' l', In (g', l') valid /\ In i l') -> group_of m i = g -> In i l.
Proof.
  intros Hk Hv Hin (g' & l' & H1 & H2) Eg. apply (proj2 (Hv _ _ Hin)). apply (proj2 (Hv _ _ H1)) in H2. tauto.
Qed.

Lemma nonempty_group m use handed g l : table_ok m -> spare m use handed g l -> l <> [] -> In g (unique_groups (rm_rsets m)).
Proof.
  intros Ht [_ Hl] Hne. destruct l as [|i l]; [congruence|]. destruct (proj1 (Hl i) (or_introl eq_refl)) as ((H1 & _) & H2 & _).
  apply unique_groups_In. unfold group_of in H2. destruct (nth_error (rm_rsets m) i) as [r|] eqn:E; [|apply nth_error_None in E; lia]. exists r. split; auto. eapply nth_error_In; eauto.
Qed.

Lemma sorted_lens_top gs g l : In (g, l) gs -> exists x, nth_error (sorted_lens gs) 0 = Some x /\ length l <= x.
Proof.
  intros Hi. pose proof (sorted_lens_sorted gs) as S. assert (P : In (length l) (sorted_lens gs)).
  { apply (Permutation_in _ (Permutation_sym (sorted_lens_perm gs))). apply in_map_iff. now exists (g, l). }
  destruct (sorted_lens gs) as [|x q]; [destruct P|]. exists x. split; auto. destruct P as [->|P]; auto. inversion S as [|? ? _ F]; subst. rewrite Forall_forall in F. apply F in P. lia.
Qed.

Lemma single_node ord m s handed req use params g l : set_order ord -> table_ok m -> sched_inv m handed s -> req <> 0 ->
  spare m use handed g l -> req <= length l ->
  exists team g' l' s', assign_resources ord m s req use params = (Ok team, s') /\
    spare m use handed g' l' /\ NoDup team /\ incl team l' /\ length team = req /\
    (forall g2 l2, spare m use handed g2 l2 -> req <= length l2 -> length l' <= length l2).
Proof.
  intros Ho Ht Hs Hr Hsp Hlen. destruct Hs as [Hc Hn Hf Hcnt]. pose proof (filter_type_ok m use handed _ Hc) as [Hk Hv].
  pose proof (spare_group_le _ _ _ _ _ Ht Hsp) as Hmx.
  assert (Hin : forall g2 l2, spare m use handed g2 l2 -> req <= length l2 -> exists l3, In (g2, l3) (filter_type m use (get_avail m s)) /\ length l3 = length l2).
  { intros g2 l2 S2 L2. assert (Hg : In g2 (unique_groups (rm_rsets m))) by (eapply nonempty_group; eauto; intros ->; cbn in L2; lia).
    rewrite <- Hk in Hg. apply in_map_iff in Hg. destruct Hg as ((g3 & l3) & E & Hi). cbn in E. subst g3. exists l3. split; auto. eapply spare_unique; eauto. }
  assert (Ht1 : req <= kind_total m use).
  { unfold kind_total. pose proof (group_kind_le m use g Ht). assert (length l <= countb (kind_b use) (rm_rsets m)); [|lia].
    assert (F : (Z.of_nat (length l) <= unheld (kind_b use) m)%Z) by (apply free_bound; [apply Hsp|]; intros i Hi; apply (proj2 Hsp) in Hi; tauto).
    assert (U : (unheld (kind_b use) m <= Z.of_nat (countb (kind_b use) (rm_rsets m)))%Z).
    { unfold unheld, countb. apply inj_le. clear. induction (rm_rsets m) as [|r rs IH]; cbn; [lia|]. destruct (rs_owner r), (kind_b use r); cbn; lia. }
    lia. }
  assert (Hcnt2 : (Z.of_nat req <= counter s use)%Z).
  { specialize (Hcnt use). assert (F : (Z.of_nat (length (l ++ filter (of_kind_b m use) handed)) <= unheld (kind_b use) m)%Z).
    { apply free_bound.
      - apply NoDup_app_intro; [apply Hsp|now apply NoDup_filter|]. intros i Hi Hi'. apply filter_In in Hi'. apply (proj2 Hsp) in Hi. tauto.
      - intros i Hi. apply in_app_iff in Hi. destruct Hi as [Hi|Hi]; [apply (proj2 Hsp) in Hi; tauto|]. apply filter_In in Hi. destruct Hi as [Hi Hi'].
        split; auto. apply of_kind_b_ok; auto. }
    rewrite app_length in F. lia. }
  unfold assign_resources. destruct (Nat.eqb_spec req 0); [congruence|]. unfold check_total. rewrite check_total_kind. fold (counter s use).
  destruct (Nat.ltb_spec (kind_total m use) req); [lia|]. destruct (Z.ltb_spec (counter s use) (Z.of_nat req)); [lia|].
  set (valid := filter_type m use (get_avail m s)) in *.
  assert (Hch : exists team g' l', choose ord m s req use params valid = Ok team /\ In (g', l') valid /\ NoDup team /\ incl team l' /\ length team = req /\
     (forall g2 l2, In (g2, l2) valid -> req <= length l2 -> length l' <= length l2)).
  { unfold choose.
    assert (Ec : calc_even_grps req (max_grpsize m use) (rm_num_groups m) = Ok (req, 1, req)).
    { unfold calc_even_grps. destruct (Nat.eqb_spec req 0); [congruence|]. destruct (Nat.eqb_spec (max_grpsize m use) 0); [lia|].
      assert (E1 : ceil_div req (max_grpsize m use) = 1).
      { assert (ceil_div req (max_grpsize m use) <= 1) by (apply ceil_div_le; auto; lia). pose proof (ceil_div_pos req (max_grpsize m use) Hr ltac:(auto)). lia. }
      rewrite E1. reflexivity. }
    rewrite Ec. cbn [bindr Nat.sub]. destruct (Hin g l Hsp Hlen) as (l0 & Hi0 & El0).
    destruct (sorted_lens_top _ _ _ Hi0) as (x & Ex & Lx). rewrite Ex. destruct (Nat.ltb_spec x req); [lia|]. cbn [andb].
    destruct (sc_match s).
    - destruct (get_matching_single (avail_slots m valid) req) as (p & Em & Hp & Lp & Mp).
      { exists (g, nodup Nat.eq_dec (map (slot_of m) l0)). split; [apply in_map_iff; now exists (g, l0)|]. cbn [snd]. rewrite (slots_distinct m use handed g); auto. lia. }
      rewrite Em. pose proof Hp as Hp'. unfold avail_slots in Hp'. apply in_map_iff in Hp'. destruct Hp' as ((g' & l') & <- & Hi'). cbn [fst snd] in *.
      pose proof (get_matching_spec (avail_slots m valid) 1 req [g'] (nodup Nat.eq_dec (map (slot_of m) l')) (le_n 1)) as GS.
      destruct GS as (_ & _ & N2 & _ & Hcg); [| |exact Em|].
      { rewrite avail_slots_keys. eapply keys_NoDup; eauto. }
      { intros q Hq. unfold avail_slots in Hq. apply in_map_iff in Hq. destruct Hq as (q' & <- & _). apply NoDup_nodup. }
      destruct (team_from_slots_spec ord m valid use handed [g'] (nodup Nat.eq_dec (map (slot_of m) l')) req) as (team & ss & Et & _ & Ns & Ls & P & Hm); auto.
      { repeat constructor. intros []. }
      exists team, g', l'. mbsplit; auto.
      + apply (NoDup_map_inv (pos m)). eapply Permutation_NoDup; [symmetry; exact P|]. apply NoDup_list_prod; auto. repeat constructor. intros [].
      + intros i Hi. eapply in_spare_group; eauto.
        assert (Hpi : In (pos m i) (list_prod [g'] ss)) by (apply (Permutation_in _ P); now apply in_map). unfold pos in Hpi. apply in_prod_iff in Hpi. destruct Hpi as [[->|[]] _]. reflexivity.
      + rewrite <- (map_length (pos m)), (Permutation_length P), prod_length. cbn. lia.
      + intros g2 l2 Hi2 L2. rewrite <- (slots_distinct m use handed g' l'), <- (slots_distinct m use handed g2 l2); auto.
        apply (Mp (g2, nodup Nat.eq_dec (map (slot_of m) l2))); [apply in_map_iff; now exists (g2, l2)|]. cbn [snd]. rewrite (slots_distinct m use handed g2); auto.
    - rewrite andb_false_r. unfold find_any. cbn [any_loop].
      destruct (find_cand_single req valid (max_grpsize m use + 1) None) as (g' & l' & A & B & C & D & _).
      { intros g2 l2 Hi. apply Hv in Hi. apply spare_group_le in Hi; auto. lia. }
      { intros _. exists g, l0. split; auto. lia. }
      rewrite A. cbn [app]. destruct C as [C|[C _]]; [|discriminate].
      assert (Lf : length (firstn req l') = req) by (rewrite firstn_length; lia). rewrite Lf, Nat.eqb_refl.
      assert (P := sort_asc_perm (firstn req l')).
      exists (sort_asc (firstn req l')), g', l'. mbsplit; auto.
      + eapply Permutation_NoDup; [symmetry; exact P|]. pose proof (proj1 (Hv _ _ C)) as Nl. clear - Nl. revert req. induction Nl as [|x l Hx Hn IH]; intros [|k]; cbn; try constructor; auto.
        intros H. apply Hx. rewrite <- (firstn_skipn k l). apply in_or_app; auto.
      + intros i Hi. apply (Permutation_in _ P) in Hi. rewrite <- (firstn_skipn req l'). apply in_or_app; auto.
      + rewrite (Permutation_length P). auto. }
  destruct Hch as (team & g' & l' & E & Hi & N & I & L & Mn). rewrite E. eexists team, g', l', _. mbsplit; auto.
  intros g2 l2 S2 L2. destruct (Hin _ _ S2 L2) as (l3 & H3 & L3). rewrite <- L3. apply (Mn g2); auto. lia.
Qed.
