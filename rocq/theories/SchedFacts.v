(** Property-level statements about the scheduler (C14-C17). *)
From Coq Require Import Permutation Sorted.
From Verif Require Import Base BaseLemmas RsetModel RsetSpec RsetProofs RsetLayout RsetWalk RsetGroups SchedModel SchedSpec SchedProofs SchedTeam SchedRun SchedServe SchedSingle.

Lemma sorted_strict l : StronglySorted le l -> NoDup l -> StronglySorted lt l.
Proof.
  induction 1 as [|x l Hs IH Hf]; intros Hn; constructor; inversion Hn as [|? ? Hx Hn']; subst; auto.
  rewrite Forall_forall in *. intros y Hy. specialize (Hf y Hy). assert (x <> y) by (intros ->; auto). lia.
Qed.

(** An even team has (members per node) x (nodes) members. *)
Lemma even_team_count m team per : (forall i, In i team -> in_team_on m team (group_of m i) = per) ->
  length team = length (used_groups m team) * per.
Proof.
  intros H. assert (P : forall gs, NoDup gs -> forall t, (forall i, In i t -> In (group_of m i) gs) -> length t = suml (map (in_team_on m t) gs)).
  { intros gs Hgs. induction t as [|i t IH]; intros Ht.
    - cbn. clear. induction gs; cbn; auto.
    - cbn [length]. rewrite IH by (intros; apply Ht; now right). assert (Hi := Ht i (or_introl eq_refl)). clear Ht IH.
      induction Hgs as [|g gs Hg Hgs IHg]; [destruct Hi|]. cbn [map suml]. unfold in_team_on at 3. cbn [filter].
      destruct (Nat.eqb_spec (group_of m i) g) as [E|E].
      + cbn [length]. assert (EE : map (in_team_on m (i :: t)) gs = map (in_team_on m t) gs).
        { apply map_ext_in. intros g' Hg'. unfold in_team_on. cbn [filter]. destruct (Nat.eqb_spec (group_of m i) g'); [congruence|auto]. }
        rewrite EE. unfold in_team_on at 1. lia.
      + destruct Hi as [Hi|Hi]; [congruence|]. rewrite <- (IHg Hi). unfold in_team_on at 1. lia. }
  rewrite (P (used_groups m team)) at 1.
  - assert (Hu : forall g, In g (used_groups m team) -> in_team_on m team g = per).
    { intros g Hg. apply nodup_In, in_map_iff in Hg. destruct Hg as (i & <- & Hi). auto. }
    clear - Hu. induction (used_groups m team) as [|g gs IH]; cbn; auto. rewrite (Hu g) by now left. rewrite IH; auto. intros; apply Hu; now right.
  - apply NoDup_nodup.
  - intros i Hi. apply nodup_In. now apply in_map.
Qed.

Lemma existing_kind m use : existing m use = kind_total m use.
Proof.
  unfold existing, kind_total, countb, gpu_of, kind_b. generalize (rm_rsets m). intros rs. induction rs as [|r rs IH] using rev_ind; [reflexivity|].
  rewrite app_length. cbn [length]. rewrite seq_app, !filter_app, !app_length. f_equal.
  - rewrite <- IH. f_equal. apply filter_ext_in. intros i Hi. apply in_seq in Hi. destruct use; auto. rewrite nth_error_app1 by lia. reflexivity.
  - cbn [seq filter Nat.add]. rewrite nth_error_app2, Nat.sub_diag by lia. cbn. destruct use as [b|]; auto. destruct (Bool.eqb (rs_gpu r) b); reflexivity.
Qed.

Section Round.
  Variables (ord : list nat -> list nat) (m : rman) (sp mt : bool) (rqs : list request) (ans : list (res (list nat))) (s : sched).
  Hypothesis (Hm : reachable_table m) (Ho : set_order ord) (Hs : serve ord m (sched_init m sp mt) rqs = (ans, s)).

  Lemma round_inv : sched_inv m (concat (teams_of ans)) s.
  Proof. pose proof (reachable_table_ok m Hm) as Ht. exact (proj1 (serve_inv ord m Ho Ht rqs [] _ ans s (sched_init_inv m sp mt Ht) Hs)). Qed.

  Lemma round_step k rq : nth_error rqs k = Some rq ->
    exists a sk sk', nth_error ans k = Some a /\ sched_inv m (concat (teams_of (firstn k ans))) sk /\ sc_match sk = mt /\ sc_split2fit sk = sp /\
      assign_resources ord m sk (rq_num rq) (rq_gpus rq) (rq_params rq) = (a, sk').
  Proof.
    intros Hk. pose proof (reachable_table_ok m Hm) as Ht. destruct (serve_nth _ _ _ _ _ _ _ _ Hs Hk) as (before & sk & a & sk' & A & B & C & D).
    destruct (serve_inv ord m Ho Ht _ [] _ _ _ (sched_init_inv m sp mt Ht) A) as (I1 & I2 & I3 & _). subst before. exists a, sk, sk'. mbsplit; auto.
  Qed.

  Lemma round_disjoint : NoDup (concat (teams_of ans)) /\ forall i, In i (concat (teams_of ans)) -> is_free m i.
  Proof. destruct round_inv as [_ A B _]. auto. Qed.

  Lemma round_team k rq team : nth_error rqs k = Some rq -> nth_error ans k = Some (Ok team) ->
    StronglySorted lt team /\ (forall i, In i team -> is_free m i /\ of_kind m (rq_gpus rq) i /\ ~ In i (concat (teams_of (firstn k ans)))) /\
    rq_num rq <= length team <= rq_num rq + (length (used_groups m team) - 1) /\
    (forall i j, In i team -> In j team -> in_team_on m team (group_of m i) = in_team_on m team (group_of m j)) /\
    (mt = true -> forall i j, In i team -> In j team -> exists k, In k team /\ group_of m k = group_of m i /\ slot_of m k = slot_of m j) /\
    ((exists t, t <= rm_num_groups m /\ rq_num rq <= t * max_grpsize m (rq_gpus rq) /\ rq_num rq mod t = 0 /\ t <> 0) -> length team = rq_num rq).
  Proof.
    intros Hk Ha. pose proof (reachable_table_ok m Hm) as Ht. destruct (round_step k rq Hk) as (a & sk & sk' & A & B & C & D & E). rewrite Ha in A. injection A as <-.
    destruct (assign_step _ _ _ _ _ _ _ Ho Ht B E) as (_ & _ & _ & [[Z ->]|(Z & r & ng & per & Ec & ng1 & per1 & Er & Hng & Hper & G)]).
    - rewrite Z. mbsplit; try (intros i []; fail); try (intros _ i j []; fail); auto; try (cbn; lia); constructor.
    - destruct G as (G1 & G2 & G3 & G4 & G5 & G6). destruct (calc_even_spec _ _ _ _ _ _ Z Ec) as (F1 & F2 & F3 & F4 & F5 & F6 & F7 & F8 & F9 & F10).
      pose proof (even_team_count m team per1 G5) as Hc. assert (used : length (used_groups m team) = ng1) by nia.
      mbsplit; auto; try lia.
      + now apply sorted_strict.
      + intros i j Hi Hj. now rewrite !G5.
      + rewrite C in G6. auto.
      + intros (t & T1 & T2 & T3 & T4). rewrite G3, <- Er. apply F9. exists t. mbsplit; auto. apply ceil_div_le; auto.
        intros X. rewrite X in T2. lia.
  Qed.

  Lemma round_error k rq e : nth_error rqs k = Some rq -> nth_error ans k = Some (Err e) ->
    e = EInsufficientRes /\ existing m (rq_gpus rq) < rq_num rq \/ e = EInsufficientFree /\ rq_num rq <= existing m (rq_gpus rq).
  Proof.
    intros Hk Ha. pose proof (reachable_table_ok m Hm) as Ht. destruct (round_step k rq Hk) as (a & sk & sk' & A & B & C & D & E). rewrite Ha in A. injection A as <-.
    destruct (assign_step _ _ _ _ _ _ _ Ho Ht B E) as (_ & _ & _ & H). now rewrite existing_kind.
  Qed.

  Lemma round_answers : length ans = length rqs.
  Proof. pose proof (reachable_table_ok m Hm) as Ht. apply (serve_inv ord m Ho Ht rqs [] _ ans s (sched_init_inv m sp mt Ht) Hs). Qed.

  Lemma round_single req use params g l : req <> 0 -> spare m use (concat (teams_of ans)) g l -> req <= length l ->
    exists team g' l', fst (assign_resources ord m s req use params) = Ok team /\
      spare m use (concat (teams_of ans)) g' l' /\ NoDup team /\ incl team l' /\ length team = req /\
      (forall g2 l2, spare m use (concat (teams_of ans)) g2 l2 -> req <= length l2 -> length l' <= length l2).
  Proof.
    intros Hr Hsp Hl. pose proof (reachable_table_ok m Hm) as Ht.
    destruct (single_node ord m s _ req use params g l Ho Ht round_inv Hr Hsp Hl) as (team & g' & l' & s' & E & H). exists team, g', l'. rewrite E. auto.
  Qed.
End Round.

(** ** An idle machine with equal nodes serves every request that is not larger than the machine *)
Definition uniform (m : rman) (use : option bool) : Prop :=
  exists SS, length SS = max_grpsize m use /\ forall g l, 1 <= g <= rm_num_groups m -> spare m use [] g l -> Permutation (map (slot_of m) l) SS.

Lemma match_loop_keeps cs : forall per upper c, match_loop cs per upper (Some c) <> None.
Proof. induction cs as [|c0 cs IH]; intros per upper c; cbn [match_loop]; [discriminate|]. destruct (_ =? _); [discriminate|]. destruct (_ && _); apply IH. Qed.
Lemma match_loop_first c cs per upper : per <= length (common_slots c) < upper -> match_loop (c :: cs) per upper None <> None.
Proof.
  intros H. cbn [match_loop]. destruct (Nat.eqb_spec (length (common_slots c)) per); [discriminate|].
  destruct (Nat.ltb_spec per (length (common_slots c))), (Nat.ltb_spec (length (common_slots c)) upper); try lia. apply match_loop_keeps.
Qed.
Lemma combs_nonempty {A} n : forall l : list A, n <= length l -> exists c cs, combs n l = c :: cs.
Proof.
  induction n as [|n IH]; intros l Hl; [destruct l; cbn; eauto|]. destruct l as [|x l]; [cbn in Hl; lia|]. cbn [combs]. destruct (IH l) as (c & cs & E); [cbn in Hl; lia|].
  rewrite E. cbn. eauto.
Qed.

Lemma common_full c SS : c <> [] -> (forall p, In p c -> Permutation (snd p) SS) -> length (common_slots c) = length SS.
Proof.
  destruct c as [|p c]; [congruence|]. intros _ H. cbn. rewrite <- (Permutation_length (H p (or_introl eq_refl))). f_equal.
  assert (F : forall s, In s (snd p) -> forallb (fun q => memb s (snd q)) c = true).
  { intros s Hs. apply forallb_forall. intros q Hq. apply memb_In. apply (Permutation_in _ (Permutation_sym (H q (or_intror Hq)))).
    apply (Permutation_in _ (H p (or_introl eq_refl))). auto. }
  induction (snd p) as [|s l IH]; cbn; auto. rewrite F by now left. f_equal. apply IH. intros; apply F; now right.
Qed.

Lemma find_cand_some per upper used : forall gs cand, (cand <> None \/ exists g l, In (g, l) gs /\ ~ In g used /\ per <= length l < upper) ->
  find_cand gs used per upper cand <> None.
Proof.
  revert upper. intros upper gs. revert upper. induction gs as [|[g0 l0] gs IH]; intros upper cand Hc; cbn [find_cand].
  - destruct Hc as [Hc|(g & l & [] & _)]; auto.
  - destruct (memb g0 used) eqn:Em.
    + apply memb_In in Em. apply IH. destruct Hc as [Hc|(g & l & [H|H] & H2)]; auto; [injection H as <- <-; tauto|right; eauto].
    + destruct (Nat.eqb_spec (length l0) per); [discriminate|].
      destruct (Nat.ltb_spec per (length l0)), (Nat.ltb_spec (length l0) upper); cbn [andb]; try (apply IH; left; discriminate);
        (apply IH; destruct Hc as [Hc|(g & l & [H'|H'] & H2)]; auto; [injection H' as <- <-; lia|right; eauto]).
Qed.

Lemma any_loop_full gs per upper : NoDup (map fst gs) -> (forall g l, In (g, l) gs -> per <= length l < upper) ->
  forall n used acc, NoDup used -> incl used (map fst gs) -> length used + n <= length gs -> length (any_loop n gs used per upper acc) = length acc + n * per.
Proof.
  intros Hk Hl. induction n as [|n IH]; intros used acc Hu Hi Hn; cbn [any_loop]; [lia|].
  destruct (find_cand gs used per upper None) as [[g t]|] eqn:E.
  - apply find_cand_spec in E. destruct E as [E|(Hni & l & H1 & H2 & ->)]; [discriminate|]. rewrite IH.
    + rewrite app_length, firstn_length. lia.
    + apply (Permutation_NoDup (l := g :: used)); [apply Permutation_cons_append|]. constructor; auto.
    + intros x Hx. apply in_app_iff in Hx. destruct Hx as [Hx|[<-|[]]]; auto. apply in_map_iff. now exists (g, l).
    + rewrite app_length. cbn. lia.
  - exfalso. revert E. apply find_cand_some. right.
    assert (Hex : exists g, In g (map fst gs) /\ ~ In g used).
    { destruct (Forall_Exists_dec (fun g => In g used) (fun g => in_dec Nat.eq_dec g used) (map fst gs)) as [F|F].
      - exfalso. rewrite Forall_forall in F. pose proof (NoDup_incl_length Hk F). rewrite map_length in H. lia.
      - apply Exists_exists in F. destruct F as (g & A & B). eauto. }
    destruct Hex as (g & A & B). apply in_map_iff in A. destruct A as ((g' & l) & E & A). cbn in E. subst g'. exists g, l. mbsplit; auto; apply (Hl g); auto.
Qed.

Lemma option_map_some {A B} (f : A -> B) o : o <> None -> option_map f o <> None.
Proof. destruct o; cbn; congruence. Qed.
Lemma nodup_le l : length (nodup Nat.eq_dec l) <= length l.
Proof. induction l as [|y l IH]; [auto|]. cbn [nodup length]. destruct (in_dec Nat.eq_dec y l); cbn [length]; lia. Qed.
Lemma nodup_full l : length (nodup Nat.eq_dec l) = length l -> NoDup l.
Proof.
  induction l as [|x l IH]; [constructor|]. cbn [nodup length]. pose proof (nodup_le l). destruct (in_dec Nat.eq_dec x l) as [Hi|Hi].
  - lia.
  - cbn [length]. intros E. constructor; auto.
Qed.

Lemma idle_uniform ord m sp mt req use params : set_order ord -> table_ok m -> (forall i, holder m i = None) -> uniform m use ->
  req <= existing m use -> exists team, fst (assign_resources ord m (sched_init m sp mt) req use params) = Ok team.
Proof.
  intros Ho Ht Hfree (SS & Lss & Hu) Hreq. rewrite existing_kind in Hreq.
  unfold assign_resources. destruct (Nat.eqb_spec req 0) as [|Hr]; [now exists []|].
  pose proof (sched_init_inv m sp mt Ht) as [Hc Hn Hf Hcnt]. set (s := sched_init m sp mt) in *.
  unfold check_total. rewrite check_total_kind. fold (counter s use). destruct (Nat.ltb_spec (kind_total m use) req); [lia|].
  assert (Hcnt2 : (Z.of_nat (kind_total m use) <= counter s use)%Z).
  { specialize (Hcnt use). cbn [filter length] in Hcnt. assert (E : unheld (kind_b use) m = Z.of_nat (kind_total m use)); [|lia].
    unfold unheld, kind_total, countb. do 2 f_equal. apply filter_ext_in. intros r Hin. apply In_nth_error in Hin. destruct Hin as [i Hi]. specialize (Hfree i). unfold holder in Hfree. rewrite Hi in Hfree. now rewrite Hfree. }
  destruct (Z.ltb_spec (counter s use) (Z.of_nat req)); [lia|].
  pose proof (filter_type_ok m use [] _ Hc) as [Hk Hv]. set (valid := filter_type m use (get_avail m s)) in *.
  destruct (choose ord m s req use params valid) as [team|e] eqn:Ech; [cbn; eauto|]. exfalso.
  destruct (max_pos m use req Ht Hr ltac:(lia)) as [M1 M2]. revert Ech. unfold choose.
  destruct (calc_even_grps _ _ _) as [[[r ng] per]|] eqn:Ec; cbn [bindr].
  2:{ unfold calc_even_grps in Ec. destruct (Nat.eqb_spec req 0); [congruence|]. destruct (Nat.eqb_spec (max_grpsize m use) 0); [congruence|].
      destruct (1 <? _); [destruct (even_search _ _ _)|]; discriminate. }
  destruct (calc_even_spec _ _ _ _ _ _ Hr Ec) as (F1 & F2 & F3 & F4 & F5 & F6 & F7 & F8 & F9 & F10).
  assert (Hkeys : map fst valid = seq 1 (rm_num_groups m)) by (rewrite Hk; now apply table_groups).
  assert (Lv : length valid = rm_num_groups m) by (rewrite <- (map_length fst), Hkeys; apply seq_length).
  assert (Hperm : forall g l, In (g, l) valid -> Permutation (map (slot_of m) l) SS).
  { intros g l Hin. apply (Hu g); auto. apply (in_map fst) in Hin. rewrite Hkeys in Hin. apply in_seq in Hin. cbn in Hin. lia. }
  assert (Hlen : forall g l, In (g, l) valid -> length l = max_grpsize m use).
  { intros g l Hin. rewrite <- Lss, <- (Permutation_length (Hperm g l Hin)). now rewrite map_length. }
  destruct (nth_error (sorted_lens valid) (ng - 1)) as [x|] eqn:Ex.
  2:{ apply nth_error_None in Ex. rewrite sorted_lens_length in Ex. lia. }
  assert (x = max_grpsize m use).
  { apply nth_error_In in Ex. apply (Permutation_in _ (sorted_lens_perm valid)) in Ex. apply in_map_iff in Ex. destruct Ex as ((g & l) & <- & Hin). cbn. eauto. }
  subst x. destruct (Nat.ltb_spec (max_grpsize m use) per); [lia|]. cbn [andb]. rewrite andb_false_r.
  destruct (sc_match s).
  - destruct (get_matching (avail_slots m valid) ng per) as [[cg cs]|] eqn:Em.
    + intros H2. exact (matched_no_error ord m use [] valid Ho Ht Hk Hv ng per cg cs e F3 Em H2).
    + exfalso. revert Em. unfold get_matching. set (viable := filter _ _).
      assert (Ev : viable = avail_slots m valid).
      { unfold viable. assert (A : forall p, In p (avail_slots m valid) -> per <=? length (snd p) = true).
        { intros p Hp. unfold avail_slots in Hp. apply in_map_iff in Hp. destruct Hp as ((g & l) & <- & Hin). cbn [snd fst]. apply Nat.leb_le. rewrite (slots_distinct m use [] g l); auto. rewrite (Hlen g l Hin). lia. }
        induction (avail_slots m valid) as [|p q IH]; cbn; auto. rewrite A by now left. f_equal. apply IH. intros; apply A; now right. }
      rewrite Ev. unfold avail_slots at 1. rewrite map_length, Lv. destruct (Nat.ltb_spec (rm_num_groups m) ng); [lia|].
      destruct (combs_nonempty ng (avail_slots m valid)) as (c & cs & Ecb). { unfold avail_slots. rewrite map_length. lia. }
      rewrite Ecb. assert (Hci : In c (combs ng (avail_slots m valid))) by (rewrite Ecb; now left).
      destruct (combs_spec fst _ _ _ Hci) as (Lc & Ic & _).
      assert (Hcom : length (common_slots c) = max_grpsize m use).
      { rewrite <- Lss. apply common_full; [destruct c; [cbn in Lc; lia|discriminate]|]. intros p Hp. apply Ic in Hp. unfold avail_slots in Hp. apply in_map_iff in Hp. destruct Hp as ((g & l) & <- & Hin). cbn [snd].
        assert (N : NoDup (map (slot_of m) l)).
        { apply nodup_full. rewrite map_length. exact (slots_distinct m use [] g l Ht (Hv g l Hin)). }
        rewrite (nodup_fixed_point Nat.eq_dec N). eauto. }
      cbv zeta. match goal with |- context [match_loop _ _ ?u _] => set (up := u) end.
      assert (Hup : max_grpsize m use < up).
      { unfold up. destruct c as [|p c]; [cbn in Lc; lia|]. assert (Hp := Ic p (or_introl eq_refl)). unfold avail_slots in Hp. apply in_map_iff in Hp. destruct Hp as ((g & l) & Ep & Hin).
        assert (In (max_grpsize m use) (map (fun p => length (snd p)) (avail_slots m valid))).
        { apply in_map_iff. exists p. split; [subst p; cbn [snd]; rewrite (slots_distinct m use [] g l); auto; eauto|]. apply Ic. now left. }
        apply maxl_le in H3. lia. }
      pose proof (match_loop_first c cs per up ltac:(lia)) as Hml. exact (option_map_some _ _ Hml).
  - unfold find_any. rewrite any_loop_full.
    + cbn [length Nat.add]. rewrite <- F1, Nat.eqb_refl. discriminate.
    + eapply keys_NoDup; eauto.
    + intros g l Hin. rewrite (Hlen g l Hin). lia.
    + constructor.
    + intros x [].
    + cbn. lia.
Qed.
