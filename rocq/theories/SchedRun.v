(** One request, sequences of requests, termination and completeness of the scheduler (C14-C16). *)
From Coq Require Import Permutation Sorted.
From Verif Require Import Base BaseLemmas RsetModel RsetSpec RsetProofs RsetLayout RsetWalk RsetGroups SchedModel SchedSpec SchedProofs SchedTeam.

(** ** Consequences of the grid shape *)
Lemma NoDup_list_prod {A B} (a : list A) (b : list B) : NoDup a -> NoDup b -> NoDup (list_prod a b).
Proof.
  intros Ha Hb. induction Ha as [|x l Hx Hl IH]; cbn; [constructor|].
  assert (N1 : NoDup (map (fun y => (x, y)) b)).
  { clear - Hb. induction Hb; cbn; constructor; auto. rewrite in_map_iff. intros (y & E & Hy). congruence. }
  assert (D : forall p, In p (map (fun y => (x, y)) b) -> ~ In p (list_prod l b)).
  { intros p Hp Hq. apply in_map_iff in Hp. destruct Hp as (y & <- & _). apply in_prod_iff in Hq. tauto. }
  clear - N1 D IH. induction N1 as [|p q Hp Hq IHq]; cbn; auto. constructor.
  - intros H. apply in_app_iff in H. destruct H as [H|H]; [auto|]. apply (D p); auto. now left.
  - apply IHq. intros; apply D; now right.
Qed.

Lemma filter_len_perm {A} (f : A -> bool) l l' : Permutation l l' -> length (filter f l) = length (filter f l').
Proof.
  intros Hp. induction Hp; cbn; auto; try (destruct (f x); cbn; auto); try (destruct (f y); cbn; auto); congruence.
Qed.

Lemma list_prod_count {B} (a : list nat) (b : list B) g : NoDup a -> In g a ->
  length (filter (fun p => fst p =? g) (list_prod a b)) = length b.
Proof.
  intros Ha. induction Ha as [|x l Hx Hl IH]; [intros []|]. intros Hg. cbn [list_prod]. rewrite filter_app, app_length.
  assert (Z : forall l, ~ In g l -> filter (fun p : nat * B => fst p =? g) (list_prod l b) = []).
  { clear. intros l Hl. destruct (filter _ _) as [|p q] eqn:E; auto. assert (H : In p (p :: q)) by now left. rewrite <- E in H.
    apply filter_In in H. destruct H as [H1 H2]. apply Nat.eqb_eq in H2. destruct p as [u v]. apply in_prod_iff in H1. cbn in H2. subst. tauto. }
  destruct (Nat.eq_dec x g) as [->|Hn].
  - rewrite (Z l Hx). cbn. rewrite Nat.add_0_r. clear. induction b as [|y b IH]; cbn; auto. rewrite Nat.eqb_refl. cbn. auto.
  - destruct Hg as [->|Hg]; [congruence|]. rewrite (IH Hg).
    assert (E : filter (fun p : nat * B => fst p =? g) (map (fun y => (x, y)) b) = []).
    { clear - Hn. induction b as [|y b IH]; cbn; auto. destruct (Nat.eqb_spec x g); [congruence|auto]. }
    rewrite E. reflexivity.
Qed.

Lemma grid_even m team cg ss i : NoDup cg -> Permutation (map (pos m) team) (list_prod cg ss) -> In i team ->
  in_team_on m team (group_of m i) = length ss.
Proof.
  intros Ncg P Hi. unfold in_team_on.
  assert (E : length (filter (fun j => group_of m j =? group_of m i) team) = length (filter (fun p => fst p =? group_of m i) (map (pos m) team))).
  { clear. induction team as [|j t IH]; cbn; auto. destruct (group_of m j =? group_of m i); cbn; auto. }
  rewrite E, (filter_len_perm _ _ _ P). apply list_prod_count; auto.
  assert (H : In (pos m i) (map (pos m) team)) by now apply in_map. apply (Permutation_in _ P) in H. unfold pos in H. now apply in_prod_iff in H.
Qed.

Lemma grid_match m team cg ss i j : Permutation (map (pos m) team) (list_prod cg ss) -> In i team -> In j team ->
  exists k, In k team /\ group_of m k = group_of m i /\ slot_of m k = slot_of m j.
Proof.
  intros P Hi Hj.
  assert (H1 : In (pos m i) (list_prod cg ss)) by (apply (Permutation_in _ P); now apply in_map).
  assert (H2 : In (pos m j) (list_prod cg ss)) by (apply (Permutation_in _ P); now apply in_map).
  unfold pos in H1, H2. apply in_prod_iff in H1. apply in_prod_iff in H2.
  assert (H3 : In (group_of m i, slot_of m j) (list_prod cg ss)) by (apply in_prod_iff; tauto).
  apply (Permutation_in _ (Permutation_sym P)) in H3. apply in_map_iff in H3. destruct H3 as (k & E & Hk). exists k. unfold pos in E. injection E as E1 E2. auto.
Qed.

(** ** Splitting over more nodes *)
Lemma descend_le per : forall ng req, descend per ng req <= per /\ descend per ng req * ng <= req \/ descend per ng req = 0 /\ ng * 0 <= req.
Proof.
  induction per as [|p IH]; intros ng req; cbn [descend]; [right; lia|]. destruct (Nat.ltb_spec req (S p * ng)); [|left; lia].
  destruct (IH ng req) as [H1|H1]; [left; lia|right; auto].
Qed.

Lemma even_split_spec n : forall per ng req lens params ng1 per1, even_split n per ng req lens params = Ok (ng1, per1) ->
  ng1 * per1 = req /\ ng <= ng1 <= ng + n /\ forallb (fun p => p mod ng1 =? 0) params = true.
Proof.
  induction n as [|n IH]; intros per ng req lens params ng1 per1; cbn [even_split]; destruct (_ && _) eqn:E; try discriminate.
  1,2: intros H; injection H as <- <-; apply andb_true_iff in E; destruct E as [E1 E2]; apply Nat.eqb_eq in E1; mbsplit; auto; lia.
  destruct (nth_error lens ng); [|discriminate]. intros H. apply IH in H. destruct H as (A & B & C). mbsplit; auto; lia.
Qed.
Lemma even_split_err n : forall per ng req lens params e, ng + n <= length lens -> even_split n per ng req lens params = Err e -> e = EInsufficientFree.
Proof.
  induction n as [|n IH]; intros per ng req lens params e Hl; cbn [even_split]; destruct (_ && _); try discriminate; [congruence|].
  destruct (nth_error lens ng) eqn:E; [|apply nth_error_None in E; lia]. apply IH. lia.
Qed.

Lemma split_loop_spec fuel : forall maxeven ng req lens params G slots ng1 per1 c,
  split_loop fuel maxeven ng req lens params G slots = Ok (ng1, per1, c) ->
  ng1 * per1 = req /\ ng <= ng1 /\ get_matching slots ng1 per1 = Some c /\ forallb (fun p => p mod ng1 =? 0) params = true.
Proof.
  induction fuel as [|fuel IH]; intros maxeven ng req lens params G slots ng1 per1 c; cbn [split_loop]; [discriminate|].
  destruct (even_split _ _ _ _ _ _) as [[ng2 per2]|] eqn:E; cbn [bindr]; [|discriminate]. apply even_split_spec in E. destruct E as (A & B & C).
  destruct (get_matching slots ng2 per2) as [c2|] eqn:Em.
  - intros H. injection H as <- <- <-. mbsplit; auto; lia.
  - intros H. apply IH in H. destruct H as (A' & B' & C' & D'). mbsplit; auto. lia.
Qed.

(** The search stops: past the number of requested sets there is nothing to try. *)
Lemma split_loop_err fuel : forall maxeven ng req lens params G slots e, 1 <= req ->
  G <= length lens -> 1 <= fuel -> req + 2 <= fuel + ng -> 1 <= ng ->
  split_loop fuel maxeven ng req lens params G slots = Err e -> e = EInsufficientFree.
Proof.
  induction fuel as [|fuel IH]; intros maxeven ng req lens params G slots e Hr Hl Hf Hfu Hng; [lia|]. cbn [split_loop].
  destruct (even_split _ _ _ _ _ _) as [[ng2 per2]|e'] eqn:E; cbn [bindr].
  - apply even_split_spec in E. destruct E as (A & B & C). destruct (get_matching slots ng2 per2); [discriminate|].
    assert (ng2 <= req) by (destruct per2; [lia|rewrite Nat.mul_succ_r in A; lia]). apply IH; auto; lia.
  - intros H. injection H as <-. destruct (Nat.le_gt_cases ng G).
    + eapply even_split_err; [|exact E]. lia.
    + replace (G - ng) with 0 in E by lia. cbn [even_split] in E. destruct (_ && _); [discriminate|]. congruence.
Qed.

(** ** The team for one request *)
Definition good_team (m : rman) (use : option bool) (handed team : list nat) (matched : bool) (ng per : nat) : Prop :=
  StronglySorted le team /\ NoDup team /\ length team = ng * per /\
  (forall i, In i team -> is_free m i /\ of_kind m use i /\ ~ In i handed) /\
  (forall i, In i team -> in_team_on m team (group_of m i) = per) /\
  (matched = true -> forall i j, In i team -> In j team -> exists k, In k team /\ group_of m k = group_of m i /\ slot_of m k = slot_of m j).

Lemma avail_slots_keys m valid : map fst (avail_slots m valid) = map fst valid.
Proof. unfold avail_slots. rewrite map_map. reflexivity. Qed.

Section Choose.
  Variables (ord : list nat -> list nat) (m : rman) (use : option bool) (handed : list nat) (valid : groups).
  Hypothesis (Ho : set_order ord) (Ht : table_ok m).
  Hypothesis (Hk : map fst valid = unique_groups (rm_rsets m)).
  Hypothesis (Hv : forall g l, In (g, l) valid -> spare m use handed g l).

  Lemma matched_team ng per cg cs team : 1 <= ng -> get_matching (avail_slots m valid) ng per = Some (cg, cs) ->
    team_from_slots ord m cg cs per = Ok team -> good_team m use handed team true ng per.
  Proof.
    intros Hng Hm Hteam. apply get_matching_spec in Hm; auto.
    - destruct Hm as (L & N1 & N2 & Hp & Hg). destruct (team_from_slots_spec ord m valid use handed cg cs per) as (t & ss & E & S & Ns & Ls & P & Hin); auto.
      rewrite E in Hteam. injection Hteam as <-. unfold good_team. mbsplit; auto.
      + apply (NoDup_map_inv (pos m)). eapply Permutation_NoDup; [symmetry; exact P|]. now apply NoDup_list_prod.
      + rewrite <- (map_length (pos m)), (Permutation_length P), prod_length. congruence.
      + intros i Hi. destruct (Hin i Hi) as (g & l & H1 & H2). apply (proj2 (Hv _ _ H1)) in H2. tauto.
      + intros i Hi. rewrite <- Ls. exact (grid_even m t cg ss i N1 P Hi).
      + intros _ i j Hi Hj. exact (grid_match m t cg ss i j P Hi Hj).
    - rewrite avail_slots_keys. eapply keys_NoDup; eauto.
    - intros p Hp. unfold avail_slots in Hp. apply in_map_iff in Hp. destruct Hp as (q & <- & _). apply NoDup_nodup.
  Qed.

  Lemma matched_no_error ng per cg cs e : 1 <= ng -> get_matching (avail_slots m valid) ng per = Some (cg, cs) ->
    team_from_slots ord m cg cs per <> Err e.
  Proof.
    intros Hng Hm Hteam. apply get_matching_spec in Hm; auto.
    - destruct Hm as (L & N1 & N2 & Hp & Hg). destruct (team_from_slots_spec ord m valid use handed cg cs per) as (t & ss & E & _); auto. congruence.
    - rewrite avail_slots_keys. eapply keys_NoDup; eauto.
    - intros p Hp. unfold avail_slots in Hp. apply in_map_iff in Hp. destruct Hp as (q & <- & _). apply NoDup_nodup.
  Qed.

  Lemma any_team b ng per team : 1 <= per -> find_any valid b (ng * per) ng per = Ok team -> good_team m use handed team false ng per.
  Proof.
    intros Hper H. destruct (find_any_spec m use handed valid b (ng * per) ng per team Hk Hv Hper eq_refl H) as (A & B & C & D & E).
    unfold good_team. mbsplit; auto.
    - intros i Hi. destruct (D i Hi) as (g & l & H1 & H2). apply (proj2 (Hv _ _ H1)) in H2. tauto.
    - discriminate.
  Qed.

  Lemma choose_good s req params team : req <> 0 -> choose ord m s req use params valid = Ok team ->
    exists r ng per, calc_even_grps req (max_grpsize m use) (rm_num_groups m) = Ok (r, ng, per) /\
      exists ng1 per1, r = ng1 * per1 /\ ng <= ng1 /\ 1 <= per1 /\ good_team m use handed team (sc_match s) ng1 per1.
  Proof.
    intros Hr. unfold choose. destruct (calc_even_grps _ _ _) as [[[r ng] per]|] eqn:Ec; cbn [bindr]; [|discriminate].
    destruct (calc_even_spec _ _ _ _ _ _ Hr Ec) as (Er & _ & Hng & Hper & _).
    intros H. exists r, ng, per. split; auto. revert H.
    destruct (nth_error _ _) as [maxeven|]; [|discriminate]. destruct (_ && _); [discriminate|].
    destruct (sc_match s).
    - destruct (get_matching _ ng per) as [[cg cs]|] eqn:Em.
      + intros H. exists ng, per. mbsplit; auto. eapply matched_team; eauto.
      + destruct (negb _); [discriminate|]. destruct (maxeven <? per); [|discriminate].
        destruct (split_loop _ _ _ _ _ _ _ _) as [[[ng1 per1] [cg cs]]|] eqn:Es; cbn [bindr]; [|discriminate].
        apply split_loop_spec in Es. destruct Es as (A & B & C & _). intros H. exists ng1, per1. mbsplit; auto; [destruct per1; nia|]. eapply matched_team; eauto. lia.
    - destruct (_ && _).
      + destruct (even_split _ _ _ _ _ _) as [[ng1 per1]|] eqn:Es; cbn [bindr]; [|discriminate].
        apply even_split_spec in Es. destruct Es as (A & B & C). intros H. assert (1 <= per1) by (destruct per1; nia). exists ng1, per1. mbsplit; auto; [lia|]. rewrite <- A in *. eapply any_team; eauto.
      + intros H. exists ng, per. mbsplit; auto. subst r. eapply any_team; eauto.
  Qed.

  Lemma choose_err s req params e : req <> 0 -> max_grpsize m use <> 0 -> ceil_div req (max_grpsize m use) <= rm_num_groups m ->
    choose ord m s req use params valid = Err e -> e = EInsufficientFree.
  Proof.
    intros Hr Hz Hc. unfold choose. destruct (calc_even_grps _ _ _) as [[[r ng] per]|] eqn:Ec; cbn [bindr].
    2:{ unfold calc_even_grps in Ec. destruct (Nat.eqb_spec req 0); [congruence|]. destruct (Nat.eqb_spec (max_grpsize m use) 0); [congruence|].
        destruct (1 <? _); [destruct (even_search _ _ _)|]; discriminate. }
    destruct (calc_even_spec _ _ _ _ _ _ Hr Ec) as (Er & Hrr & Hng & Hper & _ & _ & _ & _ & _ & HG).
    assert (Ll : length (sorted_lens valid) = rm_num_groups m).
    { rewrite sorted_lens_length, <- (map_length fst), Hk, table_groups by auto. now rewrite seq_length. }
    destruct (nth_error _ _) as [maxeven|] eqn:En; [|apply nth_error_None in En; lia]. destruct (_ && _); [congruence|].
    destruct (sc_match s).
    - destruct (get_matching _ ng per) as [[cg cs]|] eqn:Em.
      + intros H. exfalso. exact (matched_no_error ng per cg cs e Hng Em H).
      + destruct (negb _); [congruence|]. destruct (maxeven <? per); [|congruence].
        destruct (split_loop _ _ _ _ _ _ _ _) as [[[ng1 per1] [cg cs]]|e'] eqn:Es; cbn [bindr].
        * apply split_loop_spec in Es. destruct Es as (A & B & C & _). intros H. exfalso. exact (matched_no_error ng1 per1 cg cs e ltac:(lia) C H).
        * intros H. injection H as <-. eapply split_loop_err; [| | | | |exact Es]; lia.
    - destruct (_ && _).
      + destruct (even_split _ _ _ _ _ _) as [[ng1 per1]|e'] eqn:Es; cbn [bindr].
        * unfold find_any. destruct (_ =? _); congruence.
        * intros H. injection H as <-. eapply even_split_err; [|exact Es]. lia.
      + unfold find_any. destruct (_ =? _); congruence.
  Qed.
End Choose.

(** ** Totals *)
Definition kind_b (use : option bool) (r : rset) : bool := match use with None => true | Some b => Bool.eqb (rs_gpu r) b end.
Definition kind_total (m : rman) (use : option bool) : nat := countb (kind_b use) (rm_rsets m).
Lemma check_total_kind m use : match use with
             | None => length (rm_rsets m)
             | Some true => countb rs_gpu (rm_rsets m)
             | Some false => countb (fun r => negb (rs_gpu r)) (rm_rsets m) end = kind_total m use.
Proof.
  unfold kind_total, countb, kind_b. destruct use as [[]|].
  - f_equal; apply filter_ext; intros r; now destruct (rs_gpu r).
  - f_equal; apply filter_ext; intros r; now destruct (rs_gpu r).
  - induction (rm_rsets m) as [|r l IH]; [reflexivity|]. cbn. now rewrite IH.
Qed.

Lemma group_kind_le m use g : table_ok m -> countb (fun r => in_group g r && kind_b use r) (rm_rsets m) <= max_grpsize m use.
Proof.
  intros H. destruct use as [[]|]; cbn [max_grpsize].
  - rewrite <- (tk_gsize _ H g). unfold countb. rewrite (filter_ext _ (fun r => in_group g r && rs_gpu r)); [auto|].
    intros r. unfold kind_b. now destruct (rs_gpu r).
  - rewrite <- (tk_nsize _ H g). unfold countb. rewrite (filter_ext _ (fun r => in_group g r && negb (rs_gpu r))); [auto|].
    intros r. unfold kind_b. now destruct (rs_gpu r).
  - rewrite <- (tk_size _ H g). unfold countb. rewrite (filter_ext _ (in_group g)); [auto|]. intros r. unfold kind_b. now rewrite andb_true_r.
Qed.

Lemma kind_total_le m use : table_ok m -> kind_total m use <= rm_num_groups m * max_grpsize m use.
Proof.
  intros H. destruct (walk_groups _ _ _ (tk_walk _ H) (tk_ne _ H)) as (A & B & C).
  assert (P : forall gs, NoDup gs -> forall rs : list rset, (forall r, In r rs -> In (rs_group r) gs) ->
     countb (kind_b use) rs = suml (map (fun g => countb (fun r => in_group g r && kind_b use r) rs) gs)).
  { intros gs Hgs. induction rs as [|r rs IH]; intros Hr.
    - unfold countb. cbn. clear. induction gs; cbn; auto.
    - assert (IH' := IH (fun r' H' => Hr r' (or_intror H'))). unfold countb in *. cbn [filter].
      assert (Hin := Hr r (or_introl eq_refl)). clear Hr IH. destruct (kind_b use r) eqn:Ek.
      + cbn [length]. rewrite IH'. clear IH'. induction Hgs as [|g gs Hg Hgs IHg]; [destruct Hin|]. cbn [map suml].
        unfold in_group at 3. destruct (Nat.eqb_spec (rs_group r) g) as [E|E].
        * cbn [andb length]. assert (EE : map (fun g => length (filter (fun r0 => in_group g r0 && kind_b use r0) rs)) gs = map (fun g => length (if in_group g r && true then r :: filter (fun r0 => in_group g r0 && kind_b use r0) rs else filter (fun r0 => in_group g r0 && kind_b use r0) rs)) gs).
          { apply map_ext_in. intros g' Hg'. unfold in_group at 2. destruct (Nat.eqb_spec (rs_group r) g'); [congruence|auto]. }
          rewrite EE. lia.
        * cbn [andb]. destruct Hin as [Hin|Hin]; [congruence|]. rewrite <- (IHg Hin). lia.
      + rewrite IH'. f_equal. apply map_ext. intros g. now rewrite andb_false_r. }
  unfold kind_total. rewrite (P (seq 1 (rm_num_groups m))).
  - rewrite <- (seq_length (rm_num_groups m) 1) at 2. generalize (seq 1 (rm_num_groups m)). intros l. induction l as [|g l IH]; [cbn; lia|].
    cbn [map suml length]. pose proof (group_kind_le m use g H). lia.
  - apply seq_NoDup.
  - intros r Hr. apply in_seq. rewrite (tk_groups _ H). apply B in Hr. lia.
Qed.

Lemma ceil_div_le a b c : b <> 0 -> a <= c * b -> ceil_div a b <= c.
Proof. intros Hb H. pose proof (ceil_div_lt a b Hb). nia. Qed.
