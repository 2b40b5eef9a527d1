(** Sequences of requests in an allocation round (C14-C16). *)
From Coq Require Import Permutation Sorted.
From Verif Require Import Base BaseLemmas RsetModel RsetSpec RsetProofs RsetLayout RsetWalk RsetGroups SchedModel SchedSpec SchedProofs SchedTeam SchedRun.

Definition counter (s : sched) (use : option bool) : Z :=
  match use with None => sc_free s | Some true => sc_gpu_free s | Some false => sc_nongpu_free s end.
Definition of_kind_b (m : rman) (use : option bool) (i : nat) : bool :=
  match use with None => true | Some b => Bool.eqb (gpu_of m i) b end.

Record sched_inv (m : rman) (handed : list nat) (s : sched) : Prop := {
  si_cache : cache_ok m handed (get_avail m s);
  si_nodup : NoDup handed;
  si_free : forall i, In i handed -> is_free m i;
  si_count : forall use, (unheld (kind_b use) m <= counter s use + Z.of_nat (length (filter (of_kind_b m use) handed)))%Z
}.

Lemma of_kind_b_ok m use i : is_free m i -> of_kind_b m use i = true <-> of_kind m use i.
Proof. intros [H _]. destruct use as [b|]; [|cbn; tauto]. cbn [of_kind_b]. now apply gpu_of_kind. Qed.

Lemma unheld_kind m : table_ok m -> unheld (kind_b None) m = rm_free m /\ unheld (kind_b (Some true)) m = rm_gpu_free m /\ unheld (kind_b (Some false)) m = rm_nongpu_free m.
Proof.
  intros H. destruct (tk_books _ H) as (A & B & C). rewrite A, B, C. unfold unheld, kind_b. mbsplit; auto.
  f_equal. f_equal. apply filter_ext. intros r. destruct (rs_owner r); auto. now destruct (rs_gpu r).
Qed.

Lemma NoDup_app_intro {A} (l l' : list A) : NoDup l -> NoDup l' -> (forall x, In x l -> ~ In x l') -> NoDup (l ++ l').
Proof.
  intros H H' D. induction H as [|x l Hx Hl IH]; cbn; auto. constructor.
  - rewrite in_app_iff. intros [H1|H1]; [auto|]. apply (D x); auto. now left.
  - apply IH. intros; apply D; now right.
Qed.

Lemma sched_init_inv m b1 b2 : table_ok m -> sched_inv m [] (sched_init m b1 b2).
Proof.
  intros H. destruct (unheld_kind m H) as (A & B & C). constructor.
  - now apply get_avail_init.
  - constructor.
  - intros i [].
  - intros [[]|]; cbn [counter sched_init sc_free sc_gpu_free sc_nongpu_free filter length]; lia.
Qed.

Lemma max_pos m use req : table_ok m -> req <> 0 -> req <= kind_total m use ->
  max_grpsize m use <> 0 /\ ceil_div req (max_grpsize m use) <= rm_num_groups m.
Proof.
  intros Ht Hr Hle. pose proof (kind_total_le m use Ht). assert (max_grpsize m use <> 0) by nia. split; auto. apply ceil_div_le; auto. lia.
Qed.

Lemma assign_step ord m s handed rq a s' : set_order ord -> table_ok m -> sched_inv m handed s ->
  assign_resources ord m s (rq_num rq) (rq_gpus rq) (rq_params rq) = (a, s') ->
  sc_match s' = sc_match s /\ sc_split2fit s' = sc_split2fit s /\
  match a with
  | Ok team => sched_inv m (handed ++ team) s' /\
      (rq_num rq = 0 /\ team = [] \/
       rq_num rq <> 0 /\ exists r ng per, calc_even_grps (rq_num rq) (max_grpsize m (rq_gpus rq)) (rm_num_groups m) = Ok (r, ng, per) /\
         exists ng1 per1, r = ng1 * per1 /\ ng <= ng1 /\ 1 <= per1 /\ good_team m (rq_gpus rq) handed team (sc_match s) ng1 per1)
  | Err e => sched_inv m handed s' /\
      (e = EInsufficientRes /\ kind_total m (rq_gpus rq) < rq_num rq \/
       e = EInsufficientFree /\ rq_num rq <= kind_total m (rq_gpus rq))
  end.
Proof.
  intros Ho Ht Hs. destruct rq as [req use params]. cbn [rq_num rq_gpus rq_params]. unfold assign_resources.
  destruct (Nat.eqb_spec req 0) as [Hr|Hr].
  - intros H. injection H as <- <-. rewrite app_nil_r. mbsplit; auto.
  - unfold check_total. rewrite check_total_kind. fold (counter s use). destruct (Nat.ltb_spec (kind_total m use) req) as [Hl|Hl].
    { intros H. injection H as <- <-. mbsplit; auto. }
    destruct (_ <? _)%Z.
    { intros H. injection H as <- <-. mbsplit; auto. }
    destruct Hs as [Hc Hn Hf Hcnt]. pose proof (filter_type_ok m use handed _ Hc) as [Hk Hv].
    destruct (choose _ _ _ _ _ _ _) as [team|e] eqn:Ech.
    + intros H. injection H as <- <-. cbn [sc_match sc_split2fit]. mbsplit; auto.
      2:{ right. split; auto. exact (choose_good _ _ _ _ _ Ho Ht Hk Hv _ _ _ _ Hr Ech). }
      destruct (choose_good _ _ _ _ _ Ho Ht Hk Hv _ _ _ _ Hr Ech) as (r & ng & per & _ & ng1 & per1 & _ & _ & _ & (_ & N & L & F & _)).
      constructor.
      * cbn [get_avail sc_avail]. now apply filter_out_ok.
      * apply NoDup_app_intro; auto. intros i Hi Hi'. apply F in Hi'. tauto.
      * intros i Hi. apply in_app_iff in Hi. destruct Hi as [Hi|Hi]; auto. now apply F.
      * intros use'. specialize (Hcnt use'). rewrite filter_app, app_length, Nat2Z.inj_add.
        assert (Hle : length (filter (of_kind_b m use') team) <= length team) by (clear; induction team as [|x t IH]; cbn; [lia|]; destruct (of_kind_b m use' x); cbn; lia).
        assert (Hall : use = use' -> filter (of_kind_b m use') team = team).
        { intros <-. clear - F. induction team as [|i t IH]; auto. cbn. destruct (F i (or_introl eq_refl)) as (F1 & F2 & _).
          rewrite (proj2 (of_kind_b_ok m use i F1) F2). f_equal. apply IH. intros; apply F; now right. }
        assert (Hnone : use' = None -> filter (of_kind_b m use') team = team) by (intros ->; clear; induction team; cbn; auto; congruence).
        assert (Hopp : forall b, use = Some b -> use' = Some (negb b) -> filter (of_kind_b m use') team = []).
        { intros b -> ->. clear - F. induction team as [|i t IH]; auto. cbn [filter]. destruct (F i (or_introl eq_refl)) as (F1 & F2 & _).
          apply (proj2 (of_kind_b_ok m _ i F1)) in F2. cbn in F2. apply Bool.eqb_prop in F2. unfold of_kind_b. rewrite F2. destruct b; cbn [negb Bool.eqb]; apply IH; intros; apply F; now right. }
        cbn [counter sc_free sc_gpu_free sc_nongpu_free] in *.
        destruct use as [[]|], use' as [[]|]; cbn [counter sc_free sc_gpu_free sc_nongpu_free] in *;
          try (rewrite Hnone by auto; lia); try (rewrite Hall by auto; lia); try lia;
          rewrite (Hopp _ eq_refl eq_refl); cbn [length]; lia.
    + intros H. injection H as <- <-. cbn [sc_match sc_split2fit]. mbsplit; auto.
      * constructor; auto.
      * right. split; [|lia]. destruct (max_pos m use req Ht Hr ltac:(lia)) as [M1 M2]. exact (choose_err _ _ _ _ _ Ho Ht Hk Hv _ _ _ _ Hr M1 M2 Ech).
Qed.

(** ** Serving a sequence of requests *)
Lemma serve_inv ord m : set_order ord -> table_ok m -> forall rqs handed s ans s',
  sched_inv m handed s -> serve ord m s rqs = (ans, s') ->
  sched_inv m (handed ++ concat (teams_of ans)) s' /\ sc_match s' = sc_match s /\ sc_split2fit s' = sc_split2fit s /\ length ans = length rqs.
Proof.
  intros Ho Ht. induction rqs as [|rq rqs IH]; intros handed s ans s' Hs; cbn [serve].
  - intros H. injection H as <- <-. cbn. rewrite app_nil_r. auto.
  - destruct (assign_resources _ _ _ _ _ _) as [a s1] eqn:Ea. destruct (serve ord m s1 rqs) as [l s2] eqn:El. intros H. injection H as <- <-.
    destruct (assign_step _ _ _ _ _ _ _ Ho Ht Hs Ea) as (E1 & E2 & Hm). destruct a as [team|e].
    + destruct Hm as [Hm _]. destruct (IH _ _ _ _ Hm El) as (A & B & C & D). cbn [teams_of concat length]. rewrite app_assoc. mbsplit; auto; congruence.
    + destruct Hm as [Hm _]. destruct (IH _ _ _ _ Hm El) as (A & B & C & D). cbn [teams_of length]. mbsplit; auto; congruence.
Qed.

Lemma serve_app ord m rqs : forall s rqs', serve ord m s (rqs ++ rqs') =
  let (a, s1) := serve ord m s rqs in let (b, s2) := serve ord m s1 rqs' in (a ++ b, s2).
Proof.
  induction rqs as [|rq rqs IH]; intros s rqs'; cbn [app serve].
  - destruct (serve ord m s rqs'); auto.
  - destruct (assign_resources _ _ _ _ _ _) as [a s1]. rewrite IH. destruct (serve ord m s1 rqs) as [l s2]. destruct (serve ord m s2 rqs') as [l' s3]. reflexivity.
Qed.

(** Every answer in a sequence is the answer to a request in a state reached by serving the earlier ones. *)
Lemma serve_nth ord m rqs s ans s' k rq : serve ord m s rqs = (ans, s') -> nth_error rqs k = Some rq ->
  exists before sk a sk', serve ord m s (firstn k rqs) = (before, sk) /\
    assign_resources ord m sk (rq_num rq) (rq_gpus rq) (rq_params rq) = (a, sk') /\
    nth_error ans k = Some a /\ before = firstn k ans.
Proof.
  revert s ans s' k. induction rqs as [|rq0 rqs IH]; intros s ans s' k; [destruct k; discriminate|]. cbn [serve].
  destruct (assign_resources _ _ _ _ _ _) as [a s1] eqn:Ea. destruct (serve ord m s1 rqs) as [l s2] eqn:El. intros H Hk. injection H as <- <-.
  destruct k as [|k].
  - injection Hk as ->. exists [], s, a, s1. auto.
  - cbn in Hk. destruct (IH _ _ _ _ El Hk) as (before & sk & a' & sk' & A & B & C & D). exists (a :: before), sk, a', sk'.
    cbn [firstn serve]. rewrite Ea, A. mbsplit; auto. now subst.
Qed.

(** ** A request that fits on one node *)
Lemma free_bound m use l : NoDup l -> (forall i, In i l -> is_free m i /\ of_kind m use i) -> (Z.of_nat (length l) <= unheld (kind_b use) m)%Z.
Proof.
  intros Hn Hl. unfold unheld. apply inj_le.
  set (f := fun r => match rs_owner r with None => kind_b use r | Some _ => false end).
  assert (E : length (filter f (rm_rsets m)) = length (filter (fun i => match nth_error (rm_rsets m) i with Some r => f r | None => false end) (seq 0 (length (rm_rsets m))))).
  { generalize (rm_rsets m). intros rs. induction rs as [|r rs IH] using rev_ind; [reflexivity|].
    rewrite filter_app, app_length, IH. rewrite app_length. cbn [length]. rewrite seq_app, filter_app, app_length. f_equal.
    - f_equal. apply filter_ext_in. intros i Hi. apply in_seq in Hi. rewrite nth_error_app1 by lia. reflexivity.
    - cbn [seq filter Nat.add]. rewrite nth_error_app2, Nat.sub_diag by lia. cbn. destruct (f r); reflexivity. }
  rewrite E. apply NoDup_incl_length; auto. intros i Hi. destruct (Hl i Hi) as [[H1 H2] H3]. apply filter_In. split; [apply in_seq; lia|].
  unfold holder in H2. unfold of_kind in H3. destruct (nth_error (rm_rsets m) i) as [r|] eqn:Er; [|apply nth_error_None in Er; lia].
  unfold f. rewrite H2. unfold kind_b. destruct use as [b|]; auto. cbn in H3. injection H3 as ->. apply eqb_reflx.
Qed.

Lemma spare_group_le m use handed g l : table_ok m -> spare m use handed g l -> length l <= max_grpsize m use.
Proof.
  intros Ht [Hn Hl]. rewrite <- (group_kind_le m use g Ht). unfold countb.
  set (f := fun r => in_group g r && kind_b use r).
  assert (E : length (filter f (rm_rsets m)) = length (filter (fun i => match nth_error (rm_rsets m) i with Some r => f r | None => false end) (seq 0 (length (rm_rsets m))))).
  { generalize (rm_rsets m). intros rs. induction rs as [|r rs IH] using rev_ind; [reflexivity|].
    rewrite filter_app, app_length, IH. rewrite app_length. cbn [length]. rewrite seq_app, filter_app, app_length. f_equal.
    - f_equal. apply filter_ext_in. intros i Hi. apply in_seq in Hi. rewrite nth_error_app1 by lia. reflexivity.
    - cbn [seq filter Nat.add]. rewrite nth_error_app2, Nat.sub_diag by lia. cbn. destruct (f r); reflexivity. }
  rewrite E. apply NoDup_incl_length; auto. intros i Hi. apply Hl in Hi. destruct Hi as ((H1 & H2) & H3 & H4 & _). apply filter_In. split; [apply in_seq; lia|].
  unfold group_of in H3. unfold of_kind in H4. destruct (nth_error (rm_rsets m) i) as [r|] eqn:Er; [|apply nth_error_None in Er; lia].
  unfold f, in_group. rewrite H3, Nat.eqb_refl. unfold kind_b. destruct use as [b|]; auto. cbn in H4. injection H4 as ->. apply eqb_reflx.
Qed.

Lemma spare_unique m use handed g l l' : spare m use handed g l -> spare m use handed g l' -> length l = length l'.
Proof.
  intros [N H] [N' H']. apply Nat.le_antisymm; apply NoDup_incl_length; auto; intros i Hi; [apply H', H|apply H, H']; auto.
Qed.

Lemma combs_1 {A} (l : list A) : combs 1 l = map (fun x => [x]) l.
Proof. induction l as [|x l IH]; cbn; auto. cbn in IH. rewrite IH. destruct l; reflexivity. Qed.

Lemma common_1 p : common_slots [p] = snd p.
Proof. cbn. induction (snd p); cbn; congruence. Qed.

(** The matching loop over single groups finds the smallest sufficient group. *)
Lemma match_single per : forall gs upper cand,
  (forall p, In p gs -> per <= length (snd p)) ->
  (match cand with Some (c, com) => exists p, c = [p] /\ com = snd p /\ upper = length (snd p) /\ per < upper | None => forall p, In p gs -> length (snd p) < upper end) ->
  (cand = None -> gs <> []) ->
  exists p, match_loop (map (fun x => [x]) gs) per upper cand = Some ([p], snd p) /\ per <= length (snd p) /\
    (In p gs \/ exists com, cand = Some ([p], com)) /\
    (forall q, In q gs -> length (snd p) <= length (snd q)) /\ (cand <> None -> length (snd p) <= upper).
Proof.
  induction gs as [|q gs IH]; intros upper cand Hg Hc Hne.
  - destruct cand as [[c com]|]; [|elim Hne; auto]. destruct Hc as (p & -> & -> & -> & Hlt). exists p. cbn [match_loop map]. mbsplit; [auto|lia|right; eauto|intros q []|lia].
  - cbn [map match_loop]. rewrite common_1. destruct (Nat.eqb_spec (length (snd q)) per) as [E|E].
    + exists q. mbsplit; [auto|lia|left; now left|intros q' Hq'; rewrite E; auto|]. destruct cand as [[c com]|]; [|congruence]. destruct Hc as (p & _ & _ & -> & Hlt). intros _. lia.
    + assert (Hq : per < length (snd q)) by (specialize (Hg q (or_introl eq_refl)); lia).
      destruct (Nat.ltb_spec per (length (snd q))); [|lia]. destruct (Nat.ltb_spec (length (snd q)) upper) as [Hu|Hu]; cbn [andb].
      * destruct (IH (length (snd q)) (Some ([q], snd q))) as (p & A & B & C & D & F).
        { intros p Hp; apply Hg; now right. } { exists q. auto. } { discriminate. }
        assert (Fq : length (snd p) <= length (snd q)) by (apply F; discriminate).
        exists p. mbsplit; auto.
        -- left. destruct C as [C|(com & C)]; [now right|]. injection C as -> _. now left.
        -- intros q' [<-|Hq']; auto.
        -- intros _. lia.
      * destruct cand as [[c com]|].
        -- destruct (IH upper (Some (c, com))) as (p & A & B & C & D & F); auto. { intros p Hp; apply Hg; now right. } { discriminate. }
           assert (Fu : length (snd p) <= upper) by (apply F; discriminate).
           exists p. mbsplit; auto; [destruct C as [C|C]; [left; now right|now right]|]. intros q' [<-|Hq']; auto. lia.
        -- specialize (Hc q (or_introl eq_refl)). lia.
Qed.

Lemma maxl_le l x : In x l -> x <= maxl l.
Proof. induction l; [intros []|]. cbn. intros [<-|H]; [lia|]. apply IHl in H. lia. Qed.

Lemma get_matching_single slots per : (exists p, In p slots /\ per <= length (snd p)) ->
  exists p, get_matching slots 1 per = Some ([fst p], snd p) /\ In p slots /\ per <= length (snd p) /\
    (forall q, In q slots -> per <= length (snd q) -> length (snd p) <= length (snd q)).
Proof.
  intros (p0 & H0 & L0). unfold get_matching. set (viable := filter _ slots).
  assert (V : forall q, In q viable <-> In q slots /\ per <= length (snd q)) by (intros q; unfold viable; rewrite filter_In, Nat.leb_le; tauto).
  assert (Hne : viable <> []) by (intros E; assert (Hin : In p0 viable) by (apply V; auto); rewrite E in Hin; destruct Hin).
  destruct (Nat.ltb_spec (length viable) 1) as [Hl|Hl]; [destruct viable; [congruence|cbn in Hl; lia]|].
  rewrite combs_1. destruct (match_single per viable (maxl (map (fun p => length (snd p)) viable) + 1) None) as (p & A & B & C & D & _); auto.
  { intros q Hq. now apply V. } { intros q Hq. apply (in_map (fun p => length (snd p))) in Hq. apply maxl_le in Hq. lia. }
  exists p. cbv zeta. unfold groups in *. rewrite A. cbn. destruct C as [C|(com & C)]; [|discriminate]. apply V in C. destruct C as [C1 C2]. mbsplit; auto.
  intros q H1 H2. apply D. now apply V.
Qed.

Lemma find_cand_single per : forall gs upper cand,
  (match cand with Some (g, t) => exists l, t = firstn per l /\ upper = length l /\ per < upper | None => (forall g l, In (g, l) gs -> length l < upper) end) ->
  (cand = None -> exists g l, In (g, l) gs /\ per <= length l) ->
  exists g l, find_cand gs [] per upper cand = Some (g, firstn per l) /\ per <= length l /\
    (In (g, l) gs \/ cand = Some (g, firstn per l) /\ upper = length l) /\
    (forall g' l', In (g', l') gs -> per <= length l' -> length l <= length l') /\ (cand <> None -> length l <= upper).
Proof.
  induction gs as [|[g0 l0] gs IH]; intros upper cand Hc Hne.
  - destruct cand as [[g t]|]; [|destruct (Hne eq_refl) as (g & l & [] & _)]. destruct Hc as (l & -> & -> & Hlt). exists g, l. cbn [find_cand]. mbsplit; [auto|lia|auto|intros g' l' []|lia].
  - cbn [find_cand memb existsb]. destruct (Nat.eqb_spec (length l0) per) as [E|E].
    + exists g0, l0. rewrite <- E at 1. rewrite firstn_all. mbsplit; [auto|lia|left; now left|intros; lia|].
      destruct cand as [[g t]|]; [|congruence]. destruct Hc as (l & _ & -> & Hlt). intros _. lia.
    + destruct (Nat.ltb_spec per (length l0)) as [Hq|Hq]; cbn [andb].
      * destruct (Nat.ltb_spec (length l0) upper) as [Hu|Hu].
        -- destruct (IH (length l0) (Some (g0, firstn per l0))) as (g & l & A & B & C & D & F); [exists l0; auto|discriminate|].
           assert (Fq : length l <= length l0) by (apply F; discriminate).
           destruct C as [C|[C C']].
           ++ exists g, l. mbsplit; auto; [left; now right| |intros _; lia]. intros g' l' [H|H] Hp; [injection H as <- <-; lia|eauto].
           ++ assert (Eg : g0 = g /\ firstn per l0 = firstn per l) by (injection C; auto). destruct Eg as [-> Ef].
              exists g, l0. rewrite A, Ef. mbsplit; auto; try lia; [left; now left|]. intros g' l' [H|H] Hp; [injection H as <- <-; lia|]. rewrite C'. eauto.
        -- destruct cand as [[g1 t1]|].
           ++ destruct (IH upper (Some (g1, t1))) as (g & l & A & B & C & D & F); auto; [discriminate|].
              assert (Fu : length l <= upper) by (apply F; discriminate).
              exists g, l. mbsplit; auto; [destruct C; [left; now right|right; auto]|]. intros g' l' [H|H] Hp; [injection H as <- <-; lia|eauto].
           ++ specialize (Hc g0 l0 (or_introl eq_refl)). lia.
      * destruct (IH upper cand) as (g & l & A & B & C & D & F).
        { destruct cand as [[g1 t1]|]; auto. intros g l Hi. apply (Hc g l). now right. }
        { intros Hn. destruct (Hne Hn) as (g & l & [H|H] & Hp); [injection H as <- <-; lia|eauto]. }
        exists g, l. mbsplit; auto; [destruct C; [left; now right|right; auto]|]. intros g' l' [H|H] Hp; [injection H as <- <-; lia|eauto].
Qed.
