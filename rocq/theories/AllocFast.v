(** The allocation functions that count through the history. *)
From Coq Require Import String Permutation Sorted.
From Verif Require Import Base BaseLemmas HistoryModel HistoryProofs WorkModel RsetModel RsetSpec SchedModel SchedSpec SchedServe AllocModel AllocSpec AllocProofs AllocLoops AllocFacts.
Local Notation length := List.length.

Lemma skip_spec rs : forall nx, exists n, skip_cancelled rs nx = nx + n /\ n <= length rs /\
  (forall i, i < n -> exists r, nth_error rs i = Some r /\ flag F_cancel_requested r = true) /\
  (forall r, nth_error rs n = Some r -> flag F_cancel_requested r = false).
Proof.
  induction rs as [|r rs IH]; intros nx; cbn [skip_cancelled].
  - exists 0. split; [lia|]. split; [cbn; lia|]. split; [intros; lia|]. intros r Hr. discriminate.
  - destruct (flag F_cancel_requested r) eqn:E.
    + destruct (IH (S nx)) as (n & E1 & E2 & E3 & E4). exists (S n). split; [lia|]. split; [cbn; lia|]. split; [|exact E4].
      intros i Hi. destruct i; [exists r; auto|]. apply E3. lia.
    + exists 0. split; [lia|]. split; [cbn; lia|]. split; [intros; lia|]. cbn. congruence.
Qed.

Lemma nth_skipn {A} (l : list A) : forall n i, nth_error (skipn n l) i = nth_error l (n + i).
Proof. induction l as [|x l IH]; intros [|n] i; cbn; auto. destruct i; auto. Qed.

Lemma skip_points H nx : nx <= skip_canceled_points H nx /\
  (nx <= length H -> skip_canceled_points H nx <= length H) /\
  (forall i, nx <= i < skip_canceled_points H nx -> exists r, nth_error H i = Some r /\ flag F_cancel_requested r = true) /\
  (forall r, nth_error H (skip_canceled_points H nx) = Some r -> flag F_cancel_requested r = false).
Proof.
  unfold skip_canceled_points. destruct (skip_spec (skipn nx H) nx) as (n & E1 & E2 & E3 & E4). rewrite E1. rewrite skipn_length in E2. split; [lia|]. split; [lia|]. split.
  - intros i Hi. destruct (E3 (i - nx) ltac:(lia)) as (r & R1 & R2). exists r. rewrite nth_skipn in R1. replace (nx + (i - nx)) with i in R1 by lia. auto.
  - intros r Hr. apply E4. now rewrite nth_skipn.
Qed.

Lemma wanted_step H lo mid hi : lo <= mid <= hi -> wanted_between H lo hi = wanted_between H lo mid ++ wanted_between H mid hi.
Proof.
  intros Hm. unfold wanted_between. rewrite <- filter_app. f_equal. replace (hi - lo) with ((mid - lo) + (hi - mid)) by lia. rewrite seq_app. do 2 f_equal. lia.
Qed.
Lemma wanted_none H lo hi : (forall i, lo <= i < hi -> exists r, nth_error H i = Some r /\ flag F_cancel_requested r = true) -> wanted_between H lo hi = [].
Proof.
  intros Hc. unfold wanted_between. destruct (filter _ _) as [|x l] eqn:E; auto. exfalso.
  assert (Hx : In x (x :: l)) by now left. rewrite <- E in Hx. apply filter_In in Hx. destruct Hx as [Hx1 Hx2]. apply in_seq in Hx1.
  destruct (Hc x ltac:(lia)) as (r & R1 & R2). rewrite R1 in Hx2. unfold flag in R2. now rewrite R2 in Hx2.
Qed.
Lemma wanted_one H i r : nth_error H i = Some r -> flag F_cancel_requested r = false -> wanted_between H i (S i) = [i].
Proof. intros Hr Hc. unfold wanted_between. replace (S i - i) with 1 by lia. cbn. rewrite Hr. unfold flag in Hc. now rewrite Hc. Qed.
Lemma wanted_skip H nx : wanted_between H nx (skip_canceled_points H nx) = [].
Proof. apply wanted_none. apply skip_points. Qed.
Lemma wanted_empty H a b : b <= a -> wanted_between H a b = [].
Proof. intros Hl. unfold wanted_between. now replace (b - a) with 0 by lia. Qed.
Lemma wanted_In H lo hi i : In i (wanted_between H lo hi) <-> lo <= i < hi /\ exists r, nth_error H i = Some r /\ truthy (r F_cancel_requested) = false.
Proof.
  unfold wanted_between. rewrite filter_In, in_seq. split.
  - intros [H1 H2]. split; [lia|]. destruct (nth_error H i) as [r|]; [|discriminate]. exists r. split; auto. now apply negb_true_iff.
  - intros [H1 (r & R1 & R2)]. split; [lia|]. rewrite R1. now rewrite R2.
Qed.
Lemma wanted_NoDup H lo hi : NoDup (wanted_between H lo hi).
Proof. apply NoDup_filter, seq_NoDup. Qed.

Definition one_row (p : nat * work) : Prop := length (k_rows (snd p)) = 1.
Definition rows_of (l : wdict) : list nat := concat (map (fun p => k_rows (snd p)) l).

Lemma fast_sims_spec c d H : resources_ok c -> forall ws nx work s handed work' s' nx' e,
  NoDup ws -> (forall w, In w ws -> in_dict work w = false) -> sinv c handed s -> nx <= length H ->
  fast_sims c d H ws nx work s = (work', s', nx', e) ->
  exists new, work' = work ++ new /\ incl (map fst new) ws /\ NoDup (map fst new) /\ Forall (sim_unit c d H false) new /\ Forall one_row new /\
    nx <= nx' <= length H /\ rows_of new = wanted_between H nx nx' /\ sinv c (handed ++ sets_given new) s' /\
    (ac_manage c = false -> e = None /\ (nx' = length H \/ length new = length ws)).
Proof.
  intros Hr. induction ws as [|w ws IH]; intros nx work s handed work' s' nx' e Hw Hd Hs Hnx; cbn [fast_sims].
  - intros E. injection E as <- <- <- <-. exists []. unfold sets_given, rows_of. cbn. rewrite !app_nil_r. rewrite wanted_empty by lia.
    repeat split; auto; try lia; try constructor. apply incl_refl.
  - destruct (skip_points H nx) as (S1 & S2 & S3 & S4). specialize (S2 Hnx). set (n1 := skip_canceled_points H nx) in *.
    pose proof (wanted_skip H nx) as Wk. fold n1 in Wk. inversion Hw as [|? ? Hw1 Hw2]; subst x l.
    destruct (Nat.ltb_spec n1 (length H)) as [L|L].
    + destruct (sim_work c d H w [n1] false s) as [a s1] eqn:Ea. destruct (sim_work_spec _ _ _ _ _ _ _ _ _ _ Hr Hs Ea) as [G X].
      destruct a as [k|er].
      * destruct X as (X1 & X2 & X3 & X4 & X5 & X6 & X7). rewrite dict_set_new by (apply Hd; now left). intros E.
        destruct (IH _ _ _ _ _ _ _ _ Hw2 (dict_fresh _ _ k _ Hw Hd) X1 L E) as (new & E1 & E2 & E2' & E3 & E4 & E5 & E6 & E7 & E8).
        exists ((w, k) :: new). split; [rewrite E1, <- app_assoc; reflexivity|].
        split. { cbn. intros v [<-|Hv]; [now left|right; now apply E2]. }
        split. { cbn. constructor; auto. }
        split. { constructor; auto. repeat split; auto. }
        split. { constructor; auto. unfold one_row. cbn. now rewrite X3. }
        split; [lia|]. split.
        { unfold rows_of in *. cbn. rewrite X3, E6. rewrite (wanted_step H nx n1 nx') by lia. rewrite (wanted_step H n1 (S n1) nx') by lia. rewrite Wk.
          destruct (nth_error H n1) as [r|] eqn:En; [|apply nth_error_None in En; lia]. rewrite (wanted_one H n1 r En (S4 r eq_refl)). reflexivity. }
        split. { unfold sets_given in *. cbn. fold (team_of k). now rewrite app_assoc. }
        intros Hm. destruct (E8 Hm) as [Y1 Y2]. split; auto. cbn [length]. destruct Y2; [left|right]; lia.
      * destruct X as [X1 X2]. intros E. assert (Z : work' = work /\ s' = s1 /\ nx' = n1) by (destruct er; injection E as <- <- <- <-; auto).
        destruct Z as (-> & -> & ->). exists []. unfold sets_given, rows_of. cbn. rewrite !app_nil_r. rewrite Wk.
        split; [reflexivity|]. split; [intros x []|]. split; [constructor|]. split; [constructor|]. split; [constructor|]. split; [lia|]. split; [reflexivity|]. split; [assumption|].
        intros Hm. congruence.
    + intros E. assert (n1 = length H) by lia.
      destruct (IH _ _ _ _ _ _ _ _ Hw2 (fun v Hv => Hd v (or_intror Hv)) Hs S2 E) as (new & E1 & E2 & E2' & E3 & E4 & E5 & E6 & E7 & E8).
      exists new. repeat (split; [solve [auto]|]). split; [intros v Hv; right; now apply E2|]. repeat (split; [solve [auto]|]). split; [lia|].
      split. { rewrite E6, (wanted_step H nx n1 nx') by lia. now rewrite Wk. } split; auto. intros Hm. destruct (E8 Hm) as [Y1 Y2]. split; auto. left. lia.
Qed.

Lemma fast_gens_spec c H num : resources_ok c -> forall ws gc calls work s handed work' s' calls' e,
  NoDup ws -> sinv c handed s ->
  fast_gens c H num ws gc calls work s = (work', s', calls', e) ->
  exists new, work' = work ++ new /\ incl (map fst new) ws /\ NoDup (map fst new) /\ (forall w, In w (map fst new) -> ~ In w (map fst work)) /\
    Forall (gen_unit c (length H) false) new /\ Forall (fun p => k_recv (snd p) = None) new /\
    calls' = calls + length new /\ sinv c (handed ++ sets_given new) s' /\
    (forall n, num = Some n -> gc + length new <= Nat.max n gc).
Proof.
  intros Hr. induction ws as [|w ws IH]; intros gc calls work s handed work' s' calls' e Hw Hs; cbn [fast_gens].
  - intros E. injection E as <- <- <- <-. exists []. unfold sets_given. cbn. rewrite !app_nil_r. split; [reflexivity|]. split; [intros x []|]. split; [constructor|]. split; [intros x []|]. split; [constructor|]. split; [constructor|]. split; [lia|]. split; [assumption|]. intros; lia.
  - inversion Hw as [|? ? Hw1 Hw2]; subst x l.
    destruct (negb (in_dict work w) && match num with Some n => gc <? n | None => true end) eqn:En.
    + apply andb_true_iff in En. destruct En as [En1 En2]. apply negb_true_iff in En1. set (rows := match ac_gen_in c with [] => [] | _ => seq 0 (length H) end).
      destruct (gen_work c w (ac_gen_in c) rows false None s) as [a s1] eqn:Ea. pose proof (gen_work_spec _ _ _ _ _ _ _ _ _ _ Hr Hs Ea) as X. destruct a as [k|er].
      * destruct X as (X1 & X2 & X3 & X4 & X5 & X6 & _). rewrite dict_set_new by auto. intros E.
        destruct (IH _ _ _ _ _ _ _ _ _ Hw2 X1 E) as (new & E1 & E2 & E2' & E3 & E4 & E5 & E6 & E7 & E8).
        exists ((w, k) :: new). split; [rewrite E1, <- app_assoc; reflexivity|].
        split. { cbn. intros v [<-|Hv]; [now left|right; now apply E2]. }
        split. { cbn. constructor; auto. }
        split. { cbn. intros v [<-|Hv] Hin. - apply in_dict_false in En1. contradiction. - apply (E3 v Hv). rewrite map_app. apply in_or_app. now left. }
        split. { constructor; auto. repeat split; auto. cbn. intros Hne. rewrite X3. unfold rows. destruct (ac_gen_in c); congruence. }
        split; [constructor; auto|]. split; [cbn [length]; lia|]. split. { unfold sets_given in *. cbn. fold (team_of k). now rewrite app_assoc. }
        intros n Hn. specialize (E8 n Hn). rewrite Hn in En2. apply Nat.ltb_lt in En2. cbn [length]. lia.
      * destruct X as (X1 & _). intros E. assert (Z : work' = work /\ s' = s1 /\ calls' = calls) by (destruct er; injection E as <- <- <- <-; auto).
        destruct Z as (-> & -> & ->). exists []. unfold sets_given. cbn. rewrite !app_nil_r. split; [reflexivity|]. split; [intros x []|]. split; [constructor|]. split; [intros x []|]. split; [constructor|]. split; [constructor|]. split; [lia|]. split; [assumption|]. intros; lia.
    + intros E. destruct (IH _ _ _ _ _ _ _ _ _ Hw2 Hs E) as (new & E1 & E2 & E2' & E3 & E4 & E5 & E6 & E7 & E8). exists new. split; auto.
      split; [intros v Hv; right; now apply E2|]. repeat (split; [assumption|]). assumption.
Qed.

(** The loop of give_pregenerated_sim_work and ensure_one_active_gen: exact up
    to a last unit that may lie one row beyond the history. *)
Lemma next_sims_spec c d H : resources_ok c -> forall ws nx work s handed work' s' nx' e,
  NoDup ws -> (forall w, In w ws -> in_dict work w = false) -> sinv c handed s -> nx < length H ->
  next_sims c d H ws nx work s = (work', s', nx', e) ->
  exists new, work' = work ++ new /\ (exists rest, ws = map fst new ++ rest) /\ Forall (sim_unit c d H false) new /\ Forall one_row new /\
    nx <= nx' <= S (length H) /\ sinv c (handed ++ sets_given new) s' /\
    (rows_of new = wanted_between H nx nx' /\ nx' <= length H \/
     rows_of new = wanted_between H nx (length H) ++ [length H] /\ nx' = S (length H) /\
     exists r, nth_error H (pred (length H)) = Some r /\ truthy (r F_cancel_requested) = true).
Proof.
  intros Hr. induction ws as [|w ws IH]; intros nx work s handed work' s' nx' e Hw Hd Hs Hnx; cbn [next_sims].
  - intros E. injection E as <- <- <- <-. exists []. unfold sets_given, rows_of. cbn. rewrite !app_nil_r. rewrite wanted_empty by lia.
    split; [reflexivity|]. split; [now exists []|]. split; [constructor|]. split; [constructor|]. split; [lia|]. split; [assumption|]. left. split; [reflexivity|lia].
  - destruct (skip_points H nx) as (S1 & S2 & S3 & S4). specialize (S2 ltac:(lia)). set (n1 := skip_canceled_points H nx) in *.
    pose proof (wanted_skip H nx) as Wk. fold n1 in Wk. inversion Hw as [|? ? Hw1 Hw2]; subst x l.
    destruct (sim_work c d H w [n1] false s) as [a s1] eqn:Ea. destruct (sim_work_spec _ _ _ _ _ _ _ _ _ _ Hr Hs Ea) as [G X].
    destruct a as [k|er].
    + destruct X as (X1 & X2 & X3 & X4 & X5 & X6 & X7). rewrite dict_set_new by (apply Hd; now left).
      assert (U : sim_unit c d H false (w, k)) by (repeat split; auto). assert (O : one_row (w, k)) by (unfold one_row; cbn; now rewrite X3).
      destruct (Nat.leb_spec (length H) (S n1)) as [L|L].
      * intros E. injection E as <- <- <- <-. exists [(w, k)]. split; auto. split; [exists ws; auto|]. split; [constructor; auto|]. split; [constructor; auto|]. split; [lia|].
        split. { unfold sets_given. cbn. fold (team_of k). now rewrite app_nil_r. }
        unfold rows_of. cbn [map concat app snd]. rewrite X3. cbn [app]. destruct (nth_error H n1) as [r|] eqn:En.
        -- left. assert (n1 < length H) by (apply nth_error_Some; congruence). split; [|lia]. rewrite (wanted_step H nx n1 (S n1)) by lia. rewrite Wk, (wanted_one H n1 r En (S4 r eq_refl)). reflexivity.
        -- right. apply nth_error_None in En. assert (E : n1 = length H) by lia. split; [rewrite E in *; rewrite Wk; auto|]. split; [lia|]. destruct (S3 (pred (length H)) ltac:(lia)) as (r & R1 & R2). exists r. auto.
      * intros E. destruct (IH _ _ _ _ _ _ _ _ Hw2 (dict_fresh _ _ k _ Hw Hd) X1 L E) as (new & E1 & (rest & E2) & E3 & E4 & E5 & E7 & E6).
        exists ((w, k) :: new). split; [rewrite E1, <- app_assoc; reflexivity|]. split; [exists rest; cbn; now rewrite E2|].
        split; [constructor; auto|]. split; [constructor; auto|]. split; [lia|]. split. { unfold sets_given in *. cbn. fold (team_of k). now rewrite app_assoc. }
        destruct (nth_error H n1) as [r|] eqn:En; [|apply nth_error_None in En; lia].
        assert (A : forall hi, S n1 <= hi -> wanted_between H nx hi = n1 :: wanted_between H (S n1) hi).
        { intros hi Hhi. rewrite (wanted_step H nx n1 hi), (wanted_step H n1 (S n1) hi) by lia. now rewrite Wk, (wanted_one H n1 r En (S4 r eq_refl)). }
        unfold rows_of in *. cbn. rewrite X3. destruct E6 as [(E6 & E6')|(E6 & E6' & E6'')]; rewrite E6; [left|right]; rewrite A by lia; auto.
    + destruct X as [X1 X2]. intros E. assert (Z : work' = work /\ s' = s1 /\ nx' = n1) by (destruct er; injection E as <- <- <- <-; auto).
      destruct Z as (-> & -> & ->). exists []. unfold sets_given, rows_of. cbn. rewrite !app_nil_r. rewrite Wk.
      split; [reflexivity|]. split; [now exists (w :: ws)|]. split; [constructor|]. split; [constructor|]. split; [lia|]. split; [assumption|]. left. split; [reflexivity|lia].
Qed.

Lemma rows_of_sims new c d H pers : Forall (sim_unit c d H pers) new -> sim_rows new = rows_of new.
Proof. intros F. unfold sim_rows. destruct (sims_all new) as [-> _]; auto. eapply Forall_impl; [|exact F]. intros p Hp. apply Hp. Qed.
Lemma sims_app a b : sims (a ++ b) = sims a ++ sims b. Proof. apply filter_app. Qed.
Lemma gens_app a b : gens (a ++ b) = gens a ++ gens b. Proof. apply filter_app. Qed.
Lemma sets_given_app a b : sets_given (a ++ b) = sets_given a ++ sets_given b.
Proof. unfold sets_given. now rewrite map_app, concat_app. Qed.

Lemma sinv_free c handed s m : ac_rm c = Some m -> sinv c handed s -> NoDup handed /\ forall i, In i handed -> is_free m i.
Proof. unfold sinv. intros ->. destruct (as_sched s) as [sc|]; [|contradiction]. intros [_ A B _]. auto. Qed.

Lemma fast_facts c d num stop g p H out p' : ids_distinct (ac_W c) -> resources_ok c -> pi_next p <= length H ->
  fast_alloc c d num stop g p H = (out, p') ->
  (forall w k, In (w, k) (o_work out) -> idle (ac_W c) w) /\ NoDup (map fst (o_work out)) /\
  pi_next p <= pi_next p' <= length H /\ sim_rows (o_work out) = wanted_between H (pi_next p) (pi_next p') /\
  (forall n, num = Some n -> count_gens (ac_W c) + length (gens (o_work out)) <= Nat.max n (count_gens (ac_W c))) /\
  (gens (o_work out) <> [] -> pi_next p' = length H) /\
  pi_gen_calls p' = pi_gen_calls p + length (gens (o_work out)) /\
  (stop = true -> o_work out = [] /\ p' = p) /\ o_rows out = H /\
  (forall m, ac_rm c = Some m -> NoDup (sets_given (o_work out)) /\ forall i, In i (sets_given (o_work out)) -> is_free m i) /\
  (forall q, In q (sims (o_work out)) -> unit_served c d H (fst q) (snd q)).
Proof.
  intros Hids Hres Hnx. unfold fast_alloc. destruct stop.
  - intros E. injection E as <- <-. cbn. rewrite wanted_empty by lia. repeat split; auto; try lia; try constructor; try contradiction; try congruence.
  - pose proof (support_init_sinv c g Hres) as Si. destruct (avail_workers _ None false None (Some false)) as [ws|] eqn:Ew; [|cbn in Ew; discriminate].
    destruct (avail_workers _ None false None (Some true)) as [gs|] eqn:Eg; [|cbn in Eg; discriminate].
    destruct (fast_sims _ _ _ _ _ _ _) as [[[wk s1] nx] e] eqn:Ef.
    destruct (fast_sims_spec c d H Hres ws _ [] _ [] _ _ _ _ (avail_sub _ _ _ _ _ _ Ew Hids) (fun w _ => eq_refl) Si Hnx Ef) as (new & E1 & E2 & E2' & E3 & E4 & E5 & E6 & E7 & _).
    cbn in E1. subst new. cbn [app] in E7.
    assert (Ft : Forall (fun q => k_tag (snd q) = EVAL_SIM) wk) by (eapply Forall_impl; [|exact E3]; intros q Hq; apply Hq).
    destruct (sims_all wk Ft) as [Fs Fg].
    assert (I1 : forall w k, In (w, k) wk -> idle (ac_W c) w).
    { intros w k Hin. apply (avail_idle _ _ _ _ _ w Ew). apply E2. change w with (fst (w, k)). now apply in_map. }
    assert (U1 : forall q, In q wk -> unit_served c d H (fst q) (snd q)) by (rewrite Forall_forall in E3; intros q Hq; apply (E3 q Hq)).
    assert (Base : forall e0, let out := mkAO H wk 0 (as_gens s1) e0 in
      (forall w k, In (w, k) (o_work out) -> idle (ac_W c) w) /\ NoDup (map fst (o_work out)) /\
      pi_next p <= nx <= length H /\ sim_rows (o_work out) = wanted_between H (pi_next p) nx /\
      (forall n, num = Some n -> count_gens (ac_W c) + length (gens (o_work out)) <= Nat.max n (count_gens (ac_W c))) /\
      (gens (o_work out) <> [] -> nx = length H) /\
      pi_gen_calls p = pi_gen_calls p + length (gens (o_work out)) /\
      (false = true -> o_work out = [] /\ mkPI nx (pi_gen_calls p) (pi_gens_started p) = p) /\ o_rows out = H /\
      (forall m, ac_rm c = Some m -> NoDup (sets_given (o_work out)) /\ forall i, In i (sets_given (o_work out)) -> is_free m i) /\
      (forall q, In q (sims (o_work out)) -> unit_served c d H (fst q) (snd q))).
    { intros e0. cbn [o_work o_rows]. unfold sim_rows. rewrite Fg, Fs. cbn [length]. repeat (split; [solve [auto]|]). split; [intros; lia|]. split; [congruence|]. split; [lia|]. split; [discriminate|]. split; auto. split; auto.
      intros m Hm. exact (sinv_free c _ _ m Hm E7). }
    destruct e as [e|].
    + intros E. injection E as <- <-. cbn [pi_next pi_gen_calls]. apply Base.
    + destruct (Nat.leb_spec (length H) nx) as [L|L]; [|intros E; injection E as <- <-; cbn [pi_next pi_gen_calls]; apply Base].
      destruct (fast_gens _ _ _ _ _ _ _ _) as [[[wk2 s2] calls] e2] eqn:Ef2.
      destruct (fast_gens_spec c H num Hres gs _ _ wk s1 (sets_given wk) _ _ _ _ (avail_sub _ _ _ _ _ _ Eg Hids) E7 Ef2) as (new & G1 & G2 & G3 & G4 & G5 & G6 & G7 & G8 & G9).
      assert (Gt : Forall (fun q => k_tag (snd q) = EVAL_GEN) new) by (eapply Forall_impl; [|exact G5]; intros q Hq; apply Hq).
      destruct (gens_all new Gt) as [Gg Gs].
      intros E. injection E as <- <-. cbn [o_work o_rows pi_next pi_gen_calls]. subst wk2. unfold sim_rows. rewrite gens_app, sims_app, Fs, Fg, Gg, Gs. cbn [app]. rewrite app_nil_r.
      split. { intros w k Hin. apply in_app_or in Hin. destruct Hin as [Hin|Hin]; [exact (I1 w k Hin)|]. apply (avail_idle _ _ _ _ _ w Eg). apply G2. change w with (fst (w, k)). now apply in_map. }
      split. { rewrite map_app. apply NoDup_app_intro; auto. intros x Hx Hy. exact (G4 x Hy Hx). }
      split; [exact E5|]. split; [exact E6|]. split; [exact G9|]. split; [intros; lia|]. split; [exact G7|]. split; [discriminate|]. split; auto.
      split. { intros m Hm. rewrite sets_given_app. exact (sinv_free c _ _ m Hm G8). }
      intros q Hq. now apply U1.
Qed.
