(** Statements about reachable histories, assembled from the lemmas. *)
From Coq Require Import String.
From Verif Require Import Base BaseLemmas HistoryModel HistorySpec HistoryProofs HistoryXIn HistoryInv HistoryInv2 HistoryRun HistoryRun2 HistoryRun3 HistoryStore HistoryKill.
Local Notation length := List.length.

Lemma hrun_column os : forall h h' f, column h f -> hrun os h = (h', None) -> column h' f.
Proof.
  induction os; intros h h' f Hc Hr; cbn in Hr; [inversion Hr; subst; auto|].
  apply bindx_None in Hr. destruct Hr as (h1 & Hs & Hr). eapply IHos; [|exact Hr].
  pose proof (hstep_column a h f Hc) as X. now rewrite Hs in X.
Qed.

Lemma reach_aligned m outs H0 safe os h :
  0 < m -> H0_ids H0 -> Forall ids_polite os -> hrun os (init_history m outs H0 safe) = (h, None) ->
  ids_aligned h /\ column h F_sim_id.
Proof.
  intros Hm Hi Hp Hr. split.
  - eapply hrun_aligned; eauto; [now apply init_ids|apply init_column; cbn; tauto].
  - eapply hrun_column; eauto. apply init_column; cbn; tauto.
Qed.

Lemma reach_noids m outs H0 safe os h gw D gs t h' :
  0 < m -> H0_ids H0 -> Forall ids_polite os -> hrun os (init_history m outs H0 safe) = (h, None) ->
  ~ In F_sim_id (names (a_dtype D)) -> update_history_x_in gw D gs t h = (h', None) ->
  h_index h' = h_index h + length (a_rows D) /\ h_index h' <= length (h_rows h') /\
  (forall i d, nth_error (a_rows D) i = Some d ->
     cell (h_rows h') (h_index h + i) F_sim_id = Some (vint (Z.of_nat (h_index h + i))) /\
     forall f, In f (names (a_dtype D)) -> stampf f = false -> cell (h_rows h') (h_index h + i) f = Some (cast f (d f))) /\
  (forall k f, k < h_index h -> column h f -> cell (h_rows h') k f = cell (h_rows h) k f).
Proof.
  intros Hm Hi Hp Hr Hno Hx. destruct (reach_aligned _ _ _ _ _ _ Hm Hi Hp Hr) as [Ha Hc].
  pose proof Ha as (A1&A2&A3).
  destruct (Nat.eq_dec (length (a_rows D)) 0) as [E|E].
  - unfold update_history_x_in in Hx. rewrite E in Hx. cbn in Hx. inversion Hx; subst. rewrite E.
    apply length_zero_iff_nil in E. rewrite E.
    repeat split; auto; try lia; destruct i; discriminate.
  - assert (E' : 0 < length (a_rows D)) by lia.
    pose proof (x_in_noids _ _ _ _ _ _ A1 E' Hno Hc Hx) as X. cbn zeta in X.
    destruct X as (X1&X2&X3&X4&X5&X6&X7). auto.
Qed.

Lemma reach_ids m outs H0 safe os h gw D gs t h' :
  0 < m -> H0_ids H0 -> Forall ids_polite os -> hrun os (init_history m outs H0 safe) = (h, None) ->
  0 < length (a_rows D) -> In F_sim_id (names (a_dtype D)) -> (forall d, In d (a_rows D) -> (0 <= sid d)%Z) ->
  update_history_x_in gw D gs t h = (h', None) ->
  let is := map (fun d => Z.to_nat (sid d)) (a_rows D) in
  h_index h' = Nat.max (h_index h) (S (maxl is)) /\
  (forall k d, last_for is (a_rows D) k = Some d ->
     cell (h_rows h') k F_sim_id = Some (vint (Z.of_nat k)) /\
     (forall f, In f (names (a_dtype D)) -> stampf f = false -> cell (h_rows h') k f = Some (cast f (d f))) /\
     (forall f, ~ In f (names (a_dtype D)) -> stampf f = false -> column h f -> k < length (h_rows h) ->
        cell (h_rows h') k f = cell (h_rows h) k f)) /\
  (forall k f, ~ In k is -> k < length (h_rows h) -> column h f -> cell (h_rows h') k f = cell (h_rows h) k f).
Proof.
  intros Hm Hi Hp Hr Hn Hin Hpos Hx. destruct (reach_aligned _ _ _ _ _ _ Hm Hi Hp Hr) as [Ha Hc].
  pose proof (x_in_ids _ _ _ _ _ _ Ha Hn Hin Hc Hpos Hx) as X. cbn zeta in *.
  destruct X as (X1&X2&X3&X4&X5&X6). auto.
Qed.

Lemma reach_ids_accept m outs H0 safe os h gw D gs t :
  0 < m -> H0_ids H0 -> Forall ids_polite os -> hrun os (init_history m outs H0 safe) = (h, None) ->
  0 < length (a_rows D) -> In F_sim_id (names (a_dtype D)) -> compatible h D ->
  (forall d, In d (a_rows D) -> (0 <= sid d)%Z) ->
  (snd (update_history_x_in gw D gs t h) = None <->
   forall d z, In d (a_rows D) -> (Z.of_nat (h_index h) <= z <= sid d)%Z -> exists d', In d' (a_rows D) /\ sid d' = z).
Proof.
  intros Hm Hi Hp Hr Hn Hin Hc Hpos. destruct (reach_aligned _ _ _ _ _ _ Hm Hi Hp Hr) as [Ha Hcol].
  now apply x_in_ids_accept.
Qed.

Lemma reach_noids_accept m outs H0 safe os h gw D gs t :
  0 < m -> H0_ids H0 -> Forall ids_polite os -> hrun os (init_history m outs H0 safe) = (h, None) ->
  ~ In F_sim_id (names (a_dtype D)) -> compatible h D ->
  snd (update_history_x_in gw D gs t h) = None.
Proof.
  intros Hm Hi Hp Hr Hno Hc. destruct (reach_aligned _ _ _ _ _ _ Hm Hi Hp Hr) as [(A1&_) _].
  now apply x_in_noids_accept.
Qed.

Lemma grow_keeps h k :
  firstn (length (h_rows h)) (h_rows (grow_H h k)) = h_rows h /\
  length (h_rows (grow_H h k)) = length (h_rows h) + k /\
  (scalar h F_sim_started -> scalar h F_sim_ended ->
   forall i, length (h_rows h) <= i < length (h_rows h) + k ->
     cell (h_rows (grow_H h k)) i F_sim_id = Some (vint (-1)) /\
     ~ is_set (grow_H h k) i F_sim_started /\ ~ is_set (grow_H h k) i F_sim_ended).
Proof.
  unfold grow_H. cbn [h_rows set_rows with_rows].
  split; [rewrite firstn_app, Nat.sub_diag, firstn_all; cbn; apply app_nil_r|].
  split; [rewrite app_length, repeat_length; auto|].
  intros [_ S1] [_ S2] i Hi.
  assert (C : forall f, cell (h_rows h ++ repeat (blank_row (h_dtype h)) k) i f = Some (blank_row (h_dtype h) f)).
  { intros f. rewrite cell_app_r by lia. apply cell_repeat. lia. }
  split; [apply C|]. unfold is_set. cbn [h_rows set_rows with_rows].
  split; intros (v & Hv & Ht); rewrite C in Hv; inversion Hv; subst v; cbn in Ht; rewrite ?S1, ?S2 in Ht; discriminate.
Qed.

Lemma drun_hrun os : forall h h', drun h os h' -> hrun os h = (h', None).
Proof.
  induction os; intros h h' Hr; inversion Hr; subst; cbn; auto.
  match goal with E : hstep a h = _ |- _ => rewrite E end. cbn. now apply IHos.
Qed.

Lemma reach_counts m outs H0 safe os h :
  0 < m -> H0_scalar H0 -> H0_sound H0 -> drun (init_history m outs H0 safe) os h ->
  h_started h = num_set F_sim_started (h_rows h) /\ h_ended h = num_set F_sim_ended (h_rows h) /\
  h_ended h <= h_started h /\ h_started h <= h_index h /\ h_index h <= length (h_rows h) /\
  (forall k, is_set h k F_sim_ended -> is_set h k F_sim_started) /\
  (forall k, is_set h k F_sim_started -> k < h_index h).
Proof.
  intros Hm Hs Hd Hr. pose proof (init_count_inv m outs H0 safe Hm Hs Hd) as Hi.
  pose proof (drun_count_inv _ _ _ Hi Hr) as Hc. pose proof (count_inv_bounds _ Hc).
  destruct Hc as (I1&I2&I3&I4&I5&I6). tauto.
Qed.

Lemma reach_window m outs H0 safe os h :
  0 < m -> H0_scalar H0 -> H0_sound H0 ->
  (In F_sim_started (names (a_dtype H0)) -> In F_sim_ended (names (a_dtype H0)) ->
     forall r, In r (a_rows H0) -> truthy (r F_sim_started) = true -> truthy (r F_sim_ended) = true) ->
  irun (init_history m outs H0 safe) os h ->
  forall k, is_set h k F_sim_started -> ~ is_set h k F_sim_ended ->
    (h_last_ended h < Z.of_nat k <= h_last_started h)%Z.
Proof.
  intros Hm Hs Hd He Hr k H1 H2.
  destruct (init_window m outs H0 safe Hm Hs) as [W1 W2].
  { intros E1 E2. apply He; now apply has_In. }
  destruct (irun_window _ _ _ (init_count_inv m outs H0 safe Hm Hs Hd) W1 W2 Hr) as [L Hh].
  split; [|now apply Hh]. destruct (Z_le_gt_dec (Z.of_nat k) (h_last_ended h)); [|lia].
  elim H2. now apply L.
Qed.

Lemma drun_last_ok os : forall h h', count_inv h -> last_ok h -> drun h os h' -> last_ok h'.
Proof.
  induction os; intros h h' Hc Hl Hr; inversion Hr; subst; auto.
  eapply IHos; [| |eauto].
  - eapply hstep_count_inv; eauto.
  - eapply last_ok_step; eauto. apply Hc.
Qed.

Lemma reach_kill_pass m outs H0 safe os h :
  0 < m -> H0_scalar H0 -> H0_sound H0 -> H0_ids H0 -> Forall ids_polite os ->
  drun (init_history m outs H0 safe) os h ->
  exists h', kill_pass h = ((h', None),
      map (fun k => match cell (h_rows h) k F_sim_worker with Some v => as_int v | None => 0%Z end) (kill_rows h)) /\
    NoDup (kill_rows h) /\
    (forall k, In k (kill_rows h) <->
       (h_last_ended h < Z.of_nat k <= h_last_started h)%Z /\
       is_set h k F_sim_started /\ is_set h k F_cancel_requested /\ ~ is_set h k F_sim_ended /\ ~ is_set h k F_kill_sent) /\
    (forall k, In k (kill_rows h) -> is_set h' k F_kill_sent) /\
    (forall k f, f <> F_kill_sent \/ ~ In k (kill_rows h) -> cell (h_rows h') k f = cell (h_rows h) k f).
Proof.
  intros Hm Hs Hd Hi Hp Hr.
  destruct (reach_aligned _ _ _ _ _ _ Hm Hi Hp (drun_hrun _ _ _ Hr)) as [Ha _].
  assert (Hl : last_ok h).
  { eapply drun_last_ok; [apply init_count_inv; eauto| |exact Hr].
    unfold last_ok. cbn. lia. }
  destruct Hl as [L1 L2]. destruct (kill_pass_spec h Ha L1 L2) as (h' & E & S1 & S2).
  exists h'. split; auto. split; [apply kill_rows_NoDup|]. split; [|auto].
  intros k. rewrite kill_rows_In. split; [tauto|]. intros (P1&P2&P3&P4&P5). repeat split; try tauto; try lia.
  destruct P2 as (v & Hv & _). eapply cell_Some_lt; eauto.
Qed.

Lemma reach_signalled m outs H0 safe os h :
  0 < m -> H0_ids H0 -> Forall ids_polite os -> drun (init_history m outs H0 safe) os h ->
  NoDup (signalled os (init_history m outs H0 safe)).
Proof.
  intros Hm Hi Hp Hr. eapply signalled_once; eauto.
  - now apply init_ids.
  - apply init_column; cbn; tauto.
  - apply init_column; cbn; tauto.
  - unfold last_ok. cbn. lia.
Qed.

Lemma reach_prov m outs H0 os1 h1 gw D gs t h2 os2 h3 k :
  0 < m -> H0_scalar H0 -> H0_ids H0 -> Forall ids_polite os1 -> ids_polite (HXIn gw D gs t) -> Forall ids_polite os2 ->
  hrun os1 (init_history m outs H0 true) = (h1, None) ->
  update_history_x_in gw D gs t h1 = (h2, None) -> t <> 0%Z ->
  hrun os2 h2 = (h3, None) ->
  h_index h1 <= k < h_index h2 ->
  cell (h_rows h3) k F_gen_worker = Some (vint (Z.of_nat gw)) /\
  cell (h_rows h3) k F_gen_started_time = Some (vint gs) /\
  cell (h_rows h3) k F_gen_ended_time = Some (vint t).
Proof.
  intros Hm Hs Hi P1 P2 P3 R1 R2 Ht R3 Hk.
  pose proof (init_prov m outs H0 true Hm Hs Hi) as I0.
  destruct (hrun_prov _ _ _ I0 eq_refl P1 R1) as [I1 _].
  assert (S : forall os a b, h_safe a = true -> hrun os a = (b, None) -> h_safe b = true).
  { induction os; cbn; intros a0 b Ha Hr; [inversion Hr; subst; auto|]. apply bindx_None in Hr.
    destruct Hr as (c & Hs1 & Hr). apply (IHos c b); auto. pose proof (hstep_safe a a0) as X. rewrite Hs1 in X. cbn in X. congruence. }
  assert (S1 : h_safe h1 = true) by (eapply S; [|exact R1]; reflexivity).
  destruct (x_in_stamp _ _ _ _ _ _ I1 P2 (or_introl S1) R2) as (X1&_&_).
  destruct (hstep_prov (HXIn gw D gs t) _ _ I1 (or_introl S1) P2 R2) as [I2 _].
  assert (S2 : h_safe h2 = true).
  { pose proof (hstep_safe (HXIn gw D gs t) h1) as X. cbn [hstep] in X. rewrite R2 in X. cbn in X. congruence. }
  destruct (hrun_prov _ _ _ I2 S2 P3 R3) as [_ K].
  destruct (X1 k Hk) as (Y1&Y2&Y3).
  assert (Hne : vint t <> vint 0) by (intros E; apply vint_inj in E; auto).
  rewrite !(K k (vint t)); auto.
Qed.

Lemma reach_trim m outs H0 safe os h :
  0 < m -> H0_ids H0 -> Forall ids_polite os -> hrun os (init_history m outs H0 safe) = (h, None) ->
  h_index h <= length (h_rows h) /\ length (trim_H h) = h_index h /\
  (forall k f, k < h_index h -> cell (trim_H h) k f = cell (h_rows h) k f).
Proof.
  intros Hm Hi Hp Hr. destruct (reach_aligned _ _ _ _ _ _ Hm Hi Hp Hr) as [(A1&_) _].
  split; auto. unfold trim_H. split; [rewrite firstn_length; lia|].
  intros k f Hk. unfold cell. rewrite nth_error_firstn. destruct (Nat.ltb_spec k (h_index h)); [auto|lia].
Qed.

Lemma hf_only inds ret kill t h h' :
  update_history_f inds ret kill t h = (h', None) ->
  forall k g, column h g ->
    ~ In k inds \/
    (~ In g (match ret with Some A => names (a_dtype A) | None => [] end) /\ g <> F_sim_ended /\ g <> F_sim_ended_time) ->
    cell (h_rows h') k g = cell (h_rows h) k g.
Proof.
  intros Hs. pose proof (hf_frame inds ret kill t h) as F. cbn zeta in F. rewrite Hs in F. cbn [fst snd] in F.
  destruct F as (F1&F2&F3&F4&F5&F6&F7&F8&F9&F10&F11&F12&F13&F14&F15&F16&F17). exact F14.
Qed.

Lemma hf_ended inds ret kill t h h' :
  update_history_f inds ret kill t h = (h', None) ->
  h_safe h = true -> forall k, In k inds -> cell (h_rows h') k F_sim_ended = Some (vbool true).
Proof.
  intros Hs Hsafe. pose proof (hf_frame inds ret kill t h) as F. cbn zeta in F. rewrite Hs in F. cbn [fst snd] in F.
  destruct F as (F1&F2&F3&F4&F5&F6&F7&F8&F9&F10&F11&F12&F13&F14&F15&F16&F17). apply F13; auto.
Qed.

Lemma init_H0_kept m outs H0 safe k r0 f :
  0 < m -> nth_error (a_rows H0) k = Some r0 -> In f (names (a_dtype H0)) ->
  (f = F_sim_ended -> In F_sim_started (names (a_dtype H0))) ->
  cell (h_rows (init_history m outs H0 safe)) k f = Some (cast f (r0 f)).
Proof.
  intros Hm E Hin Hs. unfold cell. rewrite (init_nth _ _ _ _ _ _ Hm E). cbn. f_equal.
  destruct (row_from_cells (a_dtype H0) (init_dtype outs H0) k r0) as (R1&_). apply R1.
  - now apply has_In.
  - intros e. apply has_In. auto.
Qed.

Lemma init_H0_done m outs H0 safe k :
  0 < m -> k < length (a_rows H0) -> ~ In F_sim_started (names (a_dtype H0)) ->
  is_set (init_history m outs H0 safe) k F_sim_started /\ is_set (init_history m outs H0 safe) k F_sim_ended.
Proof.
  intros Hm Hk Hno. destruct (nth_error (a_rows H0) k) as [r0|] eqn:E; [|apply nth_error_None in E; lia].
  destruct (row_from_cells (a_dtype H0) (init_dtype outs H0) k r0) as (_&R2&_).
  apply has_false in Hno. destruct (R2 Hno) as [Ra Rb].
  unfold is_set, cell. rewrite (init_nth _ _ _ _ _ _ Hm E). cbn. split; eexists; split; try reflexivity; [rewrite Ra|rewrite Rb]; reflexivity.
Qed.

Lemma init_rest m outs H0 safe :
  H0_scalar H0 ->
  length (h_rows (init_history m outs H0 safe)) = length (a_rows H0) + m /\
  h_index (init_history m outs H0 safe) = length (a_rows H0) /\
  forall k, length (a_rows H0) <= k < length (a_rows H0) + m ->
    cell (h_rows (init_history m outs H0 safe)) k F_sim_id = Some (vint (-1)) /\
    ~ is_set (init_history m outs H0 safe) k F_sim_started /\
    ~ is_set (init_history m outs H0 safe) k F_sim_ended /\
    ~ is_set (init_history m outs H0 safe) k F_gen_informed.
Proof.
  intros Hs. split; [apply init_length|]. split; [reflexivity|]. intros k Hk.
  assert (G : forall f, status f = true -> ~ is_set (init_history m outs H0 safe) k f).
  { intros f Hf (v & Hv & Ht). rewrite init_tail_flag in Hv by auto. inversion Hv; subst; discriminate. }
  split; [|auto]. unfold cell. rewrite init_tail by lia. reflexivity.
Qed.

Lemma x_in_safe_full gw D gs t h :
  h_safe h = true -> 0 < length (a_rows D) -> touches_protected D ->
  snd (update_history_x_in gw D gs t h) <> None /\
  forall k g, k < length (h_rows h) -> column h g -> protected g = true ->
    cell (h_rows (fst (update_history_x_in gw D gs t h))) k g = cell (h_rows h) k g.
Proof.
  intros Hs Hn Ht. pose proof (x_in_safe_raises gw D gs t h Hs Hn Ht) as E. split; auto.
  intros k g Hk Hc Hp. apply x_in_protected; auto.
Qed.

Lemma f_safe_full inds A kill t h :
  h_safe h = true -> inds <> [] -> touches_protected A ->
  snd (update_history_f inds (Some A) kill t h) <> None /\
  forall k g, column h g -> protected g = true -> g <> F_sim_ended -> g <> F_sim_ended_time ->
    cell (h_rows (fst (update_history_f inds (Some A) kill t h))) k g = cell (h_rows h) k g.
Proof.
  intros Hs Hn Ht. split; [now apply f_safe_raises|]. intros k g Hc Hp N1 N2.
  pose proof (hf_frame inds (Some A) kill t h) as F. cbn zeta in F.
  destruct F as (F1&F2&F3&F4&F5&F6&F7&F8&F9&F10&F11&F12&F13&F14&F15&F16&F17). apply F15; auto.
Qed.

Lemma hstep_owner o h k f :
  h_safe h = true -> k < length (h_rows h) -> column h f -> protected f = true ->
  cell (h_rows (fst (hstep o h))) k f <> cell (h_rows h) k f ->
  match o with
  | HXIn _ _ _ _ => f = F_gen_worker \/ f = F_gen_started_time \/ f = F_gen_ended_time
  | HF inds _ _ _ => In k inds /\ (f = F_sim_ended \/ f = F_sim_ended_time)
  | HXOut inds _ _ _ => In k inds /\ (f = F_sim_started \/ f = F_sim_worker \/ f = F_sim_started_time)
  | HToGen inds _ => In k inds /\ (f = F_gen_informed \/ f = F_gen_informed_time)
  | HKill => f = F_kill_sent
  end.
Proof.
  intros Hs Hk Hc Hp Hne. destruct o; cbn [hstep] in Hne.
  - destruct (stampf f) eqn:E; [destruct f; try discriminate; auto|].
    elim Hne. apply x_in_protected; auto.
  - pose proof (hf_frame inds ret kill t h) as F. cbn zeta in F.
    destruct F as (F1&F2&F3&F4&F5&F6&F7&F8&F9&F10&F11&F12&F13&F14&F15&F16&F17).
    split.
    + destruct (in_dec Nat.eq_dec k inds); auto. elim Hne. auto.
    + destruct (field_eq_dec f F_sim_ended); auto. destruct (field_eq_dec f F_sim_ended_time); auto.
      elim Hne. auto.
  - pose proof (x_out_frame inds w kill t h) as F. cbn zeta in F.
    destruct F as (F1&F2&F3&F4&F5&F6&F7&F8&F9&F10&F11&F12&F13&F14).
    split.
    + destruct (in_dec Nat.eq_dec k inds); auto. elim Hne. auto.
    + destruct (field_eq_dec f F_sim_started); auto. destruct (field_eq_dec f F_sim_worker); auto.
      destruct (field_eq_dec f F_sim_started_time); auto. elim Hne. auto.
  - pose proof (to_gen_frame inds t h) as F. cbn zeta in F.
    destruct F as (F1&F2&F3&F4&F5&F6&F7&F8&F9&F10&F11&F12&F13&F14&F15&F16&F17).
    split.
    + destruct (in_dec Nat.eq_dec k inds); auto. elim Hne. auto.
    + destruct (field_eq_dec f F_gen_informed); auto. destruct (field_eq_dec f F_gen_informed_time); auto.
      elim Hne. auto.
  - pose proof (kill_frame h) as F. cbn zeta in F.
    destruct F as (K1&K2&K3&K4&K5&K6&K7&K8&K9&K10&K11&K12&K13&K14&K15).
    destruct (field_eq_dec f F_kill_sent); auto. elim Hne. auto.
Qed.
