(** Kill window, provenance of rows, storing of results, success conditions. *)
From Coq Require Import String.
From Verif Require Import Base BaseLemmas HistoryModel HistorySpec HistoryProofs HistoryXIn HistoryInv HistoryInv2 HistoryRun HistoryRun2.
Local Notation length := List.length.

(** ** status flags survive *)
Lemma hstep_is_set o h h' k f :
  op_clean h o -> column h f -> status f = true -> hstep o h = (h', None) ->
  is_set h k f -> is_set h' k f.
Proof.
  intros Hcl Hc Hst Hs Hk.
  assert (Hp : protected f = true) by (destruct f; auto; discriminate).
  assert (Hklt : k < length (h_rows h)) by (destruct Hk as (v & Hv & _); eapply cell_Some_lt; eauto).
  destruct o; cbn [hstep op_clean] in *.
  - pose proof (x_in_protected gw D gs t h) as Z. cbn zeta in Z. rewrite Hs in Z. cbn [fst snd] in Z.
    destruct Z as (Z1&_). apply (is_set_cell h h'); auto. apply Z1; auto; [now apply clean_names|].
    left. destruct f; auto; discriminate.
  - pose proof (hf_frame inds ret kill t h) as F. cbn zeta in F. rewrite Hs in F. cbn [fst snd] in F.
    destruct F as (F1&F2&F3&F4&F5&F6&F7&F8&F9&F10&F11&F12&F13&F14&F15&F16&F17).
    destruct (field_eq_dec f F_sim_ended) as [->|Hne].
    + destruct (in_dec Nat.eq_dec k inds).
      * apply set_true. apply F13; auto. now apply ret_clean_names.
      * apply (is_set_cell h h'); auto.
    + apply (is_set_cell h h'); auto. apply F15; auto. now apply ret_clean_names. intros ->; discriminate.
  - pose proof (x_out_frame inds w kill t h) as F. cbn zeta in F. rewrite Hs in F. cbn [fst snd] in F.
    destruct F as (F1&F2&F3&F4&F5&F6&F7&F8&F9&F10&F11&F12&F13&F14).
    destruct (F12 eq_refl) as (_&_&F15&_).
    destruct (field_eq_dec f F_sim_started) as [->|Hne].
    + destruct (in_dec Nat.eq_dec k inds).
      * apply set_true. now apply F15.
      * apply (is_set_cell h h'); auto.
    + apply (is_set_cell h h'); auto. apply F13. right. repeat split; auto; intros ->; discriminate.
  - pose proof (to_gen_frame inds t h) as F. cbn zeta in F. rewrite Hs in F. cbn [fst snd] in F.
    destruct F as (F1&F2&F3&F4&F5&F6&F7&F8&F9&F10&F11&F12&F13&F14&F15&F16&F17).
    destruct (field_eq_dec f F_gen_informed) as [->|Hne].
    + destruct (in_dec Nat.eq_dec k inds) as [Hi|Hi].
      * destruct (existsb (fun r => flag F_sim_ended r) (match nth_error (h_rows h) k with Some r => [r] | None => [] end)) eqn:E.
        -- apply set_true. apply F14; auto. unfold is_set, cell.
           destruct (nth_error (h_rows h) k) as [r|]; [|discriminate]. cbn in E. rewrite orb_false_r in E. cbn. eauto.
        -- apply (is_set_cell h h'); auto. apply F15. right. intros (v & Hv & Ht). unfold cell in Hv.
           destruct (nth_error (h_rows h) k) as [r|]; [|discriminate]. cbn in Hv. inversion Hv; subst. cbn in E.
           rewrite orb_false_r in E. unfold flag in E. congruence.
      * apply (is_set_cell h h'); auto.
    + apply (is_set_cell h h'); auto. apply F16. right. split; auto. intros ->; discriminate.
  - pose proof (kill_frame h) as F. cbn zeta in F. rewrite Hs in F. cbn [fst snd] in F.
    destruct F as (K1&K2&K3&K4&K5&K6&K7&K8&K9&K10&K11&K12&K13&K14&K15).
    destruct (field_eq_dec f F_kill_sent) as [->|Hne].
    + destruct (K15 k) as [E|E].
      * apply (is_set_cell h h'); auto.
      * apply set_true; auto.
    + apply (is_set_cell h h'); auto.
Qed.

(** ** the kill window *)
Lemma hf_last inds ret kill t h h' :
  update_history_f inds ret kill t h = (h', None) ->
  h_last_started h' = h_last_started h /\
  h_last_ended h' = (if kill then
     advance_ended (h_rows h') (Z.to_nat (h_last_ended h + 1)) (S (maxl inds) - Z.to_nat (h_last_ended h + 1)) (h_last_ended h)
   else h_last_ended h).
Proof.
  unfold update_history_f. intros H. apply bindx_None in H. destruct H as (h1 & Hf & Hr).
  set (he := match ret with Some A => ensure_fields h (a_dtype A) | None => h end) in *.
  assert (E : h_last_ended he = h_last_ended h /\ h_last_started he = h_last_started h).
  { unfold he. destruct ret; auto. unfold ensure_fields. destruct (existsb _ _); auto. }
  pose proof (f_rows_frame ret t (combine (seq 0 (length inds)) inds) he) as F. cbn zeta in F. rewrite Hf in F.
  cbn [fst] in F. destruct F as ((_&_&_&_&_&_&_&_&Fs)&_&_&Fe&_).
  destruct kill.
  - destruct inds; [discriminate|]. inversion Hr; subst. cbn. rewrite Fe. destruct E as [-> ?]. split; [congruence|reflexivity].
  - inversion Hr; subst. split; try tauto; destruct E; congruence.
Qed.

Lemma window_low_step o h h' :
  op_clean h o -> column h F_sim_ended -> hstep o h = (h', None) -> window_low h -> window_low h'.
Proof.
  intros Hcl Hc Hs (W1 & W2).
  assert (Keep : forall k, is_set h k F_sim_ended -> is_set h' k F_sim_ended) by (intros; eapply hstep_is_set; eauto).
  assert (G : h_last_ended h' = h_last_ended h -> window_low h').
  { intros E. split; rewrite E; auto. }
  destruct o; cbn [hstep op_clean] in *.
  - apply G. pose proof (x_in_counts gw D gs t h) as X. cbn zeta in X. rewrite Hs in X. cbn [fst] in X. tauto.
  - destruct (hf_last _ _ _ _ _ _ Hs) as [_ E]. destruct kill; [|auto].
    pose proof (advance_spec (h_rows h') (S (maxl inds) - Z.to_nat (h_last_ended h + 1)) (Z.to_nat (h_last_ended h + 1)) (h_last_ended h)) as A.
    cbn zeta in A. rewrite <- E in A. destruct A as (A1 & A2 & A3).
    split; [lia|]. intros k Hk. destruct (Z_le_gt_dec (Z.of_nat k) (h_last_ended h)); auto.
    destruct (A3 (k - Z.to_nat (h_last_ended h + 1))) as (r & Hr & Hfl); [lia|].
    replace (Z.to_nat (h_last_ended h + 1) + (k - Z.to_nat (h_last_ended h + 1))) with k in Hr by lia.
    exists (r F_sim_ended). split; auto. unfold cell. now rewrite Hr.
  - apply G. pose proof (x_out_frame inds w kill t h) as F. cbn zeta in F. rewrite Hs in F. cbn [fst snd] in F. tauto.
  - apply G. pose proof (to_gen_frame inds t h) as F. cbn zeta in F. rewrite Hs in F. cbn [fst snd] in F. tauto.
  - apply G. pose proof (kill_frame h) as F. cbn zeta in F. rewrite Hs in F. cbn [fst snd] in F. tauto.
Qed.


Lemma new_row_unset gw D gs t h h' k f :
  count_inv h -> clean h D -> update_history_x_in gw D gs t h = (h', None) -> status f = true ->
  is_set h' k f -> is_set h k f.
Proof.
  intros (I1&I2&_) Hcl Hx Hst (v & Hv & Ht).
  assert (Hp : protected f = true) by (destruct f; auto; discriminate).
  assert (Hlib : In f (names libE_fields)) by (destruct f; cbn; tauto || discriminate).
  destruct (I1 f Hlib) as [Hc Hsh].
  destruct (Nat.lt_ge_cases k (length (h_rows h))).
  - pose proof (x_in_protected gw D gs t h) as Z. cbn zeta in Z. rewrite Hx in Z. cbn [fst snd] in Z.
    destruct Z as (Z1&_). exists v. split; auto. rewrite <- Hv. symmetry. apply Z1; auto; [now apply clean_names|].
    left. destruct f; auto; discriminate.
  - pose proof (x_in_new_unset _ _ _ _ _ _ f Hc Hsh Hst Hcl I2 Hx k v H Hv). congruence.
Qed.

Lemma window_high_step o h h' :
  count_inv h -> op_clean h o -> increasing_op h o -> hstep o h = (h', None) ->
  window_high h -> window_high h'.
Proof.
  intros Hci Hcl Hinc Hs W k Hk1 Hk2.
  pose proof Hci as (I1&_). destruct (I1 _ libE_started) as [Cs _]. destruct (I1 _ libE_ended) as [Ce _].
  assert (Hne : ~ is_set h k F_sim_ended).
  { intros X. apply Hk2. eapply hstep_is_set; eauto. }
  destruct o; cbn [hstep op_clean increasing_op] in *.
  - pose proof (x_in_counts gw D gs t h) as X. cbn zeta in X. rewrite Hs in X. cbn [fst] in X.
    destruct X as (_&_&_&->&_). apply W; auto. eapply new_row_unset; eauto.
  - destruct (hf_last _ _ _ _ _ _ Hs) as [-> _]. apply W; auto.
    pose proof (hf_frame inds ret kill t h) as F. cbn zeta in F. rewrite Hs in F. cbn [fst snd] in F.
    destruct F as (F1&F2&F3&F4&F5&F6&F7&F8&F9&F10&F11&F12&F13&F14&F15&F16&F17).
    apply (is_set_cell h h'); auto. apply F15; auto; try discriminate. now apply ret_clean_names.
  - pose proof (x_out_frame inds w kill t h) as F. cbn zeta in F. rewrite Hs in F. cbn [fst snd] in F.
    destruct F as (F1&F2&F3&F4&F5&F6&F7&F8&F9&F10&F11&F12&F13&F14).
    destruct (F12 eq_refl) as (_&_&_&F15). destruct Hinc as [-> Hinc]. rewrite F15.
    destruct (in_dec Nat.eq_dec k inds) as [Hi|Hi].
    + apply maxl_le in Hi. lia.
    + assert (is_set h k F_sim_started) by (apply (is_set_cell h h'); auto). specialize (W k H Hne). lia.
  - pose proof (to_gen_frame inds t h) as F. cbn zeta in F. rewrite Hs in F. cbn [fst snd] in F.
    destruct F as (F1&F2&F3&F4&F5&F6&F7&F8&F9&F10&F11&F12&F13&F14&F15&F16&F17).
    rewrite F12. apply W; auto. apply (is_set_cell h h'); auto. apply F16. right. split; discriminate.
  - pose proof (kill_frame h) as F. cbn zeta in F. rewrite Hs in F. cbn [fst snd] in F.
    destruct F as (K1&K2&K3&K4&K5&K6&K7&K8&K9&K10&K11&K12&K13&K14&K15).
    rewrite K13. apply W; auto. apply (is_set_cell h h'); auto. apply K14. discriminate.
Qed.


Lemma irun_window h os h' :
  count_inv h -> window_low h -> window_high h -> irun h os h' -> window_low h' /\ window_high h'.
Proof.
  intros Hc Hl Hh Hr. induction Hr; auto. apply IHHr.
  - eapply hstep_count_inv; eauto.
  - destruct H. eapply window_low_step; eauto. destruct Hc as (I1&_). now destruct (I1 _ libE_ended).
  - destruct H. eapply window_high_step; eauto.
Qed.

(** at the start of a run: nothing started-but-unfinished *)
Lemma init_window m outs H0 safe :
  0 < m -> H0_scalar H0 ->
  (has F_sim_started (names (a_dtype H0)) = true -> has F_sim_ended (names (a_dtype H0)) = true ->
     forall r, In r (a_rows H0) -> truthy (r F_sim_started) = true -> truthy (r F_sim_ended) = true) ->
  window_low (init_history m outs H0 safe) /\ window_high (init_history m outs H0 safe).
Proof.
  intros Hm Hs He. split.
  - split; cbn; [lia|]. intros k Hk. lia.
  - intros k (v & Hv & Ht) Hn. exfalso. apply Hn.
    destruct (Nat.lt_ge_cases k (length (a_rows H0))) as [Hlt|Hge].
    + destruct (nth_error (a_rows H0) k) as [r0|] eqn:E; [|apply nth_error_None in E; lia].
      unfold cell in Hv. rewrite (init_nth _ _ _ _ _ _ Hm E) in Hv. cbn in Hv. inversion Hv; subst v; clear Hv.
      unfold is_set, cell. rewrite (init_nth _ _ _ _ _ _ Hm E). cbn. eexists; split; [reflexivity|].
      destruct (row_from_cells (a_dtype H0) (init_dtype outs H0) k r0) as (R1&R2&R3&_).
      destruct (has F_sim_started (names (a_dtype H0))) eqn:Es.
      * rewrite R1 in Ht by (auto; discriminate). cbn [cast] in Ht. rewrite truthy_vbool in Ht.
        destruct (has F_sim_ended (names (a_dtype H0))) eqn:Ee.
        -- rewrite R1 by auto. cbn [cast]. rewrite truthy_vbool. eapply He; eauto. eapply nth_error_In; eauto.
        -- rewrite R3 by auto. now rewrite truthy_vbool.
      * destruct R2 as [_ ->]; auto.
    + pose proof (cell_Some_lt _ _ _ _ Hv). rewrite init_length in *.
      rewrite init_tail_flag in Hv by (auto || lia). inversion Hv; subst. discriminate.
Qed.

(** ** provenance *)
Lemma x_in_via gw D gs t h h' :
  ids_aligned h -> column h F_sim_id -> ids_polite (HXIn gw D gs t) -> 0 < length (a_rows D) ->
  update_history_x_in gw D gs t h = (h', None) ->
  exists num_new is h1,
    finish_post gw D gs t num_new is h1 h' /\
    length (h_rows h) <= length (h_rows h1) /\ h_safe h1 = h_safe h /\
    (forall k f, k < length (h_rows h) -> column h f -> f <> F_sim_id -> cell (h_rows h1) k f = cell (h_rows h) k f) /\
    (forall k f, length (h_rows h) <= k < length (h_rows h1) -> f <> F_sim_id ->
        cell (h_rows h1) k f = Some (blank_row (h_dtype (ensure_fields h (a_dtype D))) f)) /\
    (forall k, In k is -> k < h_index h') /\
    (forall k, h_index h <= k < h_index h' -> In k is) /\
    (h_safe h = true -> forall f, In f (names (a_dtype D)) -> protected f = false).
Proof.
  intros Ha Hcol Hp Hn Hx. pose proof Hx as Hx0. unfold update_history_x_in in Hx.
  destruct (Nat.eqb_spec (length (a_rows D)) 0); try lia.
  set (he := ensure_fields h (a_dtype D)) in *.
  assert (Hie : h_index he = h_index h) by apply ensure_index.
  assert (Hle : length (h_rows he) = length (h_rows h)) by apply ensure_len.
  assert (Hse : h_safe he = h_safe h) by apply ensure_safe.
  assert (Hcell_e : forall k f, column h f -> cell (h_rows he) k f = cell (h_rows h) k f)
    by (intros; now apply ensure_cell).
  pose proof Ha as (A1 & A2 & A3).
  assert (Safe : forall n inds h1, h_safe h1 = h_safe h -> x_in_finish gw D gs t n inds h1 = (h', None) ->
     h_safe h = true -> forall f, In f (names (a_dtype D)) -> protected f = false).
  { intros m inds h1 E1 Hf Hsafe. unfold x_in_finish in Hf. apply bindx_None in Hf. destruct Hf as (h2 & Hf & _).
    eapply x_in_fields_safe; [|exact Hf]. congruence. }
  destruct (has F_sim_id (names (a_dtype D))) eqn:Hh; cbn [negb] in Hx.
  - assert (Hin : In F_sim_id (names (a_dtype D))) by now apply has_In.
    pose proof (x_in_ids _ _ _ _ _ _ Ha Hn Hin Hcol (fun d Hd => Hp d Hd Hin) Hx0) as X. cbn zeta in X.
    destruct X as (X1&X2&X3&_).
    assert (Hae : ids_aligned he).
    { unfold ids_aligned. rewrite Hie, Hle. repeat split; auto; intros; rewrite Hcell_e; auto. }
    destruct (no_gap (h_index he) (map sid (a_rows D))) eqn:Hgap; [|discriminate]. cbn [negb] in Hx.
    assert (Hpos' : forall z, In z (map sid (a_rows D)) -> (0 <= z)%Z).
    { intros z Hz. apply in_map_iff in Hz. destruct Hz as (d & <- & Hd). apply Hp; auto. }
    pose proof (count_new_spec he _ Hae Hpos' Hgap) as Hcn.
    set (num_new := count_new (map sid (a_rows D)) (h_rows he)) in *.
    destruct (make_room_rows he num_new) as (kk & Hrows & Hroom); [lia|].
    exists num_new, (map (fun d => Z.to_nat (sid d)) (a_rows D)), (make_room he num_new).
    split.
    { eapply finish_ok; [| |exact Hx].
      - rewrite norm_idxs_nonneg; [now rewrite map_map|].
        intros z Hz. pose proof (maxZ_ge _ _ Hz). specialize (Hpos' z Hz). rewrite Hie in *. lia.
      - now rewrite map_length. }
    split; [rewrite Hrows, app_length; lia|]. split; [now rewrite make_room_safe|].
    split; [intros; rewrite make_room_cell_old by lia; auto|].
    split; [intros; apply make_room_cell_new; lia|].
    split; [intros k Hk; apply maxl_le in Hk; lia|].
    split; auto. eapply Safe; [|exact Hx]. now rewrite make_room_safe.
  - assert (Hno : ~ In F_sim_id (names (a_dtype D))) by now apply has_false.
    pose proof (x_in_noids _ _ _ _ _ _ A1 Hn Hno Hcol Hx0) as X. cbn zeta in X. destruct X as (X1&X2&_).
    set (n0 := length (a_rows D)) in *.
    destruct (make_room_rows he n0) as (kk & Hrows & Hroom); [lia|].
    assert (Him : h_index (make_room he n0) = h_index h) by (rewrite make_room_index; auto).
    rewrite Him in Hx.
    eexists n0, (seq (h_index h) n0), _. split.
    { eapply finish_ok; [| |exact Hx].
      - apply ids_range_ok. cbn. rewrite number_rows_length. lia.
      - rewrite map_length, seq_length. auto. }
    cbn [h_rows set_rows with_rows h_safe]. rewrite number_rows_length.
    assert (Hnr : forall k f, f <> F_sim_id -> cell (number_rows (seq (h_index h) n0) (h_rows (make_room he n0))) k f = cell (h_rows (make_room he n0)) k f).
    { intros k f Hf. rewrite number_rows_cell. rewrite (feqb_neq F_sim_id f) by auto. now rewrite andb_false_r. }
    split; [rewrite Hrows, app_length; lia|]. split; [now rewrite make_room_safe|].
    split; [intros; rewrite Hnr by auto; rewrite make_room_cell_old by lia; auto|].
    split; [intros; rewrite Hnr by auto; apply make_room_cell_new; lia|].
    split; [intros k Hk; apply in_seq in Hk; lia|].
    split; [intros k Hk; apply in_seq; lia|]. eapply Safe; [|exact Hx]. cbn. now rewrite make_room_safe.
Qed.

(** rows not yet in use carry no generator stamp *)
Definition unused_fresh (h : hist) : Prop :=
  forall k, h_index h <= k < length (h_rows h) -> cell (h_rows h) k F_gen_ended_time = Some (vint 0).

Definition prov_inv (h : hist) : Prop :=
  ids_aligned h /\ (forall f, In f (names libE_fields) -> scalar h f) /\ unused_fresh h.

Lemma stamp_fields_libE f : stampf f = true -> In f (names libE_fields) /\ protected f = true /\ f <> F_sim_id.
Proof. destruct f; try discriminate; cbn; intros _; repeat split; try tauto; discriminate. Qed.

Lemma x_in_stamp gw D gs t h h' :
  prov_inv h -> ids_polite (HXIn gw D gs t) -> clean h D ->
  update_history_x_in gw D gs t h = (h', None) ->
  (forall k, h_index h <= k < h_index h' ->
     cell (h_rows h') k F_gen_worker = Some (vint (Z.of_nat gw)) /\
     cell (h_rows h') k F_gen_started_time = Some (vint gs) /\
     cell (h_rows h') k F_gen_ended_time = Some (vint t)) /\
  (forall k v, cell (h_rows h) k F_gen_ended_time = Some v -> v <> vint 0 ->
     forall f, stampf f = true -> cell (h_rows h') k f = cell (h_rows h) k f) /\
  unused_fresh h'.
Proof.
  intros (Ha & Hl & Hu) Hp Hcl Hx.
  destruct (Nat.eq_dec (length (a_rows D)) 0) as [E0|E0].
  { unfold update_history_x_in in Hx. rewrite E0 in Hx. cbn in Hx. inversion Hx; subst. split; [lia|]. auto. }
  assert (Cs : column h F_sim_id) by (apply Hl; cbn; tauto).
  assert (Ce : column h F_gen_ended_time) by (apply Hl; cbn; tauto).
  destruct (x_in_via _ _ _ _ _ _ Ha Cs Hp ltac:(lia) Hx) as (nn & is & h1 & FP & V1 & V2 & V3 & V4 & V5 & V6 & V7).
  assert (Hno : forall f, stampf f = true -> ~ In f (names (a_dtype D))).
  { intros f Hf Hin. destruct (stamp_fields_libE f Hf) as (_ & Hpr & _). destruct Hcl as [Hcl|Hcl].
    - specialize (V7 Hcl f Hin). congruence.
    - apply Hcl. exists f; auto. }
  pose proof (fp_stamp _ _ _ _ _ _ _ _ FP Hno) as St.
  pose proof (fp_len _ _ _ _ _ _ _ _ FP) as Ln.
  pose proof Ha as (A1&_).
  assert (Hfresh : forall k, h_index h <= k < length (h_rows h1) -> cell (h_rows h1) k F_gen_ended_time = Some (vint 0)).
  { intros k Hk. destruct (Nat.lt_ge_cases k (length (h_rows h))).
    - rewrite V3; auto; [|discriminate]. apply Hu. lia.
    - rewrite V4; [|lia|discriminate]. cbn. rewrite ensure_shape by auto.
      destruct (Hl F_gen_ended_time) as [_ ->]; [cbn; tauto|reflexivity]. }
  destruct (x_in_index _ _ _ _ _ _ A1 Hx) as [Y1 Y2].
  split; [|split].
  - intros k Hk. apply St; auto. apply Hfresh. lia.
  - intros k v Hv Hne f Hf. destruct (stamp_fields_libE f Hf) as (Hlib & _ & Hns).
    pose proof (cell_Some_lt _ _ _ _ Hv) as Hklt. destruct (Hl f Hlib) as [Cf _].
    rewrite <- V3 in Hv; auto; [|discriminate].
    rewrite <- (V3 k f); auto.
    destruct (in_dec Nat.eq_dec k is) as [Hi|Hi].
    + destruct (St k Hi) as [_ S2]. eapply S2; eauto.
    + apply (fp_out _ _ _ _ _ _ _ _ FP); auto.
  - intros k Hk. rewrite (fp_out _ _ _ _ _ _ _ _ FP).
    + apply Hfresh. lia.
    + intros Hi. apply V5 in Hi. lia.
Qed.

Lemma hstep_prov o h h' :
  prov_inv h -> op_clean h o -> ids_polite o -> hstep o h = (h', None) ->
  prov_inv h' /\
  (forall k v, cell (h_rows h) k F_gen_ended_time = Some v -> v <> vint 0 ->
     forall f, stampf f = true -> cell (h_rows h') k f = cell (h_rows h) k f).
Proof.
  intros Hpi Hcl Hp Hs. pose proof Hpi as (Ha & Hl & Hu).
  assert (Cs : column h F_sim_id) by (apply Hl; cbn; tauto).
  assert (Ha' : ids_aligned h') by (eapply hstep_aligned; eauto).
  assert (Q : (forall f, In f (names libE_fields) -> shape_in (h_dtype h') f = shape_in (h_dtype h) f) /\
              unused_fresh h' /\
   (forall k v, cell (h_rows h) k F_gen_ended_time = Some v -> v <> vint 0 ->
     forall f, stampf f = true -> cell (h_rows h') k f = cell (h_rows h) k f)).
  { assert (G : length (h_rows h') = length (h_rows h) -> h_index h' = h_index h ->
       (forall k f, stampf f = true -> cell (h_rows h') k f = cell (h_rows h) k f) ->
        unused_fresh h' /\ (forall k v, cell (h_rows h) k F_gen_ended_time = Some v -> v <> vint 0 ->
          forall f, stampf f = true -> cell (h_rows h') k f = cell (h_rows h) k f)).
    { intros E1 E2 E3. split; [|auto]. intros k Hk. rewrite E3 by auto. apply Hu. lia. }
    destruct o; cbn [hstep op_clean] in *.
    - destruct (x_in_stamp _ _ _ _ _ _ Hpi Hp Hcl Hs) as (_&X2&X3).
      pose proof (x_in_counts gw D gs t h) as X. cbn zeta in X. rewrite Hs in X. cbn [fst] in X.
      split; [|split; auto]. intros f Hf. apply X. apply Hl; auto.
    - pose proof (hf_frame inds ret kill t h) as F. cbn zeta in F. rewrite Hs in F. cbn [fst snd] in F.
      destruct F as (F1&F2&F3&F4&F5&F6&F7&F8&F9&F10&F11&F12&F13&F14&F15&F16&F17).
      split.
      + intros f Hf. rewrite F17. destruct ret; auto. apply ensure_shape. apply Hl; auto.
      + apply G; auto. intros k f Hf. destruct (stamp_fields_libE f Hf) as (Hlib & Hpr & _). apply F15; auto.
        * apply Hl; auto.
        * now apply ret_clean_names.
        * intros ->; discriminate.
        * intros ->; discriminate.
    - pose proof (x_out_frame inds w kill t h) as F. cbn zeta in F. rewrite Hs in F. cbn [fst snd] in F.
      destruct F as (F1&F2&F3&F4&F5&F6&F7&F8&F9&F10&F11&F12&F13&F14).
      split; [intros; now rewrite F4|]. apply G; auto. intros k f Hf. apply F13. right.
      repeat split; intros ->; discriminate.
    - pose proof (to_gen_frame inds t h) as F. cbn zeta in F. rewrite Hs in F. cbn [fst snd] in F.
      destruct F as (F1&F2&F3&F4&F5&F6&F7&F8&F9&F10&F11&F12&F13&F14&F15&F16&F17).
      split; [intros; now rewrite F4|]. apply G; auto. intros k f Hf. apply F16. right.
      repeat split; intros ->; discriminate.
    - pose proof (kill_frame h) as F. cbn zeta in F. rewrite Hs in F. cbn [fst snd] in F.
      destruct F as (K1&K2&K3&K4&K5&K6&K7&K8&K9&K10&K11&K12&K13&K14&K15).
      split; [intros; now rewrite K4|]. apply G; auto. intros k f Hf. apply K14. intros ->; discriminate. }
  destruct Q as (Q1 & Q2 & Q3). split; auto. split; auto. split; auto.
  intros f Hf. destruct (Hl f Hf) as [C1 C2]. split; [|rewrite Q1; auto].
  pose proof (hstep_column o h f C1) as X. now rewrite Hs in X.
Qed.

Lemma hrun_prov os h h' :
  prov_inv h -> h_safe h = true -> Forall ids_polite os -> hrun os h = (h', None) ->
  prov_inv h' /\
  (forall k v, cell (h_rows h) k F_gen_ended_time = Some v -> v <> vint 0 ->
     forall f, stampf f = true -> cell (h_rows h') k f = cell (h_rows h) k f).
Proof.
  revert h; induction os; intros h Hpi Hsafe Hp Hr; cbn in Hr.
  - inversion Hr; subst; auto.
  - apply bindx_None in Hr. destruct Hr as (h1 & Hs & Hr). inversion Hp; subst.
    assert (Hcl : op_clean h a).
    { destruct a; cbn; auto; [now left|]. destruct ret; cbn; auto. now left. }
    destruct (hstep_prov _ _ _ Hpi Hcl H1 Hs) as [P1 P2].
    assert (Hs1 : h_safe h1 = true). { pose proof (hstep_safe a h) as X. rewrite Hs in X. cbn in X. congruence. }
    destruct (IHos h1 P1 Hs1 H2 Hr) as [P3 P4]. split; auto.
    intros k v Hv Hne f Hf. rewrite (P4 k v); auto.
    + eapply P2; eauto.
    + rewrite (P2 k v) ; auto.
Qed.

Lemma init_prov m outs H0 safe : 0 < m -> H0_scalar H0 -> H0_ids H0 -> prov_inv (init_history m outs H0 safe).
Proof.
  intros Hm Hs Hi. split; [now apply init_ids|]. split.
  - intros f Hf. split; [now apply init_column|now apply init_shape].
  - intros k Hk. rewrite init_length in Hk. destruct (init_counts m outs H0 safe) as (C1&_). rewrite C1 in Hk.
    apply init_tail_flag; auto.
Qed.
