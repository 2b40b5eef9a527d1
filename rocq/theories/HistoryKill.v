(** The kill pass over cancelled simulations. *)
From Coq Require Import String.
From Verif Require Import Base BaseLemmas HistoryModel HistorySpec HistoryProofs HistoryXIn HistoryInv HistoryInv2 HistoryRun HistoryRun2 HistoryRun3.
Local Notation length := List.length.

Lemma kill_window_In h k : In k (kill_window h) <->
  (h_last_ended h < Z.of_nat k <= h_last_started h)%Z.
Proof. unfold kill_window. rewrite in_seq. lia. Qed.

Lemma is_set_flag h k f r : nth_error (h_rows h) k = Some r -> (is_set h k f <-> flag f r = true).
Proof.
  intros E. unfold is_set, cell. rewrite E. cbn. split.
  - intros (v & Hv & Ht). inversion Hv; subst. auto.
  - intros H. exists (r f). auto.
Qed.

Lemma kill_rows_In h k : In k (kill_rows h) <->
  (h_last_ended h < Z.of_nat k <= h_last_started h)%Z /\
  is_set h k F_sim_started /\ is_set h k F_cancel_requested /\ ~ is_set h k F_sim_ended /\
  k < length (h_rows h) /\ ~ is_set h k F_kill_sent.
Proof.
  unfold kill_rows. rewrite filter_In, kill_window_In.
  destruct (nth_error (h_rows h) k) as [r|] eqn:E.
  - assert (k < length (h_rows h)) by (apply nth_error_Some; congruence).
    rewrite !(is_set_flag h k _ r E). unfold to_kill.
    destruct (flag F_sim_started r), (flag F_cancel_requested r), (flag F_sim_ended r), (flag F_kill_sent r); cbn;
      intuition congruence.
  - apply nth_error_None in E. split; [intros [_ H]; discriminate|]. intros H; lia.
Qed.

Lemma kill_rows_NoDup h : NoDup (kill_rows h).
Proof. apply NoDup_filter, seq_NoDup. Qed.

Lemma rows_at_map {A} (g : row -> A) h ks : (forall k, In k ks -> k < length (h_rows h)) ->
  forall d, map g (rows_at h ks) = map (fun k => match nth_error (h_rows h) k with Some r => g r | None => d end) ks.
Proof.
  intros H d. induction ks; cbn; auto.
  destruct (nth_error (h_rows h) a) eqn:E.
  - cbn. f_equal. apply IHks. intros; apply H; cbn; auto.
  - apply nth_error_None in E. specialize (H a (or_introl eq_refl)). lia.
Qed.

(** The whole effect of one pass. *)
Lemma kill_pass_spec h :
  ids_aligned h -> (h_last_started h < Z.of_nat (h_index h))%Z -> (-1 <= h_last_ended h)%Z ->
  exists h', kill_pass h = ((h', None),
      map (fun k => match cell (h_rows h) k F_sim_worker with Some v => as_int v | None => 0%Z end) (kill_rows h)) /\
    (forall k, In k (kill_rows h) -> is_set h' k F_kill_sent) /\
    (forall k f, f <> F_kill_sent \/ ~ In k (kill_rows h) -> cell (h_rows h') k f = cell (h_rows h) k f).
Proof.
  intros Ha Hls Hle. pose proof Ha as (A1 & A2 & A3). unfold kill_pass.
  assert (W : forallb (fun k => Nat.ltb k (length (h_rows h))) (kill_window h) = true).
  { apply forallb_forall. intros k Hk. apply kill_window_In in Hk. apply Nat.ltb_lt. lia. }
  rewrite W. cbn [negb].
  assert (Hlt : forall k, In k (kill_rows h) -> k < h_index h).
  { intros k Hk. apply kill_rows_In in Hk. lia. }
  assert (Hmap : map sid (rows_at h (kill_rows h)) = map Z.of_nat (kill_rows h)).
  { rewrite (rows_at_map sid h (kill_rows h)) with (d := 0%Z) by (intros k Hk; specialize (Hlt k Hk); lia).
    apply map_ext_in. intros k Hk. specialize (Hlt k Hk).
    destruct (nth_error (h_rows h) k) as [r|] eqn:E; [|apply nth_error_None in E; lia].
    rewrite (aligned_sid h k r Ha E). destruct (Nat.ltb_spec k (h_index h)); lia. }
  assert (Hw : map (fun r => as_int (r F_sim_worker)) (rows_at h (kill_rows h)) =
     map (fun k => match cell (h_rows h) k F_sim_worker with Some v => as_int v | None => 0%Z end) (kill_rows h)).
  { rewrite (rows_at_map _ h (kill_rows h)) with (d := 0%Z) by (intros k Hk; specialize (Hlt k Hk); lia).
    apply map_ext. intros k. unfold cell. destruct (nth_error (h_rows h) k); auto. }
  assert (Hn : norm_idxs (length (h_rows h)) (map Z.of_nat (kill_rows h)) = Some (kill_rows h)).
  { rewrite norm_idxs_nonneg; [now rewrite map_to_of_nat|].
    intros z Hz. apply in_map_iff in Hz. destruct Hz as (k & <- & Hk). specialize (Hlt k Hk). lia. }
  destruct (kill_rows h) as [|k0 ks] eqn:E.
  - exists h. split; auto. split; [contradiction|auto].
  - cbv zeta. rewrite Hmap, Hw, Hn. eexists. split; [reflexivity|]. cbn [set_rows with_rows h_rows]. split.
    + intros k Hk. exists (vbool true). split; auto. cbn [h_rows set_rows with_rows]. rewrite fold_upd_cell_setc.
      rewrite feqb_refl. assert (memb k (k0 :: ks) = true) as -> by (now apply memb_In).
      specialize (Hlt k Hk). destruct (Nat.ltb_spec k (length (h_rows h))); [reflexivity|lia].
    + intros k f Hkf. rewrite fold_upd_cell_setc. destruct Hkf as [Hf|Hk].
      * rewrite (feqb_neq F_kill_sent f) by congruence. auto.
      * assert (memb k (k0 :: ks) = false) as -> by (now apply memb_false). now rewrite andb_false_r.
Qed.

(** ** no row is signalled twice in a run *)
Definition last_ok (h : hist) : Prop := (h_last_started h < Z.of_nat (h_index h))%Z /\ (-1 <= h_last_ended h)%Z.

Lemma last_ok_step o h h' : h_index h <= length (h_rows h) ->
  disciplined_op h o -> hstep o h = (h', None) -> last_ok h -> last_ok h'.
Proof.
  intros Hi [Hcl Hop] Hs [L1 L2]. destruct o; cbn [hstep] in *.
  - pose proof (x_in_counts gw D gs t h) as X. cbn zeta in X. rewrite Hs in X. cbn [fst] in X.
    destruct X as (_&_&_&X4&X5&_). destruct (x_in_index _ _ _ _ _ _ Hi Hs). split; lia.
  - destruct (hf_last _ _ _ _ _ _ Hs) as [E1 E2].
    pose proof (hf_frame inds ret kill t h) as F. cbn zeta in F. rewrite Hs in F. cbn [fst snd] in F.
    destruct F as (F1&F2&_). split; [lia|]. rewrite E2. destruct kill; auto.
    pose proof (advance_spec (h_rows h') (S (maxl inds) - Z.to_nat (h_last_ended h + 1)) (Z.to_nat (h_last_ended h + 1)) (h_last_ended h)) as A.
    cbn zeta in A. lia.
  - pose proof (x_out_frame inds w kill t h) as F. cbn zeta in F. rewrite Hs in F. cbn [fst snd] in F.
    destruct F as (F1&F2&F3&F4&F5&F6&F7&F8&F9&F10&F11&F12&F13&F14).
    destruct (F12 eq_refl) as (_&_&_&F15). split; [|lia]. rewrite F15, F2. destruct kill; auto.
    assert (Hne : inds <> []). { intros ->. unfold update_history_x_out in Hs. cbn in Hs. discriminate. }
    destruct Hop as [_ Hop]. destruct (Hop _ (maxl_In _ Hne)). lia.
  - pose proof (to_gen_frame inds t h) as F. cbn zeta in F. rewrite Hs in F. cbn [fst snd] in F.
    destruct F as (F1&F2&F3&F4&F5&F6&F7&F8&F9&F10&F11&F12&F13&F14&F15&F16&F17). split; lia.
  - pose proof (kill_frame h) as F. cbn zeta in F. rewrite Hs in F. cbn [fst snd] in F.
    destruct F as (K1&K2&K3&K4&K5&K6&K7&K8&K9&K10&K11&K12&K13&K14&K15). split; lia.
Qed.

Lemma signalled_once os : forall h h',
  ids_aligned h -> column h F_sim_id -> column h F_kill_sent -> last_ok h ->
  Forall ids_polite os -> drun h os h' ->
  NoDup (signalled os h) /\ (forall k, is_set h k F_kill_sent -> ~ In k (signalled os h)).
Proof.
  induction os as [|o os IH]; intros h h' Ha Hc Hk Hl Hp Hr.
  - cbn. split; [constructor|auto].
  - inversion Hr; subst. inversion Hp; subst.
    assert (Ha1 : ids_aligned h1) by (eapply hstep_aligned; eauto).
    assert (Hc1 : column h1 F_sim_id).
    { pose proof (hstep_column o h F_sim_id Hc) as X. match goal with E : hstep o h = _ |- _ => rewrite E in X end. auto. }
    assert (Hk1 : column h1 F_kill_sent).
    { pose proof (hstep_column o h F_kill_sent Hk) as X. match goal with E : hstep o h = _ |- _ => rewrite E in X end. auto. }
    assert (Hl1 : last_ok h1) by (eapply last_ok_step; eauto; apply Ha).
    destruct (IH h1 h' Ha1 Hc1 Hk1 Hl1 ltac:(auto) ltac:(auto)) as [N1 N2].
    cbn [signalled]. match goal with E : hstep o h = _ |- _ => rename E into Hs end. rewrite Hs. cbn [fst].
    assert (Hdo : disciplined_op h o) by auto. destruct Hdo as [Hcl _].
    assert (Keep : forall k, is_set h k F_kill_sent -> is_set h1 k F_kill_sent) by (intros; eapply hstep_is_set; eauto).
    assert (New : forall k, In k (match o with HKill => kill_rows h | _ => [] end) -> is_set h1 k F_kill_sent /\ ~ is_set h k F_kill_sent).
    { destruct o; try contradiction. intros k Hin. destruct Hl as [L1 L2].
      destruct (kill_pass_spec h Ha L1 L2) as (h2 & E & S1 & S2). cbn [hstep] in Hs. rewrite E in Hs. cbn in Hs.
      inversion Hs; subst. split; auto. apply kill_rows_In in Hin. tauto. }
    split.
    + assert (Hnd : NoDup (match o with HKill => kill_rows h | _ => [] end)).
      { destruct o; try constructor. apply kill_rows_NoDup. }
      revert Hnd New. generalize (match o with HKill => kill_rows h | _ => [] end). intros l Hnd New.
      induction Hnd; cbn; auto. constructor.
      * rewrite in_app_iff. intros [|Hin]; [auto|]. destruct (New x (or_introl eq_refl)). eapply N2; eauto.
      * apply IHHnd. intros; apply New; cbn; auto.
    + intros k Hset Hin. apply in_app_iff in Hin. destruct Hin as [Hin|Hin].
      * now apply New in Hin.
      * eapply N2; eauto.
Qed.
