(** Lemmas for PropsCancel. *)
From Verif Require Import Base BaseLemmas HistoryModel HistorySpec HistoryProofs HistoryXIn HistoryInv HistoryInv2 HistoryRun HistoryRun2 HistoryRun3 HistoryStore HistoryFacts
  WorkModel ManagerModel ManagerProofs CancelModel.

Lemma hstep_shape o h h' f : column h f -> hstep o h = (h', None) -> shape_in (h_dtype h') f = shape_in (h_dtype h) f.
Proof.
  intros Hc Hs. destruct o; cbn [hstep] in Hs.
  - pose proof (x_in_counts gw D gs t h) as X. cbn zeta in X. rewrite Hs in X. cbn [fst] in X. now apply X.
  - pose proof (hf_frame inds ret kill t h) as F. cbn zeta in F. rewrite Hs in F. cbn [fst snd] in F.
    destruct F as (F1&F2&F3&F4&F5&F6&F7&F8&F9&F10&F11&F12&F13&F14&F15&F16&F17).
    rewrite F17. destruct ret; auto. now apply ensure_shape.
  - pose proof (x_out_frame inds w kill t h) as F. cbn zeta in F. rewrite Hs in F. cbn [fst snd] in F.
    destruct F as (F1&F2&F3&F4&_). now rewrite F4.
  - pose proof (to_gen_frame inds t h) as F. cbn zeta in F. rewrite Hs in F. cbn [fst snd] in F.
    destruct F as (F1&F2&F3&F4&_). now rewrite F4.
  - pose proof (kill_frame h) as F. cbn zeta in F. rewrite Hs in F. cbn [fst snd] in F.
    destruct F as (F1&F2&F3&F4&_). now rewrite F4.
Qed.

Lemma hrun_scalar os f : forall h h', scalar h f -> hrun os h = (h', None) -> scalar h' f.
Proof.
  induction os as [|o os IH]; intros h h' Hc Hr; [inversion Hr; subst; auto|].
  unfold hrun in *. cbn [foldx] in Hr. apply bindx_None in Hr as (h1 & E & Hr).
  eapply IH; [|exact Hr]. destruct Hc as [C1 C2]. split.
  - pose proof (hstep_column o h f C1) as X. now rewrite E in X.
  - erewrite hstep_shape; eauto.
Qed.

Lemma cancel_sid z : sid (cancel_row z) = z.
Proof. reflexivity. Qed.

Lemma cancel_ids ids : map (fun d => Z.to_nat (sid d)) (map cancel_row ids) = map Z.to_nat ids.
Proof. rewrite map_map. apply map_ext. reflexivity. Qed.

Lemma last_for_cancel ids : forall k, In k (map Z.to_nat ids) ->
  exists z, last_for (map Z.to_nat ids) (map cancel_row ids) k = Some (cancel_row z).
Proof.
  induction ids as [|z ids IH]; cbn [map last_for]; intros k [].
  - destruct (last_for (map Z.to_nat ids) (map cancel_row ids) k) eqn:E.
    + destruct (in_dec Nat.eq_dec k (map Z.to_nat ids)) as [Hi|Hi]; [destruct (IH k Hi) as [z' Hz]; rewrite E in Hz; eauto|].
      exfalso. clear IH H. revert r E Hi. induction ids as [|y ids IH]; cbn [map last_for]; [discriminate|].
      intros r E Hi. destruct (last_for _ _ k) eqn:E1; [apply (IH r0 eq_refl); cbn in Hi; tauto|].
      destruct (Nat.eqb_spec (Z.to_nat y) k); [cbn in Hi; tauto|discriminate].
    + exists z. subst. now rewrite Nat.eqb_refl.
  - destruct (IH k H) as [z' ->]. eauto.
Qed.

Definition in_use (h : hist) (ids : list Z) : Prop := forall z, In z ids -> (0 <= z < Z.of_nat (h_index h))%Z.

(** What the request does to a history array whose ids are the row numbers. *)
Lemma cancel_x_in gw ids gs t h :
  ids_aligned h -> scalar h F_sim_id -> scalar h F_cancel_requested -> column h F_gen_ended_time ->
  in_use h ids ->
  exists h', update_history_x_in gw (cancel_array ids) gs t h = (h', None) /\
    h_index h' = h_index h /\ length (h_rows h') = length (h_rows h) /\
    h_started h' = h_started h /\ h_ended h' = h_ended h /\ h_informed h' = h_informed h /\
    (forall k f, ~ In (Z.of_nat k) ids -> column h f -> cell (h_rows h') k f = cell (h_rows h) k f) /\
    (forall k, In (Z.of_nat k) ids -> cell (h_rows h') k F_cancel_requested = Some (vbool true)) /\
    (forall k f, In (Z.of_nat k) ids -> column h f -> f <> F_cancel_requested ->
       stampf f = false \/ cell (h_rows h) k F_gen_ended_time <> Some (vint 0) ->
       cell (h_rows h') k f = cell (h_rows h) k f).
Proof.
  intros Ha [Cs Ss] [Cc Sc] Ce Hin.
  destruct ids as [|z0 ids0].
  { exists h. split; [reflexivity|]. repeat split; auto; cbn; tauto. }
  set (ids := z0 :: ids0) in *.
  assert (Hpos : forall d, In d (a_rows (cancel_array ids)) -> (0 <= sid d)%Z).
  { intros d Hd. cbn [cancel_array a_rows] in Hd. apply in_map_iff in Hd as (z & <- & Hz). rewrite cancel_sid. apply Hin in Hz. lia. }
  assert (Hacc : snd (update_history_x_in gw (cancel_array ids) gs t h) = None).
  { apply x_in_ids_accept; auto.
    - cbn. lia.
    - cbn. auto.
    - repeat split.
      + cbn. repeat constructor; cbn; intuition discriminate.
      + intros f sh [E|[E|[]]] _; inversion E; subst; auto.
      + intros _ (f & [<-|[<-|[]]] & Hp); discriminate.
    - intros d z Hd Hz. exfalso. cbn [cancel_array a_rows] in Hd. apply in_map_iff in Hd as (y & <- & Hy).
      rewrite cancel_sid in Hz. apply Hin in Hy. lia. }
  destruct (update_history_x_in gw (cancel_array ids) gs t h) as [h' e] eqn:Hx. cbn in Hacc. subst e.
  exists h'. split; [reflexivity|].
  pose proof (x_in_counts gw (cancel_array ids) gs t h) as Hcnt. cbn zeta in Hcnt. rewrite Hx in Hcnt. cbn [fst] in Hcnt.
  assert (Hl0 : 0 < length (a_rows (cancel_array ids))) by (cbn; lia).
  assert (Hs0 : In F_sim_id (names (a_dtype (cancel_array ids)))) by (cbn; auto).
  pose proof (x_in_ids _ _ _ _ _ _ Ha Hl0 Hs0 Cs Hpos Hx) as X. cbn zeta in X.
  cbn [cancel_array a_rows] in X. rewrite cancel_ids in X. destruct X as (X1&X2&X3&X4&X5&X6).
  assert (Hiff : forall k, In k (map Z.to_nat ids) <-> In (Z.of_nat k) ids).
  { intros k. rewrite in_map_iff. split.
    - intros (z & <- & Hz). pose proof (Hin z Hz). rewrite Z2Nat.id by lia. auto.
    - intros H. exists (Z.of_nat k). split; [apply Nat2Z.id|auto]. }
  assert (Hlt : forall k, In k (map Z.to_nat ids) -> k < h_index h).
  { intros k H. apply Hiff in H. apply Hin in H. lia. }
  assert (Hix : h_index h' = h_index h).
  { rewrite X1. assert (maxl (map Z.to_nat ids) < h_index h); [|lia]. apply Hlt. apply maxl_In. discriminate. }
  pose proof Ha as (A1 & A2 & A3).
  (* the array does not grow *)
  assert (Hlen : length (h_rows h') = length (h_rows h)).
  { clear - Ha Hx Hix Hpos. unfold update_history_x_in in Hx. cbn [cancel_array a_rows ids map length Nat.eqb] in Hx.
    change (has F_sim_id (names (a_dtype (mkA [(F_sim_id, ShS); (F_cancel_requested, ShS)] (cancel_row z0 :: map cancel_row ids0))))) with true in Hx.
    cbn [negb] in Hx. destruct (no_gap _ _); [|discriminate]. cbn [negb] in Hx.
    unfold x_in_finish in Hx. apply bindx_None in Hx as (h2 & Hf & Hr).
    match type of Hf with foldx (x_in_field ?i ?D) ?d ?h1 = _ => pose proof (x_in_fields_frame i D d h1) as Fr end.
    rewrite Hf in Fr. cbn zeta in Fr. cbn [fst] in Fr. destruct Fr as (Fl & Fi & _).
    destruct (norm_idxs _ _); [|discriminate]. inversion Hr; subst h'; clear Hr.
    cbn [h_index set_index set_rows h_rows] in *. rewrite Fi, make_room_index, ensure_index in Hix.
    match type of Hix with _ + ?n = _ => assert (n = 0) as E by lia; rewrite E in * end.
    assert (L : forall rs, length (fold_left (fun rs i => upd rs i (stamp_gen gw gs t)) l rs) = length rs).
    { clear. induction l; intros; cbn; auto. now rewrite IHl, upd_length. }
    transitivity (length (fold_left (fun rs i => upd rs i (stamp_gen gw gs t)) l (h_rows h2))); [reflexivity|].
    change [(F_sim_id, ShS); (F_cancel_requested, ShS)] with (a_dtype (cancel_array ids)) in E.
    rewrite L, Fl, E. unfold make_room. cbn [Nat.ltb Nat.leb]. apply ensure_len. }
  split; [auto|]. split; [auto|]. split; [tauto|]. split; [tauto|]. split; [tauto|].
  split; [|split].
  - intros k f Hk Cf. destruct (Nat.lt_ge_cases k (length (h_rows h))).
    + apply X4; auto. now rewrite Hiff.
    + unfold cell. rewrite (proj2 (nth_error_None _ _)), (proj2 (nth_error_None _ _)) by lia. reflexivity.
  - intros k Hk. apply Hiff in Hk. destruct (last_for_cancel _ _ Hk) as [z Hz].
    destruct (X5 _ _ Hz) as (_ & Y & _). rewrite Y; [reflexivity|cbn; auto|reflexivity].
  - intros k f Hk Cf Hf Hst. apply Hiff in Hk. pose proof (Hlt _ Hk) as Hkl.
    destruct (last_for_cancel _ _ Hk) as [z Hz]. destruct (X5 _ _ Hz) as (Y1 & Y2 & Y3).
    destruct (stampf f) eqn:Es.
    + destruct Hst as [Hst|Hst]; [discriminate|].
      assert (Hp : ids_polite (HXIn gw (cancel_array ids) gs t)) by (intros d Hd _; auto).
      destruct (x_in_via _ _ _ _ _ _ Ha Cs Hp Hl0 Hx) as (nn & is & h1 & FP & V1 & V2 & V3 & V4 & V5 & V6 & V7).
      assert (Hno : forall g, stampf g = true -> ~ In g (names (a_dtype (cancel_array ids)))).
      { intros g Hg [<-|[<-|[]]]; discriminate. }
      destruct (cell (h_rows h) k F_gen_ended_time) as [v|] eqn:Hv.
      2:{ unfold cell in Hv. destruct (nth_error (h_rows h) k) eqn:E; [discriminate|]. apply nth_error_None in E. lia. }
      assert (Hns : f <> F_sim_id) by (intros ->; discriminate).
      rewrite <- (V3 k f) by (auto; lia).
      destruct (in_dec Nat.eq_dec k is) as [Hi|Hi].
      * destruct (fp_stamp _ _ _ _ _ _ _ _ FP Hno k Hi) as [_ S2]. apply (S2 v); auto; [|congruence].
        rewrite V3; auto; [lia|discriminate].
      * apply (fp_out _ _ _ _ _ _ _ _ FP); auto.
    + destruct (feqb f F_sim_id) eqn:Ef.
      * assert (f = F_sim_id) by (destruct f; cbn in Ef; try discriminate; auto). subst f. rewrite Y1, A2; auto.
      * apply Y3; auto; [|lia]. cbn. intros [<-|[<-|[]]]; [discriminate|congruence].
Qed.

Lemma upd_same {A} (l : list A) i f r : nth_error l i = Some r -> f r = r -> upd l i f = l.
Proof. revert i; induction l; intros [|i]; cbn; try discriminate; intros H E; [congruence|now rewrite (IHl i H E)]. Qed.

Lemma on_worker_same c w f r m : wget (c_gom c) (m_W m) w = Some r -> f r = r -> on_worker c w f m = m.
Proof.
  intros H E. unfold wget in H. unfold on_worker. destruct (wpos _ _ _); [|discriminate].
  unfold set_W. rewrite (upd_same _ _ _ _ H E). now destruct m.
Qed.

Lemma set_persis_same r : set_persis (w_persis r) r = r.
Proof. now destruct r. Qed.

Lemma cancel_update c t w rows ids m r h' :
  wget (c_gom c) (m_W m) w = Some r -> w_persis r = EVAL_GEN -> m_exc m = false ->
  update_history_x_in w (cancel_array ids) (w_gstart r) t (m_h m) = (h', None) ->
  exists p, update_on_msg c t w (request_cancel_sim_ids rows ids) m = (mkM h' (m_W m) (m_res m) (m_exc m) (m_pending m) p (m_log m), None) /\
    (m_persis_in m = p \/ exists l, p = Some l /\ forall f, In f l <-> f = F_sim_id \/ In f (match m_persis_in m with Some l0 => l0 | None => [] end)).
Proof.
  intros G P Ex Hx. unfold update_on_msg.
  assert (D : deactivate c w (request_cancel_sim_ids rows ids) m = m).
  { unfold deactivate. cbn [n_keep request_cancel_sim_ids ps_send negb]. rewrite Ex, !andb_false_r. reflexivity. }
  rewrite D. cbn [n_status n_type n_persistent request_cancel_sim_ids ps_send].
  change (((0 =? FIN_PERSIS_SIM) || (0 =? FIN_PERSIS_GEN))%bool) with false.
  change (EVAL_GEN =? EVAL_SIM) with false. change (EVAL_GEN =? EVAL_GEN) with true. cbn iota. cbn [bindx].
  unfold gen_result. cbn [n_out request_cancel_sim_ids ps_send].
  set (m1 := ensure_sim_id c (cancel_array ids) m).
  assert (E1 : m_W m1 = m_W m /\ m_h m1 = m_h m /\ m_res m1 = m_res m /\ m_exc m1 = m_exc m /\ m_pending m1 = m_pending m /\ m_log m1 = m_log m).
  { unfold m1, ensure_sim_id. destruct (_ && _)%bool; cbn; auto 10. }
  destruct E1 as (W1 & H1 & R1 & X1 & P1 & L1).
  unfold gstart_of. rewrite W1, G, H1, Hx. unfold liftx. cbn [fst snd bindx set_h m_W].
  rewrite W1, G, P. change (EVAL_GEN =? 0) with false. cbn [negb]. rewrite orb_true_r. cbn [bindx].
  rewrite (on_worker_same c w _ r).
  - exists (m_persis_in m1). unfold set_h. rewrite W1, R1, X1, P1, L1. split; [reflexivity|].
    unfold m1, ensure_sim_id. destruct (_ && _)%bool; [|auto].
    right. eexists. split; [reflexivity|]. intros f. destruct (has F_sim_id _) eqn:Hs.
    + split; [auto|]. intros [->|Hf]; [now apply has_In|auto].
    + rewrite in_app_iff. cbn. intuition.
  - cbn. now rewrite W1.
  - rewrite <- P. apply set_persis_same.
Qed.
