(** Run-level invariants: ids, counters, kill window, provenance. *)
From Coq Require Import String.
From Verif Require Import Base BaseLemmas HistoryModel HistorySpec HistoryProofs HistoryXIn HistoryInv HistoryInv2.
Local Notation length := List.length.

(** ** ids *)

Lemma ids_cells h h' :
  length (h_rows h') = length (h_rows h) -> h_index h' = h_index h ->
  (forall k, cell (h_rows h') k F_sim_id = cell (h_rows h) k F_sim_id) ->
  ids_aligned h -> ids_aligned h'.
Proof.
  intros H1 H2 H3 (A1 & A2 & A3). unfold ids_aligned. rewrite H1, H2. repeat split; auto; intros; rewrite H3; auto.
Qed.

Lemma x_in_aligned gw D gs t h h' :
  ids_aligned h -> column h F_sim_id -> ids_polite (HXIn gw D gs t) ->
  update_history_x_in gw D gs t h = (h', None) -> ids_aligned h'.
Proof.
  intros Ha Hc Hp Hx.
  destruct (Nat.eq_dec (length (a_rows D)) 0) as [E|E].
  { unfold update_history_x_in in Hx. rewrite E in Hx. cbn in Hx. inversion Hx; subst; auto. }
  destruct (has F_sim_id (names (a_dtype D))) eqn:Eh.
  - apply has_In in Eh. eapply x_in_ids in Hx; eauto; [|lia]. cbn zeta in Hx. tauto.
  - apply has_false in Eh. destruct Ha as (A1 & A2 & A3).
    eapply x_in_noids in Hx; eauto; [|lia]. cbn zeta in Hx.
    destruct Hx as (X1 & X2 & X3 & X4 & X5 & X6 & X7).
    unfold ids_aligned. split; [auto|]. split.
    + intros k Hk. destruct (Nat.lt_ge_cases k (h_index h)).
      * rewrite X4; auto.
      * destruct (nth_error (a_rows D) (k - h_index h)) eqn:En.
        -- apply X5 in En. destruct En as [En _]. replace (h_index h + (k - h_index h)) with k in En by lia. auto.
        -- apply nth_error_None in En. lia.
    + intros k Hk. destruct (Nat.lt_ge_cases k (length (h_rows h))).
      * rewrite X6; auto. apply A3. all: lia.
      * apply X7; lia.
Qed.

Lemma hstep_aligned o h h' :
  ids_aligned h -> column h F_sim_id -> ids_polite o -> hstep o h = (h', None) -> ids_aligned h'.
Proof.
  intros Ha Hc Hp Hs. destruct o; cbn [hstep] in Hs.
  - eapply x_in_aligned; eauto.
  - pose proof (hf_frame inds ret kill t h) as F. cbn zeta in F. rewrite Hs in F. cbn [fst snd] in F.
    destruct F as (F1&F2&_&_&_&_&_&_&_&_&_&_&_&F3&_).
    eapply ids_cells; eauto. intros k. apply F3; auto. right. split; [|split; discriminate].
    destruct ret; simpl; auto.
  - pose proof (x_out_frame inds w kill t h) as F. cbn zeta in F. rewrite Hs in F. cbn [fst snd] in F.
    destruct F as (F1&F2&_&_&_&_&_&_&_&_&_&_&F3&_).
    eapply ids_cells; eauto. intros k. apply F3; auto. right. repeat split; discriminate.
  - pose proof (to_gen_frame inds t h) as F. cbn zeta in F. rewrite Hs in F. cbn [fst snd] in F.
    destruct F as (F1&F2&_&_&_&_&_&_&_&_&_&_&_&_&_&F3&_).
    eapply ids_cells; eauto. intros k. apply F3; auto. right. repeat split; discriminate.
  - pose proof (kill_frame h) as F. cbn zeta in F. rewrite Hs in F. cbn [fst snd] in F.
    destruct F as (K1&K2&K3&K4&K5&K6&K7&K8&K9&K10&K11&K12&K13&K14&K15).
    eapply ids_cells; eauto. intros k. apply K14. discriminate.
Qed.

Lemma hrun_aligned os h h' :
  ids_aligned h -> column h F_sim_id -> Forall ids_polite os -> hrun os h = (h', None) -> ids_aligned h'.
Proof.
  revert h; induction os; intros h Ha Hc Hp Hr; cbn in Hr.
  - inversion Hr; subst; auto.
  - apply bindx_None in Hr. destruct Hr as (h1 & Hs & Hr). inversion Hp; subst.
    eapply (IHos h1); auto.
    + eapply hstep_aligned; eauto.
    + pose proof (hstep_column a h F_sim_id Hc) as X. now rewrite Hs in X.
Qed.

(** ** counting *)
Lemma num_set_countb f rs : num_set f rs = countb (flag f) rs.
Proof. reflexivity. Qed.

Lemma num_set_ext f rs rs' :
  length rs = length rs' -> (forall k, cell rs' k f = cell rs k f) -> num_set f rs' = num_set f rs.
Proof.
  unfold num_set. revert rs'; induction rs as [|r rs]; destruct rs' as [|r' rs']; cbn [length]; intros Hl Hc; try lia; auto.
  pose proof (Hc 0) as H0. unfold cell in H0. cbn in H0. inversion H0 as [E0].
  cbn [filter]. rewrite E0. assert (E : length (filter (fun r => truthy (r f)) rs') = length (filter (fun r => truthy (r f)) rs)).
  { apply IHrs; [lia|]. intros k. exact (Hc (S k)). }
  destruct (truthy (r f)); cbn [length]; lia.
Qed.

Lemma num_set_app f a b : num_set f (a ++ b) = num_set f a + num_set f b.
Proof. unfold num_set. now rewrite filter_app, app_length. Qed.

Lemma num_set_0 f rs : (forall k v, cell rs k f = Some v -> truthy v = false) -> num_set f rs = 0.
Proof.
  unfold num_set. induction rs as [|r rs]; intros H; auto. cbn.
  assert (E : truthy (r f) = false) by (apply (H 0); reflexivity). rewrite E. apply IHrs. intros k v. apply (H (S k)).
Qed.

(** the array grew, old cells kept, new cells unset *)
Lemma num_set_grow f rs rs' :
  length rs <= length rs' -> (forall k, k < length rs -> cell rs' k f = cell rs k f) ->
  (forall k v, length rs <= k -> cell rs' k f = Some v -> truthy v = false) ->
  num_set f rs' = num_set f rs.
Proof.
  intros Hl Hc Hn. rewrite <- (firstn_skipn (length rs) rs'), num_set_app.
  rewrite (num_set_0 f (skipn (length rs) rs')).
  - rewrite Nat.add_0_r. apply num_set_ext.
    + rewrite firstn_length. lia.
    + intros k. destruct (Nat.lt_ge_cases k (length rs)).
      * rewrite <- Hc by auto. unfold cell. rewrite nth_error_firstn.
        destruct (Nat.ltb_spec k (length rs)); try lia; auto.
      * rewrite (cell_None rs) by lia. apply cell_None. rewrite firstn_length. lia.
  - intros k v Hk. apply (Hn (length rs + k) v); [lia|].
    rewrite <- Hk. rewrite <- (firstn_skipn (length rs) rs') at 1.
    rewrite cell_app_r; rewrite firstn_length; [|lia]. f_equal. lia.
Qed.

Lemma num_set_fold f inds rs :
  f = F_sim_started \/ f = F_sim_ended ->
  NoDup inds -> (forall k, In k inds -> exists v, cell rs k f = Some v /\ truthy v = false) ->
  num_set f (fold_left (fun rs i => upd rs i (setf f (vbool true))) inds rs) = num_set f rs + length inds.
Proof.
  intros Hf Hnd. revert rs. induction Hnd as [|i inds Hni Hnd IH]; intros rs Hu; cbn [fold_left length]; [lia|].
  assert (Hb : forall r, flag f (setf f (vbool true) r) = true).
  { intros r. unfold flag. rewrite setf_same. destruct Hf; subst; reflexivity. }
  rewrite IH.
  - destruct (Hu i (or_introl eq_refl)) as (v & Hv & Hfalse). unfold cell in Hv.
    destruct (nth_error rs i) as [r|] eqn:E; [|discriminate]. cbn in Hv. inversion Hv; subst v.
    pose proof (countb_upd (flag f) rs i (setf f (vbool true)) r E) as X.
    rewrite Hb in X. unfold flag in X at 2. rewrite Hfalse in X. rewrite !num_set_countb. lia.
  - intros k Hk. destruct (Hu k (or_intror Hk)) as (v & Hv & Hfalse). exists v. split; auto.
    rewrite cell_upd. destruct (Nat.eqb_spec i k); [subst; contradiction|auto].
Qed.

Lemma num_set_after f inds rs rs' :
  f = F_sim_started \/ f = F_sim_ended ->
  NoDup inds -> length rs' = length rs ->
  (forall k, In k inds -> exists v, cell rs k f = Some v /\ truthy v = false) ->
  (forall k, In k inds -> cell rs' k f = Some (vbool true)) ->
  (forall k, ~ In k inds -> cell rs' k f = cell rs k f) ->
  num_set f rs' = num_set f rs + length inds.
Proof.
  intros Hf Hnd Hl Hu Hs Ho. rewrite <- (num_set_fold f inds rs); auto.
  apply num_set_ext; [now rewrite fold_upd_length|]. intros k.
  destruct (in_dec Nat.eq_dec k inds) as [Hk|Hk].
  - rewrite Hs by auto. symmetry. apply fold_upd_cell_set; auto.
    + intros r. rewrite setf_same. destruct Hf; subst; reflexivity.
    + destruct (Hu k Hk) as (v & Hv & _). eapply cell_Some_lt; eauto.
  - rewrite Ho by auto. symmetry. now apply fold_upd_cell_out.
Qed.

Lemma num_set_le f g rs : (forall k v, cell rs k f = Some v -> truthy v = true -> exists u, cell rs k g = Some u /\ truthy u = true) ->
  num_set f rs <= num_set g rs.
Proof.
  unfold num_set. induction rs as [|r rs]; intros H; auto.
  assert (I : length (filter (fun r => truthy (r f)) rs) <= length (filter (fun r => truthy (r g)) rs)).
  { apply IHrs. intros k v. apply (H (S k)). }
  cbn. destruct (truthy (r f)) eqn:E.
  - destruct (H 0 (r f) eq_refl E) as (u & Hu & Hu2). unfold cell in Hu. cbn in Hu. inversion Hu; subst u.
    rewrite Hu2. cbn. lia.
  - destruct (truthy (r g)); cbn; lia.
Qed.

Lemma num_set_bound f n rs : (forall k v, cell rs k f = Some v -> truthy v = true -> k < n) -> num_set f rs <= n.
Proof.
  revert n; induction rs as [|r rs]; intros n H; [unfold num_set; cbn; lia|].
  unfold num_set in *. cbn. destruct (truthy (r f)) eqn:E.
  - pose proof (H 0 (r f) eq_refl E). cbn. destruct n; [lia|].
    assert (length (filter (fun r => truthy (r f)) rs) <= n); [|lia]. apply IHrs. intros k v Hk Ht.
    specialize (H (S k) v Hk Ht). lia.
  - assert (length (filter (fun r => truthy (r f)) rs) <= pred n); [|lia]. apply IHrs. intros k v Hk Ht.
    specialize (H (S k) v Hk Ht). lia.
Qed.

(** ** The counter invariant *)

Definition count_inv (h : hist) : Prop :=
  (forall f, In f (names libE_fields) -> scalar h f) /\
  h_index h <= length (h_rows h) /\
  h_started h = num_set F_sim_started (h_rows h) /\
  h_ended h = num_set F_sim_ended (h_rows h) /\
  (forall k, is_set h k F_sim_ended -> is_set h k F_sim_started) /\
  (forall k, is_set h k F_sim_started -> k < h_index h).



Lemma ensure_shape h d f : column h f -> shape_in (h_dtype (ensure_fields h d)) f = shape_in (h_dtype h) f.
Proof.
  unfold column. intros Hc. unfold ensure_fields. destruct (existsb _ _); auto. cbn.
  generalize (filter (fun p : field * shape => negb (has (fst p) (names (h_dtype h)))) d).
  revert Hc. generalize (h_dtype h). induction d0 as [|[g sh] d0]; cbn; intros Hc l; [contradiction|].
  destruct (feqb_spec f g); auto. apply IHd0. destruct Hc; auto. congruence.
Qed.

Lemma not_set_cell h k f v : ~ is_set h k f -> cell (h_rows h) k f = Some v -> truthy v = false.
Proof. intros Hn Hv. destruct (truthy v) eqn:E; auto. elim Hn. exists v; auto. Qed.

Lemma x_in_index gw D gs t h h' :
  h_index h <= length (h_rows h) -> update_history_x_in gw D gs t h = (h', None) ->
  h_index h <= h_index h' /\ h_index h' <= length (h_rows h').
Proof.
  intros Hi Hx. unfold update_history_x_in in Hx. destruct (Nat.eqb_spec (length (a_rows D)) 0).
  { inversion Hx; subst; auto. }
  set (he := ensure_fields h (a_dtype D)) in *.
  assert (Hie : h_index he = h_index h) by apply ensure_index.
  assert (Hle : length (h_rows he) = length (h_rows h)) by apply ensure_len.
  assert (G : forall n inds h1, h_index h1 = h_index h -> h_index h + n <= length (h_rows h1) ->
      x_in_finish gw D gs t n inds h1 = (h', None) -> h_index h <= h_index h' /\ h_index h' <= length (h_rows h')).
  { intros m inds h1 E1 E2 Hf. unfold x_in_finish in Hf. apply bindx_None in Hf. destruct Hf as (h2 & Hf & Hr).
    pose proof (x_in_fields_frame inds D (a_dtype D) h1) as F. rewrite Hf in F. cbn in F.
    destruct (norm_idxs _ _); try discriminate. inversion Hr; subst. cbn. rewrite fold_upd_length. lia. }
  destruct (negb (has _ _)).
  - eapply G; [| |exact Hx].
    + cbn. rewrite make_room_index; auto.
    + cbn. rewrite number_rows_length. destruct (make_room_rows he (length (a_rows D))) as (? & _ & X); lia.
  - destruct (negb (no_gap _ _)); try discriminate.
    eapply G; [| |exact Hx].
    + rewrite make_room_index; auto.
    + destruct (make_room_rows he (count_new (map sid (a_rows D)) (h_rows he))) as (? & _ & X); lia.
Qed.

(** new rows of a successful x_in have unset status *)
Lemma x_in_new_unset gw D gs t h h' f :
  column h f -> shape_in (h_dtype h) f = ShS -> status f = true -> clean h D ->
  h_index h <= length (h_rows h) ->
  update_history_x_in gw D gs t h = (h', None) ->
  forall k v, length (h_rows h) <= k -> cell (h_rows h') k f = Some v -> truthy v = false.
Proof.
  intros Hc Hsh Hst Hcl Hi Hx k v Hk Hv.
  assert (Hp : protected f = true) by (destruct f; auto; discriminate).
  assert (Hnst : stampf f = false) by (destruct f; auto; discriminate).
  unfold update_history_x_in in Hx. destruct (Nat.eqb_spec (length (a_rows D)) 0).
  { inversion Hx; subst. rewrite cell_None in Hv by lia. discriminate. }
  set (he := ensure_fields h (a_dtype D)) in *.
  assert (Hle : length (h_rows he) = length (h_rows h)) by apply ensure_len.
  assert (Hse : shape_in (h_dtype he) f = ShS) by (unfold he; rewrite ensure_shape; auto).
  assert (Hsafe : h_safe he = h_safe h) by apply ensure_safe.
  assert (Hbl : blank_row (h_dtype he) f = vint 0).
  { destruct f; try discriminate Hst; cbn; rewrite Hse; reflexivity. }
  assert (G : forall n inds h1, (forall v, cell (h_rows h1) k f = Some v -> v = vint 0) -> h_safe h1 = h_safe h ->
      x_in_finish gw D gs t n inds h1 = (h', None) -> truthy v = false).
  { intros m inds h1 E1 E2 Hf.
    pose proof (finish_protected gw D gs t m inds h1) as F. cbn zeta in F. rewrite Hf in F. cbn [fst snd] in F.
    destruct F as (F1 & _). rewrite F1 in Hv; auto.
    - apply E1 in Hv. subst. reflexivity.
    - rewrite E2. now apply clean_names. }
  assert (R : forall n v, cell (h_rows (make_room he n)) k f = Some v -> v = vint 0).
  { intros m u Hu. pose proof (cell_Some_lt _ _ _ _ Hu). rewrite make_room_cell_new in Hu by lia. congruence. }
  destruct (negb (has _ _)).
  - eapply G; [| |exact Hx].
    + cbn. intros u. rewrite number_rows_protected by auto. apply R.
    + cbn. rewrite make_room_safe. auto.
  - destruct (negb (no_gap _ _)); try discriminate.
    eapply G; [| |exact Hx].
    + apply R.
    + rewrite make_room_safe. auto.
Qed.

Lemma x_in_counts gw D gs t h :
  let h' := fst (update_history_x_in gw D gs t h) in
  h_started h' = h_started h /\ h_ended h' = h_ended h /\ h_informed h' = h_informed h /\
  h_last_started h' = h_last_started h /\ h_last_ended h' = h_last_ended h /\
  h_started_off h' = h_started_off h /\ h_ended_off h' = h_ended_off h /\ h_informed_off h' = h_informed_off h /\
  (forall f, column h f -> shape_in (h_dtype h') f = shape_in (h_dtype h) f).
Proof.
  cbn zeta. unfold update_history_x_in. destruct (Nat.eqb_spec (length (a_rows D)) 0); [cbn; tauto|].
  set (he := ensure_fields h (a_dtype D)).
  assert (He : h_started he = h_started h /\ h_ended he = h_ended h /\ h_informed he = h_informed h /\
    h_last_started he = h_last_started h /\ h_last_ended he = h_last_ended h /\
    h_started_off he = h_started_off h /\ h_ended_off he = h_ended_off h /\ h_informed_off he = h_informed_off h /\
    (forall f, column h f -> shape_in (h_dtype he) f = shape_in (h_dtype h) f)).
  { unfold he. repeat split; try (unfold ensure_fields; destruct (existsb _ _); reflexivity).
    intros. now apply ensure_shape. }
  assert (Hm : forall n, h_started (make_room he n) = h_started he /\ h_ended (make_room he n) = h_ended he /\
     h_informed (make_room he n) = h_informed he /\ h_last_started (make_room he n) = h_last_started he /\
     h_last_ended (make_room he n) = h_last_ended he /\
     h_started_off (make_room he n) = h_started_off he /\ h_ended_off (make_room he n) = h_ended_off he /\
     h_informed_off (make_room he n) = h_informed_off he /\ h_dtype (make_room he n) = h_dtype he).
  { intros m. unfold make_room. destruct (_ <? _); cbn; tauto. }
  assert (G : forall n inds h1, h_started h1 = h_started he -> h_ended h1 = h_ended he -> h_informed h1 = h_informed he ->
     h_last_started h1 = h_last_started he -> h_last_ended h1 = h_last_ended he ->
     h_started_off h1 = h_started_off he -> h_ended_off h1 = h_ended_off he -> h_informed_off h1 = h_informed_off he ->
     h_dtype h1 = h_dtype he ->
     let h' := fst (x_in_finish gw D gs t n inds h1) in
     h_started h' = h_started h /\ h_ended h' = h_ended h /\ h_informed h' = h_informed h /\
  h_last_started h' = h_last_started h /\ h_last_ended h' = h_last_ended h /\
  h_started_off h' = h_started_off h /\ h_ended_off h' = h_ended_off h /\ h_informed_off h' = h_informed_off h /\
  (forall f, column h f -> shape_in (h_dtype h') f = shape_in (h_dtype h) f)).
  { intros m inds h1 E1 E2 E3 E4 E5 E6 E7 E8 E9. cbn zeta. unfold x_in_finish.
    pose proof (x_in_fields_frame inds D (a_dtype D) h1) as F. cbn zeta in F.
    destruct (foldx _ _ h1) as [h2 [e|]]; cbn [fst bindx] in *;
    destruct F as (_&_&F1&_&F2&F3&F4&F5&F6&F7&F8&F9&_);
    destruct He as (G1&G2&G3&G4&G5&G6&G7&G8&G9).
    - repeat split; try congruence. intros f Hf. rewrite F1, E9. auto.
    - destruct (norm_idxs _ _); cbn; repeat split; try congruence; intros f Hf; rewrite F1, E9; auto. }
  destruct (negb (has _ _)).
  - apply G; cbn; apply Hm.
  - destruct (negb (no_gap _ _)).
    + cbn. tauto.
    + apply G; apply Hm.
Qed.

Lemma is_set_cell h h' k f : cell (h_rows h') k f = cell (h_rows h) k f -> (is_set h' k f <-> is_set h k f).
Proof. unfold is_set. intros ->. tauto. Qed.

Lemma set_true h k f : cell (h_rows h) k f = Some (vbool true) -> is_set h k f.
Proof. intros. exists (vbool true). auto. Qed.

Lemma libE_started : In F_sim_started (names libE_fields). Proof. cbn; tauto. Qed.
Lemma libE_ended : In F_sim_ended (names libE_fields). Proof. cbn; tauto. Qed.

Lemma hstep_count_inv o h h' :
  count_inv h -> disciplined_op h o -> hstep o h = (h', None) -> count_inv h'.
Proof.
  intros (I1 & I2 & I3 & I4 & I5 & I6) (Hcl & Hop) Hs.
  pose proof (I1 _ libE_started) as [Cs Ss]. pose proof (I1 _ libE_ended) as [Ce Se].
  destruct o; cbn [hstep op_clean] in *.
  - pose proof (x_in_counts gw D gs t h) as X. cbn zeta in X. rewrite Hs in X. cbn [fst] in X.
    destruct X as (X1&X2&X3&X4&X5&X6&X7&X8&X9).
    destruct (x_in_index _ _ _ _ _ _ I2 Hs) as [Y1 Y2].
    pose proof (x_in_protected gw D gs t h) as Z. cbn zeta in Z. rewrite Hs in Z. cbn [fst snd] in Z.
    destruct Z as (Z1&Z2&Z3&Z4).
    assert (Keep : forall f, status f = true -> column h f -> forall k, k < length (h_rows h) -> cell (h_rows h') k f = cell (h_rows h) k f).
    { intros f Hst Hc k Hk.
      assert (Hp : protected f = true) by (destruct f; auto; discriminate).
      apply Z1; auto; [now apply clean_names|left; destruct f; auto; discriminate]. }
    assert (New : forall f, status f = true -> column h f -> shape_in (h_dtype h) f = ShS ->
      forall k v, length (h_rows h) <= k -> cell (h_rows h') k f = Some v -> truthy v = false).
    { intros f Hst Hc Hsh. eapply x_in_new_unset; eauto. }
    assert (Iff : forall f, status f = true -> column h f -> shape_in (h_dtype h) f = ShS -> forall k, is_set h' k f <-> is_set h k f).
    { intros f Hst Hc Hsh k. destruct (Nat.lt_ge_cases k (length (h_rows h))).
      - apply is_set_cell. auto.
      - split; intros (v & Hv & Ht).
        + pose proof (New f Hst Hc Hsh k v H Hv). congruence.
        + rewrite cell_None in Hv by lia. discriminate. }
    unfold count_inv. repeat match goal with |- _ /\ _ => split end.
    + intros f Hf. destruct (I1 f Hf). split; auto. rewrite X9; auto.
    + auto.
    + rewrite X1, I3. symmetry. apply num_set_grow; auto; apply New; auto.
    + rewrite X2, I4. symmetry. apply num_set_grow; auto; apply New; auto.
    + intros k. rewrite !Iff; auto.
    + intros k. rewrite Iff; auto. intros. specialize (I6 k H). lia.
  - pose proof (hf_frame inds ret kill t h) as F. cbn zeta in F. rewrite Hs in F. cbn [fst snd] in F.
    destruct F as (F1&F2&F3&F4&F5&F6&F7&F8&F9&F10&F11&F12&F13&F14&F15&F16&F17).
    destruct (F12 eq_refl) as [Fe Fr]. destruct Hop as [Hnd Hop].
    assert (Hst : forall k, cell (h_rows h') k F_sim_started = cell (h_rows h) k F_sim_started).
    { intros k. apply F15; auto; try discriminate. now apply ret_clean_names. }
    assert (Hen : forall k, In k inds -> cell (h_rows h') k F_sim_ended = Some (vbool true)).
    { apply F13; auto. now apply ret_clean_names. }
    unfold count_inv. repeat match goal with |- _ /\ _ => split end.
    + intros f Hf. destruct (I1 f Hf). split; auto. rewrite F17. destruct ret; auto. rewrite ensure_shape; auto.
    + lia.
    + rewrite F4, I3. symmetry. apply num_set_ext; auto.
    + rewrite Fe, I4. symmetry. apply num_set_after; auto.
      intros k Hk. destruct (Hop k Hk) as [Ha Hb]. destruct (cell_lt (h_rows h) k F_sim_ended (Fr k Hk)) as (v & Hv).
      exists v. split; auto. eapply not_set_cell; eauto.
    + intros k Hk. rewrite (is_set_cell h h') by auto.
      destruct (in_dec Nat.eq_dec k inds) as [Hi|Hi]; [now apply Hop|].
      apply I5. apply (is_set_cell h h'); auto.
    + intros k Hk. rewrite (is_set_cell h h') in Hk by auto. rewrite F2. auto.
  - pose proof (x_out_frame inds w kill t h) as F. cbn zeta in F. rewrite Hs in F. cbn [fst snd] in F.
    destruct F as (F1&F2&F3&F4&F5&F6&F7&F8&F9&F10&F11&F12&F13&F14).
    destruct (F12 eq_refl) as (Fs&Fr&Fset&_). destruct Hop as [Hnd Hop].
    assert (Hen : forall k, cell (h_rows h') k F_sim_ended = cell (h_rows h) k F_sim_ended).
    { intros k. apply F13. right. repeat split; discriminate. }
    unfold count_inv. repeat match goal with |- _ /\ _ => split end.
    + intros f Hf. destruct (I1 f Hf). unfold scalar, column in *. rewrite F4. auto.
    + lia.
    + rewrite Fs, I3. symmetry. apply num_set_after; auto.
      * intros k Hk. destruct (Hop k Hk) as [Ha Hb]. destruct (cell_lt (h_rows h) k F_sim_started (Fr k Hk)) as (v & Hv).
        exists v. split; auto. eapply not_set_cell; eauto.
      * intros k Hk. apply Fset; auto.
    + rewrite F5, I4. symmetry. apply num_set_ext; auto.
    + intros k Hk. rewrite (is_set_cell h h') in Hk by auto. apply I5 in Hk.
      destruct (in_dec Nat.eq_dec k inds) as [Hi|Hi].
      * apply set_true. apply Fset; auto.
      * rewrite (is_set_cell h h'); auto.
    + intros k Hk. rewrite F2. destruct (in_dec Nat.eq_dec k inds) as [Hi|Hi]; [now apply Hop|].
      apply I6. rewrite <- (is_set_cell h h'); auto.
  - pose proof (to_gen_frame inds t h) as F. cbn zeta in F. rewrite Hs in F. cbn [fst snd] in F.
    destruct F as (F1&F2&F3&F4&F5&F6&F7&F8&F9&F10&F11&F12&F13&F14&F15&F16&F17).
    assert (K : forall k f, status f = true -> f <> F_gen_informed -> cell (h_rows h') k f = cell (h_rows h) k f).
    { intros k f Hst Hne. apply F16. right. split; auto. intros ->; discriminate. }
    unfold count_inv. repeat match goal with |- _ /\ _ => split end.
    + intros f Hf. destruct (I1 f Hf). unfold scalar, column in *. rewrite F4. auto.
    + lia.
    + rewrite F6, I3. symmetry. apply num_set_ext; auto. intros. apply K; auto. discriminate.
    + rewrite F5, I4. symmetry. apply num_set_ext; auto. intros. apply K; auto. discriminate.
    + intros k. rewrite !(is_set_cell h h') by (apply K; auto; discriminate). auto.
    + intros k. rewrite !(is_set_cell h h') by (apply K; auto; discriminate). rewrite F2. auto.
  - pose proof (kill_frame h) as F. cbn zeta in F. rewrite Hs in F. cbn [fst snd] in F.
    destruct F as (K1&K2&K3&K4&K5&K6&K7&K8&K9&K10&K11&K12&K13&K14&K15).
    unfold count_inv. repeat match goal with |- _ /\ _ => split end.
    + intros f Hf. destruct (I1 f Hf). unfold scalar, column in *. rewrite K4. auto.
    + lia.
    + rewrite K6, I3. symmetry. apply num_set_ext; auto. intros. apply K14. discriminate.
    + rewrite K5, I4. symmetry. apply num_set_ext; auto. intros. apply K14. discriminate.
    + intros k. rewrite !(is_set_cell h h') by (apply K14; discriminate). auto.
    + intros k. rewrite !(is_set_cell h h') by (apply K14; discriminate). rewrite K2. auto.
Qed.

Lemma drun_count_inv h os h' : count_inv h -> drun h os h' -> count_inv h'.
Proof. intros Hi Hr. induction Hr; auto. apply IHHr. eapply hstep_count_inv; eauto. Qed.

Lemma count_inv_bounds h : count_inv h ->
  h_ended h <= h_started h /\ h_started h <= h_index h.
Proof.
  intros (I1 & I2 & I3 & I4 & I5 & I6). rewrite I3, I4. split.
  - apply num_set_le. intros k v Hv Ht. apply (I5 k). exists v; auto.
  - apply num_set_bound. intros k v Hv Ht. apply I6. exists v; auto.
Qed.
