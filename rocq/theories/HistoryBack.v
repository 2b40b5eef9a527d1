(** Where a flag of the history comes from: rows with "sim_started" or
    "cancel_requested" set after an operation had it before, or the operation
    gives them out. *)
From Coq Require Import String.
From Verif Require Import Base BaseLemmas HistoryModel HistorySpec HistoryProofs HistoryXIn HistoryInv HistoryInv2 HistoryRun HistoryRun2.
Local Notation length := List.length.

(** The data of an operation leaves column [f] alone. *)
Definition leaves (h : hist) (f : field) (A : sarr) : Prop := (h_safe h = true /\ protected f = true) \/ ~ In f (names (a_dtype A)).
Definition op_leaves (h : hist) (f : field) (o : hop) : Prop :=
  match o with
  | HXIn _ D _ _ => leaves h f D
  | HF _ (Some A) _ _ => leaves h f A
  | _ => True
  end.
Definition two (f : field) : Prop := f = F_sim_started \/ f = F_cancel_requested.

Lemma x_in_fields_keep inds D g ps : forall h,
  (h_safe h = true /\ protected g = true) \/ ~ In g (names ps) ->
  let h' := fst (foldx (x_in_field inds D) ps h) in forall k, cell (h_rows h') k g = cell (h_rows h) k g.
Proof.
  induction ps as [|[f sh] ps]; intros h Hs; cbn [foldx]; [auto|].
  cbn zeta. intros k.
  assert (H1 : cell (h_rows (fst (x_in_field inds D (f, sh) h))) k g = cell (h_rows h) k g /\
               h_safe (fst (x_in_field inds D (f, sh) h)) = h_safe h).
  { unfold x_in_field. destruct (h_safe h && protected f) eqn:Es; auto. destruct (negb _); auto.
    destruct (norm_idxs _ _); auto. cbn. split; auto. rewrite cell_write_col.
    destruct (last_for _ _ _); auto. destruct (feqb_spec f g); simpl; auto. subst.
    destruct Hs as [[Hs Hp]|Hs]; [rewrite Hs, Hp in Es; discriminate|]. elim Hs. left; auto. }
  destruct (x_in_field inds D (f, sh) h) as [h1 [e|]]; cbn [bindx fst] in *; [tauto|].
  destruct H1 as [H1 H2]. rewrite <- H1. apply IHps. destruct Hs as [[Hs Hp]|Hs].
  - left. split; congruence.
  - right. intro; apply Hs. right; auto.
Qed.

Lemma finish_keep gw D gs t n inds h g : stampf g = false -> leaves h g D ->
  forall k, cell (h_rows (fst (x_in_finish gw D gs t n inds h))) k g = cell (h_rows h) k g.
Proof.
  intros Hst HL k. unfold x_in_finish. pose proof (x_in_fields_keep inds D g (a_dtype D) h HL) as P. cbn zeta in P.
  destruct (foldx _ _ h) as [h1 [e|]]; cbn [bindx fst snd] in *; [apply P|].
  destruct (norm_idxs _ _); cbn [fst snd]; [|apply P]. cbn. rewrite fold_upd_cell_keep by (intros; now apply stamp_keep'). apply P.
Qed.

Lemma x_in_back gw D gs t h h' k f : two f -> scalar h f -> leaves h f D -> h_index h <= length (h_rows h) ->
  update_history_x_in gw D gs t h = (h', None) -> is_set h' k f -> is_set h k f.
Proof.
  intros H2 [Hc Hsh] HL Hi Hx (v & Hv & Ht).
  assert (Hnst : stampf f = false) by (destruct H2 as [-> | ->]; reflexivity).
  assert (Hid : F_sim_id <> f) by (destruct H2 as [-> | ->]; discriminate).
  unfold update_history_x_in in Hx. destruct (Nat.eqb_spec (length (a_rows D)) 0).
  { inversion Hx; subst. exists v; auto. }
  set (he := ensure_fields h (a_dtype D)) in *.
  assert (Hle : length (h_rows he) = length (h_rows h)) by apply ensure_len.
  assert (Hse : shape_in (h_dtype he) f = ShS) by (unfold he; rewrite ensure_shape; auto).
  assert (Hsafe : h_safe he = h_safe h) by apply ensure_safe.
  assert (Hbl : blank_row (h_dtype he) f = vint 0).
  { destruct H2 as [-> | ->]; cbn; rewrite Hse; reflexivity. }
  assert (R : forall n, cell (h_rows (make_room he n)) k f = Some v -> is_set h k f).
  { intros m Hu. destruct (Nat.lt_ge_cases k (length (h_rows he))) as [L|L].
    - rewrite make_room_cell_old in Hu by auto. unfold he in Hu. rewrite ensure_cell in Hu by auto. exists v. auto.
    - pose proof (cell_Some_lt _ _ _ _ Hu). rewrite make_room_cell_new in Hu by lia. rewrite Hbl in Hu. injection Hu as <-. discriminate. }
  assert (G : forall n inds h1, h_safe h1 = h_safe h -> x_in_finish gw D gs t n inds h1 = (h', None) -> cell (h_rows h1) k f = Some v).
  { intros m inds h1 E2 Hf. pose proof (finish_keep gw D gs t m inds h1 f Hnst) as F. rewrite Hf in F. cbn [fst] in F. rewrite <- F; auto.
    unfold leaves. rewrite E2. exact HL. }
  destruct (negb (has _ _)).
  - apply G in Hx; [|cbn; now rewrite make_room_safe]. cbn in Hx. rewrite number_rows_cell in Hx. rewrite (feqb_neq F_sim_id f) in Hx by auto.
    rewrite andb_false_r in Hx. now apply R in Hx.
  - destruct (negb (no_gap _ _)); try discriminate. apply G in Hx; [|now rewrite make_room_safe]. now apply R in Hx.
Qed.

(** Shapes of columns do not change. *)
Lemma hstep_scalar o h f : scalar h f -> scalar (fst (hstep o h)) f.
Proof.
  intros [Hc Hs]. split; [now apply hstep_column|]. destruct o; cbn [hstep].
  - pose proof (x_in_counts gw D gs t h) as F. cbn zeta in F. destruct F as (_&_&_&_&_&_&_&_&F). rewrite F; auto.
  - unfold update_history_f. set (h0 := match ret with Some A => ensure_fields h (a_dtype A) | None => h end).
    assert (E0 : shape_in (h_dtype h0) f = ShS) by (unfold h0; destruct ret; [rewrite ensure_shape|]; auto).
    assert (F : forall ps h1, h_dtype (fst (foldx (f_row ret t) ps h1)) = h_dtype h1).
    { intros ps h1. pose proof (f_rows_frame ret t ps h1) as F. cbn zeta in F. destruct F as [F _]. unfold same_meta in F. decompose [and] F. congruence. }
    specialize (F (combine (seq 0 (length inds)) inds) h0). destruct (foldx _ _ h0) as [h1 [e|]]; cbn [bindx fst] in *; [congruence|].
    destruct kill; cbn [fst]; [|congruence]. destruct inds; cbn [fst]; cbn; congruence.
  - pose proof (x_out_frame inds w kill t h) as F. cbn zeta in F. destruct F as (_&_&_&F&_). now rewrite F.
  - pose proof (to_gen_frame inds t h) as F. cbn zeta in F. destruct F as (_&_&_&F&_). now rewrite F.
  - pose proof (kill_frame h) as F. cbn zeta in F. destruct F as (_&_&_&F&_). now rewrite F.
Qed.

Lemma hstep_back o h h' k f : two f -> scalar h f -> op_leaves h f o -> h_index h <= length (h_rows h) -> hstep o h = (h', None) ->
  is_set h' k f -> is_set h k f \/ exists inds w b t, o = HXOut inds w b t /\ In k inds /\ f = F_sim_started.
Proof.
  intros H2 Hsc HL Hi E Hk. pose proof Hsc as [Hc _].
  assert (Hn : f <> F_sim_ended /\ f <> F_sim_ended_time /\ f <> F_gen_informed /\ f <> F_gen_informed_time /\ f <> F_kill_sent /\ f <> F_sim_worker /\ f <> F_sim_started_time)
    by (destruct H2 as [-> | ->]; repeat split; discriminate). destruct Hn as (N1 & N2 & N3 & N4 & N5 & N6 & N7).
  destruct o; cbn [hstep op_leaves] in *.
  - left. eapply x_in_back; eauto.
  - left. pose proof (hf_frame inds ret kill t h) as F. cbn zeta in F. rewrite E in F. cbn [fst snd] in F.
    destruct F as (F1&F2&F3&F4&F5&F6&F7&F8&F9&F10&F11&F12&F13&F14&F15&F16&F17).
    apply (is_set_cell h h'); auto. destruct ret as [A|]; [|apply F14; auto].
    destruct HL as [[S1 S2]|HL]; [apply F15; auto|apply F14; auto].
  - pose proof (x_out_frame inds w kill t h) as F. cbn zeta in F. rewrite E in F. cbn [fst snd] in F.
    destruct F as (_&_&_&_&_&_&_&_&_&_&_&_&F&_). destruct (in_dec Nat.eq_dec k inds) as [Hin|Hin].
    + destruct H2 as [-> | ->]; [right; eauto 10|]. left. apply (is_set_cell h h'); auto. apply F. right. repeat split; discriminate.
    + left. apply (is_set_cell h h'); auto.
  - left. pose proof (to_gen_frame inds t h) as F. cbn zeta in F. rewrite E in F. cbn [fst snd] in F.
    destruct F as (_&_&_&_&_&_&_&_&_&_&_&_&_&_&_&F&_). apply (is_set_cell h h'); auto.
  - left. pose proof (kill_frame h) as F. cbn zeta in F. rewrite E in F. cbn [fst snd] in F.
    destruct F as (_&_&_&_&_&_&_&_&_&_&_&_&_&F&_). apply (is_set_cell h h'); auto.
Qed.

Lemma hstep_index o h : h_index h <= length (h_rows h) -> snd (hstep o h) = None -> h_index h <= h_index (fst (hstep o h)) <= length (h_rows (fst (hstep o h))).
Proof.
  intros Hi. destruct o; cbn [hstep]; intros E.
  - eapply x_in_index; eauto. rewrite <- E. apply surjective_pairing.
  - pose proof (hf_frame inds ret kill t h) as F. cbn zeta in F. lia.
  - pose proof (x_out_frame inds w kill t h) as F. cbn zeta in F. lia.
  - pose proof (to_gen_frame inds t h) as F. cbn zeta in F. lia.
  - pose proof (kill_frame h) as F. cbn zeta in F. lia.
Qed.

(** The rows behind those of H0 are blank at the start. *)
Lemma init_back m outs H0 safe k f : two f -> H0_scalar H0 -> length (a_rows H0) <= k -> ~ is_set (init_history m outs H0 safe) k f.
Proof.
  intros H2 Hs Hk (v & Hv & Ht). pose proof (cell_Some_lt _ _ _ _ Hv) as Hl. rewrite init_length in Hl.
  unfold cell in Hv. rewrite init_tail in Hv by lia. cbn in Hv.
  assert (Hf : In f (names libE_fields)) by (destruct H2 as [-> | ->]; cbn; tauto).
  pose proof (init_shape m outs H0 safe f Hs Hf) as X. rewrite init_dtype_eq in X.
  destruct H2 as [-> | ->]; cbn in Hv; unfold zero_row in Hv; rewrite X in Hv; injection Hv as <-; discriminate.
Qed.
