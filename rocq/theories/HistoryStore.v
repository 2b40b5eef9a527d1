(** What a returned result stores, and exactly when a generated batch is accepted. *)
From Coq Require Import String.
From Verif Require Import Base BaseLemmas HistoryModel HistorySpec HistoryProofs HistoryXIn HistoryInv HistoryInv2 HistoryRun HistoryRun2 HistoryRun3.
Local Notation length := List.length.

Lemma f_fields_store ind r ps : forall h h',
  foldx (f_field ind r) ps h = (h', None) -> NoDup (names ps) ->
  forall f, In f (names ps) -> exists old v,
    cell (h_rows h) ind f = Some old /\ store_result old (r f) = inl v /\ cell (h_rows h') ind f = Some (cast f v).
Proof.
  induction ps as [|p ps IH]; intros h h' Hf Hnd f Hin; [contradiction|].
  cbn [foldx] in Hf. apply bindx_None in Hf. destruct Hf as (h1 & Hs & Hf).
  cbn [names map] in Hnd, Hin. inversion Hnd as [|? ? Hni Hnd']; subst.
  pose proof (f_field_frame ind r p h) as F. cbn zeta in F. rewrite Hs in F. cbn [fst] in F.
  destruct F as (_&_&_&_&_&_&_&_&_&_&_&_&_&F1&_).
  destruct Hin as [Hin|Hin].
  - subst f. unfold f_field in Hs. destruct (h_safe h && protected (fst p)); [discriminate|].
    destruct (nth_error (h_rows h) ind) as [old|] eqn:E; [|discriminate].
    destruct (store_result (old (fst p)) (r (fst p))) as [v|] eqn:Es; [|discriminate].
    inversion Hs; subst h1; clear Hs.
    exists (old (fst p)), v. unfold cell at 1. rewrite E. split; auto. split; auto.
    pose proof (f_fields_frame ind r ps (set_rows h (upd (h_rows h) ind (setf (fst p) v)))) as G. cbn zeta in G.
    rewrite Hf in G. cbn [fst] in G. destruct G as (_&_&_&_&_&G&_).
    rewrite G by (right; exact Hni). cbn. rewrite cell_upd_setf, Nat.eqb_refl, feqb_refl.
    assert (ind < length (h_rows h)) by (apply nth_error_Some; congruence).
    destruct (Nat.ltb_spec ind (length (h_rows h))); [auto|lia].
  - destruct (IH _ _ Hf Hnd' f Hin) as (old & v & H1 & H2 & H3). exists old, v. split; auto.
    rewrite <- H1. symmetry. apply F1. right. intros ->. contradiction.
Qed.

Lemma f_row_store A t j ind h h' :
  f_row (Some A) t (j, ind) h = (h', None) -> NoDup (names (a_dtype A)) ->
  forall f r, nth_error (a_rows A) j = Some r -> In f (names (a_dtype A)) -> f <> F_sim_ended -> f <> F_sim_ended_time ->
  exists old v, cell (h_rows h) ind f = Some old /\ store_result old (r f) = inl v /\
                cell (h_rows h') ind f = Some (cast f v).
Proof.
  intros Hf Hnd f r Hr Hin N1 N2. unfold f_row in Hf. apply bindx_None in Hf. destruct Hf as (h1 & Hw & Hf).
  cbn [f_write] in Hw. rewrite Hr in Hw.
  destruct (f_fields_store _ _ _ _ _ Hw Hnd f Hin) as (old & v & H1 & H2 & H3).
  exists old, v. split; auto. split; auto.
  destruct (ind <? length (h_rows h1)) eqn:E; [|discriminate]. inversion Hf; subst. cbn.
  rewrite cell_upd_mark. rewrite (feqb_neq F_sim_ended f), (feqb_neq F_sim_ended_time f) by auto. destruct (_ && _); auto.
Qed.

Lemma f_rows_store A t ps : forall h h',
  foldx (f_row (Some A) t) ps h = (h', None) -> NoDup (names (a_dtype A)) -> NoDup (map snd ps) ->
  forall j ind f r, In (j, ind) ps ->
    nth_error (a_rows A) j = Some r -> In f (names (a_dtype A)) -> f <> F_sim_ended -> f <> F_sim_ended_time ->
  exists old v, cell (h_rows h) ind f = Some old /\ store_result old (r f) = inl v /\
                cell (h_rows h') ind f = Some (cast f v).
Proof.
  induction ps as [|[j0 i0] ps IH]; intros h h' Hf Hnd Hnd2 j ind f r Hin Hr Hfin N1 N2; [contradiction|].
  cbn [foldx] in Hf. apply bindx_None in Hf. destruct Hf as (h1 & Hs & Hf).
  cbn [map snd] in Hnd2. inversion Hnd2 as [|? ? Hni Hnd2']; subst.
  pose proof (f_row_frame (Some A) t j0 i0 h) as F. cbn zeta in F. rewrite Hs in F. cbn [fst snd] in F.
  destruct F as (_&_&_&_&_&F1&_).
  pose proof (f_rows_frame (Some A) t ps h1) as G. cbn zeta in G. rewrite Hf in G. cbn [fst snd] in G.
  destruct G as (_&_&_&_&_&_&G&_).
  destruct Hin as [Hin|Hin].
  - inversion Hin; subst. destruct (f_row_store _ _ _ _ _ _ Hs Hnd f r Hr Hfin N1 N2) as (old & v & H1 & H2 & H3).
    exists old, v. split; auto. split; auto. rewrite <- H3. apply G. left. auto.
  - destruct (IH _ _ Hf Hnd Hnd2' j ind f r Hin Hr Hfin N1 N2) as (old & v & H1 & H2 & H3).
    exists old, v. split; auto. rewrite <- H1. symmetry. apply F1. left. intros ->. apply Hni.
    apply in_map_iff. exists (j, i0). auto.
Qed.

Lemma hf_store inds A kill t h h' :
  update_history_f inds (Some A) kill t h = (h', None) ->
  NoDup inds -> NoDup (names (a_dtype A)) ->
  forall j ind f r, nth_error inds j = Some ind -> nth_error (a_rows A) j = Some r ->
    In f (names (a_dtype A)) -> f <> F_sim_ended -> f <> F_sim_ended_time -> column h f ->
  exists old v, cell (h_rows h) ind f = Some old /\ store_result old (r f) = inl v /\
                cell (h_rows h') ind f = Some (cast f v).
Proof.
  intros Hf Hnd Hnd2 j ind f r Hj Hr Hin N1 N2 Hc. unfold update_history_f in Hf.
  apply bindx_None in Hf. destruct Hf as (h1 & Hf & Hk).
  assert (Hrows : h_rows h' = h_rows h1).
  { destruct kill; [|now inversion Hk]. destruct inds; [discriminate|]. inversion Hk; reflexivity. }
  rewrite Hrows.
  assert (Hp : In (j, ind) (combine (seq 0 (length inds)) inds)).
  { clear - Hj. apply nth_error_In with (n := j).
    assert (X : forall (l : list nat) a j, nth_error l j = Some ind -> nth_error (combine (seq a (length l)) l) j = Some (a + j, ind)).
    { intros l. induction l; intros a0 j0 H; destruct j0; cbn in *; try discriminate.
      - inversion H; subst. do 2 f_equal; lia.
      - rewrite (IHl (S a0) j0 H). do 2 f_equal. lia. }
    rewrite (X inds 0 j Hj). reflexivity. }
  destruct (f_rows_store A t _ _ _ Hf Hnd2) with (j := j) (ind := ind) (f := f) (r := r) as (old & v & H1 & H2 & H3); auto.
  { now rewrite combine_seq_snd. }
  exists old, v. split; auto. rewrite <- H1. symmetry. now apply ensure_cell.
Qed.

Lemma store_result_stored old new v : store_result old new = inl v -> stored old new v.
Proof.
  destruct new as [s|n], old as [o|o]; cbn [store_result]; intros H; try discriminate.
  - injection H as <-. constructor.
  - injection H as <-. constructor; [apply repeat_length|]. intros x Hx. exact (repeat_spec _ _ _ Hx).
  - destruct (Nat.ltb_spec (length o) (length n)) as [|L1]; [discriminate|]. destruct (Nat.eqb_spec (length n) 0) as [|L2]; [discriminate|].
    injection H as <-. constructor; [lia| |intros i Hi; now apply nth_error_app1|].
    + rewrite app_length, skipn_length. lia.
    + intros i Hi. rewrite nth_error_app2 by exact Hi.
      clear - Hi. revert o i Hi. induction n as [|x n IH]; intros o i Hi; cbn [length skipn].
      * now rewrite Nat.sub_0_r.
      * destruct o as [|y o]; cbn [skipn].
        { destruct i; [cbn in Hi; lia|]. cbn. destruct (i - length n); reflexivity. }
        destruct i; [cbn in Hi; lia|]. cbn [Nat.sub nth_error]. apply IH. cbn in Hi. lia.
Qed.

Lemma hf_stored inds A kill t h h' :
  update_history_f inds (Some A) kill t h = (h', None) ->
  NoDup inds -> NoDup (names (a_dtype A)) ->
  forall j ind f r, nth_error inds j = Some ind -> nth_error (a_rows A) j = Some r ->
    In f (names (a_dtype A)) -> f <> F_sim_ended -> f <> F_sim_ended_time -> column h f ->
  exists old v, cell (h_rows h) ind f = Some old /\ stored old (r f) v /\
                cell (h_rows h') ind f = Some (cast f v) /\ (forall name, f = F_user name -> cast f v = v).
Proof.
  intros Hf Hnd Hnd2 j ind f r Hj Hr Hin N1 N2 Hc.
  destruct (hf_store _ _ _ _ _ _ Hf Hnd Hnd2 j ind f r Hj Hr Hin N1 N2 Hc) as (old & v & A1 & A2 & A3).
  exists old, v. split; [exact A1|]. split; [exact (store_result_stored _ _ _ A2)|]. split; [exact A3|]. intros name ->. reflexivity.
Qed.

(** ** acceptance of a batch *)

Lemma shape_in_NoDup d f sh : NoDup (names d) -> In (f, sh) d -> shape_in d f = sh.
Proof.
  induction d as [|[g s] d]; cbn [names map fst]; intros Hnd Hin; [contradiction|].
  inversion Hnd; subst. cbn. destruct Hin as [Hin|Hin].
  - inversion Hin; subst. now rewrite feqb_refl.
  - rewrite feqb_neq; auto. intros ->. apply H1. apply in_map_iff. exists (g, sh); auto.
Qed.

Lemma shape_app_known d e f : has f (names d) = true -> shape_in (d ++ e) f = shape_in d f.
Proof.
  induction d as [|[a s] d]; cbn [app names map fst shape_in]; [discriminate|]. rewrite has_cons.
  destruct (feqb f a); cbn; auto.
Qed.

Lemma ensure_compatible h D f sh :
  compatible h D -> In (f, sh) (a_dtype D) -> shape_in (h_dtype (ensure_fields h (a_dtype D))) f = sh.
Proof.
  intros (C1 & C2 & C3) Hin.
  destruct (has f (names (h_dtype h))) eqn:E.
  - rewrite ensure_shape by (now apply has_In). apply C2; auto. now apply has_In.
  - unfold ensure_fields. assert (existsb (fun f => negb (has f (names (h_dtype h)))) (names (a_dtype D)) = true) as ->.
    { apply existsb_exists. exists f. rewrite E. split; auto. apply in_map_iff. exists (f, sh); auto. }
    cbn. rewrite shape_app_out by auto.
    rewrite (shape_filter (fun g => negb (has g (names (h_dtype h))))) by (now rewrite E).
    now apply shape_in_NoDup.
Qed.

Lemma x_in_fields_succeed inds D is : forall ps h,
  (forall f sh, In (f, sh) ps -> shape_in (h_dtype h) f = sh) ->
  (h_safe h = true -> forall f, In f (names ps) -> protected f = false) ->
  norm_idxs (length (h_rows h)) inds = Some is ->
  snd (foldx (x_in_field inds D) ps h) = None.
Proof.
  induction ps as [|[f sh] ps IH]; intros h Hsh Hp Hn; [reflexivity|].
  cbn [foldx]. unfold x_in_field at 1.
  assert (h_safe h && protected f = false) as ->.
  { destruct (h_safe h) eqn:E; auto. rewrite Hp; auto. cbn; auto. }
  rewrite (Hsh f sh) by (cbn; auto).
  assert (shape_eqb sh sh = true) as -> by (destruct sh; cbn; auto; apply Nat.eqb_refl).
  cbn [negb]. rewrite Hn. cbn [bindx]. apply IH.
  - intros; apply Hsh; cbn; auto.
  - intros Hs g Hg. apply Hp; cbn; auto.
  - cbn. now rewrite write_col_length.
Qed.

Lemma x_in_finish_succeed gw D gs t n inds is h :
  (forall f sh, In (f, sh) (a_dtype D) -> shape_in (h_dtype h) f = sh) ->
  (h_safe h = true -> forall f, In f (names (a_dtype D)) -> protected f = false) ->
  norm_idxs (length (h_rows h)) inds = Some is ->
  snd (x_in_finish gw D gs t n inds h) = None.
Proof.
  intros H1 H2 H3. unfold x_in_finish.
  pose proof (x_in_fields_succeed inds D is (a_dtype D) h H1 H2 H3) as X.
  pose proof (x_in_fields_frame inds D (a_dtype D) h) as F. cbn zeta in F.
  destruct (foldx _ _ h) as [h2 e]. cbn in X. subst e. cbn [bindx fst] in *. destruct F as (-> & _). now rewrite H3.
Qed.

Lemma compatible_unprotected h D : compatible h D -> h_safe h = true -> forall f, In f (names (a_dtype D)) -> protected f = false.
Proof.
  intros (_&_&C) Hs f Hf. destruct (protected f) eqn:E; auto. elim (C Hs). exists f; auto.
Qed.

Lemma x_in_noids_accept gw D gs t h :
  h_index h <= length (h_rows h) -> ~ In F_sim_id (names (a_dtype D)) -> compatible h D ->
  snd (update_history_x_in gw D gs t h) = None.
Proof.
  intros Hi Hno Hc. unfold update_history_x_in. destruct (Nat.eqb_spec (length (a_rows D)) 0); auto.
  apply has_false in Hno. rewrite Hno. cbn [negb].
  set (he := ensure_fields h (a_dtype D)).
  assert (Hie : h_index he = h_index h) by apply ensure_index.
  assert (Hle : length (h_rows he) = length (h_rows h)) by apply ensure_len.
  destruct (make_room_rows he (length (a_rows D))) as (kk & Hrows & Hroom); [lia|].
  eapply x_in_finish_succeed.
  - cbn. rewrite make_room_dtype. intros. now apply ensure_compatible.
  - cbn. rewrite make_room_safe. unfold he. rewrite ensure_safe. now apply compatible_unprotected.
  - cbn. rewrite number_rows_length. apply ids_range_ok. rewrite make_room_index. lia.
Qed.

(** a batch with ids is accepted exactly when no id is skipped *)
Lemma x_in_ids_accept gw D gs t h :
  ids_aligned h -> column h F_sim_id -> 0 < length (a_rows D) -> In F_sim_id (names (a_dtype D)) -> compatible h D ->
  (forall d, In d (a_rows D) -> (0 <= sid d)%Z) ->
  (snd (update_history_x_in gw D gs t h) = None <->
   forall d z, In d (a_rows D) -> (Z.of_nat (h_index h) <= z <= sid d)%Z -> exists d', In d' (a_rows D) /\ sid d' = z).
Proof.
  intros Ha Hcol Hn Hin Hc Hpos. unfold update_history_x_in.
  destruct (Nat.eqb_spec (length (a_rows D)) 0); [lia|].
  apply has_In in Hin. rewrite Hin. cbn [negb].
  set (he := ensure_fields h (a_dtype D)) in *.
  assert (Hie : h_index he = h_index h) by apply ensure_index.
  assert (Hle : length (h_rows he) = length (h_rows h)) by apply ensure_len.
  assert (Hae : ids_aligned he).
  { destruct Ha as (A1 & A2 & A3). unfold ids_aligned. rewrite Hie, Hle.
    repeat split; auto; intros; unfold he; rewrite ensure_cell; auto. }
  assert (Hmaxin : In (maxZ (map sid (a_rows D))) (map sid (a_rows D))).
  { destruct (a_rows D) as [|d l] eqn:E; [cbn in Hn; lia|]. apply maxZ_In. exists (sid d). split; [cbn; auto|].
    apply Hpos. cbn; auto. }
  assert (Gap : no_gap (h_index he) (map sid (a_rows D)) = true <->
    forall d z, In d (a_rows D) -> (Z.of_nat (h_index h) <= z <= sid d)%Z -> exists d', In d' (a_rows D) /\ sid d' = z).
  { rewrite no_gap_spec, Hie. split.
    - intros H d z Hd Hz. assert (Hi : In z (map sid (a_rows D))).
      { apply H. pose proof (maxZ_ge _ _ (in_map sid _ _ Hd)). lia. }
      apply in_map_iff in Hi. destruct Hi as (d' & ? & ?). exists d'; auto.
    - intros H z Hz. apply in_map_iff in Hmaxin. destruct Hmaxin as (d & Hd1 & Hd2).
      destruct (H d z Hd2) as (d' & H1 & H2); [lia|]. apply in_map_iff. exists d'; auto. }
  destruct (no_gap (h_index he) (map sid (a_rows D))) eqn:Hgap; cbn [negb].
  - split; [intros _; apply Gap; auto|intros _].
    assert (Hpos' : forall z, In z (map sid (a_rows D)) -> (0 <= z)%Z).
    { intros z Hz. apply in_map_iff in Hz. destruct Hz as (d & <- & Hd). auto. }
    pose proof (count_new_spec he _ Hae Hpos' Hgap) as Hcn.
    destruct (make_room_rows he (count_new (map sid (a_rows D)) (h_rows he))) as (kk & Hrows & Hroom); [destruct Hae; lia|].
    eapply x_in_finish_succeed.
    + rewrite make_room_dtype. intros. now apply ensure_compatible.
    + rewrite make_room_safe. unfold he. rewrite ensure_safe. now apply compatible_unprotected.
    + apply norm_idxs_nonneg. intros z Hz. pose proof (maxZ_ge _ _ Hz). specialize (Hpos' z Hz). lia.
  - split; [discriminate|]. intros H. apply Gap in H. discriminate.
Qed.
