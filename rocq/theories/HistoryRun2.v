(** Initialisation from H0, kill window, provenance, storing of results. *)
From Coq Require Import String.
From Verif Require Import Base BaseLemmas HistoryModel HistorySpec HistoryProofs HistoryXIn HistoryInv HistoryInv2 HistoryRun.
Local Notation length := List.length.

(** ** init_history *)
Lemma mapi_nth {A B} (f : nat -> A -> B) l : forall a k,
  nth_error (mapi a f l) k = option_map (f (a + k)) (nth_error l k).
Proof.
  induction l; intros a0 k; destruct k; cbn; auto.
  - now rewrite Nat.add_0_r.
  - rewrite IHl. replace (S a0 + k) with (a0 + S k) by lia. auto.
Qed.
Lemma mapi_length {A B} (f : nat -> A -> B) l : forall a, length (mapi a f l) = length l.
Proof. induction l; intros; cbn; auto. Qed.

Definition init_dtype (outs : dtype) (H0 : sarr) : dtype :=
  if Nat.eqb (length (a_rows H0)) 0 then libE_fields ++ outs
  else a_dtype H0 ++ filter (fun p => negb (has (fst p) (names (a_dtype H0)))) (libE_fields ++ outs).

Lemma init_dtype_eq m outs H0 safe : h_dtype (init_history m outs H0 safe) = init_dtype outs H0.
Proof. reflexivity. Qed.

Lemma init_rows m outs H0 safe :
  h_rows (init_history m outs H0 safe) =
  if Nat.eqb m 0 then map (blank_over (init_dtype outs H0)) (mapi 0 (row_from_H0 (a_dtype H0) (init_dtype outs H0)) (a_rows H0))
  else mapi 0 (row_from_H0 (a_dtype H0) (init_dtype outs H0)) (a_rows H0) ++
       map (blank_over (init_dtype outs H0)) (repeat (zero_row (init_dtype outs H0)) m).
Proof. reflexivity. Qed.

Lemma init_length m outs H0 safe :
  length (h_rows (init_history m outs H0 safe)) = length (a_rows H0) + m.
Proof.
  rewrite init_rows. destruct (Nat.eqb_spec m 0).
  - rewrite map_length, mapi_length. lia.
  - rewrite app_length, map_length, mapi_length, repeat_length. lia.
Qed.

Lemma init_nth m outs H0 safe k r0 : 0 < m -> nth_error (a_rows H0) k = Some r0 ->
  nth_error (h_rows (init_history m outs H0 safe)) k = Some (row_from_H0 (a_dtype H0) (init_dtype outs H0) k r0).
Proof.
  intros Hm Hn. rewrite init_rows. destruct (Nat.eqb_spec m 0); [lia|].
  assert (k < length (a_rows H0)) by (apply nth_error_Some; congruence).
  rewrite nth_error_app1 by (now rewrite mapi_length). rewrite mapi_nth, Hn. reflexivity.
Qed.

Lemma init_tail m outs H0 safe k : 
  length (a_rows H0) <= k < length (a_rows H0) + m ->
  nth_error (h_rows (init_history m outs H0 safe)) k = Some (blank_over (init_dtype outs H0) (zero_row (init_dtype outs H0))).
Proof.
  intros Hk. rewrite init_rows. destruct (Nat.eqb_spec m 0); [lia|].
  rewrite nth_error_app2 by (rewrite mapi_length; lia). rewrite mapi_length.
  rewrite nth_error_map. rewrite nth_error_repeat by lia. reflexivity.
Qed.

Lemma row_from_cells d0 d i r0 :
  let r := row_from_H0 d0 d i r0 in
  (forall f, has f (names d0) = true ->
      (f = F_sim_ended -> has F_sim_started (names d0) = true) ->
      r f = cast f (r0 f)) /\
  (has F_sim_started (names d0) = false -> r F_sim_started = vbool true /\ r F_sim_ended = vbool true) /\
  (has F_sim_started (names d0) = true -> has F_sim_ended (names d0) = false ->
      r F_sim_ended = vbool (truthy (r0 F_sim_started))) /\
  (has F_sim_id (names d0) = false -> r F_sim_id = vint (Z.of_nat i)) /\
  (forall f, has f (names d0) = false -> f <> F_sim_id -> f <> F_sim_started -> f <> F_sim_ended ->
     r f = zero_of (shape_in d f)).
Proof.
  cbn zeta. unfold row_from_H0.
  destruct (has F_sim_started (names d0)) eqn:Es; destruct (has F_sim_ended (names d0)) eqn:Ee;
  destruct (has F_sim_id (names d0)) eqn:Ei; cbn [negb]; repeat split; try discriminate; auto;
  try (unfold setf; cbn; rewrite ?Es, ?Ee, ?Ei; reflexivity);
  intros f Hf; intros; unfold setf;
  repeat match goal with |- context [feqb ?a f] => destruct (feqb_spec a f) end; subst; try congruence;
  try (rewrite Hf; reflexivity);
  try (match goal with H : F_sim_ended = F_sim_ended -> _ |- _ => specialize (H eq_refl); discriminate end).
Qed.

Lemma init_column m outs H0 safe f : In f (names libE_fields) -> column (init_history m outs H0 safe) f.
Proof.
  intros Hf. unfold column. rewrite init_dtype_eq. unfold init_dtype.
  assert (Hsd : In f (names (libE_fields ++ outs))) by (rewrite names_app; apply in_or_app; auto).
  destruct (Nat.eqb _ _); auto.
  rewrite names_app. apply in_or_app.
  destruct (has f (names (a_dtype H0))) eqn:E; [left; now apply has_In|right].
  unfold names in Hsd |- *. apply in_map_iff in Hsd. destruct Hsd as ((g, sh) & Hg & Hin). cbn in Hg. subst g.
  apply in_map_iff. exists (f, sh). split; auto. apply filter_In. split; auto. cbn [fst]. fold (names (a_dtype H0)). now rewrite E.
Qed.


Lemma shape_libE outs f : In f (names libE_fields) -> shape_in (libE_fields ++ outs) f = ShS.
Proof.
  intros Hf. assert (E : has f (names libE_fields) = true) by now apply has_In.
  unfold libE_fields in *. cbn [app shape_in names map fst] in *. rewrite !has_cons in E.
  repeat match goal with |- (if ?b then _ else _) = _ => destruct b; [reflexivity|] end.
  cbn in E. discriminate.
Qed.

Lemma shape_filter g d f : g f = true -> shape_in (filter (fun p => g (fst p)) d) f = shape_in d f.
Proof.
  intros Hg. induction d as [|[a sh] d]; cbn; auto. destruct (feqb_spec f a).
  - subst. rewrite Hg. cbn. now rewrite feqb_refl.
  - destruct (g a); cbn; auto. now rewrite feqb_neq.
Qed.
Lemma shape_app_out d e f : has f (names d) = false -> shape_in (d ++ e) f = shape_in e f.
Proof.
  induction d as [|[a sh] d]; cbn [app names map fst]; auto. rewrite has_cons. cbn [shape_in].
  destruct (feqb f a); cbn; auto. discriminate.
Qed.
Lemma shape_app_in d e f : has f (names d) = true -> exists sh, In (f, sh) d /\ shape_in (d ++ e) f = sh.
Proof.
  induction d as [|[a sh] d]; cbn [app names map fst]; [discriminate|]. rewrite has_cons. cbn [shape_in].
  destruct (feqb_spec f a); cbn.
  - subst. eauto.
  - intros H. destruct (IHd H) as (s & ? & ?). eauto.
Qed.

Lemma init_shape m outs H0 safe f : H0_scalar H0 -> In f (names libE_fields) ->
  shape_in (h_dtype (init_history m outs H0 safe)) f = ShS.
Proof.
  intros Hs Hf. rewrite init_dtype_eq. unfold init_dtype. destruct (Nat.eqb _ _).
  - now apply shape_libE.
  - destruct (has f (names (a_dtype H0))) eqn:E.
    + destruct (shape_app_in _ (filter (fun p : field * shape => negb (has (fst p) (names (a_dtype H0)))) (libE_fields ++ outs)) _ E) as (sh & Hin & Hsh).
      rewrite Hsh. eapply Hs; eauto.
    + rewrite shape_app_out by auto.
      rewrite (shape_filter (fun g => negb (has g (names (a_dtype H0))))) by (now rewrite E).
      now apply shape_libE.
Qed.

Lemma init_tail_flag m outs H0 safe k f : H0_scalar H0 -> status f = true \/ f = F_gen_ended_time ->
  length (a_rows H0) <= k < length (a_rows H0) + m ->
  cell (h_rows (init_history m outs H0 safe)) k f = Some (vint 0).
Proof.
  intros Hs Hst Hk. unfold cell. rewrite init_tail by auto. cbn.
  assert (Hf : In f (names libE_fields)).
  { destruct Hst; [destruct f; cbn; tauto || discriminate|subst; cbn; tauto]. }
  pose proof (init_shape m outs H0 safe f Hs Hf) as X. rewrite init_dtype_eq in X.
  destruct Hst as [Hst|Hst]; [destruct f; try discriminate|subst f]; cbn; unfold zero_row; rewrite X; reflexivity.
Qed.

Lemma init_counts m outs H0 safe :
  let h := init_history m outs H0 safe in
  h_index h = length (a_rows H0) /\
  h_started h = num_set F_sim_started (h_rows h) /\ h_ended h = num_set F_sim_ended (h_rows h) /\
  h_informed h = num_set F_gen_informed (h_rows h) /\
  h_started_off h = h_started h /\ h_ended_off h = h_ended h /\ h_informed_off h = h_informed h /\
  h_last_started h = (-1)%Z /\ h_last_ended h = (-1)%Z /\ h_safe h = safe.
Proof. cbn zeta. repeat split; reflexivity. Qed.


Lemma truthy_vbool b : truthy (vbool b) = b.
Proof. destruct b; reflexivity. Qed.

Lemma init_count_inv m outs H0 safe :
  0 < m -> H0_scalar H0 -> H0_sound H0 -> count_inv (init_history m outs H0 safe).
Proof.
  intros Hm Hs Hd. destruct (init_counts m outs H0 safe) as (C1&C2&C3&C4&_).
  unfold count_inv. rewrite init_length, C1.
  assert (Hlast : forall k f, status f = true -> is_set (init_history m outs H0 safe) k f -> k < length (a_rows H0)).
  { intros k f Hst (v & Hv & Ht). destruct (Nat.lt_ge_cases k (length (a_rows H0))); auto.
    pose proof (cell_Some_lt _ _ _ _ Hv). rewrite init_length in *.
    rewrite init_tail_flag in Hv by (auto || lia). inversion Hv; subst. discriminate. }
  repeat split; auto; try lia.
  - now apply init_column.
  - now apply init_shape.
  - intros k Hk. pose proof (Hlast k F_sim_ended eq_refl Hk) as Hlt.
    destruct (nth_error (a_rows H0) k) as [r0|] eqn:E; [|apply nth_error_None in E; lia].
    destruct Hk as (v & Hv & Ht). unfold cell in Hv.
    rewrite (init_nth _ _ _ _ _ _ Hm E) in Hv. cbn in Hv. inversion Hv; subst v; clear Hv.
    unfold is_set, cell. rewrite (init_nth _ _ _ _ _ _ Hm E). cbn. eexists; split; [reflexivity|].
    destruct (row_from_cells (a_dtype H0) (init_dtype outs H0) k r0) as (R1&R2&R3&_).
    destruct (has F_sim_started (names (a_dtype H0))) eqn:Es.
    + rewrite R1 by (auto; discriminate). cbn [cast]. rewrite truthy_vbool.
      destruct (has F_sim_ended (names (a_dtype H0))) eqn:Ee.
      * rewrite R1 in Ht by auto. cbn [cast] in Ht. rewrite truthy_vbool in Ht. eapply Hd; eauto. eapply nth_error_In; eauto.
      * rewrite R3 in Ht by auto. now rewrite truthy_vbool in Ht.
    + destruct R2 as [-> _]; auto.
  - intros k Hk. apply (Hlast k F_sim_started eq_refl Hk).
Qed.


Lemma init_ids m outs H0 safe : 0 < m -> H0_ids H0 -> ids_aligned (init_history m outs H0 safe).
Proof.
  intros Hm Hi. unfold ids_aligned. rewrite init_length. destruct (init_counts m outs H0 safe) as (C1&_). rewrite C1.
  split; [lia|]. split.
  - intros k Hk. destruct (nth_error (a_rows H0) k) as [r0|] eqn:E; [|apply nth_error_None in E; lia].
    unfold cell. rewrite (init_nth _ _ _ _ _ _ Hm E). cbn. f_equal.
    destruct (row_from_cells (a_dtype H0) (init_dtype outs H0) k r0) as (R1&_&_&R4&_).
    destruct (has F_sim_id (names (a_dtype H0))) eqn:Ei.
    + rewrite R1 by (auto; discriminate). rewrite (Hi (proj1 (has_In _ _) Ei) _ _ E). reflexivity.
    + auto.
  - intros k Hk. unfold cell. rewrite init_tail by lia. reflexivity.
Qed.

(** counting the flags of H0 *)
Lemma num_set_nths f rs rs' : length rs = length rs' ->
  (forall k r r', nth_error rs k = Some r -> nth_error rs' k = Some r' -> truthy (r f) = truthy (r' f)) ->
  num_set f rs = num_set f rs'.
Proof.
  unfold num_set. revert rs'; induction rs as [|r rs]; destruct rs' as [|r' rs']; cbn [length]; intros Hl H; try lia; auto.
  pose proof (H 0 r r' eq_refl eq_refl) as E. cbn [filter]. rewrite E.
  assert (length (filter (fun r => truthy (r f)) rs) = length (filter (fun r => truthy (r f)) rs')).
  { apply IHrs; [lia|]. intros k. apply (H (S k)). }
  destruct (truthy (r' f)); cbn; lia.
Qed.
Lemma num_set_all f rs : (forall r, In r rs -> truthy (r f) = true) -> num_set f rs = length rs.
Proof.
  unfold num_set. induction rs; cbn; intros H; auto. rewrite H by auto. cbn. rewrite IHrs; auto.
Qed.

Lemma init_num_set m outs H0 safe f :
  0 < m -> H0_scalar H0 -> status f = true ->
  num_set f (h_rows (init_history m outs H0 safe)) =
  num_set f (mapi 0 (row_from_H0 (a_dtype H0) (init_dtype outs H0)) (a_rows H0)).
Proof.
  intros Hm Hs Hf. apply num_set_grow.
  - rewrite init_length, mapi_length. lia.
  - intros k Hk. unfold cell. rewrite init_rows. destruct (Nat.eqb_spec m 0); [lia|]. now rewrite nth_error_app1.
  - rewrite mapi_length. intros k v Hk Hv. pose proof (cell_Some_lt _ _ _ _ Hv). rewrite init_length in *.
    rewrite init_tail_flag in Hv; auto. now inversion Hv.
Qed.

Lemma init_started m outs H0 safe :
  0 < m -> H0_scalar H0 ->
  h_started (init_history m outs H0 safe) =
  (if has F_sim_started (names (a_dtype H0)) then num_set F_sim_started (a_rows H0) else length (a_rows H0)) /\
  h_ended (init_history m outs H0 safe) =
  (if has F_sim_started (names (a_dtype H0)) then
     if has F_sim_ended (names (a_dtype H0)) then num_set F_sim_ended (a_rows H0)
     else num_set F_sim_started (a_rows H0)
   else length (a_rows H0)).
Proof.
  intros Hm Hs. destruct (init_counts m outs H0 safe) as (_&->&->&_). rewrite !init_num_set by auto.
  assert (R : forall k r r', nth_error (a_rows H0) k = Some r ->
     nth_error (mapi 0 (row_from_H0 (a_dtype H0) (init_dtype outs H0)) (a_rows H0)) k = Some r' ->
     r' = row_from_H0 (a_dtype H0) (init_dtype outs H0) k r).
  { intros k r r' E E'. rewrite mapi_nth, E in E'. cbn in E'. congruence. }
  destruct (has F_sim_started (names (a_dtype H0))) eqn:Es.
  - split.
    + apply num_set_nths; [now rewrite mapi_length|]. intros k r r' E1 E2. rewrite (R k r' r E2 E1).
      destruct (row_from_cells (a_dtype H0) (init_dtype outs H0) k r') as (R1&_).
      rewrite R1 by (auto; discriminate). apply truthy_vbool.
    + destruct (has F_sim_ended (names (a_dtype H0))) eqn:Ee.
      * apply num_set_nths; [now rewrite mapi_length|]. intros k r r' E1 E2. rewrite (R k r' r E2 E1).
        destruct (row_from_cells (a_dtype H0) (init_dtype outs H0) k r') as (R1&_).
        rewrite R1 by (auto; discriminate). apply truthy_vbool.
      * assert (G : forall (l : list row) (l' : list row), length l = length l' ->
          (forall k r r', nth_error l k = Some r -> nth_error l' k = Some r' -> truthy (r F_sim_ended) = truthy (r' F_sim_started)) ->
          num_set F_sim_ended l = num_set F_sim_started l').
        { induction l as [|r l]; destruct l' as [|r' l']; cbn [length]; intros Hl H; try lia; auto.
          pose proof (H 0 r r' eq_refl eq_refl) as E. unfold num_set in *. cbn [filter]. rewrite E.
          assert (length (filter (fun r => truthy (r F_sim_ended)) l) = length (filter (fun r => truthy (r F_sim_started)) l')).
          { apply IHl; [lia|]. intros k. apply (H (S k)). }
          destruct (truthy (r' F_sim_started)); cbn; lia. }
        apply G; [now rewrite mapi_length|]. intros k r r' E1 E2. rewrite (R k r' r E2 E1).
        destruct (row_from_cells (a_dtype H0) (init_dtype outs H0) k r') as (_&_&R3&_).
        rewrite R3 by auto. apply truthy_vbool.
  - assert (A : forall f, f = F_sim_started \/ f = F_sim_ended ->
       num_set f (mapi 0 (row_from_H0 (a_dtype H0) (init_dtype outs H0)) (a_rows H0)) = length (a_rows H0)).
    { intros f Hf. rewrite num_set_all; [apply mapi_length|]. intros r Hr. apply In_nth_error in Hr. destruct Hr as (k & Hr).
      rewrite mapi_nth in Hr. destruct (nth_error (a_rows H0) k) as [r0|]; [|discriminate]. cbn in Hr. inversion Hr; subst r.
      destruct (row_from_cells (a_dtype H0) (init_dtype outs H0) k r0) as (_&R2&_).
      destruct (R2 Es) as [Ra Rb]. destruct Hf; subst; [rewrite Ra|rewrite Rb]; reflexivity. }
    split; apply A; auto.
Qed.

(** ** The kill window (C11) *)
Lemma advance_spec rs : forall n j le,
  let le' := advance_ended rs j n le in
  (le <= le')%Z /\ (le' <= le + Z.of_nat n)%Z /\
  forall i, (Z.of_nat i < le' - le)%Z -> exists r, nth_error rs (j + i) = Some r /\ flag F_sim_ended r = true.
Proof.
  induction n; intros j le; cbn [advance_ended].
  - cbn zeta. split; [lia|]. split; [lia|]. intros i Hi. lia.
  - destruct (nth_error rs j) as [r|] eqn:E.
    + destruct (flag F_sim_ended r) eqn:Ef.
      * specialize (IHn (S j) (le + 1)%Z). cbn zeta in *. destruct IHn as (I1 & I2 & I3).
        split; [lia|]. split; [lia|]. intros i Hi. destruct i.
        -- rewrite Nat.add_0_r. eauto.
        -- replace (j + S i) with (S j + i) by lia. apply I3. lia.
      * cbn zeta. split; [lia|]. split; [lia|]. intros i Hi; lia.
    + cbn zeta. split; [lia|]. split; [lia|]. intros i Hi; lia.
Qed.

(** lower end: every row up to last_ended has ended *)
Definition window_low (h : hist) : Prop :=
  (-1 <= h_last_ended h)%Z /\
  forall k, (Z.of_nat k <= h_last_ended h)%Z -> is_set h k F_sim_ended.

(** upper end: every started, unfinished row is at most last_started *)
Definition window_high (h : hist) : Prop :=
  forall k, is_set h k F_sim_started -> ~ is_set h k F_sim_ended -> (Z.of_nat k <= h_last_started h)%Z.
