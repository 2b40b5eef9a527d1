(** Frames for give-out / inform / add-points, and the run-level invariants. *)
From Coq Require Import String.
From Verif Require Import Base BaseLemmas HistoryModel HistorySpec HistoryProofs HistoryXIn HistoryInv.
Local Notation length := List.length.

Lemma mark_started_cast w t r :
  mark_started w t r F_sim_started = vbool true.
Proof. reflexivity. Qed.

Lemma mark_started_other w t r f :
  f <> F_sim_started -> f <> F_sim_worker -> f <> F_sim_started_time -> mark_started w t r f = r f.
Proof. intros. unfold mark_started. rewrite !setf_other by congruence. auto. Qed.

Lemma x_out_frame inds w kill t h :
  let r := update_history_x_out inds w kill t h in let h' := fst r in
  length (h_rows h') = length (h_rows h) /\ h_index h' = h_index h /\ h_safe h' = h_safe h /\
  h_dtype h' = h_dtype h /\ h_ended h' = h_ended h /\ h_informed h' = h_informed h /\
  h_started_off h' = h_started_off h /\ h_ended_off h' = h_ended_off h /\ h_informed_off h' = h_informed_off h /\
  h_grow h' = h_grow h /\ h_last_ended h' = h_last_ended h /\
  (snd r = None -> h_started h' = h_started h + length inds /\ (forall k, In k inds -> k < length (h_rows h)) /\
     (forall k, In k inds -> cell (h_rows h') k F_sim_started = Some (vbool true) /\
                             cell (h_rows h') k F_sim_worker = Some (vint (Z.of_nat w)) /\
                             cell (h_rows h') k F_sim_started_time = Some (vint t)) /\
     h_last_started h' = (if kill then Z.of_nat (maxl inds) else h_last_started h)) /\
  (forall k f, ~ In k inds \/ (f <> F_sim_started /\ f <> F_sim_worker /\ f <> F_sim_started_time) ->
     cell (h_rows h') k f = cell (h_rows h) k f) /\
  (forall k, cell (h_rows h) k F_sim_started = Some (vbool true) -> cell (h_rows h') k F_sim_started = Some (vbool true)).
Proof.
  cbn zeta. unfold update_history_x_out.
  destruct (forallb _ inds) eqn:E; cbn [negb].
  2:{ cbn. repeat split; auto; discriminate. }
  assert (Hlt : forall k, In k inds -> k < length (h_rows h)).
  { intros k Hk. rewrite forallb_forall in E. specialize (E k Hk). now apply Nat.ltb_lt. }
  assert (Hframe : forall k f, ~ In k inds \/ (f <> F_sim_started /\ f <> F_sim_worker /\ f <> F_sim_started_time) ->
     cell (fold_left (fun rs i => upd rs i (mark_started w t)) inds (h_rows h)) k f = cell (h_rows h) k f).
  { intros k f [Hk|(H1&H2&H3)].
    - now apply fold_upd_cell_out.
    - apply fold_upd_cell_keep. intros. now apply mark_started_other. }
  assert (Hset : forall k, In k inds ->
     let rs := fold_left (fun rs i => upd rs i (mark_started w t)) inds (h_rows h) in
     cell rs k F_sim_started = Some (vbool true) /\ cell rs k F_sim_worker = Some (vint (Z.of_nat w)) /\
     cell rs k F_sim_started_time = Some (vint t)).
  { intros k Hk. cbn zeta. repeat split; apply fold_upd_cell_set; auto. }
  assert (Hmono : forall k, cell (h_rows h) k F_sim_started = Some (vbool true) ->
     cell (fold_left (fun rs i => upd rs i (mark_started w t)) inds (h_rows h)) k F_sim_started = Some (vbool true)).
  { intros k Hk. destruct (in_dec Nat.eq_dec k inds).
    - apply Hset; auto.
    - rewrite Hframe; auto. }
  destruct kill; [destruct inds as [|i inds]|]; cbn [fst snd set_counts set_rows with_rows set_last h_rows h_index h_safe
     h_dtype h_ended h_informed h_started_off h_ended_off h_informed_off h_grow h_last_ended h_started h_last_started];
  rewrite ?fold_upd_length; repeat split; auto; try discriminate; try (apply Hset; auto).
Qed.

Lemma to_gen_frame inds t h :
  let r := update_history_to_gen inds t h in let h' := fst r in
  length (h_rows h') = length (h_rows h) /\ h_index h' = h_index h /\ h_safe h' = h_safe h /\
  h_dtype h' = h_dtype h /\ h_ended h' = h_ended h /\ h_started h' = h_started h /\
  h_started_off h' = h_started_off h /\ h_ended_off h' = h_ended_off h /\ h_informed_off h' = h_informed_off h /\
  h_grow h' = h_grow h /\ h_last_ended h' = h_last_ended h /\ h_last_started h' = h_last_started h /\
  (snd r = None -> h_informed h' = h_informed h + length inds /\ (forall k, In k inds -> k < length (h_rows h))) /\
  (snd r = None -> forall k, In k inds -> is_set h k F_sim_ended ->
       cell (h_rows h') k F_gen_informed = Some (vbool true)) /\
  (forall k, ~ In k inds \/ ~ is_set h k F_sim_ended ->
     cell (h_rows h') k F_gen_informed = cell (h_rows h) k F_gen_informed) /\
  (forall k f, ~ In k inds \/ (f <> F_gen_informed /\ f <> F_gen_informed_time) ->
     cell (h_rows h') k f = cell (h_rows h) k f) /\
  (forall k, cell (h_rows h) k F_gen_informed = Some (vbool true) -> cell (h_rows h') k F_gen_informed = Some (vbool true)).
Proof.
  cbn zeta. unfold update_history_to_gen.
  destruct inds as [|i0 inds0] eqn:Einds.
  { cbn. repeat split; auto; tauto. }
  rewrite <- Einds. assert (Hne : inds = inds) by auto. clear Hne.
  set (L := inds) in *. 
  destruct (forallb (fun i => i <? length (h_rows h)) L) eqn:E; cbn [negb].
  2:{ cbn. repeat split; auto; discriminate. }
  assert (Hlt : forall k, In k L -> k < length (h_rows h)).
  { intros k Hk. rewrite forallb_forall in E. specialize (E k Hk). now apply Nat.ltb_lt. }
  set (ended := fun i => match nth_error (h_rows h) i with Some r => flag F_sim_ended r | None => false end).
  assert (Hended : forall k, ended k = true <-> is_set h k F_sim_ended).
  { intros k. unfold ended, is_set, cell. destruct (nth_error (h_rows h) k); simpl.
    - unfold flag. split; [eauto|]. intros (v & Hv & ?). inversion Hv; subst; auto.
    - split; [discriminate|]. intros (v & ? & ?); discriminate. }
  set (marked := if forallb ended L then L else if existsb ended L then filter ended L else []).
  assert (Hmk : forall k, In k marked <-> In k L /\ is_set h k F_sim_ended).
  { intros k. rewrite <- Hended. unfold marked. destruct (forallb ended L) eqn:E1.
    - rewrite forallb_forall in E1. split; [auto|tauto].
    - destruct (existsb ended L) eqn:E2.
      + apply filter_In.
      + split; [contradiction|]. intros [H1 H2].
        assert (existsb ended L = true); [|congruence]. apply existsb_exists. eauto. }
  clearbody marked.
  set (rs1 := fold_left (fun rs i => upd rs i (setf F_gen_informed (vbool true))) marked (h_rows h)).
  set (rs2 := fold_left (fun rs i => upd rs i (setf F_gen_informed_time (vint t))) L rs1).
  assert (Hl : length rs2 = length (h_rows h)) by (unfold rs2, rs1; now rewrite !fold_upd_length).
  assert (C1 : forall k, cell rs2 k F_gen_informed = cell rs1 k F_gen_informed).
  { intros k. unfold rs2. apply fold_upd_cell_keep. reflexivity. }
  assert (C2 : forall k, In k marked -> cell rs1 k F_gen_informed = Some (vbool true)).
  { intros k Hk. unfold rs1. apply fold_upd_cell_set; auto. apply Hlt. now apply Hmk. }
  cbn [fst snd set_counts set_rows with_rows set_last h_rows h_index h_safe
     h_dtype h_ended h_informed h_started_off h_ended_off h_informed_off h_grow h_last_ended h_started h_last_started].
  repeat match goal with |- _ /\ _ => split end; auto.
  - intros _ k Hk Hs. rewrite C1. apply C2. now apply Hmk.
  - intros k Hk. rewrite C1. unfold rs1. apply fold_upd_cell_out. rewrite Hmk. tauto.
  - intros k f [Hk|[H1 H2]].
    + unfold rs2, rs1. rewrite !fold_upd_cell_out; auto. rewrite Hmk. tauto.
    + unfold rs2, rs1. rewrite !fold_upd_cell_keep; auto; intros; apply setf_other; congruence.
  - intros k Hk. rewrite C1. destruct (in_dec Nat.eq_dec k marked); auto.
    unfold rs1. rewrite fold_upd_cell_out; auto.
Qed.

(** ** x_in: what it can never change, whatever the outcome *)
Lemma fold_upd_cell_setc f v is rs k g :
  cell (fold_left (fun rs i => upd rs i (setf f v)) is rs) k g =
  if feqb f g && memb k is && Nat.ltb k (length rs) then Some (cast f v) else cell rs k g.
Proof.
  destruct (feqb_spec f g); cbn [andb].
  - subst g. destruct (memb k is) eqn:E; cbn [andb].
    + apply memb_In in E. destruct (Nat.ltb_spec k (length rs)).
      * apply fold_upd_cell_set; auto. intros; now rewrite setf_same.
      * rewrite !cell_None; auto. now rewrite fold_upd_length.
    + apply memb_false in E. now apply fold_upd_cell_out.
  - apply fold_upd_cell_keep. intros. now apply setf_other.
Qed.

Lemma kill_frame h :
  let r := fst (kill_pass h) in let h' := fst r in
  length (h_rows h') = length (h_rows h) /\ h_index h' = h_index h /\ h_safe h' = h_safe h /\
  h_dtype h' = h_dtype h /\ h_ended h' = h_ended h /\ h_started h' = h_started h /\ h_informed h' = h_informed h /\
  h_started_off h' = h_started_off h /\ h_ended_off h' = h_ended_off h /\ h_informed_off h' = h_informed_off h /\
  h_grow h' = h_grow h /\ h_last_ended h' = h_last_ended h /\ h_last_started h' = h_last_started h /\
  (forall k f, f <> F_kill_sent -> cell (h_rows h') k f = cell (h_rows h) k f) /\
  (forall k, cell (h_rows h') k F_kill_sent = cell (h_rows h) k F_kill_sent \/
             cell (h_rows h') k F_kill_sent = Some (vbool true)).
Proof.
  cbn zeta. unfold kill_pass. destruct (negb _); [cbn; repeat split; auto|].
  destruct (kill_rows h); [cbn; repeat split; auto|].
  destruct (norm_idxs _ _); cbn [fst]; [|repeat split; auto].
  cbn [set_rows with_rows h_rows h_index h_safe h_dtype h_ended h_started h_informed h_started_off h_ended_off
       h_informed_off h_grow h_last_ended h_last_started].
  rewrite fold_upd_length. repeat split; auto.
  - intros k f Hf. rewrite fold_upd_cell_setc. rewrite (feqb_neq F_kill_sent f) by congruence. reflexivity.
  - intros k. rewrite fold_upd_cell_setc. destruct (_ && _); auto.
Qed.

Lemma x_in_fields_protected inds D ps h :
  let h' := fst (foldx (x_in_field inds D) ps h) in
  forall k g, protected g = true -> h_safe h = true \/ ~ In g (names ps) ->
    cell (h_rows h') k g = cell (h_rows h) k g.
Proof.
  revert h; induction ps as [|[f sh] ps]; intros h; cbn [foldx]; [auto|].
  cbn zeta. intros k g Hp Hs.
  assert (H1 : cell (h_rows (fst (x_in_field inds D (f, sh) h))) k g = cell (h_rows h) k g /\
               h_safe (fst (x_in_field inds D (f, sh) h)) = h_safe h).
  { unfold x_in_field. destruct (h_safe h && protected f) eqn:Es; auto. destruct (negb _); auto.
    destruct (norm_idxs _ _); auto. cbn. split; auto. rewrite cell_write_col.
    destruct (last_for _ _ _); auto. destruct (feqb_spec f g); simpl; auto. subst.
    destruct Hs as [Hs|Hs]; [rewrite Hs, Hp in Es; discriminate|]. elim Hs. left; auto. }
  destruct (x_in_field inds D (f, sh) h) as [h1 [e|]]; cbn [bindx fst] in *; [tauto|].
  destruct H1 as [H1 H2]. rewrite IHps; auto. destruct Hs as [Hs|Hs].
  - left; congruence.
  - right. intro; apply Hs. right; auto.
Qed.

Lemma number_rows_protected inds rs k f : protected f = true -> cell (number_rows inds rs) k f = cell rs k f.
Proof.
  intros. rewrite number_rows_cell. rewrite feqb_neq by (intros <-; discriminate).
  now rewrite andb_false_r.
Qed.

Lemma finish_protected gw D gs t n inds h :
  let r := x_in_finish gw D gs t n inds h in
  (forall k g, protected g = true -> h_safe h = true \/ ~ In g (names (a_dtype D)) ->
    (stampf g = false \/ snd r <> None) -> cell (h_rows (fst r)) k g = cell (h_rows h) k g) /\
  length (h_rows (fst r)) = length (h_rows h) /\ h_safe (fst r) = h_safe h /\
  h_dtype (fst r) = h_dtype h.
Proof.
  cbn zeta. unfold x_in_finish.
  pose proof (x_in_fields_protected inds D (a_dtype D) h) as P.
  pose proof (x_in_fields_frame inds D (a_dtype D) h) as F. cbn zeta in P, F.
  destruct (foldx _ _ h) as [h1 [e|]]; cbn [bindx fst snd] in *.
  - split; [auto|]. tauto.
  - destruct (norm_idxs _ _); cbn [fst snd].
    + split.
      * intros k g Hp Hs [Hst|Hst]; [|elim Hst; auto]. cbn. rewrite fold_upd_cell_keep by (intros; now apply stamp_keep').
        auto.
      * cbn. rewrite fold_upd_length. tauto.
    + split; [auto|]. tauto.
Qed.

Lemma x_in_protected gw D gs t h :
  let r := update_history_x_in gw D gs t h in
  (forall k g, k < length (h_rows h) -> column h g -> protected g = true ->
     h_safe h = true \/ ~ In g (names (a_dtype D)) ->
     (stampf g = false \/ snd r <> None) -> cell (h_rows (fst r)) k g = cell (h_rows h) k g) /\
  length (h_rows h) <= length (h_rows (fst r)) /\ h_safe (fst r) = h_safe h /\
  (forall f, column h f -> column (fst r) f).
Proof.
  cbn zeta. unfold update_history_x_in. destruct (Nat.eqb _ 0); [cbn; repeat split; auto|].
  set (he := ensure_fields h (a_dtype D)).
  assert (Hcol : forall f, column h f -> column he f) by (intros; now apply ensure_column).
  assert (Hcell : forall k f, column h f -> cell (h_rows he) k f = cell (h_rows h) k f)
    by (intros; now apply ensure_cell).
  assert (Hlen : length (h_rows he) = length (h_rows h)) by apply ensure_len.
  assert (Hsafe : h_safe he = h_safe h) by apply ensure_safe.
  destruct (negb (has _ _)).
  - set (n := length (a_rows D)). set (h1 := make_room he n).
    set (h2 := set_rows h1 _).
    pose proof (finish_protected gw D gs t n (map Z.of_nat (seq (h_index h1) n)) h2) as F.
    cbn zeta in F. destruct F as (F1 & F2 & F3 & F4).
    assert (L2 : length (h_rows h2) = length (h_rows h1)) by (unfold h2; cbn; apply number_rows_length).
    assert (S2 : h_safe h2 = h_safe h) by (unfold h2, h1; cbn; rewrite make_room_safe; auto).
    pose proof (make_room_le he n). fold h1 in H.
    split; [|split; [|split]].
    + intros k g Hk Hc Hp Hs Hst. rewrite F1; auto; [|rewrite S2; auto].
      unfold h2; cbn. rewrite number_rows_protected by auto. unfold h1. rewrite make_room_cell_old by lia. auto.
    + lia.
    + congruence.
    + intros f Hf. unfold column. rewrite F4. unfold h2, h1; cbn. rewrite make_room_dtype. now apply Hcol.
  - destruct (negb (no_gap _ _)).
    + cbn. repeat split; auto. lia.
    + set (ids := map sid (a_rows D)). set (n := count_new ids (h_rows he)). set (h1 := make_room he n).
      pose proof (finish_protected gw D gs t n ids h1) as F. cbn zeta in F. destruct F as (F1 & F2 & F3 & F4).
      assert (S1 : h_safe h1 = h_safe h) by (unfold h1; rewrite make_room_safe; auto).
      pose proof (make_room_le he n). fold h1 in H.
      split; [|split; [|split]].
      * intros k g Hk Hc Hp Hs Hst. rewrite F1; auto; [|rewrite S1; auto].
        unfold h1. rewrite make_room_cell_old by lia. auto.
      * lia.
      * congruence.
      * intros f Hf. unfold column. rewrite F4. unfold h1; cbn. rewrite make_room_dtype. now apply Hcol.
Qed.

Lemma finish_err gw D gs t n inds h f :
  h_safe h = true -> In f (names (a_dtype D)) -> protected f = true ->
  snd (x_in_finish gw D gs t n inds h) <> None.
Proof.
  intros Hs Hf Hp. unfold x_in_finish.
  destruct (foldx (x_in_field inds D) (a_dtype D) h) as [h1 [e|]] eqn:E; cbn; [discriminate|].
  pose proof (x_in_fields_safe _ _ _ _ _ Hs E f Hf). congruence.
Qed.

Lemma x_in_safe_raises gw D gs t h :
  h_safe h = true -> 0 < length (a_rows D) -> touches_protected D ->
  snd (update_history_x_in gw D gs t h) <> None.
Proof.
  intros Hs Hn (f & Hf & Hp). unfold update_history_x_in.
  destruct (Nat.eqb_spec (length (a_rows D)) 0); try lia.
  destruct (negb (has _ _)).
  - eapply finish_err; eauto. cbn. rewrite make_room_safe, ensure_safe. auto.
  - destruct (negb (no_gap _ _)); [discriminate|].
    eapply finish_err; eauto. rewrite make_room_safe, ensure_safe. auto.
Qed.

Lemma f_fields_safe ind r ps h f :
  h_safe h = true -> In f (names ps) -> protected f = true ->
  snd (foldx (f_field ind r) ps h) <> None.
Proof.
  revert h; induction ps as [|[g sh] ps]; intros h Hs Hin Hp; [contradiction|].
  cbn [foldx].
  destruct (f_field ind r (g, sh) h) as [h1 [e|]] eqn:E; cbn; [discriminate|].
  pose proof (f_field_frame ind r (g, sh) h) as F. cbn zeta in F. rewrite E in F. cbn [fst] in F.
  destruct Hin as [Hin|Hin].
  - cbn in Hin; subst g. unfold f_field in E. cbn in E. rewrite Hs, Hp in E. discriminate.
  - apply IHps; auto. destruct F as (?&?&?&F&?). congruence.
Qed.

Lemma f_safe_raises inds A kill t h :
  h_safe h = true -> inds <> [] -> touches_protected A ->
  snd (update_history_f inds (Some A) kill t h) <> None.
Proof.
  intros Hs Hne (f & Hf & Hp). unfold update_history_f.
  destruct inds as [|i inds]; [congruence|]. cbn [length seq combine foldx].
  set (he := ensure_fields h (a_dtype A)). assert (Hse : h_safe he = true) by (unfold he; now rewrite ensure_safe).
  assert (X : exists h1 e, f_row (Some A) t (0, i) he = (h1, Some e)).
  { unfold f_row, f_write. destruct (nth_error (a_rows A) 0).
    - pose proof (f_fields_safe i r (a_dtype A) he f Hse Hf Hp).
      destruct (foldx _ _ _) as [h1 [e|]]; cbn in *; [eauto|congruence].
    - destruct (a_dtype A) as [|[g sh]]; [contradiction|]. cbn. eauto. }
  destruct X as (h1 & e & ->). cbn. discriminate.
Qed.

(** ** Run-level monotonicity *)


Lemma clean_names h A f : clean h A -> protected f = true -> h_safe h = true \/ ~ In f (names (a_dtype A)).
Proof. intros [H|H] Hp; auto. right. intros Hf. apply H. exists f; auto. Qed.
Lemma ret_clean_names h ret f : ret_clean h ret -> protected f = true -> h_safe h = true \/ ~ In f (ret_names ret).
Proof. destruct ret; simpl; auto using clean_names. Qed.

Lemma hstep_mono o h k f :
  op_clean h o -> column h f -> status f = true ->
  cell (h_rows h) k f = Some (vbool true) ->
  cell (h_rows (fst (hstep o h))) k f = Some (vbool true).
Proof.
  intros Hcl Hc Hst Hv.
  assert (Hp : protected f = true) by (destruct f; auto; discriminate).
  destruct o; cbn [hstep op_clean] in *.
  - destruct (x_in_protected gw D gs t h) as (X & _). rewrite X; auto.
    + eapply cell_Some_lt; eauto.
    + now apply clean_names.
    + left. destruct f; auto; discriminate.
  - pose proof (hf_frame inds ret kill t h) as F. cbn zeta in F.
    destruct F as (_&_&_&_&_&_&_&_&_&_&_&_&_&_&F1&F2&_).
    destruct (field_eq_dec f F_sim_ended).
    + subst. apply F2; auto. now apply ret_clean_names.
    + rewrite F1; auto. * now apply ret_clean_names. * intros ->; discriminate.
  - pose proof (x_out_frame inds w kill t h) as F. cbn zeta in F.
    destruct F as (_&_&_&_&_&_&_&_&_&_&_&_&F1&F2).
    destruct (field_eq_dec f F_sim_started).
    + subst; auto.
    + rewrite F1; auto. right. repeat split; auto; intros ->; discriminate.
  - pose proof (to_gen_frame inds t h) as F. cbn zeta in F.
    destruct F as (_&_&_&_&_&_&_&_&_&_&_&_&_&_&_&F1&F2).
    destruct (field_eq_dec f F_gen_informed).
    + subst; auto.
    + rewrite F1; auto. right. repeat split; auto; intros ->; discriminate.
  - pose proof (kill_frame h) as F. cbn zeta in F.
    destruct F as (K1&K2&K3&K4&K5&K6&K7&K8&K9&K10&K11&K12&K13&K14&K15).
    destruct (field_eq_dec f F_kill_sent).
    + subst. destruct (K15 k) as [E|E]; rewrite E; auto.
    + rewrite K14; auto.
Qed.

Lemma hstep_safe o h : h_safe (fst (hstep o h)) = h_safe h.
Proof.
  destruct o; cbn [hstep].
  - apply x_in_protected.
  - apply hf_frame.
  - apply x_out_frame.
  - apply to_gen_frame.
  - apply kill_frame.
Qed.
Lemma hstep_column o h f : column h f -> column (fst (hstep o h)) f.
Proof.
  intros Hc. destruct o; cbn [hstep].
  - destruct (x_in_protected gw D gs t h) as (_&_&_&X). auto.
  - pose proof (hf_frame inds ret kill t h) as F. cbn zeta in F. decompose [and] F. auto.
  - pose proof (x_out_frame inds w kill t h) as F. cbn zeta in F. decompose [and] F. unfold column in *. congruence.
  - pose proof (to_gen_frame inds t h) as F. cbn zeta in F. decompose [and] F. unfold column in *. congruence.
  - pose proof (kill_frame h) as F. cbn zeta in F.
    destruct F as (K1&K2&K3&K4&K5&K6&K7&K8&K9&K10&K11&K12&K13&K14&K15).
    unfold column in *. now rewrite K4.
Qed.
Lemma hstep_len o h : length (h_rows h) <= length (h_rows (fst (hstep o h))).
Proof.
  destruct o; cbn [hstep].
  - apply x_in_protected.
  - pose proof (hf_frame inds ret kill t h) as F. cbn zeta in F. decompose [and] F. lia.
  - pose proof (x_out_frame inds w kill t h) as F. cbn zeta in F. decompose [and] F. lia.
  - pose proof (to_gen_frame inds t h) as F. cbn zeta in F. decompose [and] F. lia.
  - pose proof (kill_frame h) as F. cbn zeta in F.
    destruct F as (K1&K2&K3&K4&K5&K6&K7&K8&K9&K10&K11&K12&K13&K14&K15).
    lia.
Qed.

Lemma hrun_mono os h k f :
  h_safe h = true -> column h f -> status f = true ->
  cell (h_rows h) k f = Some (vbool true) ->
  cell (h_rows (fst (hrun os h))) k f = Some (vbool true).
Proof.
  intros Hs Hc Hst Hv. unfold hrun.
  pose (P := fun s => h_safe s = true /\ column s f /\ cell (h_rows s) k f = Some (vbool true)).
  assert (P (fst (foldx hstep os h))); [|unfold P in *; tauto].
  apply foldx_inv; [|unfold P; auto]. intros o s _ (P1 & P2 & P3). unfold P.
  rewrite hstep_safe. repeat split; auto using hstep_column.
  apply hstep_mono; auto. destruct o; cbn; auto; [now left|]. destruct ret; cbn; auto. now left.
Qed.
