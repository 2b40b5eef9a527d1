From Coq Require Import String.
From Verif Require Import Base BaseLemmas HistoryModel HistorySpec.
Local Notation length := List.length.
Arguments has : simpl never.
Arguments feqb : simpl never.

Lemma feqb_spec f g : reflect (f = g) (feqb f g).
Proof. unfold feqb. destruct (field_eq_dec f g); constructor; auto. Qed.
Lemma feqb_refl f : feqb f f = true.
Proof. destruct (feqb_spec f f); congruence. Qed.
Lemma feqb_neq f g : f <> g -> feqb f g = false.
Proof. destruct (feqb_spec f g); congruence. Qed.

Lemma feqb_sym f g : feqb f g = feqb g f.
Proof. destruct (feqb_spec f g), (feqb_spec g f); congruence. Qed.

Lemma has_In f l : has f l = true <-> In f l.
Proof.
  unfold has. rewrite existsb_exists. split.
  - intros (x & ? & E). destruct (feqb_spec f x); subst; auto; discriminate.
  - intros; exists f; split; auto using feqb_refl.
Qed.
Lemma has_cons g f l : has g (f :: l) = feqb g f || has g l.
Proof. reflexivity. Qed.
Lemma has_false f l : has f l = false <-> ~ In f l.
Proof. rewrite <- has_In. destruct (has f l); split; congruence. Qed.

Lemma vint_inj a b : vint a = vint b -> a = b.
Proof. unfold vint; congruence. Qed.

Lemma cell_upd rs i g k f :
  cell (upd rs i g) k f =
  if Nat.eqb i k then option_map (fun r => g r f) (nth_error rs k) else cell rs k f.
Proof.
  unfold cell. rewrite upd_nth. destruct (Nat.eqb i k); auto. destruct (nth_error rs k); auto.
Qed.

Lemma cell_Some_lt rs k f v : cell rs k f = Some v -> k < length rs.
Proof. unfold cell. intros. apply nth_error_Some. destruct (nth_error rs k); [congruence|discriminate]. Qed.
Lemma cell_lt rs k f : k < length rs -> exists v, cell rs k f = Some v.
Proof.
  intros. unfold cell. destruct (nth_error rs k) eqn:E; simpl; eauto.
  apply nth_error_None in E; lia.
Qed.
Lemma cell_None rs k f : length rs <= k -> cell rs k f = None.
Proof. intros. unfold cell. apply nth_error_None in H. rewrite H. auto. Qed.

Lemma cell_upd_setf rs i g v k f :
  cell (upd rs i (setf g v)) k f =
  if Nat.eqb i k && feqb g f && Nat.ltb k (length rs) then Some (cast g v) else cell rs k f.
Proof.
  rewrite cell_upd. destruct (Nat.eqb_spec i k); simpl; auto. subst.
  unfold cell, setf. destruct (nth_error rs k) eqn:E; simpl.
  - assert (k < length rs) by (apply nth_error_Some; congruence).
    destruct (Nat.ltb_spec k (length rs)); try lia. destruct (feqb g f); auto.
  - apply nth_error_None in E. destruct (Nat.ltb_spec k (length rs)); try lia. now rewrite andb_false_r.
Qed.

Lemma cell_app_l rs rs2 k f : k < length rs -> cell (rs ++ rs2) k f = cell rs k f.
Proof. intros; unfold cell. now rewrite nth_error_app1. Qed.
Lemma cell_app_r rs rs2 k f : length rs <= k -> cell (rs ++ rs2) k f = cell rs2 (k - length rs) f.
Proof. intros; unfold cell. now rewrite nth_error_app2. Qed.
Lemma cell_repeat r n k f : k < n -> cell (repeat r n) k f = Some (r f).
Proof.
  intros. unfold cell. rewrite nth_error_repeat; auto.
Qed.

(** ** write_col *)
Lemma write_col_length f is D rs : length (write_col f is D rs) = length rs.
Proof.
  revert D rs; induction is; destruct D; simpl; intros; auto. rewrite IHis. apply upd_length.
Qed.

Lemma cell_write_col f is D rs k g :
  cell (write_col f is D rs) k g =
  match last_for is D k with
  | Some d => if feqb f g && Nat.ltb k (length rs) then Some (cast f (d f)) else cell rs k g
  | None => cell rs k g
  end.
Proof.
  revert D rs; induction is; destruct D; simpl; intros; auto.
  rewrite IHis. rewrite upd_length.
  destruct (last_for is D k).
  - destruct (feqb f g) eqn:E1; simpl; [destruct (Nat.ltb_spec k (length rs)); simpl; auto|];
    rewrite cell_upd_setf; rewrite ?E1, ?andb_false_r; auto.
    destruct (Nat.ltb_spec k (length rs)); try lia. now rewrite andb_false_r.
  - rewrite cell_upd_setf. destruct (Nat.eqb_spec a k); simpl; auto.
Qed.

Lemma last_for_In is D k d : last_for is D k = Some d -> In k is /\ In d D.
Proof.
  revert D; induction is; destruct D; simpl; intros; try discriminate.
  destruct (last_for is D k) eqn:E.
  - inversion H; subst. destruct (IHis _ E); auto.
  - destruct (Nat.eqb_spec a k); inversion H; subst; auto.
Qed.

Lemma last_for_None is D k : length is = length D -> last_for is D k = None -> ~ In k is.
Proof.
  revert D; induction is; destruct D; simpl; intros; try lia; auto.
  destruct (last_for is D k) eqn:E; try discriminate.
  destruct (Nat.eqb_spec a k); try discriminate.
  intros [?|?]; auto. eapply IHis; eauto.
Qed.

Lemma last_for_Some is D k : length is = length D -> In k is -> exists d, last_for is D k = Some d.
Proof.
  intros. destruct (last_for is D k) eqn:E; eauto. exfalso. eapply last_for_None; eauto.
Qed.

(** ** fold of identical row updates *)
Lemma fold_upd_length (g : row -> row) is rs :
  length (fold_left (fun rs i => upd rs i g) is rs) = length rs.
Proof. revert rs; induction is; simpl; intros; auto. rewrite IHis. apply upd_length. Qed.

Lemma fold_upd_nth_out (g : row -> row) is rs k :
  ~ In k is -> nth_error (fold_left (fun rs i => upd rs i g) is rs) k = nth_error rs k.
Proof.
  revert rs; induction is; simpl; intros; auto. rewrite IHis by tauto. rewrite upd_nth_other; auto.
Qed.

(** a relation that g establishes and keeps *)
Lemma fold_upd_nth_in (g : row -> row) (P : row -> row -> Prop) is rs k r :
  (forall r, P r (g r)) -> (forall r r', P r r' -> P r (g r')) ->
  In k is -> nth_error rs k = Some r ->
  exists r', nth_error (fold_left (fun rs i => upd rs i g) is rs) k = Some r' /\ P r r'.
Proof.
  intros Hg Hk.
  assert (Hrefl : forall is rs r0 r, P r0 r -> nth_error rs k = Some r ->
    exists r', nth_error (fold_left (fun rs i => upd rs i g) is rs) k = Some r' /\ P r0 r').
  { clear is rs r. induction is; simpl; intros; eauto.
    destruct (Nat.eq_dec a k).
    - subst. apply IHis with (r := g r); auto. now apply upd_nth_same.
    - apply IHis with (r := r); auto. rewrite upd_nth_other; auto. }
  revert rs r; induction is; simpl; intros rs r Hin Hn; [tauto|].
  destruct (Nat.eq_dec a k).
  - subst. apply Hrefl with (r := g r); auto. now apply upd_nth_same.
  - destruct Hin; try congruence. apply IHis; auto. rewrite upd_nth_other; auto.
Qed.

(** row updates that keep column f *)
Lemma fold_upd_cell_keep (g : row -> row) is rs k f :
  (forall r, g r f = r f) -> cell (fold_left (fun rs i => upd rs i g) is rs) k f = cell rs k f.
Proof.
  intros Hg. revert rs; induction is; simpl; intros; auto. rewrite IHis, cell_upd.
  destruct (Nat.eqb a k); auto. unfold cell. destruct (nth_error rs k); simpl; auto. now rewrite Hg.
Qed.

Lemma fold_upd_cell_out (g : row -> row) is rs k f :
  ~ In k is -> cell (fold_left (fun rs i => upd rs i g) is rs) k f = cell rs k f.
Proof. intros; unfold cell. now rewrite fold_upd_nth_out. Qed.

(** row updates that set column f to v *)
Lemma fold_upd_cell_set (g : row -> row) is rs k f v :
  (forall r, g r f = v) -> In k is -> k < length rs ->
  cell (fold_left (fun rs i => upd rs i g) is rs) k f = Some v.
Proof.
  intros Hg Hin Hk. destruct (nth_error rs k) eqn:E.
  - destruct (fold_upd_nth_in g (fun _ r' => r' f = v) is rs k r) as (r' & E' & Hr'); auto.
    unfold cell. rewrite E'. simpl. congruence.
  - apply nth_error_None in E. lia.
Qed.

(** ** growth *)
Lemma make_room_index h n : h_index (make_room h n) = h_index h.
Proof. unfold make_room. destruct (_ <? _); auto. Qed.
Lemma make_room_dtype h n : h_dtype (make_room h n) = h_dtype h.
Proof. unfold make_room. destruct (_ <? _); auto. Qed.
Lemma make_room_safe h n : h_safe (make_room h n) = h_safe h.
Proof. unfold make_room. destruct (_ <? _); auto. Qed.

Lemma make_room_rows h n :
  h_index h <= length (h_rows h) ->
  exists k, h_rows (make_room h n) = h_rows h ++ repeat (blank_row (h_dtype h)) k /\
            h_index h + n <= length (h_rows (make_room h n)).
Proof.
  intros Hi. unfold make_room. destruct (Nat.ltb_spec (length (h_rows h) - h_index h) n).
  - eexists. split; [reflexivity|]. simpl. rewrite app_length, repeat_length. lia.
  - exists 0. simpl. rewrite app_nil_r. split; auto. lia.
Qed.

Lemma make_room_le h n : length (h_rows h) <= length (h_rows (make_room h n)).
Proof.
  unfold make_room. destruct (_ <? _); auto. simpl. rewrite app_length. lia.
Qed.

Lemma make_room_cell_old h n k f :
  k < length (h_rows h) -> cell (h_rows (make_room h n)) k f = cell (h_rows h) k f.
Proof.
  intros. unfold make_room. destruct (_ <? _); auto. simpl. now apply cell_app_l.
Qed.

Lemma make_room_cell_new h n k f :
  length (h_rows h) <= k < length (h_rows (make_room h n)) ->
  cell (h_rows (make_room h n)) k f = Some (blank_row (h_dtype h) f).
Proof.
  unfold make_room. destruct (_ <? _); simpl; intros.
  - rewrite app_length, repeat_length in H. rewrite cell_app_r by lia. apply cell_repeat. lia.
  - lia.
Qed.

(** ** ensure_fields *)
Lemma names_app a b : names (a ++ b) = names a ++ names b.
Proof. unfold names. apply map_app. Qed.
Lemma ensure_index h d : h_index (ensure_fields h d) = h_index h.
Proof. unfold ensure_fields. destruct (existsb _ _); auto. Qed.
Lemma ensure_safe h d : h_safe (ensure_fields h d) = h_safe h.
Proof. unfold ensure_fields. destruct (existsb _ _); auto. Qed.
Lemma ensure_len h d : length (h_rows (ensure_fields h d)) = length (h_rows h).
Proof. unfold ensure_fields. destruct (existsb _ _); simpl; auto. apply map_length. Qed.
Lemma ensure_column h d f : column h f -> column (ensure_fields h d) f.
Proof.
  unfold ensure_fields, column, names. destruct (existsb _ _); simpl; auto.
  intros. rewrite map_app. apply in_or_app; auto.
Qed.
Lemma ensure_cell h d k f : column h f -> cell (h_rows (ensure_fields h d)) k f = cell (h_rows h) k f.
Proof.
  unfold column. intros Hc. unfold ensure_fields. destruct (existsb _ _); auto. simpl.
  unfold cell. rewrite nth_error_map. destruct (nth_error (h_rows h) k) eqn:E; unfold row in *; rewrite E; simpl; auto.
  apply has_In in Hc. now rewrite Hc.
Qed.
Lemma ensure_new_column h d f : In f (names d) -> column (ensure_fields h d) f.
Proof.
  unfold ensure_fields, column. intros Hin. destruct (existsb _ _) eqn:E.
  - simpl. rewrite names_app. apply in_or_app.
    destruct (has f (names (h_dtype h))) eqn:Eh.
    + left. now apply has_In.
    + right. unfold names in Hin. apply in_map_iff in Hin. destruct Hin as ((f', sh) & Hf & ?). cbn in Hf; subst.
      unfold names at 1. apply in_map_iff. exists (f, sh). split; auto. apply filter_In. split; auto. cbn [fst]. now rewrite Eh.
  - destruct (has f (names (h_dtype h))) eqn:Eh; [now apply has_In|].
    assert (existsb (fun f => negb (has f (names (h_dtype h)))) (names d) = true); [|congruence].
    apply existsb_exists. exists f. split; auto. now rewrite Eh.
Qed.

(** ** norm_idxs *)
Lemma norm_idxs_nonneg n l :
  (forall z, In z l -> (0 <= z < Z.of_nat n)%Z) -> norm_idxs n l = Some (map Z.to_nat l).
Proof.
  induction l; simpl; intros; auto.
  rewrite IHl by auto. unfold norm_idx. pose proof (H a (or_introl eq_refl)).
  destruct (Z.leb_spec 0 a); try lia. destruct (Z.ltb_spec a (Z.of_nat n)); try lia. auto.
Qed.

Lemma norm_idxs_length n l is : norm_idxs n l = Some is -> length is = length l.
Proof.
  revert is; induction l; simpl; intros.
  - inversion H; auto.
  - destruct (norm_idx n a); try discriminate. destruct (norm_idxs n l) eqn:E; try discriminate.
    inversion H; subst. simpl. f_equal. now apply IHl.
Qed.

Lemma norm_idxs_lt n l is : norm_idxs n l = Some is -> forall i, In i is -> i < n.
Proof.
  revert is; induction l; simpl; intros.
  - inversion H; subst. contradiction.
  - destruct (norm_idx n a) eqn:E1; try discriminate. destruct (norm_idxs n l) eqn:E; try discriminate.
    inversion H; subst. destruct H0; subst; eauto.
    unfold norm_idx in E1. destruct (Z.leb_spec 0 a).
    + destruct (Z.ltb_spec a (Z.of_nat n)); inversion E1; subst; lia.
    + destruct (Z.leb_spec 0 (a + Z.of_nat n)); inversion E1; subst. lia.
Qed.

Lemma map_to_of_nat l : map Z.to_nat (map Z.of_nat l) = l.
Proof. induction l; simpl; auto. now rewrite Nat2Z.id, IHl. Qed.

(** ** the column loop of x_in *)
Lemma x_in_fields_frame inds D ps h :
  let h' := fst (foldx (x_in_field inds D) ps h) in
  length (h_rows h') = length (h_rows h) /\ h_index h' = h_index h /\ h_dtype h' = h_dtype h /\
  h_safe h' = h_safe h /\ h_started h' = h_started h /\ h_ended h' = h_ended h /\ h_informed h' = h_informed h /\
  h_last_started h' = h_last_started h /\ h_last_ended h' = h_last_ended h /\
  h_started_off h' = h_started_off h /\ h_ended_off h' = h_ended_off h /\ h_informed_off h' = h_informed_off h /\
  h_grow h' = h_grow h.
Proof.
  apply (foldx_inv (x_in_field inds D) (fun h' =>
    length (h_rows h') = length (h_rows h) /\ h_index h' = h_index h /\ h_dtype h' = h_dtype h /\
  h_safe h' = h_safe h /\ h_started h' = h_started h /\ h_ended h' = h_ended h /\ h_informed h' = h_informed h /\
  h_last_started h' = h_last_started h /\ h_last_ended h' = h_last_ended h /\
  h_started_off h' = h_started_off h /\ h_ended_off h' = h_ended_off h /\ h_informed_off h' = h_informed_off h /\
  h_grow h' = h_grow h)); [|repeat split; auto].
  intros [f sh] s _ Hs. unfold x_in_field.
  destruct (h_safe s && protected f); auto. destruct (negb _); auto.
  destruct (norm_idxs _ _); auto. cbn. rewrite write_col_length. auto.
Qed.

Lemma x_in_fields_cell inds D ps h h' is :
  norm_idxs (length (h_rows h)) inds = Some is ->
  foldx (x_in_field inds D) ps h = (h', None) ->
  forall k g, cell (h_rows h') k g =
    match last_for is (a_rows D) k with
    | Some d => if has g (names ps) && Nat.ltb k (length (h_rows h)) then Some (cast g (d g)) else cell (h_rows h) k g
    | None => cell (h_rows h) k g
    end.
Proof.
  intros Hn. revert h h' Hn. induction ps as [|[f sh] ps]; intros h h' Hn Hf k g.
  - simpl in Hf. inversion Hf; subst. destruct (last_for _ _ _); auto.
  - cbn [foldx] in Hf. apply bindx_None in Hf. destruct Hf as (s & Hs & Hf).
    unfold x_in_field in Hs. destruct (h_safe h && protected f); try discriminate.
    destruct (negb _); try discriminate. rewrite Hn in Hs. inversion Hs; subst; clear Hs.
    assert (Hl : length (h_rows (set_rows h (write_col f is (a_rows D) (h_rows h)))) = length (h_rows h))
      by (cbn; apply write_col_length).
    specialize (IHps _ h' ltac:(rewrite Hl; exact Hn) Hf k g). rewrite IHps, Hl. cbn [set_rows with_rows h_rows].
    change (names ((f, sh) :: ps)) with (f :: names ps). rewrite has_cons.
    rewrite cell_write_col. destruct (last_for is (a_rows D) k); auto.
    rewrite (feqb_sym f g).
    destruct (has g (names ps)) eqn:E1; destruct (Nat.ltb_spec k (length (h_rows h)));
      destruct (feqb_spec g f); subst; simpl; auto.
Qed.

(** No protected column survives the loop in safe mode. *)
Lemma x_in_fields_safe inds D ps h h' :
  h_safe h = true -> foldx (x_in_field inds D) ps h = (h', None) ->
  forall f, In f (names ps) -> protected f = false.
Proof.
  revert h; induction ps as [|[f sh] ps]; intros h Hsafe Hf g Hin; [contradiction|].
  cbn [foldx] in Hf. apply bindx_None in Hf. destruct Hf as (s & Hs & Hf).
  unfold x_in_field in Hs. rewrite Hsafe in Hs. simpl in Hs. destruct (protected f) eqn:E; try discriminate.
  destruct (negb _); try discriminate. destruct (norm_idxs _ _); try discriminate.
  inversion Hs; subst; clear Hs. destruct Hin as [Hin|Hin]; [cbn in Hin; congruence|].
  eapply IHps; [|exact Hf|exact Hin]. exact Hsafe.
Qed.

(** ** gen stamps *)
Lemma stamp_keep gw gs t r f :
  f <> F_gen_worker -> f <> F_gen_started_time -> f <> F_gen_ended_time ->
  stamp_gen gw gs t r f = r f.
Proof.
  intros. unfold stamp_gen. destruct (r F_gen_ended_time) as [[[]| |]|]; auto.
  unfold setf. rewrite !feqb_neq by congruence. auto.
Qed.

Lemma stamp_done gw gs t r :
  r F_gen_ended_time <> vint 0 -> stamp_gen gw gs t r = r.
Proof.
  intros. unfold stamp_gen. destruct (r F_gen_ended_time) as [[[]| |]|] eqn:E; auto. elim H; auto.
Qed.

Lemma stamp_fresh gw gs t r :
  r F_gen_ended_time = vint 0 ->
  stamp_gen gw gs t r F_gen_worker = vint (Z.of_nat gw) /\
  stamp_gen gw gs t r F_gen_started_time = vint gs /\
  stamp_gen gw gs t r F_gen_ended_time = vint t.
Proof. intros. unfold stamp_gen. rewrite H. cbn. unfold setf. cbn. auto. Qed.

Lemma setf_same f v r : setf f v r f = cast f v.
Proof. unfold setf. now rewrite feqb_refl. Qed.
Lemma setf_other f g v r : f <> g -> setf f v r g = r g.
Proof. intros. unfold setf. now rewrite feqb_neq. Qed.
