(** The effect of adding generated points (update_history_x_in). *)
From Coq Require Import String FinFun.
From Verif Require Import Base BaseLemmas HistoryModel HistorySpec HistoryProofs.
Local Notation length := List.length.


Lemma stamp_keep' gw gs t r f : stampf f = false -> stamp_gen gw gs t r f = r f.
Proof. intros; apply stamp_keep; intros ->; discriminate. Qed.

(** stamping twice is stamping once *)
Lemma fold_stamp_fresh gw gs t is rs k :
  In k is -> cell rs k F_gen_ended_time = Some (vint 0) ->
  let rs' := fold_left (fun rs i => upd rs i (stamp_gen gw gs t)) is rs in
  cell rs' k F_gen_worker = Some (vint (Z.of_nat gw)) /\
  cell rs' k F_gen_started_time = Some (vint gs) /\
  cell rs' k F_gen_ended_time = Some (vint t).
Proof.
  intros Hin Hc. unfold cell in Hc. destruct (nth_error rs k) eqn:E; try discriminate.
  simpl in Hc. inversion Hc as [Hc']; clear Hc.
  destruct (fold_upd_nth_in (stamp_gen gw gs t)
    (fun r r' => r F_gen_ended_time = vint 0 ->
       r' F_gen_worker = vint (Z.of_nat gw) /\ r' F_gen_started_time = vint gs /\ r' F_gen_ended_time = vint t)
    is rs k r) as (r' & E' & Hr'); auto.
  - intros r0 H0. now apply stamp_fresh.
  - intros r0 r1 H1 H0. specialize (H1 H0). destruct H1 as (Ha & Hb & Hc).
    destruct (Z.eq_dec t 0).
    + subst t. apply stamp_fresh. auto.
    + rewrite stamp_done; auto. rewrite Hc. intros X; apply vint_inj in X; congruence.
  - cbn zeta. unfold cell. rewrite E'. simpl. destruct (Hr' Hc') as (-> & -> & ->). auto.
Qed.

Lemma fold_stamp_done gw gs t is rs k v f :
  cell rs k F_gen_ended_time = Some v -> v <> vint 0 ->
  cell (fold_left (fun rs i => upd rs i (stamp_gen gw gs t)) is rs) k f = cell rs k f.
Proof.
  revert rs; induction is; simpl; intros rs Hc Hv; auto.
  assert (Hsame : forall g, cell (upd rs a (stamp_gen gw gs t)) k g = cell rs k g).
  { intros g. rewrite cell_upd. destruct (Nat.eqb_spec a k); auto. unfold cell in *.
    destruct (nth_error rs k); simpl in *; auto. rewrite stamp_done; auto. congruence. }
  rewrite IHis; auto. rewrite Hsame; auto.
Qed.

Record finish_post gw (D : sarr) gs t num_new is (h1 h' : hist) : Prop := {
  fp_index : h_index h' = h_index h1 + num_new;
  fp_len : length (h_rows h') = length (h_rows h1);
  fp_dtype : h_dtype h' = h_dtype h1;
  fp_safe : h_safe h' = h_safe h1;
  fp_counts : h_started h' = h_started h1 /\ h_ended h' = h_ended h1 /\ h_informed h' = h_informed h1;
  fp_offs : h_started_off h' = h_started_off h1 /\ h_ended_off h' = h_ended_off h1 /\
            h_informed_off h' = h_informed_off h1;
  fp_last : h_last_started h' = h_last_started h1 /\ h_last_ended h' = h_last_ended h1;
  fp_out : forall k f, ~ In k is -> cell (h_rows h') k f = cell (h_rows h1) k f;
  fp_in : forall k f, stampf f = false ->
     cell (h_rows h') k f =
     match last_for is (a_rows D) k with
     | Some d => if has f (names (a_dtype D)) then Some (cast f (d f)) else cell (h_rows h1) k f
     | None => cell (h_rows h1) k f end;
  fp_stamp : (forall f, stampf f = true -> ~ In f (names (a_dtype D))) ->
     forall k, In k is ->
       (cell (h_rows h1) k F_gen_ended_time = Some (vint 0) ->
          cell (h_rows h') k F_gen_worker = Some (vint (Z.of_nat gw)) /\
          cell (h_rows h') k F_gen_started_time = Some (vint gs) /\
          cell (h_rows h') k F_gen_ended_time = Some (vint t)) /\
       (forall v, cell (h_rows h1) k F_gen_ended_time = Some v -> v <> vint 0 ->
          forall f, stampf f = true -> cell (h_rows h') k f = cell (h_rows h1) k f)
}.

Lemma finish_ok gw D gs t num_new inds h1 h' is :
  norm_idxs (length (h_rows h1)) inds = Some is ->
  length inds = length (a_rows D) ->
  x_in_finish gw D gs t num_new inds h1 = (h', None) ->
  finish_post gw D gs t num_new is h1 h'.
Proof.
  intros Hn Hlen Hf. unfold x_in_finish in Hf. apply bindx_None in Hf. destruct Hf as (h2 & Hf & Hr).
  pose proof (x_in_fields_frame inds D (a_dtype D) h1) as Fr. rewrite Hf in Fr. cbn zeta in Fr. cbn [fst] in Fr.
  destruct Fr as (Fl & Fi & Fd & Fs & F1 & F2 & F3 & F4 & F5 & F6 & F7 & F8 & F9).
  pose proof (x_in_fields_cell _ _ _ _ _ _ Hn Hf) as Fc.
  rewrite Fl, Hn in Hr. inversion Hr; subst h'; clear Hr.
  pose proof (norm_idxs_length _ _ _ Hn) as Hl.
  pose proof (norm_idxs_lt _ _ _ Hn) as Hlt.
  constructor; cbn [set_index set_rows with_rows h_index h_rows h_dtype h_safe h_started h_ended h_informed
                    h_started_off h_ended_off h_informed_off h_last_started h_last_ended]; auto.
  - now rewrite fold_upd_length.
  - intros k f Hk. rewrite fold_upd_cell_out by auto. rewrite Fc.
    destruct (last_for is (a_rows D) k) eqn:E; auto. apply last_for_In in E. tauto.
  - intros k f Hst. rewrite fold_upd_cell_keep by (intros; now apply stamp_keep').
    rewrite Fc. destruct (last_for is (a_rows D) k) eqn:E; auto.
    apply last_for_In in E. destruct E as [E _]. apply Hlt in E.
    destruct (Nat.ltb_spec k (length (h_rows h1))); try lia. now rewrite andb_true_r.
  - intros Hno k Hk.
    assert (Hc : forall f, stampf f = true -> cell (h_rows h2) k f = cell (h_rows h1) k f).
    { intros f Hst. rewrite Fc. destruct (last_for _ _ _); auto.
      assert (has f (names (a_dtype D)) = false) as -> by (apply has_false; auto). auto. }
    split.
    + intros H0. apply fold_stamp_fresh; auto. rewrite Hc; auto.
    + intros v Hv Hv0 f Hst. erewrite fold_stamp_done; eauto. rewrite Hc; eauto.
Qed.

(** number_rows *)
Lemma number_rows_length inds rs : length (number_rows inds rs) = length rs.
Proof.
  unfold number_rows. revert rs; induction inds; simpl; intros; auto. rewrite IHinds. apply upd_length.
Qed.
Lemma number_rows_cell inds rs k f :
  cell (number_rows inds rs) k f =
  if memb k inds && feqb F_sim_id f && Nat.ltb k (length rs) then Some (vint (Z.of_nat k)) else cell rs k f.
Proof.
  unfold number_rows. revert rs; induction inds; simpl; intros; auto.
  rewrite IHinds, upd_length, cell_upd_setf. unfold memb. cbn [existsb]. fold (memb k inds).
  rewrite (Nat.eqb_sym a k).
  destruct (Nat.eqb_spec k a); destruct (memb k inds); destruct (feqb F_sim_id f);
    destruct (Nat.ltb k (length rs)); simpl; subst; auto.
Qed.

Lemma ids_range_ok index n len :
  index + n <= len -> norm_idxs len (map Z.of_nat (seq index n)) = Some (seq index n).
Proof.
  intros. rewrite norm_idxs_nonneg.
  - now rewrite map_to_of_nat.
  - intros z Hz. apply in_map_iff in Hz. destruct Hz as (k & ? & Hk). apply in_seq in Hk. lia.
Qed.

Lemma last_for_seq a n D k :
  length D = n -> last_for (seq a n) D k = if Nat.leb a k then nth_error D (k - a) else None.
Proof.
  revert a n; induction D; simpl; intros a0 n Hl; subst; simpl.
  - destruct (a0 <=? k); auto. destruct (k - a0); auto.
  - rewrite IHD by auto. destruct (Nat.eqb_spec a0 k).
    + subst. rewrite Nat.leb_refl. destruct (Nat.leb_spec (S k) k); try lia.
      replace (k - k) with 0 by lia. auto.
    + destruct (Nat.leb_spec (S a0) k); destruct (Nat.leb_spec a0 k); try lia; auto.
      replace (k - a0) with (S (k - S a0)) by lia. cbn [nth_error]. destruct (nth_error D (k - S a0)); auto.
Qed.

(** Effect of a batch without sim_id. *)
Lemma x_in_noids gw D gs t h h' :
  h_index h <= length (h_rows h) ->
  0 < length (a_rows D) ->
  ~ In F_sim_id (names (a_dtype D)) ->
  column h F_sim_id ->
  update_history_x_in gw D gs t h = (h', None) ->
  let n := length (a_rows D) in
  h_index h' = h_index h + n /\
  h_index h' <= length (h_rows h') /\ length (h_rows h) <= length (h_rows h') /\
  (forall k f, k < h_index h -> column h f -> cell (h_rows h') k f = cell (h_rows h) k f) /\
  (forall i d, nth_error (a_rows D) i = Some d ->
     cell (h_rows h') (h_index h + i) F_sim_id = Some (vint (Z.of_nat (h_index h + i))) /\
     forall f, In f (names (a_dtype D)) -> stampf f = false ->
        cell (h_rows h') (h_index h + i) f = Some (cast f (d f))) /\
  (forall k f, h_index h + n <= k < length (h_rows h) -> column h f ->
     cell (h_rows h') k f = cell (h_rows h) k f) /\
  (forall k, h_index h + n <= k -> length (h_rows h) <= k < length (h_rows h') ->
     cell (h_rows h') k F_sim_id = Some (vint (-1))).
Proof.
  intros Hix Hn Hno Hcol Hx n. unfold update_history_x_in in Hx.
  destruct (Nat.eqb_spec (length (a_rows D)) 0); try lia.
  assert (Hh : has F_sim_id (names (a_dtype D)) = false) by now apply has_false.
  rewrite Hh in Hx. cbn [negb] in Hx. fold n in Hx.
  set (he := ensure_fields h (a_dtype D)) in *.
  assert (Hie : h_index he = h_index h) by apply ensure_index.
  assert (Hle : length (h_rows he) = length (h_rows h)) by apply ensure_len.
  set (hm := make_room he n) in *.
  assert (Him : h_index hm = h_index h) by (unfold hm; now rewrite make_room_index).
  rewrite Him in Hx.
  destruct (make_room_rows he n) as (kk & Hrows & Hroom); [lia|]. fold hm in Hrows, Hroom.
  set (h1 := set_rows hm (number_rows (seq (h_index h) n) (h_rows hm))) in *.
  assert (Hl1 : length (h_rows h1) = length (h_rows hm)) by (unfold h1; cbn; apply number_rows_length).
  assert (Hnn : norm_idxs (length (h_rows h1)) (map Z.of_nat (seq (h_index h) n)) = Some (seq (h_index h) n))
    by (apply ids_range_ok; lia).
  assert (Hll : length (map Z.of_nat (seq (h_index h) n)) = length (a_rows D))
    by (rewrite map_length, seq_length; auto).
  pose proof (finish_ok _ _ _ _ _ _ _ _ _ Hnn Hll Hx) as FP.
  assert (Hi1 : h_index h1 = h_index h) by (unfold h1; cbn; auto).
  assert (Hlenhm : length (h_rows h) <= length (h_rows hm)).
  { rewrite Hrows, app_length. lia. }
  assert (Hcell1 : forall k f, feqb F_sim_id f = false \/ k < h_index h \/ h_index h + n <= k ->
            cell (h_rows h1) k f = cell (h_rows hm) k f).
  { intros k f Hk. unfold h1; cbn. rewrite number_rows_cell.
    destruct (memb k (seq (h_index h) n)) eqn:E; simpl; auto.
    apply memb_In, in_seq in E. destruct Hk as [-> |]; simpl; auto. lia. }
  assert (Hold : forall k f, k < length (h_rows h) -> column h f -> cell (h_rows hm) k f = cell (h_rows h) k f).
  { intros k f Hk Hc. unfold hm. rewrite make_room_cell_old by lia. unfold he. now apply ensure_cell. }
  destruct FP.
  rewrite Hi1 in fp_index0. repeat split.
  - auto.
  - rewrite fp_len0. lia.
  - rewrite fp_len0. lia.
  - intros k f Hk Hc. rewrite fp_out0.
    + rewrite Hcell1 by auto. apply Hold; auto. lia.
    + rewrite in_seq. lia.
  - assert (i < n) by (apply nth_error_Some; congruence).
    rewrite fp_in0 by auto. rewrite last_for_seq by auto.
    destruct (Nat.leb_spec (h_index h) (h_index h + i)); try lia.
    replace (h_index h + i - h_index h) with i by lia. rewrite H, Hh.
    unfold h1; cbn. rewrite number_rows_cell. rewrite feqb_refl.
    assert (memb (h_index h + i) (seq (h_index h) n) = true) as -> by (apply memb_In, in_seq; lia).
    destruct (Nat.ltb_spec (h_index h + i) (length (h_rows hm))); try lia. auto.
  - intros f Hin Hst.
    assert (i < n) by (apply nth_error_Some; congruence).
    rewrite fp_in0 by auto. rewrite last_for_seq by auto.
    destruct (Nat.leb_spec (h_index h) (h_index h + i)); try lia.
    replace (h_index h + i - h_index h) with i by lia. rewrite H.
    apply has_In in Hin. now rewrite Hin.
  - intros k f Hk Hc. rewrite fp_out0 by (rewrite in_seq; lia). rewrite Hcell1 by lia. apply Hold; auto. lia.
  - intros k Hk1 Hk2. rewrite fp_out0 by (rewrite in_seq; lia). rewrite Hcell1 by lia.
    unfold hm. rewrite make_room_cell_new; auto. fold hm. lia.
Qed.

(** ** Batches with sim_id *)
Lemma maxZ_ge l z : In z l -> (z <= maxZ l)%Z.
Proof.
  unfold maxZ. induction l; simpl; intros H; [tauto|]. destruct H; subst; [lia|]. specialize (IHl H). lia.
Qed.
Lemma maxZ_In l : (exists z, In z l /\ (0 <= z)%Z) -> In (maxZ l) l.
Proof.
  unfold maxZ. induction l; simpl; intros (z & Hz & H0); [tauto|].
  destruct (Z.max_spec a (fold_right Z.max (-1)%Z l)) as [[Hlt Hm]|[Hlt Hm]]; rewrite Hm; auto.
  destruct Hz; subst.
  - right. apply IHl. exists (fold_right Z.max (-1)%Z l).
    (* the fold is > z >= 0 so it is not the base *)
    assert (X : forall l, fold_right Z.max (-1)%Z l = (-1)%Z \/ In (fold_right Z.max (-1)%Z l) l).
    { clear. induction l; simpl; auto. destruct IHl.
      - rewrite H. destruct (Z.max_spec a (-1)) as [[]|[]]; rewrite H1; auto.
      - destruct (Z.max_spec a (fold_right Z.max (-1)%Z l)) as [[]|[]]; rewrite H1; auto. }
    destruct (X l); [lia|]. split; auto. lia.
  - right. apply IHl. eauto.
Qed.

Lemma distinctZ_In z l : In z (distinctZ l) <-> In z l.
Proof.
  induction l; simpl; [tauto|]. destruct (existsb (Z.eqb a) l) eqn:E.
  - rewrite IHl. apply existsb_exists in E. destruct E as (y & Hy & E). apply Z.eqb_eq in E; subst.
    split; auto. intros [|]; subst; auto.
  - simpl. now rewrite IHl.
Qed.
Lemma distinctZ_NoDup l : NoDup (distinctZ l).
Proof.
  induction l; simpl; [constructor|]. destruct (existsb (Z.eqb a) l) eqn:E; auto.
  constructor; auto. rewrite distinctZ_In. intros Hin.
  assert (existsb (Z.eqb a) l = true); [|congruence]. apply existsb_exists. exists a. split; auto. apply Z.eqb_refl.
Qed.

Lemma existsb_Zeqb z l : existsb (Z.eqb z) l = true <-> In z l.
Proof.
  rewrite existsb_exists. split.
  - intros (y & Hy & E). apply Z.eqb_eq in E; subst; auto.
  - intros; exists z; split; auto. apply Z.eqb_refl.
Qed.

Lemma range_Z_In a b z : In z (range_Z a b) <-> (Z.of_nat a <= z < b)%Z.
Proof.
  unfold range_Z. rewrite in_map_iff. split.
  - intros (k & <- & Hk). apply in_seq in Hk. lia.
  - intros H. exists (Z.to_nat (z - Z.of_nat a)). split; [lia|]. apply in_seq. lia.
Qed.
Lemma range_Z_NoDup a b : NoDup (range_Z a b).
Proof.
  unfold range_Z. apply FinFun.Injective_map_NoDup; [|apply seq_NoDup]. intros x y. lia.
Qed.
Lemma range_Z_length a b : length (range_Z a b) = Z.to_nat (b - Z.of_nat a).
Proof. unfold range_Z. now rewrite map_length, seq_length. Qed.

Lemma no_gap_spec index ids :
  no_gap index ids = true <->
  (forall z, (Z.of_nat index <= z <= maxZ ids)%Z -> In z ids).
Proof.
  unfold no_gap. rewrite forallb_forall. split; intros H z Hz.
  - apply existsb_Zeqb. apply H. apply range_Z_In. lia.
  - apply existsb_Zeqb. apply H. apply range_Z_In in Hz. lia.
Qed.

Lemma aligned_sid h k r :
  ids_aligned h -> nth_error (h_rows h) k = Some r ->
  sid r = if Nat.ltb k (h_index h) then Z.of_nat k else (-1)%Z.
Proof.
  intros (Hi & Ha & Hb) Hr.
  assert (k < length (h_rows h)) by (apply nth_error_Some; congruence).
  destruct (Nat.ltb_spec k (h_index h)).
  - specialize (Ha k ltac:(lia)). unfold cell in Ha. rewrite Hr in Ha. simpl in Ha. inversion Ha.
    unfold sid. rewrite H2. auto.
  - specialize (Hb k ltac:(lia)). unfold cell in Hb. rewrite Hr in Hb. simpl in Hb. inversion Hb.
    unfold sid. rewrite H2. auto.
Qed.

Lemma aligned_sids h z :
  ids_aligned h -> (0 <= z)%Z -> (In z (map sid (h_rows h)) <-> (z < Z.of_nat (h_index h))%Z).
Proof.
  intros Ha Hz. rewrite in_map_iff. split.
  - intros (r & Hs & Hin). apply In_nth_error in Hin. destruct Hin as (k & Hk).
    pose proof (aligned_sid h k r Ha Hk) as E. destruct (Nat.ltb_spec k (h_index h)); lia.
  - intros Hlt. destruct Ha as (Hi & Ha & _). specialize (Ha (Z.to_nat z) ltac:(lia)).
    unfold cell in Ha. destruct (nth_error (h_rows h) (Z.to_nat z)) eqn:E; try discriminate.
    exists r. split; [|eapply nth_error_In; eauto]. simpl in Ha. inversion Ha. unfold sid. rewrite H0. simpl. lia.
Qed.

Lemma count_new_spec h ids :
  ids_aligned h -> (forall z, In z ids -> (0 <= z)%Z) -> no_gap (h_index h) ids = true ->
  Z.of_nat (h_index h + count_new ids (h_rows h)) = Z.max (Z.of_nat (h_index h)) (maxZ ids + 1).
Proof.
  intros Ha Hpos Hgap. rewrite no_gap_spec in Hgap.
  assert (E : count_new ids (h_rows h) = length (range_Z (h_index h) (maxZ ids + 1))).
  { unfold count_new. apply Nat.le_antisymm; apply NoDup_incl_length.
    - apply NoDup_filter, distinctZ_NoDup.
    - intros z Hz. apply filter_In in Hz. destruct Hz as [Hz Hn]. rewrite distinctZ_In in Hz.
      apply range_Z_In. pose proof (maxZ_ge _ _ Hz).
      destruct (existsb (Z.eqb z) (map sid (h_rows h))) eqn:E; try discriminate.
      destruct (Z_lt_dec z (Z.of_nat (h_index h))); [|lia].
      apply (aligned_sids h z Ha) in l; auto. apply existsb_Zeqb in l. congruence.
    - apply range_Z_NoDup.
    - intros z Hz. apply range_Z_In in Hz. apply filter_In. split.
      + apply distinctZ_In. apply Hgap. lia.
      + destruct (existsb (Z.eqb z) (map sid (h_rows h))) eqn:E; auto.
        apply existsb_Zeqb in E. apply (aligned_sids h z Ha) in E; lia. }
  rewrite E, range_Z_length. lia.
Qed.

(** Effect of a batch with sim_id. *)
Lemma x_in_ids gw D gs t h h' :
  ids_aligned h ->
  0 < length (a_rows D) ->
  In F_sim_id (names (a_dtype D)) ->
  column h F_sim_id ->
  (forall d, In d (a_rows D) -> (0 <= sid d)%Z) ->
  update_history_x_in gw D gs t h = (h', None) ->
  let is := map (fun d => Z.to_nat (sid d)) (a_rows D) in
  h_index h' = Nat.max (h_index h) (S (maxl is)) /\
  length (h_rows h) <= length (h_rows h') /\
  (forall k, h_index h <= k < h_index h' -> In k is) /\
  (forall k f, ~ In k is -> k < length (h_rows h) -> column h f -> cell (h_rows h') k f = cell (h_rows h) k f) /\
  (forall k d, last_for is (a_rows D) k = Some d ->
     cell (h_rows h') k F_sim_id = Some (vint (Z.of_nat k)) /\
     (forall f, In f (names (a_dtype D)) -> stampf f = false ->
        cell (h_rows h') k f = Some (cast f (d f))) /\
     (forall f, ~ In f (names (a_dtype D)) -> stampf f = false -> column h f -> k < length (h_rows h) ->
        cell (h_rows h') k f = cell (h_rows h) k f)) /\
  ids_aligned h'.
Proof.
  intros Ha Hn Hin Hcol Hpos Hx is. unfold update_history_x_in in Hx.
  destruct (Nat.eqb_spec (length (a_rows D)) 0); try lia.
  assert (Hh : has F_sim_id (names (a_dtype D)) = true) by now apply has_In.
  rewrite Hh in Hx. cbn [negb] in Hx.
  set (he := ensure_fields h (a_dtype D)) in *.
  assert (Hie : h_index he = h_index h) by apply ensure_index.
  assert (Hle : length (h_rows he) = length (h_rows h)) by apply ensure_len.
  assert (Hcell_e : forall k f, column h f -> cell (h_rows he) k f = cell (h_rows h) k f)
    by (intros; now apply ensure_cell).
  assert (Hae : ids_aligned he).
  { destruct Ha as (A1 & A2 & A3). unfold ids_aligned. rewrite Hie, Hle. repeat split; auto.
    - intros k Hk. rewrite Hcell_e; auto.
    - intros k Hk. rewrite Hcell_e; auto. }
  set (ids := map sid (a_rows D)) in *.
  destruct (no_gap (h_index he) ids) eqn:Hgap; [|discriminate]. cbn [negb] in Hx.
  assert (Hpos' : forall z, In z ids -> (0 <= z)%Z).
  { intros z Hz. apply in_map_iff in Hz. destruct Hz as (d & <- & Hd). auto. }
  pose proof (count_new_spec he ids Hae Hpos' Hgap) as Hcn.
  set (num_new := count_new ids (h_rows he)) in *.
  set (h1 := make_room he num_new) in *.
  assert (Hi1 : h_index h1 = h_index h) by (unfold h1; rewrite make_room_index; auto).
  destruct (make_room_rows he num_new) as (kk & Hrows & Hroom); [destruct Hae; lia|]. fold h1 in Hrows, Hroom.
  assert (Hids : forall z, In z ids -> (0 <= z < Z.of_nat (h_index h + num_new))%Z).
  { intros z Hz. pose proof (maxZ_ge _ _ Hz). specialize (Hpos' z Hz). rewrite Hie in Hcn. lia. }
  assert (Hnn : norm_idxs (length (h_rows h1)) ids = Some is).
  { rewrite norm_idxs_nonneg.
    - unfold is, ids. now rewrite map_map.
    - intros z Hz. specialize (Hids z Hz). rewrite Hie in Hroom. lia. }
  assert (Hll : length ids = length (a_rows D)) by (unfold ids; now rewrite map_length).
  pose proof (finish_ok _ _ _ _ _ _ _ _ _ Hnn Hll Hx) as FP.
  assert (Hlen1 : length (h_rows h) <= length (h_rows h1)) by (rewrite Hrows, app_length; lia).
  assert (Hmax : Z.of_nat (maxl is) = maxZ ids).
  { assert (Hne : is <> []).
    { unfold is. destruct (a_rows D); simpl in *; try lia; discriminate. }
    pose proof (maxl_In _ Hne) as M1. unfold is in M1. apply in_map_iff in M1. destruct M1 as (d & Hd & Hd2).
    assert (In (sid d) ids) by (apply in_map; auto).
    pose proof (maxZ_ge _ _ H). pose proof (Hpos' _ H).
    assert (In (maxZ ids) ids) by (apply maxZ_In; eauto).
    apply in_map_iff in H2. destruct H2 as (d2 & Hd3 & Hd4).
    assert (In (Z.to_nat (sid d2)) is) by (unfold is; apply in_map_iff; eauto).
    apply maxl_le in H2. fold is in Hd. lia. }
  assert (Hinew : h_index h' = Nat.max (h_index h) (S (maxl is))).
  { rewrite (fp_index _ _ _ _ _ _ _ _ FP), Hi1. rewrite Hie in Hcn. lia. }
  assert (Hcov : forall k, h_index h <= k < h_index h' -> In k is).
  { intros k Hk. pose proof Hgap as G. rewrite no_gap_spec in G.
    assert (Hz : In (Z.of_nat k) ids) by (apply G; lia).
    apply in_map_iff in Hz. destruct Hz as (d & Hd & Hd2). unfold is. apply in_map_iff. exists d. split; auto. lia. }
  assert (Hcell1 : forall k f, k < length (h_rows h) -> column h f -> cell (h_rows h1) k f = cell (h_rows h) k f).
  { intros k f Hk Hc. unfold h1. rewrite make_room_cell_old by lia. now apply Hcell_e. }
  assert (Hlast : forall k d, last_for is (a_rows D) k = Some d -> Z.to_nat (sid d) = k /\ In d (a_rows D) /\ In k is).
  { intros k d Hl.
    assert (G : forall D', last_for (map (fun d => Z.to_nat (sid d)) D') D' k = Some d -> Z.to_nat (sid d) = k).
    { clear. induction D'; simpl; intros; try discriminate.
      destruct (last_for _ D' k) eqn:E.
      - inversion H; subst. auto.
      - destruct (Nat.eqb_spec (Z.to_nat (sid a)) k); inversion H; subst; auto. }
    split; [exact (G _ Hl)|]. apply last_for_In in Hl. tauto. }
  assert (Hsid : forall k d, last_for is (a_rows D) k = Some d ->
            cell (h_rows h') k F_sim_id = Some (vint (Z.of_nat k))).
  { intros k d Hl. rewrite (fp_in _ _ _ _ _ _ _ _ FP) by auto. rewrite Hl, Hh.
    destruct (Hlast _ _ Hl) as (E & Hd & _). cbn. fold (sid d). specialize (Hpos d Hd). rewrite <- E.
    rewrite Z2Nat.id; auto. }
  repeat split; auto.
  - rewrite (fp_len _ _ _ _ _ _ _ _ FP). auto.
  - intros k f Hk Hkl Hc. rewrite (fp_out _ _ _ _ _ _ _ _ FP) by auto. auto.
  - eauto.
  - intros f Hf Hst. rewrite (fp_in _ _ _ _ _ _ _ _ FP) by auto. rewrite H.
    apply has_In in Hf. now rewrite Hf.
  - intros f Hf Hst Hc Hk. rewrite (fp_in _ _ _ _ _ _ _ _ FP) by auto. rewrite H.
    apply has_false in Hf. rewrite Hf. auto.
  - rewrite (fp_len _ _ _ _ _ _ _ _ FP), (fp_index _ _ _ _ _ _ _ _ FP), Hi1. lia.
  - intros k Hk.
    destruct (in_dec Nat.eq_dec k is) as [Hki|Hki].
    + destruct (last_for_Some is (a_rows D) k) as (d & Hd); auto.
      { unfold is. now rewrite map_length. }
      eauto.
    + rewrite (fp_out _ _ _ _ _ _ _ _ FP) by auto.
      assert (k < h_index h). { destruct (Nat.lt_ge_cases k (h_index h)); auto. exfalso. apply Hki, Hcov. lia. }
      destruct Ha as (A1 & A2 & A3). rewrite Hcell1; auto. lia.
  - intros k Hk. rewrite (fp_out _ _ _ _ _ _ _ _ FP).
    + rewrite (fp_len _ _ _ _ _ _ _ _ FP) in Hk. destruct Ha as (A1 & A2 & A3).
      destruct (Nat.lt_ge_cases k (length (h_rows h))).
      * rewrite Hcell1; auto. apply A3. rewrite Hinew in Hk. lia.
      * unfold h1. rewrite make_room_cell_new; auto. fold h1. lia.
    + intros Hki. apply maxl_le in Hki. lia.
Qed.
