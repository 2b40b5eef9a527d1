(** Frame lemmas and invariants over sequences of history operations. *)
From Coq Require Import String.
From Verif Require Import Base BaseLemmas HistoryModel HistorySpec HistoryProofs HistoryXIn.
Local Notation length := List.length.


(** ** Writing one returned row *)
Lemma f_field_frame ind r p h :
  let h' := fst (f_field ind r p h) in
  length (h_rows h') = length (h_rows h) /\ h_index h' = h_index h /\ h_dtype h' = h_dtype h /\
  h_safe h' = h_safe h /\ h_started h' = h_started h /\ h_ended h' = h_ended h /\ h_informed h' = h_informed h /\
  h_started_off h' = h_started_off h /\ h_ended_off h' = h_ended_off h /\ h_informed_off h' = h_informed_off h /\
  h_last_started h' = h_last_started h /\ h_last_ended h' = h_last_ended h /\ h_grow h' = h_grow h /\
  (forall k g, k <> ind \/ g <> fst p -> cell (h_rows h') k g = cell (h_rows h) k g) /\
  (forall k g, protected g = true -> h_safe h = true \/ g <> fst p -> cell (h_rows h') k g = cell (h_rows h) k g).
Proof.
  unfold f_field. destruct (h_safe h && protected (fst p)) eqn:Es; [cbn; repeat split; auto|].
  destruct (nth_error (h_rows h) ind); [|cbn; repeat split; auto].
  destruct (store_result _ _); [|cbn; repeat split; auto].
  cbn. rewrite upd_length. do 13 (split; [auto|]). split.
  - intros k g Hk. rewrite cell_upd_setf. destruct (Nat.eqb_spec ind k); simpl; auto.
    destruct (feqb_spec (fst p) g); simpl; auto. destruct Hk; congruence.
  - intros k g Hp Hs. rewrite cell_upd_setf. destruct (Nat.eqb_spec ind k); simpl; auto.
    destruct (feqb_spec (fst p) g); simpl; auto. destruct Hs; [|congruence].
    subst g. rewrite H, Hp in Es. discriminate.
Qed.

Definition same_meta (h h' : hist) : Prop :=
  length (h_rows h') = length (h_rows h) /\ h_index h' = h_index h /\ h_dtype h' = h_dtype h /\
  h_safe h' = h_safe h /\ h_started_off h' = h_started_off h /\ h_ended_off h' = h_ended_off h /\
  h_informed_off h' = h_informed_off h /\ h_grow h' = h_grow h /\ h_last_started h' = h_last_started h.

Lemma same_meta_refl h : same_meta h h.
Proof. repeat split. Qed.
Lemma same_meta_trans a b c : same_meta a b -> same_meta b c -> same_meta a c.
Proof. unfold same_meta. intros H1 H2. decompose [and] H1. decompose [and] H2. repeat split; congruence. Qed.

Lemma f_fields_frame ind r ps h :
  let h' := fst (foldx (f_field ind r) ps h) in
  same_meta h h' /\ h_started h' = h_started h /\ h_ended h' = h_ended h /\ h_informed h' = h_informed h /\
  h_last_ended h' = h_last_ended h /\
  (forall k g, k <> ind \/ ~ In g (names ps) -> cell (h_rows h') k g = cell (h_rows h) k g) /\
  (forall k g, protected g = true -> h_safe h = true \/ ~ In g (names ps) -> cell (h_rows h') k g = cell (h_rows h) k g).
Proof.
  revert h. induction ps as [|p ps]; intros h; cbn [foldx].
  { cbn. split; [apply same_meta_refl|]. repeat split; auto. }
  pose proof (f_field_frame ind r p h) as F. cbn zeta in F.
  destruct (f_field ind r p h) as [h1 [e|]]; cbn [bindx fst] in *.
  - destruct F as (F1&F2&F3&F4&F5&F6&F7&F8&F9&F10&F11&F12&F13&F14&F15).
    cbn zeta. repeat split; auto.
    + intros k g Hk. apply F14. cbn in Hk. tauto || (destruct Hk; auto; right; intro; subst; apply H; left; auto).
    + intros k g Hp Hk. apply F15; auto. destruct Hk; auto. right. intro; subst; apply H; left; auto.
  - destruct F as (F1&F2&F3&F4&F5&F6&F7&F8&F9&F10&F11&F12&F13&F14&F15).
    specialize (IHps h1). cbn zeta in IHps |- *. destruct IHps as (I0&I1&I2&I3&I4&I5&I6).
    split; [eapply same_meta_trans; [|exact I0]; repeat split; auto|].
    repeat split; try congruence.
    + intros k g Hk. rewrite I5, F14; auto; destruct Hk; auto; right; intro; subst; apply H; [left|right]; auto.
    + intros k g Hp Hk. rewrite I6, F15; auto; destruct Hk; auto; try (right; intro; subst; apply H; [left|right]; auto; fail).
      * right; intro; subst. apply H. left; auto.
      * left. congruence.
      * right; intro; apply H. right; auto.
Qed.


Lemma cell_upd_mark t rs i k f :
  cell (upd rs i (mark_ended t)) k f =
  if Nat.eqb i k && Nat.ltb k (length rs) then
    (if feqb F_sim_ended f then Some (vbool true) else if feqb F_sim_ended_time f then Some (vint t) else cell rs k f)
  else cell rs k f.
Proof.
  rewrite cell_upd. destruct (Nat.eqb_spec i k); simpl; auto. subst.
  unfold cell. destruct (nth_error rs k) eqn:E; simpl.
  - assert (k < length rs) by (apply nth_error_Some; congruence).
    destruct (Nat.ltb_spec k (length rs)); try lia.
    unfold mark_ended, setf. destruct (feqb_spec F_sim_ended_time f); subst; cbn; auto.
    destruct (feqb_spec F_sim_ended f); cbn; auto.
  - apply nth_error_None in E. destruct (Nat.ltb_spec k (length rs)); try lia. auto.
Qed.

Definition ret_names (ret : option sarr) : list field :=
  match ret with Some A => names (a_dtype A) | None => [] end.

Lemma f_row_frame ret t j ind h :
  let r := f_row ret t (j, ind) h in let h' := fst r in
  same_meta h h' /\ h_started h' = h_started h /\ h_informed h' = h_informed h /\ h_last_ended h' = h_last_ended h /\
  (snd r = None -> h_ended h' = h_ended h + 1 /\ ind < length (h_rows h) /\
                   cell (h_rows h') ind F_sim_ended = Some (vbool true) /\
                   cell (h_rows h') ind F_sim_ended_time = Some (vint t)) /\
  (forall k g, k <> ind \/ (~ In g (ret_names ret) /\ g <> F_sim_ended /\ g <> F_sim_ended_time) ->
       cell (h_rows h') k g = cell (h_rows h) k g) /\
  (forall k g, protected g = true -> h_safe h = true \/ ~ In g (ret_names ret) ->
       g <> F_sim_ended -> g <> F_sim_ended_time -> cell (h_rows h') k g = cell (h_rows h) k g) /\
  (h_safe h = true \/ ~ In F_sim_ended (ret_names ret) ->
     forall k, cell (h_rows h) k F_sim_ended = Some (vbool true) -> cell (h_rows h') k F_sim_ended = Some (vbool true)).
Proof.
  cbn zeta. unfold f_row.
  set (wr := f_write ret j ind h).
  assert (W : same_meta h (fst wr) /\ h_started (fst wr) = h_started h /\ h_ended (fst wr) = h_ended h /\
     h_informed (fst wr) = h_informed h /\ h_last_ended (fst wr) = h_last_ended h /\
     (forall k g, k <> ind \/ ~ In g (ret_names ret) -> cell (h_rows (fst wr)) k g = cell (h_rows h) k g) /\
     (forall k g, protected g = true -> h_safe h = true \/ ~ In g (ret_names ret) -> cell (h_rows (fst wr)) k g = cell (h_rows h) k g)).
  { unfold wr, f_write. destruct ret as [A|]; [|cbn; split; [apply same_meta_refl|]; repeat split; auto].
    destruct (nth_error (a_rows A) j).
    - apply f_fields_frame.
    - destruct (a_dtype A) as [|[]]; cbn; (split; [apply same_meta_refl|]; repeat split; auto). }
  clearbody wr. destruct wr as [h1 [e|]]; cbn [bindx fst snd] in *.
  - destruct W as (W0&W1&W2&W3&W4&W5&W6). split; [auto|]. repeat split; auto; try discriminate.
    + intros k g Hk. apply W5. tauto.
    + intros Hs k Hk. rewrite W6; auto.
  - destruct W as (W0&W1&W2&W3&W4&W5&W6).
    pose proof W0 as (M1&M2&M3&M4&M5&M6&M7&M8&M9).
    destruct (Nat.ltb_spec ind (length (h_rows h1))); cbn [fst snd].
    + cbn [set_counts set_rows with_rows h_rows h_started h_ended h_informed h_last_ended].
      split; [unfold same_meta; cbn; rewrite upd_length; repeat split; auto|].
      split; [auto|]. split; [auto|]. split; [auto|].
      split; [intros _; split; [lia|]; split; [lia|]|].
      { rewrite !cell_upd_mark, Nat.eqb_refl. destruct (Nat.ltb_spec ind (length (h_rows h1))); try lia. cbn. auto. }
      split; [|split].
      * intros k g Hk. rewrite cell_upd_mark. rewrite <- W5 by tauto.
        destruct (Nat.eqb_spec ind k); simpl; auto. destruct (k <? _); auto.
        destruct Hk as [|(?&?&?)]; try congruence. rewrite !feqb_neq by congruence. auto.
      * intros k g Hp Hs H1 H2. rewrite cell_upd_mark, !feqb_neq by congruence. rewrite W6; auto.
        destruct (_ && _); auto.
      * intros Hs k Hk. rewrite cell_upd_mark. rewrite W6 by auto. rewrite Hk.
        destruct (_ && _); auto.
    + cbn. split; [auto|]. repeat split; auto; try discriminate.
      * intros k g Hk. apply W5. tauto.
      * intros Hs k Hk. rewrite W6; auto.
Qed.

Lemma f_rows_frame ret t ps h :
  let r := foldx (f_row ret t) ps h in let h' := fst r in
  let inds := map snd ps in
  same_meta h h' /\ h_started h' = h_started h /\ h_informed h' = h_informed h /\ h_last_ended h' = h_last_ended h /\
  (snd r = None -> h_ended h' = h_ended h + length inds /\ (forall k, In k inds -> k < length (h_rows h))) /\
  (snd r = None -> h_safe h = true \/ ~ In F_sim_ended (ret_names ret) ->
        forall k, In k inds -> cell (h_rows h') k F_sim_ended = Some (vbool true)) /\
  (forall k g, ~ In k inds \/ (~ In g (ret_names ret) /\ g <> F_sim_ended /\ g <> F_sim_ended_time) ->
       cell (h_rows h') k g = cell (h_rows h) k g) /\
  (forall k g, protected g = true -> h_safe h = true \/ ~ In g (ret_names ret) ->
       g <> F_sim_ended -> g <> F_sim_ended_time -> cell (h_rows h') k g = cell (h_rows h) k g) /\
  (h_safe h = true \/ ~ In F_sim_ended (ret_names ret) ->
     forall k, cell (h_rows h) k F_sim_ended = Some (vbool true) -> cell (h_rows h') k F_sim_ended = Some (vbool true)).
Proof.
  revert h. induction ps as [|[j ind] ps]; intros h; cbn [foldx].
  { cbn. split; [apply same_meta_refl|]. repeat split; auto; tauto. }
  pose proof (f_row_frame ret t j ind h) as F. cbn zeta in F.
  destruct (f_row ret t (j, ind) h) as [h1 [e|]]; cbn [bindx fst snd] in *.
  - destruct F as (F0&F1&F2&F3&F4&F5&F6&F7). cbn zeta. split; [auto|]. repeat split; auto; try discriminate.
    intros k g Hk. apply F5. cbn [map snd] in Hk. cbn in Hk. destruct Hk as [Hk|Hk]; [left; intro; subst; auto|auto].
  - destruct F as (F0&F1&F2&F3&F4&F5&F6&F7). destruct (F4 eq_refl) as (E1&E2&E3&E4). clear F4.
    specialize (IHps h1). cbn zeta in IHps |- *. destruct IHps as (I0&I1&I2&I3&I4&I5&I6&I7&I8).
    pose proof F0 as (M1&M2&M3&M4&M5&M6&M7&M8&M9).
    cbn [map snd]. split; [eapply same_meta_trans; eauto|]. split; [congruence|]. split; [congruence|]. split; [congruence|].
    split.
    { intros Hn. destruct (I4 Hn) as [J1 J2]. split; [cbn; lia|].
      intros k [<-|Hk]; auto. rewrite <- M1. auto. }
    split.
    { intros Hn Hs k [<-|Hk].
      - apply I8; auto. rewrite M4; auto.
      - apply I5; auto. rewrite M4; auto. }
    split; [|split].
    + intros k g Hk. rewrite I6, F5; auto; cbn in Hk; destruct Hk as [Hk|Hk]; auto.
    + intros k g Hp Hs H1 H2. rewrite I7, F6; auto. rewrite M4; auto.
    + intros Hs k Hk. apply I8; auto. rewrite M4; auto.
Qed.

Lemma combine_seq_snd (l : list nat) a : map snd (combine (seq a (length l)) l) = l.
Proof. revert a; induction l; simpl; intros; auto. now rewrite IHl. Qed.

(** Everything a returned simulation can and cannot change. *)
Lemma hf_frame inds ret kill t h :
  let r := update_history_f inds ret kill t h in let h' := fst r in
  length (h_rows h') = length (h_rows h) /\ h_index h' = h_index h /\ h_safe h' = h_safe h /\
  h_started h' = h_started h /\ h_informed h' = h_informed h /\ h_last_started h' = h_last_started h /\
  h_started_off h' = h_started_off h /\ h_ended_off h' = h_ended_off h /\ h_informed_off h' = h_informed_off h /\
  h_grow h' = h_grow h /\
  (forall f, column h f -> column h' f) /\
  (snd r = None -> h_ended h' = h_ended h + length inds /\ (forall k, In k inds -> k < length (h_rows h))) /\
  (snd r = None -> h_safe h = true \/ ~ In F_sim_ended (ret_names ret) ->
        forall k, In k inds -> cell (h_rows h') k F_sim_ended = Some (vbool true)) /\
  (forall k g, column h g -> ~ In k inds \/ (~ In g (ret_names ret) /\ g <> F_sim_ended /\ g <> F_sim_ended_time) ->
       cell (h_rows h') k g = cell (h_rows h) k g) /\
  (forall k g, column h g -> protected g = true -> h_safe h = true \/ ~ In g (ret_names ret) ->
       g <> F_sim_ended -> g <> F_sim_ended_time -> cell (h_rows h') k g = cell (h_rows h) k g) /\
  (column h F_sim_ended -> h_safe h = true \/ ~ In F_sim_ended (ret_names ret) ->
     forall k, cell (h_rows h) k F_sim_ended = Some (vbool true) -> cell (h_rows h') k F_sim_ended = Some (vbool true)) /\
  (forall f, shape_in (h_dtype h') f = shape_in (h_dtype (match ret with Some A => ensure_fields h (a_dtype A) | None => h end)) f).
Proof.
  cbn zeta. unfold update_history_f.
  set (he := match ret with Some A => ensure_fields h (a_dtype A) | None => h end).
  assert (E : length (h_rows he) = length (h_rows h) /\ h_index he = h_index h /\ h_safe he = h_safe h /\
    h_started he = h_started h /\ h_ended he = h_ended h /\ h_informed he = h_informed h /\
    h_last_started he = h_last_started h /\ h_started_off he = h_started_off h /\ h_ended_off he = h_ended_off h /\
    h_informed_off he = h_informed_off h /\ h_grow he = h_grow h /\
    (forall f, column h f -> column he f) /\
    (forall k f, column h f -> cell (h_rows he) k f = cell (h_rows h) k f)).
  { unfold he. destruct ret as [A|]; [|repeat split; auto].
    rewrite ensure_len, ensure_index, ensure_safe.
    repeat split; auto using ensure_column, ensure_cell;
    unfold ensure_fields; destruct (existsb _ _); auto. }
  destruct E as (E1&E2&E3&E4&E5&E6&E7&E8&E9&E10&E11&E12&E13). clearbody he.
  pose proof (f_rows_frame ret t (combine (seq 0 (length inds)) inds) he) as R. cbn zeta in R.
  rewrite combine_seq_snd in R.
  destruct (foldx (f_row ret t) _ he) as [h1 eo]. cbn [fst snd] in R.
  destruct R as (R0&R1&R2&R3&R4&R5&R6&R7&R8). destruct R0 as (M1&M2&M3&M4&M5&M6&M7&M8&M9).
  rewrite E1, E3, E5 in *.
  assert (G : forall le, let h' := set_last h1 (h_last_started h1) le in
    h_rows h' = h_rows h1 /\ h_index h' = h_index h1 /\ h_dtype h' = h_dtype h1) by (intros; auto).
  assert (C : forall f, column h f -> column h1 f) by (intros f Hf; unfold column in *; rewrite M3; now apply E12).
  assert (Main : forall h' (eo' : option err), h_rows h' = h_rows h1 -> h_index h' = h_index h1 -> h_safe h' = h_safe h1 ->
     h_dtype h' = h_dtype h1 -> h_started h' = h_started h1 -> h_ended h' = h_ended h1 -> h_informed h' = h_informed h1 ->
     h_last_started h' = h_last_started h1 -> h_started_off h' = h_started_off h1 -> h_ended_off h' = h_ended_off h1 ->
     h_informed_off h' = h_informed_off h1 -> h_grow h' = h_grow h1 -> (eo' = None -> eo = None) ->
  length (h_rows h') = length (h_rows h) /\ h_index h' = h_index h /\ h_safe h' = h_safe h /\
  h_started h' = h_started h /\ h_informed h' = h_informed h /\ h_last_started h' = h_last_started h /\
  h_started_off h' = h_started_off h /\ h_ended_off h' = h_ended_off h /\ h_informed_off h' = h_informed_off h /\
  h_grow h' = h_grow h /\
  (forall f, column h f -> column h' f) /\
  (eo' = None -> h_ended h' = h_ended h + length inds /\ (forall k, In k inds -> k < length (h_rows h))) /\
  (eo' = None -> h_safe h = true \/ ~ In F_sim_ended (ret_names ret) ->
        forall k, In k inds -> cell (h_rows h') k F_sim_ended = Some (vbool true)) /\
  (forall k g, column h g -> ~ In k inds \/ (~ In g (ret_names ret) /\ g <> F_sim_ended /\ g <> F_sim_ended_time) ->
       cell (h_rows h') k g = cell (h_rows h) k g) /\
  (forall k g, column h g -> protected g = true -> h_safe h = true \/ ~ In g (ret_names ret) ->
       g <> F_sim_ended -> g <> F_sim_ended_time -> cell (h_rows h') k g = cell (h_rows h) k g) /\
  (column h F_sim_ended -> h_safe h = true \/ ~ In F_sim_ended (ret_names ret) ->
     forall k, cell (h_rows h) k F_sim_ended = Some (vbool true) -> cell (h_rows h') k F_sim_ended = Some (vbool true)) /\
  (forall f, shape_in (h_dtype h') f = shape_in (h_dtype he) f)).
  { intros h' eo' A1 A2 A3 A4 A5 A6 A7 A8 A9 A10 A11 A12 A13.
    rewrite A1, A2, A3, A4, A5, A6, A7, A8, A9, A10, A11, A12.
    repeat match goal with |- _ /\ _ => split end; try congruence.
    - intros f Hf. unfold column. rewrite A4. apply C; auto.
    - intros X. apply R4. auto.
    - intros X. apply R5; auto.
    - intros k g Hc Hk. rewrite R6 by auto. auto.
    - intros k g Hc Hp Hs H1 H2. rewrite R7; auto.
    - intros Hc Hs k Hk. apply R8; auto. rewrite E13; auto.
    }
  destruct eo as [e|]; cbn [bindx fst snd].
  - apply (Main h1 (Some e)); auto; discriminate.
  - destruct kill; [destruct inds|]; cbn [fst snd].
    + apply (Main h1 (Some EValue)); auto.
    + apply (Main _ None); auto.
    + apply (Main h1 None); auto.
Qed.
