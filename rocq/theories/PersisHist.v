(** Where the flags of a history come from, and what a run with persistent
    generators knows of them. *)
From Coq Require Import String.
From Verif Require Import Base BaseLemmas HistoryModel HistorySpec HistoryProofs HistoryXIn HistoryInv HistoryInv2 HistoryRun HistoryRun2 HistoryRun3 HistoryBack.
Local Notation length := List.length.

Definition four (f : field) : Prop := f = F_sim_started \/ f = F_cancel_requested \/ f = F_sim_ended \/ f = F_gen_informed.

Lemma x_in_back4 gw D gs t h h' k f : four f -> scalar h f -> leaves h f D -> h_index h <= length (h_rows h) ->
  update_history_x_in gw D gs t h = (h', None) -> is_set h' k f -> is_set h k f.
Proof.
  intros H2 [Hc Hsh] HL Hi Hx (v & Hv & Ht).
  assert (Hnst : stampf f = false) by (destruct H2 as [-> |[-> |[-> | ->]]]; reflexivity).
  assert (Hid : F_sim_id <> f) by (destruct H2 as [-> |[-> |[-> | ->]]]; discriminate).
  unfold update_history_x_in in Hx. destruct (Nat.eqb_spec (length (a_rows D)) 0).
  { inversion Hx; subst. exists v; auto. }
  set (he := ensure_fields h (a_dtype D)) in *.
  assert (Hle : length (h_rows he) = length (h_rows h)) by apply ensure_len.
  assert (Hse : shape_in (h_dtype he) f = ShS) by (unfold he; rewrite ensure_shape; auto).
  assert (Hsafe : h_safe he = h_safe h) by apply ensure_safe.
  assert (Hbl : blank_row (h_dtype he) f = vint 0).
  { destruct H2 as [-> |[-> |[-> | ->]]]; cbn; rewrite Hse; reflexivity. }
  assert (R : forall n, cell (h_rows (make_room he n)) k f = Some v -> is_set h k f).
  { intros m Hu. destruct (Nat.lt_ge_cases k (length (h_rows he))) as [L|L].
    - rewrite make_room_cell_old in Hu by auto. unfold he in Hu. rewrite ensure_cell in Hu by auto. exists v. auto.
    - pose proof (cell_Some_lt _ _ _ _ Hu). rewrite make_room_cell_new in Hu by lia. rewrite Hbl in Hu. injection Hu as <-. discriminate. }
  assert (G : forall n inds h1, h_safe h1 = h_safe h -> x_in_finish gw D gs t n inds h1 = (h', None) -> cell (h_rows h1) k f = Some v).
  { intros m inds h1 E2 Hf. pose proof (finish_keep gw D gs t m inds h1 f Hnst) as F. rewrite Hf in F. cbn [fst] in F. rewrite <- F; auto.
    unfold leaves. rewrite E2. exact HL. }
  destruct (negb (has _ _)).
  - apply G in Hx; [|cbn; now rewrite make_room_safe]. cbn in Hx. rewrite number_rows_cell in Hx. rewrite (feqb_neq F_sim_id f) in Hx by auto.
    rewrite andb_false_r in Hx. now apply R in Hx.
  - destruct (negb (no_gap _ _)); try discriminate. apply G in Hx; [|now rewrite make_room_safe]. now apply R in Hx.
Qed.

Lemma clean_leaves h f D : protected f = true -> clean h D -> leaves h f D.
Proof. intros Hp [Hs|Hn]; [left; auto|]. right. intros Hin. apply Hn. exists f. auto. Qed.
Lemma op_clean_leaves h f o : protected f = true -> op_clean h o -> op_leaves h f o.
Proof. intros Hp. destruct o as [| i r b t| | |]; cbn; auto using clean_leaves. destruct r; cbn; auto. now apply clean_leaves. Qed.

(** which rows an operation gives which flag *)
Definition op_sets (h : hist) (o : hop) (k : nat) (f : field) : Prop :=
  match o with
  | HXOut inds _ _ _ => In k inds /\ f = F_sim_started
  | HF inds _ _ _ => In k inds /\ f = F_sim_ended
  | HToGen inds _ => In k inds /\ is_set h k F_sim_ended /\ f = F_gen_informed
  | _ => False
  end.

Lemma is_set_dec h k f : is_set h k f \/ ~ is_set h k f.
Proof.
  unfold is_set. destruct (cell (h_rows h) k f) as [v|]; [|right; intros (v & E & _); discriminate].
  destruct (truthy v) eqn:E; [left; eauto|right; intros (v' & [= <-] & E'); congruence].
Qed.

Lemma hstep_back4 o h h' k f : four f -> scalar h f -> op_leaves h f o -> h_index h <= length (h_rows h) -> hstep o h = (h', None) ->
  is_set h' k f -> is_set h k f \/ op_sets h o k f.
Proof.
  intros H2 Hsc HL Hi E Hk. pose proof Hsc as [Hc _].
  assert (Hn : f <> F_sim_ended_time /\ f <> F_gen_informed_time /\ f <> F_kill_sent /\ f <> F_sim_worker /\ f <> F_sim_started_time)
    by (destruct H2 as [-> |[-> |[-> | ->]]]; repeat split; discriminate). destruct Hn as (N1 & N2 & N3 & N4 & N5).
  destruct o; cbn [hstep op_leaves op_sets] in *.
  - left. eapply x_in_back4; eauto.
  - pose proof (hf_frame inds ret kill t h) as F. cbn zeta in F. rewrite E in F. cbn [fst snd] in F.
    destruct F as (F1&F2&F3&F4&F5&F6&F7&F8&F9&F10&F11&F12&F13&F14&F15&F16&F17).
    destruct (in_dec Nat.eq_dec k inds) as [Hin|Hin]; [|left; apply (is_set_cell h h'); auto].
    destruct (feqb_spec f F_sim_ended) as [->|Hne]; [right; auto|]. left.
    apply (is_set_cell h h'); auto. destruct ret as [A|]; [|apply F14; auto].
    destruct HL as [[S1 S2]|HL]; [apply F15; auto|apply F14; auto].
  - pose proof (x_out_frame inds w kill t h) as F. cbn zeta in F. rewrite E in F. cbn [fst snd] in F.
    destruct F as (_&_&_&_&_&_&_&_&_&_&_&_&F&_). destruct (in_dec Nat.eq_dec k inds) as [Hin|Hin].
    + destruct (feqb_spec f F_sim_started) as [->|Hne]; [right; auto|]. left. apply (is_set_cell h h'); auto.
    + left. apply (is_set_cell h h'); auto.
  - pose proof (to_gen_frame inds t h) as F. cbn zeta in F. rewrite E in F. cbn [fst snd] in F.
    destruct F as (_&_&_&_&_&_&_&_&_&_&_&_&_&_&F0&F&_).
    destruct (feqb_spec f F_gen_informed) as [->|Hne]; [|left; apply (is_set_cell h h'); auto].
    destruct (in_dec Nat.eq_dec k inds) as [Hin|Hin]; [|left; apply (is_set_cell h h'); auto].
    destruct (is_set_dec h k F_sim_ended) as [He|He]; [right; auto|]. left. apply (is_set_cell h h'); auto.
  - left. pose proof (kill_frame h) as F. cbn zeta in F. rewrite E in F. cbn [fst snd] in F.
    destruct F as (_&_&_&_&_&_&_&_&_&_&_&_&_&F&_). apply (is_set_cell h h'); auto.
Qed.

Lemma hstep_sets o h h' k f : op_clean h o -> column h f -> status f = true -> hstep o h = (h', None) -> op_sets h o k f -> is_set h' k f.
Proof.
  intros Hcl Hc Hst E. destruct o; cbn [hstep op_sets op_clean] in *; try tauto.
  - intros [Hin ->]. pose proof (hf_frame inds ret kill t h) as F. cbn zeta in F. rewrite E in F. cbn [fst snd] in F.
    destruct F as (_&_&_&_&_&_&_&_&_&_&_&_&F&_). exists (vbool true). split; auto. apply F; auto.
    destruct ret as [A|]; cbn in *; auto. destruct Hcl as [Hs|Hn]; auto. right. intros Hin'. apply Hn. exists F_sim_ended. auto.
  - intros [Hin ->]. pose proof (x_out_frame inds w kill t h) as F. cbn zeta in F. rewrite E in F. cbn [fst snd] in F.
    destruct F as (_&_&_&_&_&_&_&_&_&_&_&F&_). destruct (F eq_refl) as (_ & _ & G & _). exists (vbool true). split; [apply G; exact Hin|reflexivity].
  - intros (Hin & He & ->). pose proof (to_gen_frame inds t h) as F. cbn zeta in F. rewrite E in F. cbn [fst snd] in F.
    destruct F as (_&_&_&_&_&_&_&_&_&_&_&_&_&F&_). exists (vbool true). split; auto.
Qed.

(** the worker a row comes from does not change once the row is in use *)
Lemma hstep_maker o h h' k : prov_inv h -> h_index h <= length (h_rows h) -> op_clean h o ->
  (forall w D gs t, o = HXIn w D gs t -> ~ In F_sim_id (names (a_dtype D))) ->
  hstep o h = (h', None) -> k < h_index h -> cell (h_rows h') k F_gen_worker = cell (h_rows h) k F_gen_worker.
Proof.
  intros (Ha & Hl & Hu) Hi Hcl Hn E Hk. assert (C : forall f, In f (names libE_fields) -> column h f) by (intros f Hf; apply Hl; auto).
  destruct o; cbn [hstep op_clean] in *.
  - destruct (Nat.eq_dec (length (a_rows D)) 0) as [E0|E0].
    { unfold update_history_x_in in E. rewrite E0 in E. cbn in E. injection E as <-. reflexivity. }
    destruct (x_in_noids gw D gs t h h' Hi ltac:(lia) (Hn _ _ _ _ eq_refl) (C F_sim_id ltac:(cbn; tauto)) E) as (_ & _ & _ & N & _).
    apply N; auto. apply C. cbn; tauto.
  - pose proof (hf_frame inds ret kill t h) as F. cbn zeta in F. rewrite E in F. cbn [fst snd] in F.
    destruct F as (F1&F2&F3&F4&F5&F6&F7&F8&F9&F10&F11&F12&F13&F14&F15&F16&F17). apply F15; try discriminate; try reflexivity; [apply C; cbn; tauto|].
    destruct ret as [A|]; cbn in *; auto. destruct Hcl as [Hs|Hq]; auto. right. intros Hin'. apply Hq. exists F_gen_worker. auto.
  - pose proof (x_out_frame inds w kill t h) as F. cbn zeta in F. rewrite E in F. cbn [fst snd] in F.
    destruct F as (_&_&_&_&_&_&_&_&_&_&_&_&F&_). apply F. right. repeat split; discriminate.
  - pose proof (to_gen_frame inds t h) as F. cbn zeta in F. rewrite E in F. cbn [fst snd] in F.
    destruct F as (_&_&_&_&_&_&_&_&_&_&_&_&_&_&_&F&_). apply F. right. split; discriminate.
  - pose proof (kill_frame h) as F. cbn zeta in F. rewrite E in F. cbn [fst snd] in F.
    destruct F as (_&_&_&_&_&_&_&_&_&_&_&_&_&F&_). apply F. discriminate.
Qed.

(** ** What is known of the rows *)
Definition rows_known (h : hist) (sent back : list nat) (out : nat -> Prop) : Prop :=
  prov_inv h /\ h_index h <= length (h_rows h) /\
  (forall i, is_set h i F_cancel_requested -> is_set h i F_sim_started) /\
  (forall i, is_set h i F_sim_started -> In i sent) /\
  (forall i, is_set h i F_sim_ended -> In i sent) /\
  (forall i, is_set h i F_sim_started -> is_set h i F_sim_ended \/ out i) /\
  (forall i, is_set h i F_gen_informed <-> In i back) /\
  (forall i, In i back -> i < h_index h).

Lemma prov_scalar h f : prov_inv h -> In f (names libE_fields) -> scalar h f.
Proof. intros (_ & H & _). auto. Qed.

Lemma rows_known_step h h' o sent back (out : nat -> Prop) sent' back' (out' : nat -> Prop) :
  rows_known h sent back out -> hstep o h = (h', None) -> op_clean h o -> ids_polite o -> op_leaves h F_cancel_requested o ->
  incl sent sent' ->
  (match o with HXOut inds _ _ _ => incl inds sent' /\ forall i, In i inds -> out' i | HF inds _ _ _ => incl inds sent'
   | HToGen inds _ => forall i, In i inds -> is_set h i F_sim_ended /\ i < h_index h | _ => True end) ->
  (forall i, In i back' <-> In i back \/ match o with HToGen inds _ => In i inds | _ => False end) ->
  (forall i, out i -> out' i \/ match o with HF inds _ _ _ => In i inds | _ => False end) ->
  rows_known h' sent' back' out' /\ h_index h <= h_index h'.
Proof.
  intros (K1 & K2 & K3 & K4 & K5 & K6 & K7 & K8) E Hcl Hp HL Hs Ho Hb Hout.
  pose proof (hstep_index o h K2) as HX. rewrite E in HX. cbn [fst snd] in HX. specialize (HX eq_refl).
  assert (Sc : forall f, In f (names libE_fields) -> scalar h f) by (intros; now apply prov_scalar).
  assert (S1 : scalar h F_sim_started) by (apply Sc; cbn; tauto). assert (S2 : scalar h F_cancel_requested) by (apply Sc; cbn; tauto).
  assert (S3 : scalar h F_sim_ended) by (apply Sc; cbn; tauto). assert (S4 : scalar h F_gen_informed) by (apply Sc; cbn; tauto).
  assert (L1 : op_leaves h F_sim_started o) by (now apply op_clean_leaves). assert (L3 : op_leaves h F_sim_ended o) by (now apply op_clean_leaves).
  assert (L4 : op_leaves h F_gen_informed o) by (now apply op_clean_leaves).
  assert (B1 : forall i, is_set h' i F_sim_started -> is_set h i F_sim_started \/ op_sets h o i F_sim_started) by (intros i; eapply hstep_back4; unfold four; eauto).
  assert (B2 : forall i, is_set h' i F_cancel_requested -> is_set h i F_cancel_requested \/ op_sets h o i F_cancel_requested) by (intros i; eapply hstep_back4; unfold four; eauto).
  assert (B3 : forall i, is_set h' i F_sim_ended -> is_set h i F_sim_ended \/ op_sets h o i F_sim_ended) by (intros i; eapply hstep_back4; unfold four; eauto 6).
  assert (B4 : forall i, is_set h' i F_gen_informed -> is_set h i F_gen_informed \/ op_sets h o i F_gen_informed) by (intros i; eapply hstep_back4; unfold four; eauto 6).
  assert (F1 : forall i, is_set h i F_sim_started -> is_set h' i F_sim_started) by (intros i; eapply hstep_is_set; eauto; apply S1).
  assert (F3 : forall i, is_set h i F_sim_ended -> is_set h' i F_sim_ended) by (intros i; eapply hstep_is_set; eauto; apply S3).
  assert (F4 : forall i, is_set h i F_gen_informed -> is_set h' i F_gen_informed) by (intros i; eapply hstep_is_set; eauto; apply S4).
  assert (G3 : forall i, op_sets h o i F_sim_ended -> is_set h' i F_sim_ended) by (intros i; eapply hstep_sets; eauto; apply S3).
  assert (G4 : forall i, op_sets h o i F_gen_informed -> is_set h' i F_gen_informed) by (intros i; eapply hstep_sets; eauto; apply S4).
  split; [|lia]. split; [exact (proj1 (hstep_prov o h h' K1 Hcl Hp E))|]. split; [lia|]. split; [|split; [|split; [|split; [|split]]]].
  - intros i Hi. destruct (B2 i Hi) as [Hq|Hq]; auto. destruct o; cbn in Hq; try tauto; decompose [and] Hq; discriminate.
  - intros i Hi. destruct (B1 i Hi) as [Hq|Hq]; auto. destruct o; cbn in Hq; try tauto; decompose [and] Hq; try discriminate. now apply Ho.
  - intros i Hi. destruct (B3 i Hi) as [Hq|Hq]; auto. destruct o; cbn in Hq; try tauto; decompose [and] Hq; try discriminate. now apply Ho.
  - intros i Hi. destruct (B1 i Hi) as [Hq|Hq].
    + destruct (K6 i Hq) as [He|He]; auto. destruct (Hout i He) as [Hx|Hx]; auto. left. apply G3. destruct o; try tauto. cbn. auto.
    + right. destruct o; cbn in Hq; try tauto; decompose [and] Hq; try discriminate. now apply Ho.
  - intros i. rewrite Hb, <- K7. split.
    + intros Hi. destruct (B4 i Hi) as [Hq|Hq]; auto. right. destruct o; cbn in Hq; try tauto; decompose [and] Hq; try discriminate.
    + intros [Hq|Hq]; auto. destruct o; try tauto. apply G4. cbn. split; auto. split; auto. now apply Ho.
  - intros i Hi. apply Hb in Hi as [Hi|Hi]; [specialize (K8 i Hi); lia|]. destruct o; try tauto. specialize (Ho i Hi). lia.
Qed.
