(** Lemmas about generator functions behind an object: how the first sample is
    gathered and handed over. *)
From Verif Require Import Base BaseLemmas MapModel MapSpec MapProofs ProcGenModel ProcGenSpec ProcGenProofs.
Local Open Scope nat_scope.

(** Cells *)
Lemma cast_same t x : in_type t x -> cast t x = Ok x.
Proof. destruct t, x; cbn; intros H; try contradiction; auto. now rewrite firstn_all2. Qed.
Lemma mapr_same t l : Forall (in_type t) l -> mapr (cast t) l = Ok l.
Proof. induction 1 as [|x l H _ IH]; auto. cbn. now rewrite (cast_same _ _ H), IH. Qed.
Lemma assign_same f v : in_field f v -> assign f v = Ok v.
Proof.
  unfold in_field, assign. destruct f as [n t d]. cbn [f_ty f_dim]. destruct d as [d|].
  - destruct v as [x|l]; [contradiction|]. intros [L F]. subst d. destruct l as [|x [|y l]].
    + destruct t; reflexivity.
    + inversion F; subst. assert (C := cast_same _ _ H1). destruct t; rewrite C; reflexivity.
    + assert (C := mapr_same _ _ F). destruct t; rewrite Nat.eqb_refl, C; reflexivity.
  - destruct v as [x|l]; [|intros ->; reflexivity]. intros H. assert (C := cast_same _ _ H). destruct t; rewrite ?C; reflexivity.
Qed.
Lemma get_app n a b : get n (a ++ b) = match get n a with Some v => Some v | None => get n b end.
Proof. induction a as [|[m v] a IH]; auto. cbn. now destruct (n =? m). Qed.
Lemma get_pick n l d : get n (filter (fun p => memb (fst p) l) d) = if memb n l then get n d else None.
Proof.
  induction d as [|[m v] d IH]; cbn; [now destruct (memb n l)|]. destruct (memb m l) eqn:E; cbn; destruct (n =? m) eqn:E2; auto.
  - apply Nat.eqb_eq in E2 as ->. now rewrite E.
  - apply Nat.eqb_eq in E2 as ->. now rewrite E, IH, E.
Qed.

(** One column *)
Lemma write_from_ok f vs : forall mid post, length vs = length mid -> Forall (in_field f) vs ->
  write_from f vs (mid ++ post) = Ok (map (fun p => put (f_name f) (fst p) (snd p)) (combine vs mid) ++ post).
Proof.
  induction vs as [|v vs IH]; intros [|r mid] post L F; try discriminate; auto.
  inversion F; subst. cbn. unfold write. rewrite assign_same by auto. cbn. rewrite IH by auto. reflexivity.
Qed.
Lemma write_from_long f vs : forall rows, length rows < length vs -> Forall (in_field f) vs -> write_from f vs rows = Err EValue.
Proof.
  induction vs as [|v vs IH]; intros [|r rows] L F; cbn in L; try lia; auto.
  inversion F; subst. cbn. unfold write. rewrite assign_same by auto. cbn. rewrite IH by (auto; lia). reflexivity.
Qed.
Lemma slot_column_ok n f vs dt pre mid post : field_of n dt = Some f -> length vs = length mid -> Forall (in_field f) vs ->
  slot_column n vs (length pre) (mkArr dt (pre ++ mid ++ post)) =
  Ok (mkArr dt (pre ++ map (fun p => put n (fst p) (snd p)) (combine vs mid) ++ post)).
Proof.
  intros HF L F. unfold slot_column. cbn [a_dt a_rows]. rewrite HF, skipn_app, skipn_all, Nat.sub_diag. cbn [skipn app].
  rewrite write_from_ok by auto. cbn [bindr]. rewrite firstn_app, firstn_all, Nat.sub_diag, firstn_O, app_nil_r.
  apply field_of_Some in HF as [_ ->]. reflexivity.
Qed.

Section S.
Variable N : nat.
Variable pi : list name.
Variable dt : list field.

Definition tgt (f : field) : name := if f_name f =? ID then SIM_ID else f_name f.
Definition val (f : field) (row : dict) : value := match get (f_name f) row with Some v => v | None => Sc (SI 0) end.
Definition writes (fs : list field) (row r : dict) : dict := fold_left (fun r f => put (tgt f) (val f row) r) fs r.

Definition slot_f (a : arr) (k : nat) (fs : list field) (b : arr) : ex arr :=
  foldx (fun f b => match bindr (column (f_name f) a) (fun vs => slot_column (if f_name f =? ID then SIM_ID else f_name f) vs k b) with
                    | Ok b' => (b', None)
                    | Err e => (b, Some e)
                    end) fs b.

Lemma combine_map_snd {A B C} (h : A * B -> C) (l : list A) (m : list B) : length l = length m ->
  combine l (map h (combine l m)) = map (fun p => (fst p, h p)) (combine l m).
Proof. revert m. induction l as [|a l IH]; intros [|b m] L; try discriminate; auto. cbn. f_equal. apply IH. cbn in L. lia. Qed.
Lemma combine_map_l {A B C} (h : A -> C) (l : list A) (m : list B) : combine (map h l) m = map (fun p => (h (fst p), snd p)) (combine l m).
Proof. revert m. induction l as [|a l IH]; intros [|b m]; auto. cbn. f_equal. apply IH. Qed.

Lemma slot_ok a bdt pre post fs : forall mid,
  length mid = length (a_rows a) -> (forall f, In f fs -> In (f_name f) (names (a_dt a))) ->
  (forall f, In f fs -> exists g, field_of (tgt f) bdt = Some g /\ forall row, In row (a_rows a) -> in_field g (val f row)) ->
  slot_f a (length pre) fs (mkArr bdt (pre ++ mid ++ post)) =
  (mkArr bdt (pre ++ map (fun p => writes fs (fst p) (snd p)) (combine (a_rows a) mid) ++ post), None).
Proof.
  induction fs as [|f fs IH]; intros mid L HN HG; cbn [slot_f foldx].
  - do 2 f_equal. f_equal. f_equal. clear -L. revert mid L. induction (a_rows a) as [|x l IH]; intros [|y m] L; try discriminate; auto.
    cbn. f_equal. apply IH. cbn in L. lia.
  - unfold column at 1. assert (HM : memb (f_name f) (map f_name (a_dt a)) = true) by (apply memb_In; apply HN; now left).
    rewrite HM. cbn [bindr]. fold (tgt f). destruct (HG f) as (g&G1&G2); [now left|].
    rewrite (slot_column_ok (tgt f) g).
    + cbn [bindx]. change (foldx _ fs ?b) with (slot_f a (length pre) fs b).
      change (fun row => match get (f_name f) row with Some v => v | None => Sc (SI 0) end) with (val f).
      rewrite combine_map_l, map_map. cbn [fst snd].
      rewrite IH.
      * do 2 f_equal. f_equal. f_equal. rewrite combine_map_snd by auto. rewrite map_map. reflexivity.
      * rewrite map_length, combine_length. lia.
      * intros; apply HN; now right.
      * intros; apply HG; now right.
    + exact G1.
    + rewrite map_length. auto.
    + apply Forall_forall. intros v Hv. apply in_map_iff in Hv as (row&<-&Hr). now apply G2.
Qed.

Lemma writes_other fs row n : forall r, (forall f, In f fs -> tgt f <> n) -> get n (writes fs row r) = get n r.
Proof.
  induction fs as [|f fs IH]; intros r H; auto. cbn. change (fold_left _ fs ?x) with (writes fs row x).
  rewrite IH by (intros; apply H; now right). apply get_put_other. intros E. apply (H f); [now left|auto].
Qed.
Lemma writes_at fs row : forall f r, In f fs -> (forall g, In g fs -> tgt g = tgt f -> f_name g = f_name f) -> get (tgt f) (writes fs row r) = Some (val f row).
Proof.
  induction fs as [|g fs IH]; intros f r HI HU; [destruct HI|]. cbn. change (fold_left _ fs ?x) with (writes fs row x).
  destruct (in_dec Nat.eq_dec (tgt f) (map tgt fs)) as [HT|HT].
  - apply in_map_iff in HT as (h&E&Hh).
    assert (E2 : f_name h = f_name f) by (apply HU; [now right|auto]).
    assert (EV : val h row = val f row) by (unfold val; now rewrite E2).
    rewrite <- E, <- EV. apply IH; auto. intros k Hk Ek. rewrite E2. apply HU; [now right|congruence].
  - destruct HI as [-> | HI]; [|exfalso; apply HT; now apply in_map].
    rewrite writes_other; [apply get_put_same|]. intros k Hk E. apply HT. rewrite <- E. now apply in_map.
Qed.
Lemma writes_keys fs row : forall r, (forall f, In f fs -> In (tgt f) (map fst r)) -> map fst (writes fs row r) = map fst r.
Proof.
  induction fs as [|f fs IH]; intros r H; auto. cbn. change (fold_left _ fs ?x) with (writes fs row x).
  assert (E : map fst (put (tgt f) (val f row) r) = map fst r) by (apply put_keys, H; now left).
  rewrite IH; auto. intros g Hg. rewrite E. apply H. now right.
Qed.

(** The fields of the buffer *)
Definition bdt : list field :=
  let descr := filter (fun f => negb (f_name f =? ID)) dt in
  if memb SIM_ID (map f_name descr) then descr else descr ++ [mkF SIM_ID TInt None].

Hypothesis ND : NoDup (names dt).
Hypothesis IDS : forall f, In f dt -> f_name f = SIM_ID \/ f_name f = ID -> f_ty f = TInt /\ f_dim f = None.
Hypothesis NE : ~ In SIM_ENDED (names dt).
Hypothesis PI1 : In SIM_ID pi.
Hypothesis PI2 : ~ In ID pi.

Lemma field_eta f : f = mkF (f_name f) (f_ty f) (f_dim f).
Proof. now destruct f. Qed.
Lemma descr_In n : In n (map f_name (filter (fun f => negb (f_name f =? ID)) dt)) <-> In n (names dt) /\ n <> ID.
Proof.
  unfold names. rewrite !in_map_iff. split.
  - intros (f&<-&H). apply filter_In in H as [H1 H2]. split; [now exists f|]. intros E. rewrite E in H2. discriminate.
  - intros [(f&<-&H) D]. exists f. split; auto. apply filter_In. split; auto. now apply Nat.eqb_neq in D as ->.
Qed.
Lemma bdt_names n : In n (names bdt) <-> n = SIM_ID \/ In n (names dt) /\ n <> ID.
Proof.
  unfold bdt. destruct (memb _ _) eqn:E.
  - unfold names at 1. rewrite descr_In. split; [auto|]. intros [-> |]; auto. apply memb_In, descr_In in E. auto.
  - unfold names at 1. rewrite map_app, in_app_iff, descr_In. cbn. intuition.
Qed.
Lemma bdt_nodup : NoDup (names bdt).
Proof.
  unfold bdt, names. destruct (memb _ _) eqn:E; [now apply NoDup_map_filter|].
  rewrite map_app. apply NoDup_app_iff. split; [now apply NoDup_map_filter|]. split; [repeat constructor; auto|].
  intros x H [<- | []]. apply memb_not in E. auto.
Qed.
Lemma bdt_keep f : In f dt -> f_name f <> ID -> In f bdt.
Proof.
  intros H D. assert (K : In f (filter (fun f => negb (f_name f =? ID)) dt)) by (apply filter_In; split; auto; now apply Nat.eqb_neq in D as ->).
  unfold bdt. destruct (memb _ _); auto. apply in_app_iff. auto.
Qed.
Lemma bdt_sim : field_of SIM_ID bdt = Some (mkF SIM_ID TInt None).
Proof.
  apply field_of_In; [apply bdt_nodup| |reflexivity]. unfold bdt. destruct (memb _ _) eqn:E.
  - apply memb_In, in_map_iff in E as (f&E&H). assert (H' := H). apply filter_In in H as [H _].
    destruct (IDS f) as [A B]; auto. rewrite (field_eta f), E, A, B in H'. exact H'.
  - apply in_app_iff. right. now left.
Qed.
Lemma tgt_field a f : array_ok a -> a_dt a = dt -> In f dt ->
  exists g, field_of (tgt f) bdt = Some g /\ forall row, In row (a_rows a) -> in_field g (val f row).
Proof.
  intros [A1 A2] ED HF. unfold tgt. destruct (f_name f =? ID) eqn:E.
  - apply Nat.eqb_eq in E. exists (mkF SIM_ID TInt None). split; [apply bdt_sim|]. intros row Hr.
    destruct (A2 row Hr) as [_ A3]. destruct (A3 f) as (v&Gv&V); [now rewrite ED|]. unfold val. rewrite Gv.
    destruct (IDS f) as [B C]; auto. unfold in_field in *. rewrite B, C in V. exact V.
  - apply Nat.eqb_neq in E. exists f. split; [apply field_of_In; auto; [apply bdt_nodup|now apply bdt_keep]|].
    intros row Hr. destruct (A2 row Hr) as [_ A3]. destruct (A3 f) as (v&Gv&V); [now rewrite ED|]. unfold val. now rewrite Gv.
Qed.

(** A row of the buffer and the result it comes from *)
Definition old_id (row : dict) : value := if memb ID (names dt) then id_under ID row else Sc (SI 0).
Record rel (row r : dict) : Prop := {
  rl_keys : map fst r = names bdt;
  rl_same : forall n, In n (names dt) -> n <> ID -> n <> SIM_ID -> get n r = get n row;
  rl_id : ~ In SIM_ID (names dt) -> get SIM_ID r = Some (old_id row);
  rl_row : map fst row = names dt }.

Lemma writes_rel a row : array_ok a -> a_dt a = dt -> In row (a_rows a) -> rel row (writes dt row (zero_row bdt)).
Proof.
  intros [A1 A2] ED HR. destruct (A2 row HR) as [K V]. split.
  - rewrite writes_keys; [apply zero_row_keys|]. intros f Hf. rewrite zero_row_keys. apply bdt_names. unfold tgt.
    destruct (f_name f =? ID) eqn:E; auto. apply Nat.eqb_neq in E. right. split; auto. now apply in_map.
  - intros n Hn D1 D2. unfold names in Hn. apply in_map_iff in Hn as (f&<-&Hf).
    assert (T : tgt f = f_name f) by (unfold tgt; now apply Nat.eqb_neq in D1 as ->).
    rewrite <- T at 1. rewrite writes_at; auto.
    + unfold val. destruct (V f) as (v&Gv&_); [now rewrite ED|]. now rewrite Gv.
    + intros g Hg. rewrite T. unfold tgt. destruct (f_name g =? ID) eqn:E; auto. intros E2. congruence.
  - intros D. unfold old_id. destruct (memb ID (names dt)) eqn:E.
    + apply memb_In, in_map_iff in E as (f&E&Hf).
      assert (T : tgt f = SIM_ID) by (unfold tgt; now rewrite E). rewrite <- T. rewrite writes_at; auto.
      * unfold val, id_under. now rewrite E.
      * intros g Hg. rewrite T. unfold tgt. destruct (f_name g =? ID) eqn:E2; [apply Nat.eqb_eq in E2; congruence|].
        intros E3. exfalso. apply D. rewrite <- E3. now apply in_map.
    + rewrite writes_other.
      * assert (B : In (mkF SIM_ID TInt None) bdt) by (apply (field_of_Some SIM_ID), bdt_sim).
        apply (get_zero_row bdt _ bdt_nodup B).
      * intros f Hf. unfold tgt. destruct (f_name f =? ID) eqn:E2.
        -- apply Nat.eqb_eq in E2. apply memb_not in E. exfalso. apply E. rewrite <- E2. now apply in_map.
        -- intros E3. apply D. rewrite <- E3. now apply in_map.
  - now rewrite <- ED.
Qed.

(** During the sample: [rows] were ingested so far. *)
Record phase (o : obj) (rows : list dict) : Prop := {
  ph_sane : sane o;
  ph_told : o_told o = false;
  ph_in : o_in o = [];
  ph_n : o_n o = length rows;
  ph_less : length rows < N;
  ph_buf : rows <> [] -> exists R, o_buf o = Some (mkArr bdt (R ++ repeat (zero_row bdt) (N - length rows))) /\ Forall2 rel rows R }.

Lemma phase_same o o' rows : phase o rows -> sane o' -> o_told o' = o_told o -> o_in o' = o_in o -> o_n o' = o_n o -> o_buf o' = o_buf o -> phase o' rows.
Proof. intros [] ? ? ? ? ?. split; auto; try congruence. intros Hne. destruct (ph_buf0 Hne) as (R&A&B). exists R. split; auto. congruence. Qed.

Lemma new_buf_dt a : a_dt a = dt -> new_buf N a = mkArr bdt (repeat (zero_row bdt) N).
Proof. intros E. unfold new_buf. now rewrite E. Qed.

Definition sample_ids (rows : list dict) : list value := if memb SIM_ID (names dt) then numbers (length rows) else map old_id rows.




(** Rows that are told under these numbers. *)
Lemma base_ingest_ok o rows ids R : sane o ->
  Forall2 (fun p r => map fst r = names bdt /\ get SIM_ID r = Some (fst p) /\
            (forall n, In n (names dt) -> n <> ID -> n <> SIM_ID -> get n r = get n (snd p)) /\ map fst (snd p) = names dt)
          (combine ids rows) R -> length ids = length rows ->
  exists o' ms, base_ingest pi o (Some (mkArr bdt R)) false = (o', Ret tt) /\ carries pi ids rows ms /\
    o' = send ms (start o).
Proof.
  intros HS F L. unfold base_ingest.
  set (bd := filter (fun f => memb (f_name f) pi) bdt ++ [mkF SIM_ENDED TInt None]).
  set (R1 := map (fun row => filter (fun p => memb (fst p) pi) row ++ [(SIM_ENDED, Sc (SI 1))]) R).
  assert (CH : prep pi (mkArr bdt R) = Ok (mkArr bd R1)).
  { unfold prep. cbn [a_dt a_rows]. fold bd. fold R1. unfold check_dt.
    assert (X : nodupb (map f_name bd) = true).
    { apply nodupb_iff. unfold bd. rewrite map_app. apply NoDup_app_iff. split; [apply NoDup_map_filter, bdt_nodup|].
      split; [repeat constructor; auto|]. intros x Hx [Ex | []]. cbn in Ex. apply in_map_iff in Hx as (f&E&Hf). apply filter_In in Hf as [Hf _].
      assert (Y : In SIM_ENDED (names bdt)) by (rewrite Ex, <- E; now apply in_map). apply bdt_names in Y as [Y|[Y _]]; [discriminate|auto]. }
    now rewrite X. }
  rewrite CH. cbn [bindr].
  assert (CO : column SIM_ID (mkArr bd R1) = Ok ids).
  { unfold column. cbn [a_dt a_rows].
    assert (X : memb SIM_ID (map f_name bd) = true).
    { apply memb_In. unfold bd. rewrite map_app, in_app_iff. left. apply in_map_iff. exists (mkF SIM_ID TInt None). split; [reflexivity|].
      apply filter_In. split; [apply (field_of_Some SIM_ID), bdt_sim|]. cbn [f_name]. now apply memb_In. }
    rewrite X. f_equal. unfold R1. rewrite map_map. clear CH X R1 bd.
    revert rows R F L. induction ids as [|i ids IH]; intros [|row rows] R F L; try discriminate; inversion F; subst; auto.
    cbn [map]. f_equal; [|eapply IH; eauto].
    destruct H1 as (_&G&_). rewrite get_app, get_pick. apply memb_In in PI1. rewrite PI1, G. reflexivity. }
  rewrite CO. cbn [bindr]. eexists _, _. split; [reflexivity|]. split; [|reflexivity].
  eexists. split; [reflexivity|]. split; [exact L|]. cbn [a_rows]. unfold R1.
  clear CH CO R1 bd. induction F as [|[i row] r l R H F IH]; [constructor|]. cbn [map]. constructor; [|].
  - destruct H as (K1&K2&K3&K4). cbn [fst snd] in *. intros n. rewrite get_app, get_pick.
    destruct (n =? SIM_ID) eqn:E1.
    + apply Nat.eqb_eq in E1 as ->. apply memb_In in PI1. now rewrite PI1, K2.
    + apply Nat.eqb_neq in E1. destruct (n =? SIM_ENDED) eqn:E2.
      * apply Nat.eqb_eq in E2 as ->. assert (X : get SIM_ENDED r = None).
        { apply get_None. rewrite K1, bdt_names. intros [Y|[Y _]]; [discriminate|auto]. }
        rewrite X. now destruct (memb SIM_ENDED pi).
      * destruct (memb n pi) eqn:E3; [|cbn; now rewrite E2].
        assert (D : n <> ID) by (intros ->; apply PI2; now apply memb_In).
        destruct (in_dec Nat.eq_dec n (names dt)) as [HI|HI].
        -- rewrite K3 by auto. destruct (get n row) eqn:G; auto. cbn. now rewrite E2.
        -- assert (X : get n r = None) by (apply get_None; rewrite K1, bdt_names; tauto).
           assert (Y : get n row = None) by (apply get_None; now rewrite K4). rewrite X, Y. cbn. now rewrite E2.
  - eapply IH; eauto. Unshelve. all: exact 0.
Qed.

Lemma Forall2_combine {A B C D} (P : A -> B -> Prop) (Q : D * A -> C -> Prop) (h : D * B -> C) (ids : list D) :
  forall rows R, Forall2 P rows R -> length ids = length rows ->
  (forall i a b, P a b -> Q (i, a) (h (i, b))) -> Forall2 Q (combine ids rows) (map h (combine ids R)).
Proof.
  induction ids as [|i ids IH]; intros rows R F L H; [constructor|]. inversion F; subst; [discriminate|].
  cbn. constructor; [now apply H|]. apply IH; auto.
Qed.

Lemma hand_over_ok a o rows R : a_dt a = dt -> sane o -> o_told o = false -> o_in o = [] -> o_n o = length rows -> length rows = N ->
  o_buf o = Some (mkArr bdt R) -> Forall2 rel rows R ->
  exists o', hand_over N pi a false o = (o', Ret tt) /\ o_told o' = true /\ sane o' /\ carries pi (sample_ids rows) rows (o_in o').
Proof.
  intros ED HS HT HI HN HL HB HR. unfold hand_over, enough. rewrite HN, HL, Nat.leb_refl, HB, HT, ED. cbn [orb negb].
  rewrite andb_true_r. change (map f_name dt) with (names dt).
  assert (LR : length rows = length R) by (eapply Forall2_length; eauto).
  assert (K : exists R', (if memb SIM_ID (names dt) then number_rows (mkArr bdt R) else Ok (mkArr bdt R)) = Ok (mkArr bdt R') /\
    length (sample_ids rows) = length rows /\
    Forall2 (fun p r => map fst r = names bdt /\ get SIM_ID r = Some (fst p) /\
            (forall n, In n (names dt) -> n <> ID -> n <> SIM_ID -> get n r = get n (snd p)) /\ map fst (snd p) = names dt)
            (combine (sample_ids rows) rows) R').
  { unfold sample_ids. destruct (memb SIM_ID (names dt)) eqn:E.
    - assert (L1 : length (numbers (length rows)) = length rows) by (unfold numbers; now rewrite map_length, seq_length).
      unfold number_rows. cbn [a_rows]. fold (numbers (length R)). rewrite <- LR.
      assert (X := slot_column_ok SIM_ID (mkF SIM_ID TInt None) (numbers (length rows)) bdt [] R []).
      cbn [length app] in X. rewrite app_nil_r in X.
      rewrite X.
      + eexists. split; [reflexivity|]. split; [exact L1|]. rewrite app_nil_r.
        eapply Forall2_combine; [exact HR|exact L1|]. intros i row r [A B C D]. cbn [fst snd].
        split; [rewrite put_keys; auto; rewrite A; apply bdt_names; now left|].
        split; [apply get_put_same|]. split; [|exact D]. intros n Hn D1 D2. rewrite get_put_other by auto. now apply B.
      + apply bdt_sim.
      + now rewrite L1.
      + apply Forall_forall. intros v Hv. unfold numbers in Hv. apply in_map_iff in Hv as (i&<-&_). exact I.
    - exists R. split; [reflexivity|]. split; [now rewrite map_length|]. apply memb_not in E.
      clear -HR E. induction HR as [|row r rows R H HR IH]; [constructor|]. cbn [map combine]. constructor; auto.
      destruct H as [A B C D]. cbn [fst snd]. auto. }
  destruct K as (R'&K1&K2&K3). rewrite K1.
  destruct (base_ingest_ok (set_buf o (Some (mkArr bdt R')) (o_n o) false) rows (sample_ids rows) R') as (o'&ms&B1&B2&B3); auto.
  rewrite HN, HL in B1. rewrite B1. eexists. split; [reflexivity|]. split; [reflexivity|]. split; [|].
  - rewrite B3. apply start_sane.
  - cbn. rewrite B3. cbn [send set_proc o_in]. replace (o_in (start _)) with (@nil pin); [exact B2|].
    unfold start. destruct (o_made _); cbn; now rewrite HI.
Qed.

Lemma repeat_app_sub {A} (x : A) n m : m <= n -> repeat x n = repeat x m ++ repeat x (n - m).
Proof. intros H. rewrite <- repeat_app. f_equal. lia. Qed.

Lemma Forall2_app_inv {A B} (P : A -> B -> Prop) a b c d : Forall2 P a c -> Forall2 P b d -> Forall2 P (a ++ b) (c ++ d).
Proof. apply Forall2_app. Qed.

(** One call of ingest during the sample *)
Lemma ingest_sampling o rows a : phase o rows -> array_ok a -> a_dt a = dt -> length rows + length (a_rows a) <= N ->
  exists o', ingest N pi (Some a) false o = (o', Ret tt) /\
    (length rows + length (a_rows a) < N -> phase o' (rows ++ a_rows a)) /\
    (length rows + length (a_rows a) = N -> o_told o' = true /\ sane o' /\ carries pi (sample_ids (rows ++ a_rows a)) (rows ++ a_rows a) (o_in o')).
Proof.
  intros [PS PT PN Pn PL PB] AO ED LE. unfold ingest. set (o0 := set_first MIngest o).
  assert (E0 : o_told o0 = false /\ o_in o0 = [] /\ o_n o0 = length rows /\ o_buf o0 = o_buf o /\ sane o0).
  { unfold o0, set_first, sane. destruct (o_first o); cbn; auto. }
  destruct E0 as (T0&I0&N0&B0&S0). rewrite T0. cbn [orb].
  set (o1 := if o_n o0 =? 0 then _ else _).
  assert (E1 : o_told o1 = false /\ o_in o1 = [] /\ o_n o1 = length rows /\ sane o1 /\
     exists R, o_buf o1 = Some (mkArr bdt (R ++ repeat (zero_row bdt) (N - length rows))) /\ Forall2 rel rows R).
  { unfold o1. rewrite N0. destruct (length rows =? 0) eqn:E.
    - apply Nat.eqb_eq in E. assert (rows = []) as -> by (destruct rows; [auto|discriminate]). cbn [set_buf o_told o_in o_n o_buf length].
      repeat split; auto. exists []. split; [|constructor]. rewrite (new_buf_dt a ED). cbn. now rewrite Nat.sub_0_r.
    - apply Nat.eqb_neq in E. repeat split; auto. destruct PB as (R&X&Y); [intros ->; now apply E|]. exists R. split; auto. congruence. }
  clearbody o1. destruct E1 as (T1&I1&N1&S1&R&B1&F1).
  assert (EN : enough N o1 = false) by (unfold enough; rewrite N1, T1; apply Nat.leb_gt in PL; now rewrite PL).
  rewrite EN, B1, N1.
  assert (LR : length R = length rows) by (symmetry; eapply Forall2_length; eauto).
  set (m := length (a_rows a)) in *.
  rewrite (repeat_app_sub (zero_row bdt) (N - length rows) m) by lia.
  assert (SL : slot a (length rows) (mkArr bdt (R ++ repeat (zero_row bdt) m ++ repeat (zero_row bdt) (N - length rows - m))) =
    (mkArr bdt (R ++ map (fun p => writes dt (fst p) (snd p)) (combine (a_rows a) (repeat (zero_row bdt) m)) ++ repeat (zero_row bdt) (N - length rows - m)), None)).
  { unfold slot. rewrite ED. rewrite <- LR. apply (slot_ok a bdt R).
    - apply repeat_length.
    - intros f Hf. rewrite ED. now apply in_map.
    - intros f Hf. now apply tgt_field. }
  rewrite SL. set (R2 := map _ (combine _ _)).
  assert (F2 : Forall2 rel (a_rows a) R2).
  { unfold R2, m. assert (Q : forall row, In row (a_rows a) -> rel row (writes dt row (zero_row bdt))) by (intros; eapply writes_rel; eauto).
    clear -Q. induction (a_rows a) as [|x l IH]; [constructor|]. cbn. constructor; [apply Q; now left|]. apply IH. intros; apply Q; now right. }
  assert (F3 : Forall2 rel (rows ++ a_rows a) (R ++ R2)) by now apply Forall2_app.
  set (o2 := set_buf o1 _ _ _).
  assert (E2 : o_told o2 = false /\ o_in o2 = [] /\ o_n o2 = length (rows ++ a_rows a) /\ sane o2 /\
     o_buf o2 = Some (mkArr bdt ((R ++ R2) ++ repeat (zero_row bdt) (N - length (rows ++ a_rows a))))).
  { unfold o2. cbn. rewrite app_length. fold m. repeat split; auto. do 2 f_equal. rewrite <- app_assoc. do 3 f_equal. lia. }
  clearbody o2. destruct E2 as (T2&I2&N2&S2&B2).
  destruct (Nat.eq_dec (length rows + m) N) as [EQ|NQ].
  - destruct (hand_over_ok a o2 (rows ++ a_rows a) (R ++ R2)) as (o'&H1&H2&H3&H4); auto.
    + rewrite app_length. exact EQ.
    + rewrite B2. do 2 f_equal. rewrite app_length. fold m. replace (N - _) with 0 by lia. apply app_nil_r.
    + exists o'. rewrite H1. split; auto. split; [lia|]. auto.
  - exists (set_call MIngest (o_num o2) o2). split.
    + unfold hand_over, enough. rewrite N2, T2. assert (X : (N <=? length (rows ++ a_rows a)) = false) by (apply Nat.leb_gt; rewrite app_length; fold m; lia).
      now rewrite X.
    + split; [|lia]. intros LT. split; auto.
      * rewrite app_length. exact LT.
      * intros _. exists (R ++ R2). split; auto.
Qed.

(** A batch that is too long is refused. *)
Lemma ingest_too_many o rows a : phase o rows -> array_ok a -> a_dt a = dt -> dt <> [] -> N < length rows + length (a_rows a) ->
  exists o', ingest N pi (Some a) false o = (o', Raise EValue) /\ phase o' rows.
Proof.
  intros [PS PT PN Pn PL PB] AO ED NZ GT. unfold ingest. set (o0 := set_first MIngest o).
  assert (E0 : o_told o0 = false /\ o_in o0 = [] /\ o_n o0 = length rows /\ o_buf o0 = o_buf o /\ sane o0).
  { unfold o0, set_first, sane. destruct (o_first o); cbn; auto. }
  destruct E0 as (T0&I0&N0&B0&S0). rewrite T0. cbn [orb].
  set (o1 := if o_n o0 =? 0 then _ else _).
  assert (E1 : o_told o1 = false /\ o_in o1 = [] /\ o_n o1 = length rows /\ sane o1 /\
     exists R, o_buf o1 = Some (mkArr bdt (R ++ repeat (zero_row bdt) (N - length rows))) /\ Forall2 rel rows R).
  { unfold o1. rewrite N0. destruct (length rows =? 0) eqn:E.
    - apply Nat.eqb_eq in E. assert (rows = []) as -> by (destruct rows; [auto|discriminate]). cbn [set_buf o_told o_in o_n o_buf length].
      repeat split; auto. exists []. split; [|constructor]. rewrite (new_buf_dt a ED). cbn. now rewrite Nat.sub_0_r.
    - apply Nat.eqb_neq in E. repeat split; auto. destruct PB as (R&X&Y); [intros ->; now apply E|]. exists R. split; auto. congruence. }
  clearbody o1. destruct E1 as (T1&I1&N1&S1&R&B1&F1).
  assert (EN : enough N o1 = false) by (unfold enough; rewrite N1, T1; apply Nat.leb_gt in PL; now rewrite PL).
  rewrite EN, B1, N1.
  assert (LR : length R = length rows) by (symmetry; eapply Forall2_length; eauto).
  assert (SL : slot a (length rows) (mkArr bdt (R ++ repeat (zero_row bdt) (N - length rows))) =
    (mkArr bdt (R ++ repeat (zero_row bdt) (N - length rows)), Some EValue)).
  { assert (Edt : exists f dt', a_dt a = f :: dt') by (rewrite ED; destruct dt as [|f dt']; [congruence|eauto]).
    destruct Edt as (f&dt'&Edt). unfold slot. rewrite Edt.
    cbn [foldx]. assert (Hf : In f dt) by (rewrite <- ED, Edt; now left).
    unfold column at 1. assert (HM : memb (f_name f) (map f_name (a_dt a)) = true) by (apply memb_In; rewrite ED; now apply in_map).
    rewrite HM. cbn [bindr]. fold (tgt f). destruct (tgt_field a f AO ED Hf) as (g&G1&G2).
    unfold slot_column. cbn [a_dt a_rows]. rewrite G1. rewrite skipn_app, <- LR, skipn_all, Nat.sub_diag. cbn [skipn app].
    rewrite write_from_long; [reflexivity| |].
    - rewrite map_length, repeat_length. lia.
    - apply Forall_forall. intros v Hv. apply in_map_iff in Hv as (row&<-&Hr). exact (G2 row Hr). }
  rewrite SL. eexists. split; [reflexivity|]. split; auto. intros _. exists R. cbn. auto.
Qed.
End S.

(** The calls that do not ingest leave the sample alone. *)
Section F.
Variable gen : gfun.
Variable N : nat.
Variable pi : list name.

Record still (o o' : obj) : Prop := {
  sl_told : o_told o' = o_told o;
  sl_in : o_in o' = o_in o;
  sl_n : o_n o' = o_n o;
  sl_buf : o_buf o' = o_buf o;
  sl_sane : sane o' }.
Lemma still_refl o : sane o -> still o o.
Proof. split; auto. Qed.
Lemma still_trans a b c : still a b -> still b c -> still a c.
Proof. intros [] []. split; try congruence; auto. Qed.
Lemma still_first m o : sane o -> still o (set_first m o).
Proof. intros H. split; unfold set_first, sane in *; destruct (o_first o); auto. Qed.
Lemma still_start o : still o (start o).
Proof. unfold start. destruct (o_made o) eqn:E; split; auto; unfold sane; cbn; congruence. Qed.

Lemma suggest_still n o o' a : sane o -> suggest gen pi n o = (o', Ret a) -> still o o'.
Proof.
  intros HS H. unfold suggest in H. assert (S0 := still_first MSuggest o HS). set (o0 := set_first MSuggest o) in *.
  assert (HO : forall o1 o2 x, sane o1 -> hand_out n o1 = (o2, Ret x) -> still o1 o2).
  { intros o1 o2 x Hs E. unfold hand_out in E. destruct (o_last o1); [|discriminate].
    destruct (0 <? n); injection E as <- <-; split; auto. }
  destruct (ready o0) as [[]|e]; [| |discriminate]; cbn [lift] in H.
  - destruct (fetch gen pi n o0) as [o1 [l|e|]] eqn:EF; try discriminate.
    assert (S1 : still o0 o1).
    { unfold fetch in EF. destruct (_ && _ && _); [destruct (finalize _ _ _) as [? [| |]]; discriminate|].
      unfold base_suggest, recv in EF. set (o2 := start _) in *.
      assert (S2 : still o0 o2).
      { unfold o2. destruct (still_start (set_sugg o0 0 (o_last o0) (o_minima o0))) as [a1 a2 a3 a4 a5]. split; auto. }
      destruct (o_done o2); [discriminate|]. destruct (nth_error _ _) as [[b| |]|]; try discriminate.
      cbn [lift] in EF. destruct (column LOCAL_MIN b); [|discriminate]. cbn [lift] in EF. injection EF as <- <-.
      destruct S2 as [a1 a2 a3 a4 a5]. destruct (existsb _ _); split; auto. }
    apply HO in H; [|apply S1]. eapply still_trans; [exact S0|]. eapply still_trans; eauto.
  - apply HO in H; [|apply S0]. eapply still_trans; eauto.
Qed.

Lemma step_still c o o' r : sane o -> step gen N pi c o = (o', r) -> points_fine r -> ~ ends c -> (forall a, c <> Ingest a) -> still o o'.
Proof.
  intros HS H F NE NI. destruct c as [n|a| | |]; cbn [step] in H.
  - destruct (suggest _ _ n o) as [o1 x] eqn:E. injection H as <- <-. destruct x as [a|e|]; try contradiction. eapply suggest_still; eauto.
  - now destruct (NI a).
  - injection H as <- <-. split; auto.
  - now destruct NE.
  - unfold setup in H. destruct (o_made o) eqn:E; injection H as <- <-; split; auto. intros Q. discriminate Q.
Qed.
End F.
