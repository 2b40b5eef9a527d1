(** Copying back all directories of one worker. *)
From Coq Require Import Ascii String.
From Verif Require Import Base BaseLemmas TextModel TextProofs LabelModel FileModel FileSpec FileProofs FileOps FileCalc FileBack.
Local Notation length := List.length.
Local Open Scope list_scope.
Local Open Scope nat_scope.

(** ** Names *)
Definition digit_first (t : text) : Prop := match t with x :: _ => is_digit x = true | [] => False end.
Lemma digit_first_app a b : digit_first a -> digit_first (a ++ b).
Proof. destruct a; [intros []|auto]. Qed.
Lemma dec_first n : digit_first (dec n).
Proof. pose proof (dec_digits n) as H. pose proof (dec_nonempty n) as H2. destruct (dec n); [congruence|]. cbn in *. now apply andb_true_iff in H. Qed.
Lemma range_first g : digit_first (range_text g).
Proof. unfold range_text. destruct (_ <? _); [apply digit_first_app|]; apply dec_first. Qed.
Lemma label_first rows : extract_H_ranges rows = [] \/ digit_first (extract_H_ranges rows).
Proof.
  unfold extract_H_ranges. assert (J : forall gs : list (list (nat * nat)), join "_" (map (fun g => range_text (map snd g)) gs) = [] \/ digit_first (join "_" (map (fun g => range_text (map snd g)) gs))).
  { intros [|g [|g' gs]]; [now left|right; apply range_first|right]. cbn [map join]. apply digit_first_app, range_first. }
  destruct rows as [|r [|r' rows]]; [apply J|right; apply dec_first|apply J].
Qed.
Lemma rjust_first w t : 0 < w -> t = [] \/ digit_first t -> digit_first (rjust w (digit 0) t).
Proof.
  intros Hw H. unfold rjust. destruct (w - length t) as [|k] eqn:E; [|now apply digit_first_app].
  destruct H as [-> |H]; [cbn in E; lia|exact H].
Qed.
Lemma own_calc c is_sim rows iter : 0 < d_pad (f_names c) -> is_calc_name (own_name c is_sim rows iter) = true.
Proof.
  intros Hp. unfold own_name. set (r := rjust _ _ _). assert (D : digit_first r).
  { apply rjust_first; auto. destruct is_sim; [apply label_first|right; apply dec_first]. }
  destruct r as [|x r]; [destruct D|]. cbn in D. destruct is_sim; unfold is_calc_name, starts_with; cbn; rewrite D; reflexivity.
Qed.
Lemma calc_like_iff a : is_calc_name a = true <-> calc_like a.
Proof.
  unfold is_calc_name, starts_with, calc_like. split.
  - intros H. apply andb_true_iff in H as [H1 H2]. destruct (skipn 3 a) as [|x r] eqn:E; [discriminate|]. exists x, r. split; auto.
    rewrite <- (firstn_skipn 3 a), E. apply orb_true_iff in H1 as [H1|H1]; [left|right]; destruct (teqb_spec (T "sim") (firstn (length (T "sim")) a)); destruct (teqb_spec (T "gen") (firstn (length (T "gen")) a));
      try discriminate; cbn [length T list_ascii_of_string] in *; congruence.
  - intros (x & r & D & [-> | ->]); cbn; rewrite D; reflexivity.
Qed.
Lemma base_snoc (d : path) a : base (d ++ [a]) = a.
Proof. apply last_last. Qed.
Lemma snoc_ne (d : path) a : d ++ [a] <> d.
Proof. intros E. apply (f_equal (@List.length text)) in E. rewrite app_length in E. cbn in E. lia. Qed.

(** ** All registered directories *)
Lemma copy_dirs_edits c ds : forall m m' e stop, apart (f_back c) (f_ens c) -> copy_dirs c ds m = ((m', e), stop) ->
  look (f_ens c) m' = look (f_ens c) m /\ entry_at m' (f_back c) = entry_at m (f_back c) /\ differ_only (under (f_back c)) m m' /\
  (forall a, (forall k p, In (k, p) ds -> p <> f_ens c -> base p <> a) -> look (f_back c ++ [a]) m' = look (f_back c ++ [a]) m).
Proof.
  intros m m' e stop HA. revert m. induction ds as [|[k p] ds IH]; intros m; cbn [copy_dirs].
  { intros [= <- _ _]. split; [auto|split; [auto|split; [apply differ_refl|auto]]]. }
  destruct (peqb_spec p (f_ens c)) as [-> |Np].
  { intros E. destruct (IH _ E) as (I1 & I2 & I3 & I4). split; [auto|split; [auto|split; [auto|]]]. intros a Ha. apply I4. intros k' p' Hi. apply (Ha k'). now right. }
  destruct (copy_dir c p m) as [m1 e1] eqn:E1. apply copy_dir_edit in E1.
  assert (X : look (f_ens c) m1 = look (f_ens c) m /\ entry_at m1 (f_back c) = entry_at m (f_back c) /\ differ_only (under (f_back c)) m m1 /\
    (forall a, (forall k' p', In (k', p') ((k, p) :: ds) -> p' <> f_ens c -> base p' <> a) -> look (f_back c ++ [a]) m1 = look (f_back c ++ [a]) m)).
  { split; [eapply edit_apart; eauto|]. split; [eapply edit_above; eauto|]. split.
    - destruct E1 as [E1 _]. eapply differ_mono; [|exact E1]. intros q. apply under_trans, under_app.
    - intros a Ha. eapply edit_other; [|exact E1]. apply (Ha k p); [now left|auto]. }
  destruct e1 as [e1|]; [intros [= <- _ _]; exact X|]. destruct (is_worker_name (base p)); [intros [= <- _ _]; exact X|]. intros E.
  destruct (IH _ E) as (I1 & I2 & I3 & I4). destruct X as (X1 & X2 & X3 & X4). split; [congruence|]. split; [congruence|]. split; [eapply differ_trans; eauto|].
  intros a Ha. rewrite I4, X4; auto. intros k' p' Hi. apply (Ha k'). now right.
Qed.
Lemma apart_below b e q : apart b e -> apart b (e ++ q).
Proof.
  intros [A1 A2]. split; intros H.
  - destruct (under_two _ _ _ H (under_app e q)); auto.
  - apply A2. eapply under_trans; [apply under_app|exact H].
Qed.
(** directories without use_worker_dirs *)
Definition flat_dirs (c : dspecs) (ds : list (key * path)) : Prop :=
  (forall k p, In (k, p) ds -> p <> f_ens c -> exists a, p = f_ens c ++ [a] /\ is_worker_name a = false) /\ NoDup (map snd ds).
Lemma flat_tail c x ds : flat_dirs c (x :: ds) -> flat_dirs c ds.
Proof. intros [H1 H2]. split; [intros k p H; apply (H1 k); now right|]. now inversion H2. Qed.
Lemma flat_other c k p ds : flat_dirs c ((k, p) :: ds) -> p <> f_ens c -> forall k' p', In (k', p') ds -> p' <> f_ens c -> base p' <> base p.
Proof.
  intros [H1 H2] Np k' p' Hi Np' E. destruct (H1 k p (or_introl eq_refl) Np) as (a & -> & _). destruct (H1 k' p' (or_intror Hi) Np') as (a' & -> & _).
  rewrite !base_snoc in E. subst a'. inversion_clear H2 as [|? ? N1 N2]. apply N1. apply (in_map snd) in Hi. exact Hi.
Qed.
Lemma copy_dirs_copies c ds : forall m m' stop, apart (f_back c) (f_ens c) -> entry_at m (f_back c) = Some IsDir -> flat_dirs c ds ->
  (forall q n, look (f_ens c ++ q) m = Some n -> sane n) -> copy_dirs c ds m = ((m', None), stop) ->
  stop = false /\ forall k p, In (k, p) ds -> p <> f_ens c -> entry_at m p = Some IsDir -> free_name c m (base p) -> same_tree m p m' (f_back c ++ [base p]).
Proof.
  intros m m' stop HA. revert m. induction ds as [|[k p] ds IH]; intros m HB HF HS; cbn [copy_dirs]. { intros [= <- <-]. split; [auto|intros k p []]. }
  destruct (peqb_spec p (f_ens c)) as [-> |Np].
  { intros E. destruct (IH m HB (flat_tail _ _ _ HF) HS E) as [I1 I2]. split; auto. intros k' p' [[= <- <-]|Hi]; [congruence|]. apply (I2 k'); auto. }
  destruct (copy_dir c p m) as [m1 [e1|]] eqn:E1; [discriminate|]. pose proof (copy_dir_edit _ _ _ _ _ E1) as ED.
  destruct (proj1 HF k p (or_introl eq_refl) Np) as (a & -> & Ha). rewrite base_snoc in *. rewrite Ha. intros E.
  assert (LE : look (f_ens c) m1 = look (f_ens c) m) by (eapply edit_apart; eauto).
  destruct (IH m1) as [I1 I2]; auto.
  { rewrite (edit_above _ _ _ _ ED). exact HB. }
  { eapply flat_tail; eauto. }
  { intros q n. rewrite (look_below _ _ _ q LE). apply HS. }
  split; auto. intros k' p' [[= <- <-]|Hi] Np' HE HFr.
  - rewrite base_snoc in *. destruct (copy_dir_copies c (f_ens c ++ [a]) m) as (m1' & C1 & _ & C3); auto.
    { apply HS. } { now apply apart_below. } { now rewrite base_snoc. }
    rewrite E1 in C1. injection C1 as <-. rewrite base_snoc in C3. intros q. rewrite <- C3.
    destruct (copy_dirs_edits c ds m1 m' None stop HA E) as (_ & _ & _ & X). apply entry_look, look_below. apply X.
    intros k'' p'' Hi' Np''. pose proof (flat_other _ _ _ _ HF Np k'' p'' Hi' Np'') as Y. now rewrite base_snoc in Y.
  - pose proof (flat_other _ _ _ _ HF Np k' p' Hi Np') as Y. rewrite base_snoc in Y. destruct (proj1 HF k' p' (or_intror Hi) Np') as (b & -> & _). rewrite base_snoc in *.
    assert (Lb : look (f_back c ++ [b]) m1 = look (f_back c ++ [b]) m) by (eapply edit_other; [|exact ED]; congruence).
    assert (SE : forall q, look ((f_ens c ++ [b]) ++ q) m1 = look ((f_ens c ++ [b]) ++ q) m) by (intros q; now apply look_below, look_below).
    intros q. pose proof (I2 k' (f_ens c ++ [b]) Hi Np') as Z. rewrite base_snoc in Z. rewrite Z.
    + apply entry_look, SE.
    + rewrite <- HE. apply entry_look. specialize (SE []). now rewrite app_nil_r in SE.
    + destruct HFr as [H|[H1 H2]]; [left|right; split; auto]; rewrite <- ?H, <- ?H2; now apply entry_look.
Qed.
Lemma copy_dirs_ok c ds : forall m, apart (f_back c) (f_ens c) -> entry_at m (f_back c) = Some IsDir -> flat_dirs c ds -> proper m ->
  (forall k p, In (k, p) ds -> p <> f_ens c -> entry_at m p = Some IsDir /\ free_name c m (base p)) ->
  exists m', copy_dirs c ds m = ((m', None), false) /\ proper m'.
Proof.
  intros m HA. revert m. induction ds as [|[k p] ds IH]; intros m HB HF HP HD; cbn [copy_dirs]; [eauto|].
  destruct (peqb_spec p (f_ens c)) as [-> |Np].
  { apply IH; auto; [eapply flat_tail; eauto|]. intros k' p' Hi. apply (HD k'). now right. }
  destruct (HD k p (or_introl eq_refl) Np) as [D1 D2]. destruct (proj1 HF k p (or_introl eq_refl) Np) as (a & -> & Ha). rewrite base_snoc in *.
  destruct (copy_dir_copies c (f_ens c ++ [a]) m) as (m1 & C1 & C2 & _); auto.
  { intros n. now apply proper_look. } { now apply apart_below. } { now rewrite base_snoc. }
  rewrite C1, Ha. apply copy_dir_edit in C1. rewrite base_snoc in C1. assert (LE : look (f_ens c) m1 = look (f_ens c) m) by (eapply edit_apart; eauto).
  apply IH; auto.
  { rewrite (edit_above _ _ _ _ C1). exact HB. }
  { eapply flat_tail; eauto. }
  intros k' p' Hi Np'. pose proof (flat_other _ _ _ _ HF Np k' p' Hi Np') as Y. rewrite base_snoc in Y. destruct (HD k' p' (or_intror Hi) Np') as [F1 F2].
  destruct (proj1 HF k' p' (or_intror Hi) Np') as (b & -> & _). rewrite base_snoc in *.
  assert (Lb : look (f_back c ++ [b]) m1 = look (f_back c ++ [b]) m) by (eapply edit_other; [|exact C1]; congruence). split.
  - rewrite <- F1. now apply entry_look, look_below.
  - destruct F2 as [H|[H1 H2]]; [left|right; split; auto]; rewrite <- ?H, <- ?H2; now apply entry_look.
Qed.
Lemma worker_named w : is_worker_name (worker_name w) = true.
Proof. reflexivity. Qed.

(** ** Other entries of the ensemble directory *)
Definition misc_clean (c : dspecs) (m : node) (a : text) : Prop :=
  no_links m (f_back c ++ [a]) \/ entry_at m (f_back c ++ [a]) = entry_at m (f_ens c ++ [a]).
Lemma copy_edit src dest m m' e : dest <> [] -> no_links m dest -> copy src dest m = (m', e) -> edit dest m m'.
Proof.
  intros Hd HL. unfold copy. destruct (target m src) as [s|]; [|intros [= <- _]; apply edit_refl].
  destruct (look s m) as [[c|t|l]|]; try (intros [= <- _]; apply edit_refl).
  rewrite (target_plain m dest) by now apply no_links_here. destruct (is_dir m dest) eqn:ED.
  - rewrite (target_plain m (dest ++ [base src])) by now apply no_links_here, no_links_below.
    destruct (peqb _ _); [intros [= <- _]; apply edit_refl|]. destruct (is_dir m (dest ++ _)); [intros [= <- _]; apply edit_refl|].
    destruct (parent_ok _ _) eqn:EP; intros [= <- _]; [|apply edit_refl]. eapply edit_up. apply put_edit; [exact EP|apply app1_ne].
  - destruct (peqb _ _); [intros [= <- _]; apply edit_refl|]. rewrite ED.
    destruct (parent_ok _ _) eqn:EP; intros [= <- _]; [|apply edit_refl]. now apply put_edit.
Qed.
Lemma not_link_here m p : (forall t, entry_at m p <> Some (IsLink t)) -> (forall l, look p m <> Some (Dir l)) -> no_links m p.
Proof.
  intros H1 H2 q t. destruct q as [|a q]; [rewrite app_nil_r; apply H1|]. rewrite entry_link, look_app. destruct (look p m) as [[c|t'|l]|] eqn:E; cbn; try discriminate. destruct (H2 l). reflexivity.
Qed.
Lemma clear_links c m a : no_links m (f_back c ++ [a]) -> no_links (if f_overwrite c then rmtree (f_back c ++ [a]) m else m) (f_back c ++ [a]).
Proof.
  intros H. destruct (f_overwrite c); auto. unfold rmtree. destruct (look _ m) as [[x|t|l]|]; auto. apply del_no_links, app1_ne.
Qed.
Lemma is_dir_same m p q : look p m = look q m -> (exists t, look p m = Some (Link t)) -> is_dir m p = is_dir m q.
Proof.
  intros E (t & T0). assert (T1 : look q m = Some (Link t)) by congruence. unfold is_dir, stat, target. pose proof (size_pos m). destruct (size m); [lia|]. cbn. now rewrite T0, T1.
Qed.
Lemma misc_edit c f m m' e : apart (f_back c) (f_ens c) -> misc_clean c m f -> copy_misc c f m = (m', e) -> edit (f_back c ++ [f]) m m'.
Proof.
  intros HA HM. unfold copy_misc. set (src := f_ens c ++ [f]). set (dest := f_back c ++ [f]). set (m1 := if f_overwrite c then rmtree dest m else m).
  assert (Hd : dest <> []) by apply app1_ne.
  assert (E1 : edit dest m m1) by apply clear_edit. assert (LS : look src m1 = look src m) by (eapply edit_apart; [apply apart_below; exact HA|exact E1]).
  destruct (is_dir m1 src) eqn:EI.
  - destruct (look dest m1); [intros [= <- _]; exact E1|]. destruct (parent_ok m1 dest) eqn:EP; [|intros [= <- _]; exact E1].
    destruct (stat m1 src); [|intros [= <- _]; exact E1]. destruct (graft _ _ _) as [[k|] ok]; intros [= <- _]; [|exact E1].
    eapply edit_trans; [exact E1|]. now apply put_edit.
  - assert (MC : no_links m1 dest \/ (exists t, look dest m1 = Some (Link t) /\ look src m1 = Some (Link t))).
    { destruct HM as [HM|HM]; [left; now apply clear_links|]. fold dest src in HM. destruct (look dest m) as [[x|t|l]|] eqn:ED.
      - left. apply clear_links, not_link_here; fold dest; [intros t Ht; apply entry_link in Ht; congruence|congruence].
      - right. exists t. split.
        + unfold m1. destruct (f_overwrite c); auto. unfold rmtree. now rewrite ED.
        + rewrite LS. apply entry_link. rewrite <- HM. now apply entry_link.
      - exfalso. assert (X : entry_at m dest = Some IsDir) by (apply entry_dir; eauto). rewrite HM in X. apply entry_dir in X as (l' & X).
        rewrite (proj2 (is_dir_plain m1 src ltac:(intros t Ht; apply entry_link in Ht; congruence))) in EI; [discriminate|]. apply entry_dir. exists l'. congruence.
      - left. apply clear_links, not_link_here; fold dest; [intros t Ht; apply entry_link in Ht; congruence|congruence]. }
    assert (PUT : forall d t, edit dest m1 (put d (Link t) m1) -> edit dest m (put d (Link t) m1)) by (intros; eapply edit_trans; eauto).
    assert (CP : no_links m1 dest -> forall r, match copy src dest m1 with (m2, Some (EOther 33)) => (m2, None) | r => r end = r -> edit dest m (fst r)).
    { intros HL r <-. destruct (copy src dest m1) as [m2 e2] eqn:EC. apply copy_edit in EC; auto. assert (X : edit dest m m2) by (eapply edit_trans; eauto).
      destruct e2 as [e2|]; [|exact X]. destruct e2; try exact X. do 34 (destruct n as [|n]; try exact X). }
    destruct MC as [HL|(t & T1 & T2)].
    + destruct (look src m1) as [[x|t|l]|] eqn:ES; try (intros E; change m' with (fst (m', e)); now apply CP).
      rewrite (target_plain m1 dest) by now apply no_links_here. destruct (is_dir m1 dest).
      * destruct (look (dest ++ [f]) m1); [intros [= <- _]; exact E1|]. destruct (parent_ok _ _) eqn:EP; intros [= <- _]; [|exact E1].
        apply PUT. eapply edit_up, put_edit; [exact EP|apply app1_ne].
      * destruct (look dest m1); [intros [= <- _]; exact E1|]. destruct (parent_ok _ _) eqn:EP; intros [= <- _]; [|exact E1]. apply PUT. now apply put_edit.
    + rewrite T2. rewrite <- (is_dir_same m1 src dest) by (try congruence; eauto). rewrite EI, T1. intros [= <- _]. exact E1.
Qed.
Lemma misc_edits c fs : forall m m' e, apart (f_back c) (f_ens c) -> NoDup fs -> (forall f, In f fs -> misc_clean c m f) -> foldx (copy_misc c) fs m = (m', e) ->
  look (f_ens c) m' = look (f_ens c) m /\ entry_at m' (f_back c) = entry_at m (f_back c) /\ differ_only (under (f_back c)) m m' /\ forall a, ~ In a fs -> look (f_back c ++ [a]) m' = look (f_back c ++ [a]) m.
Proof.
  intros m m' e HA. revert m. induction fs as [|f fs IH]; intros m HN HM; cbn [foldx].
  { intros [= <- _]. split; [auto|split; [auto|split; [apply differ_refl|auto]]]. }
  destruct (copy_misc c f m) as [m1 e1] eqn:E1. apply misc_edit in E1; [|auto|apply HM; now left]. inversion_clear HN as [|? ? N1 N2].
  assert (LE : look (f_ens c) m1 = look (f_ens c) m) by (eapply edit_apart; eauto).
  assert (X : differ_only (under (f_back c)) m m1 /\ forall a, ~ In a (f :: fs) -> look (f_back c ++ [a]) m1 = look (f_back c ++ [a]) m).
  { split; [destruct E1 as [E1 _]; eapply differ_mono; [|exact E1]; intros q; apply under_trans, under_app|]. intros a Ha. eapply edit_other; [|exact E1]. intros ->. apply Ha. now left. }
  pose proof (edit_above _ _ _ _ E1) as EB. unfold bindx. destruct e1 as [e1|]; [intros [= <- _]; tauto|]. intros E.
  destruct (IH m1 N2) as (I1 & I2 & I3 & I4); auto.
  { intros g Hg. assert (L : look (f_back c ++ [g]) m1 = look (f_back c ++ [g]) m) by (eapply edit_other; [|exact E1]; intros ->; auto).
    destruct (HM g (or_intror Hg)) as [H|H]; [left|right].
    - intros q t Ht. apply (H q t). rewrite <- Ht. symmetry. now apply entry_look, look_below.
    - rewrite (entry_look _ _ _ L), H. symmetry. now apply entry_look, look_below. }
  split; [congruence|]. split; [congruence|]. split; [eapply differ_trans; [apply X|exact I3]|]. intros a Ha. rewrite I4, (proj2 X); auto. intros H. apply Ha. now right.
Qed.
