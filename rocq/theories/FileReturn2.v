(** What a worker finds copied back. *)
From Coq Require Import Ascii String.
From Verif Require Import Base BaseLemmas TextModel TextProofs LabelModel FileModel FileSpec FileProofs FileOps FileCalc FileBack FileReturn.
Local Notation length := List.length.
Local Open Scope list_scope.
Local Open Scope nat_scope.

(** ** One other entry *)
Lemma misc_dir c f m : apart (f_back c) (f_ens c) -> entry_at m (f_back c) = Some IsDir -> entry_at m (f_ens c ++ [f]) = Some IsDir -> (forall n, look (f_ens c ++ [f]) m = Some n -> sane n) ->
  free_name c m f -> exists m', copy_misc c f m = (m', None) /\ (proper m -> proper m') /\ same_tree m (f_ens c ++ [f]) m' (f_back c ++ [f]).
Proof.
  intros HA HB HE HS HF. unfold copy_misc. set (src := f_ens c ++ [f]) in *. set (dest := f_back c ++ [f]). set (m1 := if f_overwrite c then rmtree dest m else m).
  assert (E1 : edit dest m m1) by apply clear_edit. assert (LS : look src m1 = look src m) by (eapply edit_apart; [apply apart_below; exact HA|exact E1]).
  apply entry_dir in HE as (l & HE). assert (PL : forall t, entry_at m1 src <> Some (IsLink t)) by (intros t X; apply entry_link in X; congruence).
  assert (is_dir m1 src = true) as ->. { apply is_dir_plain; auto. apply entry_dir. exists l. congruence. }
  assert (look dest m1 = None) as -> by now apply clear_free. assert (HPk : parent_ok m1 dest = true) by (apply parent_snoc; rewrite (edit_above _ _ _ _ E1); exact HB).
  rewrite HPk, stat_plain, LS, HE by auto. destruct (graft_fresh (Dir l) (HS _ HE) f) as (k & -> & K1 & K2).
  eexists. split; [reflexivity|]. split; [intros PM; apply put_sane; auto; now apply clear_sane|]. intros q. unfold entry_at at 1. rewrite look_put by exact HPk.
  change (entry_at k q = entry_at m (src ++ q)). rewrite K1. unfold entry_at. now rewrite look_app, HE.
Qed.
Lemma misc_file c f x m : apart (f_back c) (f_ens c) -> entry_at m (f_back c) = Some IsDir -> entry_at m (f_ens c ++ [f]) = Some (IsFile x) ->
  free_name c m f \/ (exists y, entry_at m (f_back c ++ [f]) = Some (IsFile y)) ->
  exists m', copy_misc c f m = (m', None) /\ (proper m -> proper m') /\ entry_at m' (f_back c ++ [f]) = Some (IsFile x).
Proof.
  intros HA HB HE HF. unfold copy_misc. set (src := f_ens c ++ [f]) in *. set (dest := f_back c ++ [f]) in *. set (m1 := if f_overwrite c then rmtree dest m else m).
  assert (E1 : edit dest m m1) by apply clear_edit. assert (LS : look src m1 = look src m) by (eapply edit_apart; [apply apart_below; exact HA|exact E1]).
  apply entry_file in HE. assert (PL : forall t, entry_at m1 src <> Some (IsLink t)) by (intros t X; apply entry_link in X; congruence).
  assert (ID : is_dir m1 src = false) by (unfold is_dir; now rewrite stat_plain, LS, HE). rewrite ID, LS, HE.
  assert (LD : look dest m1 = None \/ exists y, look dest m1 = Some (File y)).
  { destruct HF as [HF|(y & HF)]; [left; now apply clear_free|right]. exists y. apply entry_file in HF. unfold m1. destruct (f_overwrite c); auto. unfold rmtree. now rewrite HF. }
  assert (PD : forall t, entry_at m1 dest <> Some (IsLink t)) by (intros t X; apply entry_link in X; destruct LD as [LD|(y & LD)]; congruence).
  assert (IDd : is_dir m1 dest = false) by (unfold is_dir; rewrite stat_plain by auto; destruct LD as [->|(y & ->)]; reflexivity).
  assert (HPk : parent_ok m1 dest = true) by (apply parent_snoc; rewrite (edit_above _ _ _ _ E1); exact HB).
  assert (NE : src <> dest). { intros E. unfold src, dest in E. apply app_inj_tail in E as [E _]. destruct HA as [HA _]. apply HA. rewrite E. apply under_refl. }
  unfold copy. rewrite (target_plain m1 src PL), LS, HE, (target_plain m1 dest PD), IDd. destruct (peqb_spec src dest); [congruence|]. rewrite IDd, HPk.
  eexists. split; [reflexivity|]. split; [intros PM; apply put_sane; [now apply clear_sane|intros [|a q] l; cbn; discriminate]|].
  apply entry_file. rewrite <- (app_nil_r dest) at 1. now rewrite look_put.
Qed.
Lemma misc_fresh c f m : apart (f_back c) (f_ens c) -> entry_at m (f_back c) = Some IsDir -> entry_at m (f_ens c ++ [f]) <> None -> proper m ->
  entry_at m (f_back c ++ [f]) = None -> exists m', copy_misc c f m = (m', None) /\ proper m'.
Proof.
  intros HA HB HE HP HF. destruct (entry_at m (f_ens c ++ [f])) as [[x|t|]|] eqn:ES; [| | |congruence].
  - destruct (misc_file c f x m) as (m' & E1 & E2 & _); eauto. left. now left.
  - unfold copy_misc. set (src := f_ens c ++ [f]) in *. set (dest := f_back c ++ [f]) in *. assert ((if f_overwrite c then rmtree dest m else m) = m) as ->.
    { destruct (f_overwrite c); auto. unfold rmtree. apply entry_none in HF. now rewrite HF. }
    assert (HPk : parent_ok m dest = true) by now apply parent_snoc. apply entry_none in HF. apply entry_link in ES. destruct (is_dir m src) eqn:EI.
    + rewrite HF, HPk. unfold is_dir in EI. destruct (stat m src) as [n|] eqn:EST; [|discriminate]. assert (SN : sane n).
      { unfold stat in EST. destruct (target m src); [|discriminate]. eapply proper_look; eauto. }
      destruct (graft_fresh n SN f) as (k & -> & _ & K2). eexists. split; [reflexivity|]. now apply put_sane.
    + rewrite ES. assert (is_dir m dest = false) as ->. { unfold is_dir. rewrite stat_plain, HF; auto. intros t' X. apply entry_link in X. congruence. }
      rewrite HF, HPk. eexists. split; [reflexivity|]. apply put_sane; auto. intros [|a q] l; cbn; discriminate.
  - destruct (misc_dir c f m) as (m' & E1 & E2 & _); eauto. { intros n. now apply proper_look. } now left.
Qed.
Lemma misc_fresh_all c fs : forall m, apart (f_back c) (f_ens c) -> NoDup fs -> entry_at m (f_back c) = Some IsDir -> proper m ->
  (forall f, In f fs -> entry_at m (f_ens c ++ [f]) <> None /\ entry_at m (f_back c ++ [f]) = None) -> exists m', foldx (copy_misc c) fs m = (m', None).
Proof.
  intros m HA. revert m. induction fs as [|f fs IH]; intros m HN HB HP HF; cbn [foldx]; [eauto|]. inversion_clear HN as [|? ? N1 N2].
  destruct (HF f (or_introl eq_refl)) as [F1 F2]. destruct (misc_fresh c f m) as (m1 & E1 & E2); auto. rewrite E1. cbn [bindx].
  apply misc_edit in E1; auto. 2:{ left. apply not_link_here; [intros t; congruence|]. intros l X. apply entry_none in F2. congruence. }
  assert (LE : look (f_ens c) m1 = look (f_ens c) m) by (eapply edit_apart; eauto). apply IH; auto.
  - rewrite (edit_above _ _ _ _ E1). exact HB.
  - intros g Hg. destruct (HF g (or_intror Hg)) as [G1 G2]. split.
    + rewrite (entry_look _ _ _ (look_below _ _ _ [g] LE)). exact G1.
    + rewrite <- G2. apply entry_look. eapply edit_other; [|exact E1]. intros ->. auto.
Qed.
(** In the loop over the entries, each keeps what its own turn gives it. *)
Lemma misc_keeps c fs (Q : node -> Prop) (R : node -> Prop) f : forall m m', apart (f_back c) (f_ens c) -> NoDup fs -> In f fs -> (forall g, In g fs -> misc_clean c m g) ->
  entry_at m (f_back c) = Some IsDir ->
  (forall a b, look (f_ens c) b = look (f_ens c) a -> look (f_back c ++ [f]) b = look (f_back c ++ [f]) a -> Q a -> Q b) ->
  (forall a b, look (f_back c ++ [f]) b = look (f_back c ++ [f]) a -> R a -> R b) ->
  (forall a b, entry_at a (f_back c) = Some IsDir -> Q a -> copy_misc c f a = (b, None) -> R b) -> Q m -> foldx (copy_misc c) fs m = (m', None) -> R m'.
Proof.
  intros m m' HA. revert m. induction fs as [|g fs IH]; intros m HN HI HM HB HQ HR HS Q0; [destruct HI|]. cbn [foldx]. inversion_clear HN as [|? ? N1 N2].
  destruct (copy_misc c g m) as [m1 [e1|]] eqn:E1; [discriminate|]. cbn [bindx]. intros E. pose proof (misc_edit c g m m1 None HA (HM g (or_introl eq_refl)) E1) as ED.
  assert (LE : look (f_ens c) m1 = look (f_ens c) m) by (eapply edit_apart; eauto).
  assert (HM1 : forall h, In h fs -> misc_clean c m1 h).
  { intros h Hh. assert (L : look (f_back c ++ [h]) m1 = look (f_back c ++ [h]) m) by (eapply edit_other; [|exact ED]; intros ->; auto).
    destruct (HM h (or_intror Hh)) as [H|H]; [left|right].
    - intros q t Ht. apply (H q t). rewrite <- Ht. symmetry. now apply entry_look, look_below.
    - rewrite (entry_look _ _ _ L), H. symmetry. now apply entry_look, look_below. }
  destruct HI as [-> |HI].
  - apply (HR m1); [|now apply (HS m)]. destruct (misc_edits c fs m1 m' None HA N2 HM1 E) as (_ & _ & _ & X). now apply X.
  - apply (IH m1); auto.
    + rewrite (edit_above _ _ _ _ ED). exact HB.
    + apply (HQ m); auto. eapply edit_other; [|exact ED]. intros ->. auto.
Qed.

(** ** What a worker has registered *)
Lemma keqb_spec a b : reflect (a = b) (keqb a b).
Proof.
  destruct a as [v|s|p], b as [w|t|q]; cbn; try (constructor; congruence).
  - destruct (Nat.eqb_spec v w); constructor; congruence.
  - destruct (teqb_spec s t); constructor; congruence.
  - destruct (peqb_spec p q); constructor; congruence.
Qed.
Lemma dset_In d k p k' p' : NoDup (map fst d) -> In (k', p') (dset d k p) <-> (k' = k /\ p' = p) \/ (k' <> k /\ In (k', p') d).
Proof.
  induction d as [|[k0 p0] d IH]; intros HN; cbn [dset].
  - cbn. split; [intros [[= <- <-]|[]]; auto|]. intros [[-> ->]|[_ []]]; auto.
  - inversion_clear HN as [|? ? N1 N2]. destruct (keqb_spec k k0) as [-> |N]; cbn.
    + split; [intros [[= <- <-]|H]; [auto|right; split; [|auto]; intros ->; apply N1; now apply (in_map fst) in H]|]. intros [[-> ->]|[H [[= <- <-]|H2]]]; [auto|congruence|auto].
    + rewrite IH by auto. split; [intros [[= <- <-]|[H|H]]; [right; split; [congruence|auto]|auto|right; tauto]|]. intros [H|[H [[= <- <-]|H2]]]; auto.
Qed.
Lemma dset_keys d k p : NoDup (map fst d) -> NoDup (map fst (dset d k p)).
Proof.
  induction d as [|[k0 p0] d IH]; intros HN; cbn [dset]; [constructor; [intros []|constructor]|]. inversion HN as [|? ? N1 N2]; subst. destruct (keqb_spec k k0) as [-> |N]; cbn; [exact HN|].
  constructor; auto. intros H. apply in_map_iff in H as ([k1 p1] & E & H). cbn in E. subst k1. apply dset_In in H; auto. destruct H as [[E _]|[_ H]]; [congruence|]. apply N1. now apply (in_map fst) in H.
Qed.
Lemma register_dirs k d cs ls ig ov s s' e : register_loc k d cs ls ig ov s = (s', e) ->
  ((s_dirs s' = s_dirs s /\ e <> None) \/ s_dirs s' = dset (s_dirs s) k d) /\ s_used s' = s_used s.
Proof.
  unfold register_loc. destruct (if is_dir _ _ then _ else _) as [m|e0]; [|intros [= <- <-]; split; [left; split; [auto|discriminate]|auto]].
  destruct (on_fs _ _) as [s1 e1] eqn:E1. apply on_fs_spec in E1 as (m1 & _ & ->). unfold bindx. destruct e1; [intros [= <- _]; auto|].
  intros E2. apply on_fs_spec in E2 as (m2 & _ & ->). auto.
Qed.
Definition dirs_ok (c : dspecs) (w : nat) (s : store) (l : list path) : Prop :=
  (l <> [] -> s_used s = true) /\
  if d_worker_dirs (f_names c) then
    (s_dirs s = [] \/ exists r, s_dirs s = (KWorker w, f_ens c ++ [worker_name w]) :: r) /\ forall d, In d l -> s_dirs s <> [] /\ under (f_ens c ++ [worker_name w]) d
  else
    (forall k p, In (k, p) (s_dirs s) -> (k = KPath (f_ens c) /\ p = f_ens c) \/ exists i r t, k = KName (own_name c i r t) /\ p = f_ens c ++ [own_name c i r t]) /\
    NoDup (map fst (s_dirs s)) /\ forall d, In d l -> In d (map snd (s_dirs s)).
Lemma dset_head w p r k q : (k = KWorker w -> q = p) -> dset ((KWorker w, p) :: r) k q = (KWorker w, p) :: dset r k q \/ dset ((KWorker w, p) :: r) k q = (KWorker w, p) :: r.
Proof. intros H. cbn [dset]. destruct (keqb_spec k (KWorker w)) as [-> |N]; [right; now rewrite H|now left]. Qed.
Lemma calc_dirs c ord w is_sim rows iter s s' e k l : dirs_ok c w s l -> make_calc_dir c ord w is_sim rows iter s = ((s', e), k) ->
  dirs_ok c w s' l /\ (e = None -> dirs_ok c w s' (own_dir c w is_sim rows iter :: l)).
Proof.
  intros [HU HD]. rewrite make_calc_eq. destruct (calc_inputs _ _ _ _) as [[cs ls]|e0]; [|intros [= <- <- _]; split; [split; auto|discriminate]].
  rewrite own_dir_eq. unfold ups. unfold dirs_ok. destruct (d_worker_dirs (f_names c)) eqn:EW.
  - set (wd := f_ens c ++ [worker_name w]) in *.
    assert (STEP : forall k1 d1 ig s0 s1 e1 cs1 ls1, (k1 = KWorker w -> d1 = wd) -> (s_dirs s0 = [] -> k1 = KWorker w) -> (s_dirs s0 = [] \/ exists r, s_dirs s0 = (KWorker w, wd) :: r) ->
      register_loc k1 d1 cs1 ls1 ig (f_overwrite c) s0 = (s1, e1) -> (s_dirs s1 = [] \/ exists r, s_dirs s1 = (KWorker w, wd) :: r) /\ (e1 = None -> s_dirs s1 <> []) /\ (s_dirs s0 <> [] -> s_dirs s1 <> []) /\ s_used s1 = s_used s0).
    { intros k1 d1 ig s0 s1 e1 cs1 ls1 K1 K2 H0 ER. apply register_dirs in ER as [[[R1 R2]|R1] R3]; rewrite R1.
      - split; [auto|]. split; [congruence|auto].
      - destruct H0 as [H0|(r & H0)]; rewrite H0.
        + rewrite (K2 H0), (K1 (K2 H0)). cbn. split; [right; eauto|]. split; [discriminate|split; [congruence|auto]].
        + destruct (dset_head w wd r k1 d1 K1) as [X|X]; (split; [right; eexists; exact X|split; [intros _ Y; pose proof (eq_trans (eq_sym X) Y) as Z; discriminate Z|split; [intros _ Y; pose proof (eq_trans (eq_sym X) Y) as Z; discriminate Z|auto]]]). }
    destruct HD as [H1 H2]. destruct (makes c is_sim).
    + destruct (above c w (used s)) as [s1 e1] eqn:EA. unfold above in EA. rewrite EW in EA. fold wd in EA.
      destruct (STEP _ _ _ (used s) _ _ _ _ (fun _ => eq_refl) (fun _ => eq_refl) H1 EA) as (S1 & S2 & S3 & S4). cbn [used s_dirs s_used] in *.
      assert (OLD : forall d, In d l -> s_dirs s1 <> [] /\ under wd d) by (intros d Hd; destruct (H2 d Hd); split; auto).
      unfold bindx. destruct e1 as [e1|]; [intros [= <- <- _]; split; [split; [auto|auto]|discriminate]|]. intros [= ER _].
      assert (K : KName (own_name c is_sim rows iter) = KWorker w -> wd ++ [own_name c is_sim rows iter] = wd) by discriminate.
      edestruct (STEP _ _ _ s1 _ _ _ _ K (fun H => False_ind _ (S2 eq_refl H)) S1 ER) as (T1 & T2 & T3 & T4).
      assert (UU : s_used s' = true) by congruence. split; [split; [auto|split; [auto|intros d Hd; destruct (OLD d Hd); auto]]|].
      intros He. split; [auto|split; [auto|]]. intros d [<-|Hd]; [split; [auto|apply under_app]|destruct (OLD d Hd); auto].
    + cbv zeta. intros [= ER _]. destruct (STEP _ _ _ (used s) _ _ _ _ (fun _ => eq_refl) (fun _ => eq_refl) H1 ER) as (S1 & S2 & S3 & S4). cbn [used s_dirs s_used] in *.
      split; [split; [auto|split; [auto|intros d Hd; destruct (H2 d Hd); auto]]|]. intros He. split; [auto|split; [auto|]]. intros d [<-|Hd]; [split; [auto|apply under_refl]|destruct (H2 d Hd); auto].
  - destruct HD as (H1 & H2 & H3). set (OKD := fun ds : list (key * path) => (forall k p, In (k, p) ds -> (k = KPath (f_ens c) /\ p = f_ens c) \/ exists i r t, k = KName (own_name c i r t) /\ p = f_ens c ++ [own_name c i r t]) /\ NoDup (map fst ds)).
    assert (STEP : forall k1 d1 ig s0 s1 e1, ((k1 = KPath (f_ens c) /\ d1 = f_ens c) \/ exists i r t, k1 = KName (own_name c i r t) /\ d1 = f_ens c ++ [own_name c i r t]) -> OKD (s_dirs s0) ->
      register_loc k1 d1 cs ls ig (f_overwrite c) s0 = (s1, e1) -> OKD (s_dirs s1) /\ (forall d, In d (map snd (s_dirs s0)) -> In d (map snd (s_dirs s1))) /\ (e1 = None -> In d1 (map snd (s_dirs s1))) /\ s_used s1 = s_used s0).
    { intros k1 d1 ig s0 s1 e1 K1 [O1 O2] ER. apply register_dirs in ER as [[[R1 R2]|R1] R3]; rewrite R1.
      - split; [split; auto|]. split; [auto|]. split; [congruence|auto].
      - split; [split; [|now apply dset_keys]|split; [|split; [|auto]]].
        + intros k0 p0 Hi. apply dset_In in Hi; auto. destruct Hi as [[-> ->]|[_ Hi]]; auto.
        + intros d Hd. apply in_map_iff in Hd as ([k0 p0] & <- & Hi). apply in_map_iff. destruct (keqb_spec k0 k1) as [-> |N].
          * exists (k1, d1). split; [|apply dset_In; auto]. cbn. destruct (O1 _ _ Hi) as [[E ->]|(i & r & t & E & ->)]; destruct K1 as [[E' ->]|(i' & r' & t' & E' & ->)]; congruence.
          * exists (k0, p0). split; auto. apply dset_In; auto.
        + intros _. apply in_map_iff. exists (k1, d1). split; auto. apply dset_In; auto. }
    destruct (makes c is_sim).
    + destruct (above c w (used s)) as [s1 e1] eqn:EA. unfold above in EA. rewrite EW in EA.
      assert (DE : s_dirs s1 = s_dirs s /\ s_used s1 = true).
      { destruct (exists_ _ _); [injection EA as <- _; auto|]. destruct (ensure _ _); injection EA as <- _; auto. }
      destruct DE as [DE UE]. unfold bindx. destruct e1 as [e1|]; [intros [= <- <- _]; rewrite DE; split; [split; auto|discriminate]|]. intros [= ER _].
      eapply STEP in ER as ([S1 S2] & S3 & S4 & S5); [|right; eauto|rewrite DE; now split]. rewrite DE in S3.
      split; [split; [congruence|split; [auto|split; [auto|intros d Hd; auto]]]|]. intros He. split; [congruence|split; [auto|split; [auto|]]]. intros d [<-|Hd]; auto.
    + cbv zeta. intros [= ER _]. eapply STEP in ER as ([S1 S2] & S3 & S4 & S5); [|left; eauto|now split]. cbn [used s_dirs s_used] in *.
      split; [split; [auto|split; [auto|split; [auto|intros d Hd; auto]]]|]. intros He. split; [auto|split; [auto|split; [auto|]]]. intros d [<-|Hd]; auto.
Qed.
Lemma run_dirs c w s l : worker_run c w s l -> dirs_ok c w s l.
Proof.
  induction 1 as [m|s l ord is_sim rows iter s' k H IH E|s l ord is_sim rows iter s' e k H IH E|s l m H IH].
  - split; [congruence|]. cbn. destruct (d_worker_dirs _); [split; [auto|intros d []]|]. split; [intros k p []|split; [constructor|intros d []]].
  - eapply calc_dirs in E as [_ E]; eauto.
  - eapply calc_dirs in E as [E _]; eauto.
  - destruct IH as [I1 I2]. split; auto.
Qed.
