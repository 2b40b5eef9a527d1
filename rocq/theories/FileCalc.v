(** The inputs of one call of a user function. *)
From Coq Require Import String.
From Verif Require Import Base BaseLemmas TextModel TextProofs LabelModel FileModel FileSpec FileProofs FileOps.
Local Notation length := List.length.
Local Open Scope list_scope.
Local Open Scope nat_scope.

Lemma existsb_peqb f l : existsb (peqb f) l = true <-> In f l.
Proof.
  rewrite existsb_exists. split; [intros (x & Hx & E); destruct (peqb_spec f x); congruence|]. intros H. exists f. split; auto. apply peqb_refl.
Qed.
Lemma entry_listed m D l a : look D m = Some (Dir l) -> (entry_at m (D ++ [a]) <> None <-> In a (map fst l)).
Proof. intros E. rewrite entry_none, look_app, E, <- assoc_In_iff. cbn. destruct (assoc a l); split; congruence. Qed.

Lemma inputs_asked c is_sim ord m cs ls : walk ord -> plain_input c is_sim m -> calc_inputs c is_sim ord m = Ok (cs, ls) ->
  (forall f, In f cs <-> asked_copy c is_sim m f) /\ (forall f, In f ls <-> asked_link c is_sim m f).
Proof.
  intros HW HP. unfold calc_inputs. unfold plain_input, asked_link, asked_copy in *. set (cf := if is_sim then f_sim_copy c else f_gen_copy c) in *.
  set (sf := if is_sim then f_sim_link c else f_gen_link c) in *. set (inp := if is_sim then f_sim_input c else f_gen_input c) in *.
  assert (HX : forall cs0, (match inp with None => Ok cf | Some d => match stat m d with Some (Dir l) => Ok (ord (cf ++ map (fun x => d ++ [fst x]) l)) | Some _ => Err EIsDir | None => Err ENoEntry end end) = Ok cs0 ->
    forall f, In f cs0 <-> In f cf \/ (exists D a, inp = Some D /\ f = D ++ [a] /\ entry_at m f <> None)).
  { destruct inp as [D|]; intros cs0.
    - rewrite stat_plain by now apply HP. destruct (look D m) as [[x|t|l]|] eqn:EL; try discriminate. intros [= <-] f.
      rewrite (proj2 (HW _) f), in_app_iff, in_map_iff. split; (intros [H|H]; [now left|right]).
      + destruct H as ([a n] & <- & H). exists D, a. split; auto. split; auto. apply (entry_listed m D l a EL). apply (in_map fst) in H. exact H.
      + destruct H as (D' & a & [= <-] & -> & H). apply (entry_listed m D l a EL) in H. apply in_map_iff in H as (x & <- & H). eauto.
    - intros [= <-] f. split; [now left|]. intros [H|(D & a & E & _)]; [auto|discriminate]. }
  destruct (match inp with None => _ | Some d => _ end) as [cs0|e]; [|discriminate]. cbn. intros [= <- <-]. specialize (HX _ eq_refl). split; [exact HX|].
  intros f. rewrite filter_In, negb_true_iff, <- HX, <- (existsb_peqb f cs0). destruct (existsb (peqb f) cs0); intuition congruence.
Qed.
Lemma inputs_ok c is_sim ord m : input_there c is_sim m -> exists cs ls, calc_inputs c is_sim ord m = Ok (cs, ls).
Proof.
  unfold input_there, calc_inputs. destruct (if is_sim then f_sim_input c else f_gen_input c) as [D|]; cbn; [|eauto]. intros H. specialize (H D eq_refl).
  rewrite stat_plain by (intros t E; congruence). apply entry_dir in H as (l & ->). cbn. eauto.
Qed.
Lemma inputs_nodup c is_sim ord m cs ls : walk ord -> lists_once c is_sim -> calc_inputs c is_sim ord m = Ok (cs, ls) -> NoDup cs /\ NoDup ls.
Proof.
  intros HW [H1 H2]. unfold calc_inputs. destruct (if is_sim then f_sim_input c else f_gen_input c) as [D|]; cbn.
  - destruct (stat m D) as [[x|t|l]|]; try discriminate. cbn. intros [= <- <-]. split; [apply HW|]. now apply NoDup_filter.
  - intros [= <- <-]. split; auto. now apply NoDup_filter.
Qed.

(** ** [_make_calc_dir] in two steps *)
Definition ups (c : dspecs) (w : nat) : path := if d_worker_dirs (f_names c) then f_ens c ++ [worker_name w] else f_ens c.
Definition makes (c : dspecs) (is_sim : bool) : bool :=
  if d_worker_dirs (f_names c) && negb (d_sim_make (f_names c)) && negb (d_gen_make (f_names c)) then false else (if is_sim then d_sim_make (f_names c) else d_gen_make (f_names c)).
Definition own_name (c : dspecs) (is_sim : bool) (rows : list nat) (iter : nat) : text :=
  (if is_sim then T "sim" else T "gen") ++ rjust (d_pad (f_names c)) (digit 0) (if is_sim then extract_H_ranges rows else dec iter).
Definition above (c : dspecs) (w : nat) (s : store) : ex store :=
  if d_worker_dirs (f_names c) then register_loc (KWorker w) (f_ens c ++ [worker_name w]) [] [] false (f_overwrite c) s
  else if exists_ (s_fs s) (f_ens c) then (s, None)
  else match ensure (f_ens c) (s_fs s) with Ok m => (set_fs s m, None) | Err e => (s, Some e) end.
Definition used (s : store) : store := mkStore (s_fs s) (s_dirs s) true.
Lemma make_calc_eq c ord w is_sim rows iter s :
  make_calc_dir c ord w is_sim rows iter s =
  match calc_inputs c is_sim ord (s_fs s) with
  | Err e => ((used s, Some e), None)
  | Ok (cs, ls) =>
      if makes c is_sim then
        (bindx (above c w (used s)) (register_loc (KName (own_name c is_sim rows iter)) (ups c w ++ [own_name c is_sim rows iter]) cs ls false (f_overwrite c)),
         Some (KName (own_name c is_sim rows iter)))
      else
        let k := if d_worker_dirs (f_names c) then KWorker w else KPath (f_ens c) in
        (register_loc k (ups c w) cs ls true (f_overwrite c) (used s), Some k)
  end.
Proof.
  unfold make_calc_dir, makes, above, ups, own_name, used. cbn [s_fs]. destruct (calc_inputs _ _ _ _) as [[cs ls]|e]; auto.
  destruct (d_worker_dirs _ && _ && _); cbn [negb]; [reflexivity|]. destruct (if is_sim then _ else _); reflexivity.
Qed.
Lemma own_dir_eq c w is_sim rows iter : own_dir c w is_sim rows iter = if makes c is_sim then ups c w ++ [own_name c is_sim rows iter] else ups c w.
Proof.
  unfold own_dir, calc_dir, makes, ups, own_name. destruct (d_worker_dirs (f_names c)); cbn [andb].
  - destruct (_ && _); [reflexivity|]. destruct is_sim; destruct (_ : bool); try reflexivity; now rewrite <- app_assoc.
  - destruct is_sim; destruct (_ : bool); try reflexivity; now rewrite app_nil_r.
Qed.

Lemma above_made c w s s1 e : above c w s = (s1, e) -> made (ups c w) (s_fs s) (s_fs s1).
Proof.
  unfold above, ups. destruct (d_worker_dirs _).
  - unfold register_loc. fold (mkdir_p (f_ens c ++ [worker_name w]) (s_fs s)). destruct (mkdir_p _ _) as [m|e0] eqn:E; [|intros [= <- _]; apply made_refl].
    cbn. intros [= <- _]. cbn. now apply mkdir_made.
  - destruct (exists_ _ _); [intros [= <- _]; apply made_refl|]. destruct (ensure _ _) as [m|e0] eqn:E; intros [= <- _]; [|apply made_refl]. cbn. now apply ensure_made.
Qed.
Lemma above_ok c w s : room_for (s_fs s) (ups c w) -> exists s1, above c w s = (s1, None).
Proof.
  intros HR. unfold above, ups in *. destruct (d_worker_dirs _).
  - unfold register_loc. fold (mkdir_p (f_ens c ++ [worker_name w]) (s_fs s)). destruct (mkdir_ok _ _ HR) as (m & -> & _). cbn. eauto.
  - destruct (exists_ _ _); [eauto|]. destruct (ensure_ok _ _ HR) as (m & ->). eauto.
Qed.

(** Whatever the settings and however it ends, only the inputs' names change. *)
Lemma calc_only c ord w is_sim rows iter s s' e k : walk ord -> plain_input c is_sim (s_fs s) ->
  let d := own_dir c w is_sim rows iter in
  (forall f, asked_copy c is_sim (s_fs s) f -> no_links (s_fs s) (d ++ [base f])) ->
  make_calc_dir c ord w is_sim rows iter s = ((s', e), k) ->
  differ_only (fun p => (exists f, (asked_copy c is_sim (s_fs s) f \/ asked_link c is_sim (s_fs s) f) /\ under (d ++ [base f]) p) \/ (under p d /\ entry_at (s_fs s) p = None)) (s_fs s) (s_fs s').
Proof.
  intros HW HP d HL. rewrite make_calc_eq. destruct (calc_inputs _ _ _ _) as [[cs ls]|e0] eqn:EC; [|intros [= <- _ _]; apply differ_refl].
  destruct (inputs_asked _ _ _ _ _ _ HW HP EC) as [A1 A2]. unfold d in *. rewrite own_dir_eq in *. destruct (makes c is_sim).
  - destruct (above c w (used s)) as [s1 e1] eqn:EA. apply above_made in EA. cbn [used s_fs] in EA. set (nm := own_name _ _ _ _) in *. set (P := fun p => _).
    apply (made_deeper _ [nm]) in EA.
    assert (D1 : differ_only P (s_fs s) (s_fs s1)) by (eapply differ_mono; [|apply made_differ; exact EA]; intros p Hp; right; exact Hp).
    unfold bindx. destruct e1 as [e1|]; [intros [= <- _ _]; exact D1|]. intros [= ER _]. apply register_only in ER.
    + intros p Hp. rewrite ER; [now apply D1|]. intros [(f & F1 & F2)|[H1 H2]]; apply Hp.
      * left. exists f. split; auto. rewrite <- A1, <- A2. now apply in_app_iff.
      * right. split; auto. destruct (entry_at (s_fs s) p) eqn:E; auto. destruct EA as (EA & _). rewrite EA in H2; congruence.
    + intros f Hf q t He. apply A1 in Hf. apply (HL f Hf q t). destruct EA as (_ & _ & EA). unfold entry_at in *. rewrite EA in He; auto.
      intros (r & E). apply (f_equal (@List.length text)) in E. rewrite !app_length in E. cbn in E. lia.
  - cbv zeta. intros [= ER _]. apply register_only in ER.
    + intros p Hp. rewrite ER; auto. intros [(f & F1 & F2)|[H1 H2]]; apply Hp.
      * left. exists f. split; auto. rewrite <- A1, <- A2. now apply in_app_iff.
      * right. now split.
    + intros f Hf. apply HL. now apply A1.
Qed.

(** ** Inputs arrive *)
Lemma NoDup_app_iff {A} (a b : list A) : NoDup (a ++ b) <-> NoDup a /\ NoDup b /\ forall x, In x a -> ~ In x b.
Proof.
  induction a as [|x a IH]; cbn.
  - split; [intros H; repeat split; auto; constructor | tauto].
  - rewrite !NoDup_cons_iff, IH, in_app_iff. split.
    + intros (N & H1 & H2 & H3). repeat split; auto. intros y [<- | Hy]; auto.
    + intros ((N & H1) & H2 & H3). split; [|auto 6]. intros [H | H]; [easy|]. eapply H3; eauto.
Qed.
Lemma register_arrives k d cs ls ig ov s : room_for (s_fs s) d -> NoDup (map base (cs ++ ls)) ->
  (forall f, In f (cs ++ ls) -> entry_at (s_fs s) (d ++ [base f]) = None) -> (forall f, In f cs -> ready (s_fs s) d f) ->
  exists s', register_loc k d cs ls ig ov s = (s', None) /\ (forall f, In f cs -> look (d ++ [base f]) (s_fs s') = look f (s_fs s)) /\
    (forall f, In f ls -> look (d ++ [base f]) (s_fs s') = Some (Link f)).
Proof.
  intros HR HN HF HC. unfold register_loc. fold (mkdir_p d (s_fs s)). destruct (mkdir_ok d (s_fs s) HR) as (m & -> & HM & HD).
  rewrite map_app in HN. apply NoDup_app_iff in HN as (N1 & N2 & N3).
  assert (LD : forall b, look (d ++ [b]) m = look (d ++ [b]) (s_fs s)).
  { intros b. apply HM. intros (r & E). apply (f_equal (@List.length text)) in E. rewrite !app_length in E. cbn in E. lia. }
  destruct (copies_arrive d ig ov cs m) as (m1 & E1 & E2 & E3 & E4 & E5); auto.
  { apply HD, under_refl. }
  { intros f Hf. rewrite LD. split; [apply entry_none, HF, in_app_iff; auto|]. destruct (HC f Hf) as ((n & R1 & R2) & R3 & R4). split; auto. exists n. split; auto. rewrite <- R1. now apply HM. }
  unfold on_fs at 1. cbn [s_fs]. rewrite E1. cbn [bindx].
  destruct (links_arrive d ig ov ls m1) as (m2 & F1 & F2 & F3 & F4); auto.
  { intros f Hf. rewrite E4; [rewrite LD; apply entry_none, HF, in_app_iff; auto|]. intros H. apply (N3 _ H). now apply in_map. }
  unfold on_fs. cbn [s_fs set_fs]. rewrite F1. eexists. split; [reflexivity|]. cbn [s_fs set_fs]. split; auto.
  intros f Hf. rewrite F3; [|intros H; apply (N3 (base f)); auto; now apply in_map]. rewrite E3 by auto. destruct (HC f Hf) as (_ & R3 & R4). now apply HM.
Qed.
Lemma NoDup_map_on {A B} (g : A -> B) l : (forall x y, In x l -> In y l -> g x = g y -> x = y) -> NoDup l -> NoDup (map g l).
Proof.
  induction l as [|x l IH]; intros H N; [constructor|]. inversion_clear N as [|? ? N1 N2]. cbn. constructor.
  - intros Hi. apply in_map_iff in Hi as (y & E & Hy). apply N1. rewrite <- (H y x); auto; [now right|now left].
  - apply IH; auto. intros a b Ha Hb. apply H; now right.
Qed.

Lemma calc_arrives c ord w is_sim rows iter s : walk ord -> proper (s_fs s) -> lists_once c is_sim -> input_there c is_sim (s_fs s) ->
  let m := s_fs s in let d := own_dir c w is_sim rows iter in
  room_for m d ->
  (forall f g, asked_copy c is_sim m f \/ asked_link c is_sim m f -> asked_copy c is_sim m g \/ asked_link c is_sim m g -> base f = base g -> f = g) ->
  (forall f, asked_copy c is_sim m f \/ asked_link c is_sim m f -> entry_at m (d ++ [base f]) = None) ->
  (forall f, asked_copy c is_sim m f -> entry_at m f <> None /\ no_links m f /\ ~ under f d /\ ~ under d f) ->
  exists s' k, make_calc_dir c ord w is_sim rows iter s = ((s', None), Some k) /\
    (forall f, asked_copy c is_sim m f -> same_tree m f (s_fs s') (d ++ [base f])) /\
    (forall f, asked_link c is_sim m f -> entry_at (s_fs s') (d ++ [base f]) = Some (IsLink f)).
Proof.
  intros HW HPr HO HI m d HR HB HF HC. rewrite make_calc_eq. fold m. destruct (inputs_ok c is_sim ord m HI) as (cs & ls & EC). rewrite EC.
  assert (HP : plain_input c is_sim m) by (intros D HD t; unfold m; rewrite (HI D HD); discriminate).
  destruct (inputs_asked _ _ _ _ _ _ HW HP EC) as [A1 A2]. destruct (inputs_nodup _ _ _ _ _ _ HW HO EC) as [N1 N2].
  assert (AA : forall f, In f (cs ++ ls) <-> asked_copy c is_sim m f \/ asked_link c is_sim m f) by (intros f; now rewrite in_app_iff, A1, A2).
  assert (NB : NoDup (map base (cs ++ ls))).
  { apply NoDup_map_on; [intros x y Hx Hy; apply HB; now apply AA|]. apply NoDup_app_iff. split; auto. split; auto. intros x Hx Hy. apply A1 in Hx. apply A2 in Hy as [_ Hy]. auto. }
  assert (GO : forall k ig s1, made (ups c w) m (s_fs s1) -> room_for (s_fs s1) d -> exists s', register_loc k d cs ls ig (f_overwrite c) s1 = (s', None) /\
    (forall f, asked_copy c is_sim m f -> same_tree m f (s_fs s') (d ++ [base f])) /\ (forall f, asked_link c is_sim m f -> entry_at (s_fs s') (d ++ [base f]) = Some (IsLink f))).
  { intros k ig s1 HM HR1. assert (UD : under (ups c w) d) by (unfold d; rewrite own_dir_eq; destruct (makes _ _); [apply under_app|apply under_refl]).
    assert (LD : forall f, asked_copy c is_sim m f -> look f (s_fs s1) = look f m).
    { intros f Hf. apply HM. intros H. destruct (HC f Hf) as (_ & _ & C3 & _). apply C3. eapply under_trans; eauto. }
    destruct (register_arrives k d cs ls ig (f_overwrite c) s1) as (s' & E1 & E2 & E3); auto.
    - intros f Hf. apply AA, HF in Hf. unfold entry_at in *. destruct HM as (_ & _ & HM). rewrite HM; auto.
      intros (r & E). destruct UD as (u & UD). rewrite UD in E. apply (f_equal (@List.length text)) in E. rewrite !app_length in E. cbn in E. lia.
    - intros f Hf. apply A1 in Hf. destruct (HC f Hf) as (C1 & C2 & C3 & C4). split; auto. rewrite LD by auto. rewrite entry_none in C1. destruct (look f m) as [n|] eqn:E; [|congruence].
      exists n. split; auto. split; [eapply proper_look; eauto|eapply no_links_look; eauto].
    - exists s'. split; auto. split.
      + intros f Hf. apply look_same_tree. rewrite E2 by now apply A1. now apply LD.
      + intros f Hf. apply entry_link, E3. now apply A2. }
  unfold d in HR, GO |- *. rewrite own_dir_eq in *. destruct (makes c is_sim).
  - assert (HU : room_for m (ups c w)) by (intros a Ha; apply HR; eapply under_trans; [exact Ha|apply under_app]).
    destruct (above_ok c w (used s) HU) as (s1 & EA). rewrite EA. apply above_made in EA. cbn [used s_fs] in EA. cbn [bindx].
    edestruct (GO (KName (own_name c is_sim rows iter)) false s1) as (s' & E1 & E2); [exact EA|eapply made_room; eauto|]. rewrite E1. eauto.
  - cbv zeta. edestruct (GO (if d_worker_dirs (f_names c) then KWorker w else KPath (f_ens c)) true (used s)) as (s' & E1 & E2); [apply made_refl|exact HR|]. rewrite E1. eauto.
Qed.
