(** Copying and linking inputs into a directory. *)
From Coq Require Import String.
From Verif Require Import Base BaseLemmas TextModel TextProofs LabelModel FileModel FileSpec FileProofs.
Local Notation length := List.length.
Local Open Scope list_scope.
Local Open Scope nat_scope.

Lemma differ_refl P m : differ_only P m m.
Proof. now intros p _. Qed.
Lemma differ_trans P a b c : differ_only P a b -> differ_only P b c -> differ_only P a c.
Proof. intros H1 H2 p Hp. now rewrite H2, H1. Qed.
Lemma differ_mono (P Q : path -> Prop) a b : (forall p, P p -> Q p) -> differ_only P a b -> differ_only Q a b.
Proof. intros H D p Hp. apply D. auto. Qed.
Lemma app1_ne (d : path) a : d ++ [a] <> [].
Proof. destruct d; discriminate. Qed.
Lemma removelast_snoc (d : path) a : removelast (d ++ [a]) = d.
Proof. apply removelast_last. Qed.
Lemma under_snoc d a b : under (d ++ [a]) (d ++ [b]) -> a = b.
Proof. rewrite under_app_iff. intros (q & E). now injection E. Qed.
Lemma no_links_here m d : no_links m d -> forall t, entry_at m d <> Some (IsLink t).
Proof. intros H t. specialize (H [] t). now rewrite app_nil_r in H. Qed.
Lemma no_links_below m d q : no_links m d -> no_links m (d ++ q).
Proof. intros H r t. rewrite <- app_assoc. apply H. Qed.
Lemma put_no_links m p q v d : parent_ok m (d ++ p) = true -> d ++ p <> [] -> linkless v -> q = d ++ p -> no_links m d -> no_links (put q v m) d.
Proof.
  intros HP Hn HV -> HL r t. destruct (under_dec (d ++ p) (d ++ r)) as [(x & E)|N].
  - rewrite E, entry_link, look_put by auto. apply HV.
  - rewrite (put_only (d ++ p) v m HP Hn _ N). apply HL.
Qed.
Lemma del_no_links m d : d <> [] -> no_links (del d m) d.
Proof. intros Hd r t. rewrite entry_link, look_del_in by auto. discriminate. Qed.
Lemma file_linkless c : linkless (File c).
Proof. intros [|a q] t; cbn; discriminate. Qed.

(** copying one file changes only what has its name *)
Lemma copy_only src dest m m' e : dest <> [] -> no_links m dest -> copy src dest m = (m', e) -> differ_only (under dest) m m' /\ no_links m' dest.
Proof.
  intros Hd HL. unfold copy. destruct (target m src) as [s|]; [|intros [= <- _]; split; [apply differ_refl|auto]].
  destruct (look s m) as [[c|t|l]|]; try (intros [= <- _]; split; [apply differ_refl|auto]).
  rewrite (target_plain m dest) by now apply no_links_here. destruct (is_dir m dest) eqn:ED.
  - rewrite (target_plain m (dest ++ [base src])) by now apply no_links_here, no_links_below.
    destruct (peqb _ _); [intros [= <- _]; split; [apply differ_refl|auto]|]. destruct (is_dir m (dest ++ _)); [intros [= <- _]; split; [apply differ_refl|auto]|].
    destruct (parent_ok _ _) eqn:EP; intros [= <- _]; [|split; [apply differ_refl|auto]]. split.
    + eapply differ_mono; [|apply put_only; [exact EP|apply app1_ne]]. intros p. apply under_trans, under_app.
    + eapply put_no_links; eauto; [apply app1_ne|apply file_linkless].
  - destruct (peqb _ _); [intros [= <- _]; split; [apply differ_refl|auto]|]. rewrite ED.
    destruct (parent_ok _ _) eqn:EP; intros [= <- _]; [|split; [apply differ_refl|auto]]. split; [now apply put_only|].
    apply (put_no_links m [] dest (File c) dest); rewrite ?app_nil_r; auto. apply file_linkless.
Qed.
Lemma copytree_only src dest m m' e : dest <> [] -> no_links m dest -> copytree src dest m = (m', e) -> differ_only (under dest) m m' /\ no_links m' dest.
Proof.
  intros Hd HL. unfold copytree. destruct (stat m src) as [n|]; [|intros [= <- _]; split; [apply differ_refl|auto]].
  destruct (look dest m); [intros [= <- _]; split; [apply differ_refl|auto]|]. destruct (parent_ok _ _) eqn:EP; [|intros [= <- _]; split; [apply differ_refl|auto]].
  destruct (deref _ _ _) as [[k|] ok] eqn:ER; intros [= <- _]; [|split; [apply differ_refl|auto]]. split; [now apply put_only|].
  apply (put_no_links m [] dest k dest); rewrite ?app_nil_r; auto. eapply deref_no_links; eauto.
Qed.
Lemma copy_one_only d ig ov f m m' e : no_links m (d ++ [base f]) -> copy_one d ig ov f m = (m', e) ->
  differ_only (under (d ++ [base f])) m m' /\ no_links m' (d ++ [base f]).
Proof.
  intros HL. unfold copy_one. set (dest := d ++ [base f]) in *. assert (Hd : dest <> []) by apply app1_ne.
  set (rm := if _ && _ then _ else _). assert (HR : differ_only (under dest) m (fst rm) /\ no_links (fst rm) dest).
  { unfold rm. destruct (_ && _); [|split; [apply differ_refl|auto]]. destruct (is_dir m dest); [|split; [apply del_only|now apply del_no_links]].
    destruct (look dest m) as [[c|t|l]|]; try (split; [apply differ_refl|exact HL]). split; [apply del_only|now apply del_no_links]. }
  destruct rm as [m1 e1]. cbn [fst] in HR. destruct HR as [R1 R2]. unfold bindx. destruct e1 as [e1|]; [intros [= <- _]; auto|].
  destruct (if is_dir m1 f then _ else _) as [m2 e2] eqn:E.
  assert (H2 : differ_only (under dest) m1 m2 /\ no_links m2 dest) by (destruct (is_dir m1 f); [now apply copytree_only in E|now apply copy_only in E]).
  destruct H2 as [H2 H3]. intros HE. assert (m' = m2) as ->.
  { destruct e2 as [e2|]; [|congruence]. destruct e2; try congruence. do 32 (destruct n as [|n]; try congruence). destruct ig; congruence. }
  split; auto. eapply differ_trans; eauto.
Qed.
Lemma link_one_only d ig ov f m m' e : link_one d ig ov f m = (m', e) -> differ_only (under (d ++ [base f])) m m'.
Proof.
  unfold link_one. set (dest := d ++ [base f]). assert (Hd : dest <> []) by apply app1_ne.
  set (rm := if _ && _ then _ else _). assert (HR : differ_only (under dest) m (fst rm)).
  { unfold rm. destruct (_ && _); [|apply differ_refl]. destruct (look dest m) as [[c|t|l]|]; try apply differ_refl; apply del_only. }
  destruct rm as [m1 e1]. cbn [fst] in HR. unfold bindx. destruct e1 as [e1|]; [intros [= <- _]; auto|].
  destruct (look dest m1); [destruct ig; intros [= <- _]; auto|]. destruct (parent_ok m1 dest) eqn:EP; intros [= <- _]; auto.
  eapply differ_trans; [exact HR|]. now apply put_only.
Qed.

(** the paths below [d] that have one of the names of [fs] *)
Definition named (d : path) (fs : list path) (p : path) : Prop := exists f, In f fs /\ under (d ++ [base f]) p.
Lemma no_links_kept m m' d a b : a <> b -> differ_only (under (d ++ [a])) m m' -> no_links m (d ++ [b]) -> no_links m' (d ++ [b]).
Proof.
  intros N D H q t. rewrite D; [apply H|]. intros (r & E). rewrite <- !app_assoc in E. apply app_inv_head in E. injection E. congruence.
Qed.
Lemma copies_only d ig ov cs : forall m m' e, (forall f, In f cs -> no_links m (d ++ [base f])) -> foldx (copy_one d ig ov) cs m = (m', e) -> differ_only (named d cs) m m'.
Proof.
  induction cs as [|f cs IH]; intros m m' e HL; cbn [foldx]; [intros [= <- _]; apply differ_refl|].
  destruct (copy_one d ig ov f m) as [m1 e1] eqn:E. apply copy_one_only in E as [E1 E2]; [|apply HL; now left].
  assert (D1 : differ_only (named d (f :: cs)) m m1) by (eapply differ_mono; [|exact E1]; intros p Hp; exists f; split; [now left|auto]).
  unfold bindx. destruct e1 as [e1|]; [intros [= <- _]; auto|]. intros EO. eapply differ_trans; [exact D1|].
  eapply differ_mono; [|eapply IH; [|exact EO]]. { intros p (g & G1 & G2). exists g. split; [now right|auto]. }
  intros g Hg. destruct (teqb_spec (base f) (base g)) as [Eb|N]; [now rewrite <- Eb|]. eapply no_links_kept; eauto. apply HL. now right.
Qed.
Lemma links_only d ig ov ls : forall m m' e, foldx (link_one d ig ov) ls m = (m', e) -> differ_only (named d ls) m m'.
Proof.
  induction ls as [|f ls IH]; intros m m' e; cbn [foldx]; [intros [= <- _]; apply differ_refl|].
  destruct (link_one d ig ov f m) as [m1 e1] eqn:E. apply link_one_only in E.
  assert (D1 : differ_only (named d (f :: ls)) m m1) by (eapply differ_mono; [|exact E]; intros p Hp; exists f; split; [now left|auto]).
  unfold bindx. destruct e1 as [e1|]; [intros [= <- _]; auto|]. intros EO. eapply differ_trans; [exact D1|].
  eapply differ_mono; [|eapply IH; exact EO]. intros p (g & G1 & G2). exists g. split; [now right|auto].
Qed.

(** ** A directory that is there *)
Definition made (d : path) (m m' : node) : Prop :=
  (forall r, entry_at m r <> None -> entry_at m' r = entry_at m r) /\
  (forall r, entry_at m r = None -> entry_at m' r = None \/ entry_at m' r = Some IsDir) /\
  (forall r, ~ under r d -> look r m' = look r m).
Lemma made_refl d m : made d m m.
Proof. split; auto. Qed.
Lemma made_deeper d q m m' : made d m m' -> made (d ++ q) m m'.
Proof. intros (H1 & H2 & H3). split; [|split]; auto. intros r Hr. apply H3. intros H. apply Hr. eapply under_trans; [exact H|apply under_app]. Qed.
Lemma made_room d q m m' : made d m m' -> room_for m q -> room_for m' q.
Proof.
  intros (H1 & H2 & H3) HR a Ha. destruct (HR a Ha) as [E|E]; [auto|]. right. rewrite H1; congruence.
Qed.
Lemma made_trans d a b c : made d a b -> made d b c -> made d a c.
Proof.
  intros (A1 & A2 & A3) (B1 & B2 & B3). split; [|split]; intros r Hr; [rewrite B1, A1; auto; rewrite A1; auto| |now rewrite B3, A3].
  destruct (A2 r Hr) as [E|E]; auto. right. rewrite B1; congruence.
Qed.
Lemma made_differ d m m' : made d m m' -> differ_only (fun p => under p d /\ entry_at m p = None) m m'.
Proof.
  intros (H1 & _ & H2) p Hp. destruct (entry_at m p) eqn:E; [rewrite <- E; apply H1; congruence|].
  unfold entry_at. rewrite H2; [exact E|]. intros Hu. apply Hp. auto.
Qed.
Lemma ensure_made d m m' : ensure d m = Ok m' -> made d m m'.
Proof.
  intros E. apply ensure_spec in E as (E1 & E2 & E3). split; [|split]; auto. intros r Hr.
  destruct (under_dec r d) as [U|U]; [right; auto|left]. unfold entry_at in *. now rewrite E3.
Qed.
Definition mkdir_p (d : path) (m : node) : res node := if is_dir m d then Ok m else ensure d m.
Lemma mkdir_made d m m' : mkdir_p d m = Ok m' -> made d m m'.
Proof. unfold mkdir_p. destruct (is_dir m d); [intros [= <-]; apply made_refl|]. apply ensure_made. Qed.
Lemma mkdir_ok d m : room_for m d -> exists m', mkdir_p d m = Ok m' /\ made d m m' /\ forall a, under a d -> entry_at m' a = Some IsDir.
Proof.
  intros HR. unfold mkdir_p. destruct (is_dir m d) eqn:ED.
  - exists m. split; auto. split; [apply made_refl|]. assert (HE : entry_at m d = Some IsDir).
    { apply is_dir_plain in ED; auto. intros t. destruct (HR d (under_refl d)) as [-> | ->]; discriminate. }
    intros a Ha. eapply entry_prefix_dir; eauto.
  - destruct (ensure_ok d m HR) as (m' & E). exists m'. split; auto. split; [now apply ensure_made|]. now apply ensure_spec in E as (E1 & _).
Qed.

(** ** Registering a directory *)
Lemma on_fs_spec f s s' e : on_fs f s = (s', e) -> exists m, f (s_fs s) = (m, e) /\ s' = set_fs s m.
Proof. unfold on_fs. destruct (f (s_fs s)) as [m e0]. intros [= <- <-]. eauto. Qed.
Lemma register_only k d cs ls ig ov s s' e : (forall f, In f cs -> no_links (s_fs s) (d ++ [base f])) -> register_loc k d cs ls ig ov s = (s', e) ->
  differ_only (fun p => named d (cs ++ ls) p \/ (under p d /\ entry_at (s_fs s) p = None)) (s_fs s) (s_fs s').
Proof.
  intros HL. unfold register_loc. fold (mkdir_p d (s_fs s)). destruct (mkdir_p d (s_fs s)) as [m|e0] eqn:EM; [|intros [= <- _]; apply differ_refl].
  apply mkdir_made in EM. pose proof (made_differ _ _ _ EM) as D0. set (P := fun p => _).
  assert (D1 : differ_only P (s_fs s) m) by (eapply differ_mono; [|exact D0]; intros p Hp; right; exact Hp).
  destruct (on_fs _ _) as [s1 e1] eqn:E1. apply on_fs_spec in E1 as (m1 & E1 & ->). cbn [s_fs] in E1.
  apply copies_only in E1.
  2:{ intros f Hf q t He. specialize (HL f Hf q t). destruct EM as (_ & _ & EM2). unfold entry_at in *. rewrite EM2 in He; [auto|].
      intros (r & E). apply (f_equal (@List.length text)) in E. rewrite !app_length in E. cbn in E. lia. }
  assert (D2 : differ_only P (s_fs s) m1).
  { eapply differ_trans; [exact D1|]. eapply differ_mono; [|exact E1]. intros p (f & F1 & F2). left. exists f. split; auto. apply in_app_iff; auto. }
  unfold bindx. destruct e1 as [e1|]; [intros [= <- _]; exact D2|]. intros E2. apply on_fs_spec in E2 as (m2 & E2 & ->). cbn [set_fs s_fs] in *. apply links_only in E2.
  eapply differ_trans; [exact D2|]. eapply differ_mono; [|exact E2]. intros p (f & F1 & F2). left. exists f. split; auto. apply in_app_iff; auto.
Qed.

(** ** Inputs arrive *)
Lemma copy_one_arrives d ig ov f m n : entry_at m d = Some IsDir -> look (d ++ [base f]) m = None -> look f m = Some n -> sane n -> linkless n ->
  copy_one d ig ov f m = (put (d ++ [base f]) n m, None).
Proof.
  intros HD HN HF HS HL. unfold copy_one. set (dest := d ++ [base f]) in *.
  assert (NLd : forall t, entry_at m dest <> Some (IsLink t)) by (intros t; rewrite entry_link, HN; discriminate).
  assert (NLf : forall t, entry_at m f <> Some (IsLink t)) by (intros t; rewrite entry_link, HF; intros [= ->]; now apply (HL [] t)).
  assert (exists_ m dest = false) as -> by (unfold exists_; now rewrite stat_plain, HN). rewrite andb_false_r. cbn [bindx].
  assert (HP : parent_ok m dest = true) by (apply parent_entry; unfold dest; now rewrite removelast_snoc).
  unfold is_dir at 1. rewrite (stat_plain m f NLf), HF. destruct n as [c|t|l].
  - unfold copy. rewrite (target_plain m f NLf), HF, (target_plain m dest NLd). unfold is_dir. rewrite (stat_plain m dest NLd), HN.
    destruct (peqb_spec f dest) as [EQ|_]; [rewrite <- EQ, HF in HN; discriminate|]. now rewrite (stat_plain m dest NLd), HN, HP.
  - destruct (HL [] t). reflexivity.
  - unfold copytree. rewrite (stat_plain m f NLf), HF, HN, HP. rewrite (deref_linkless m (Dir l)); auto. apply size_look in HF. lia.
Qed.
Lemma link_one_arrives d ig ov f m : entry_at m d = Some IsDir -> look (d ++ [base f]) m = None -> link_one d ig ov f m = (put (d ++ [base f]) (Link f) m, None).
Proof.
  intros HD HN. unfold link_one. set (dest := d ++ [base f]) in *.
  assert (NLd : forall t, entry_at m dest <> Some (IsLink t)) by (intros t; rewrite entry_link, HN; discriminate).
  assert (exists_ m dest = false) as -> by (unfold exists_; now rewrite stat_plain, HN). rewrite andb_false_r. cbn [bindx]. rewrite HN.
  assert (HP : parent_ok m dest = true) by (apply parent_entry; unfold dest; now rewrite removelast_snoc). now rewrite HP.
Qed.

(** what can be copied to [d]: it is there, has no links, and is not around [d] *)
Definition ready (m : node) (d f : path) : Prop := (exists n, look f m = Some n /\ sane n /\ linkless n) /\ ~ under f d /\ ~ under d f.
Lemma put_look_kept d a v m g : ~ under g d -> ~ under d g -> look g (put (d ++ [a]) v m) = look g m.
Proof.
  intros H1 H2. apply look_put_off.
  - intros (q & ->). apply H2. rewrite <- app_assoc. apply under_app.
  - intros H. destruct (list_eq_dec (list_eq_dec Ascii.ascii_dec) g (d ++ [a])) as [-> |N]; [apply H2, under_app|].
    apply under_removelast in H; auto. now rewrite removelast_snoc in H.
Qed.
Lemma copies_arrive d ig ov cs : forall m, entry_at m d = Some IsDir -> NoDup (map base cs) -> (forall f, In f cs -> look (d ++ [base f]) m = None /\ ready m d f) ->
  exists m', foldx (copy_one d ig ov) cs m = (m', None) /\ entry_at m' d = Some IsDir /\ (forall f, In f cs -> look (d ++ [base f]) m' = look f m) /\
  (forall b, ~ In b (map base cs) -> look (d ++ [b]) m' = look (d ++ [b]) m) /\ (forall g, ~ under g d -> ~ under d g -> look g m' = look g m).
Proof.
  induction cs as [|f cs IH]; intros m HD HN HF; cbn [foldx map].
  { exists m. split; [reflexivity|]. split; [exact HD|]. split; [intros f []|auto]. }
  destruct (HF f (or_introl eq_refl)) as (F1 & (n & F2 & F3 & F4) & F5 & F6).
  assert (HP : parent_ok m (d ++ [base f]) = true) by (apply parent_entry; now rewrite removelast_snoc).
  rewrite (copy_one_arrives d ig ov f m n); auto. cbn [bindx]. set (m1 := put (d ++ [base f]) n m). inversion_clear HN as [|? ? N1 N2].
  assert (OFF : forall b, b <> base f -> look (d ++ [b]) m1 = look (d ++ [b]) m).
  { intros b Hb. apply look_put_off; intros H; apply under_snoc in H; congruence. }
  assert (D1 : entry_at m1 d = Some IsDir).
  { rewrite <- HD. apply (put_only (d ++ [base f]) n m HP (app1_ne _ _)). intros (q & E). apply (f_equal (@List.length text)) in E. rewrite !app_length in E. cbn in E. lia. }
  assert (R1 : forall g, In g cs -> look (d ++ [base g]) m1 = None /\ ready m1 d g).
  { intros g Hg. destruct (HF g (or_intror Hg)) as (G1 & (ng & G2 & G3) & G4 & G5). split.
    - rewrite OFF; auto. intros E. apply N1. rewrite <- E. now apply in_map.
    - split; auto. exists ng. split; auto. unfold m1. now rewrite put_look_kept. }
  destruct (IH m1 D1 N2 R1) as (m' & E1 & E2 & E3 & E4 & E5). exists m'. split; auto. split; auto. split; [|split].
  - intros g [<-|Hg].
    + rewrite E4 by auto. rewrite F2. unfold m1. rewrite <- (app_nil_r (d ++ [base f])) at 1. now rewrite look_put.
    + rewrite E3 by auto. destruct (HF g (or_intror Hg)) as (_ & _ & G4 & G5). unfold m1. now rewrite put_look_kept.
  - intros b Hb. rewrite E4; [apply OFF|]; intros X; apply Hb; cbn; auto.
  - intros g G1 G2. rewrite E5 by auto. now apply put_look_kept.
Qed.
Lemma links_arrive d ig ov ls : forall m, entry_at m d = Some IsDir -> NoDup (map base ls) -> (forall f, In f ls -> look (d ++ [base f]) m = None) ->
  exists m', foldx (link_one d ig ov) ls m = (m', None) /\ (forall f, In f ls -> look (d ++ [base f]) m' = Some (Link f)) /\
  (forall b, ~ In b (map base ls) -> look (d ++ [b]) m' = look (d ++ [b]) m) /\ entry_at m' d = Some IsDir.
Proof.
  induction ls as [|f ls IH]; intros m HD HN HF; cbn [foldx map].
  { exists m. split; [reflexivity|]. split; [intros f []|auto]. }
  pose proof (HF f (or_introl eq_refl)) as F1.
  assert (HP : parent_ok m (d ++ [base f]) = true) by (apply parent_entry; now rewrite removelast_snoc).
  rewrite (link_one_arrives d ig ov f m); auto. cbn [bindx]. set (m1 := put (d ++ [base f]) (Link f) m). inversion_clear HN as [|? ? N1 N2].
  assert (OFF : forall b, b <> base f -> look (d ++ [b]) m1 = look (d ++ [b]) m).
  { intros b Hb. apply look_put_off; intros H; apply under_snoc in H; congruence. }
  assert (D1 : entry_at m1 d = Some IsDir).
  { rewrite <- HD. apply (put_only (d ++ [base f]) (Link f) m HP (app1_ne _ _)). intros (q & E). apply (f_equal (@List.length text)) in E. rewrite !app_length in E. cbn in E. lia. }
  destruct (IH m1 D1 N2) as (m' & E1 & E2 & E3 & E4).
  { intros g Hg. rewrite OFF; [apply HF; now right|]. intros E. apply N1. rewrite <- E. now apply in_map. }
  exists m'. split; auto. split; [|split; auto].
  - intros g [<-|Hg]; [|auto]. rewrite E3 by auto. unfold m1. rewrite <- (app_nil_r (d ++ [base f])) at 1. now rewrite look_put.
  - intros b Hb. rewrite E3; [apply OFF|]; intros X; apply Hb; cbn; auto.
Qed.
