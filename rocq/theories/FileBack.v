(** Copying back. *)
From Coq Require Import Ascii String.
From Verif Require Import Base BaseLemmas TextModel TextProofs LabelModel FileModel FileSpec FileProofs FileOps FileCalc.
Local Notation length := List.length.
Local Open Scope list_scope.
Local Open Scope nat_scope.

(** ** Changes at one place *)
Definition edit (d : path) (m m' : node) : Prop := differ_only (under d) m m' /\ forall p, ~ under d p -> ~ under p d -> look p m' = look p m.
Lemma edit_refl d m : edit d m m.
Proof. split; [apply differ_refl|auto]. Qed.
Lemma edit_trans d a b c : edit d a b -> edit d b c -> edit d a c.
Proof. intros [H1 H2] [H3 H4]. split; [eapply differ_trans; eauto|]. intros p P1 P2. now rewrite H4, H2. Qed.
Lemma under_two a b p : under a p -> under b p -> under a b \/ under b a.
Proof.
  revert b p. induction a as [|x a IH]; intros b p Ha Hb; [left; apply under_nil|]. destruct b as [|y b]; [right; apply under_nil|].
  destruct Ha as (q & ->). destruct Hb as (r & E). injection E as <- E. rewrite !under_cons. apply (IH b (a ++ q)); [apply under_app|rewrite E; apply under_app].
Qed.
Lemma edit_up d q m m' : edit (d ++ q) m m' -> edit d m m'.
Proof.
  intros [H1 H2]. split.
  - eapply differ_mono; [|exact H1]. intros p. apply under_trans, under_app.
  - intros p P1 P2. apply H2.
    + intros H. apply P1. eapply under_trans; [apply under_app|exact H].
    + intros H. destruct (under_two _ _ _ H (under_app d q)); auto.
Qed.
Lemma put_edit d v m : parent_ok m d = true -> d <> [] -> edit d m (put d v m).
Proof. intros HP Hd. split; [now apply put_only|]. intros p P1 P2. now apply look_put_off. Qed.
Lemma look_del_off p : forall n r, ~ under p r -> ~ under r p -> look r (del p n) = look r n.
Proof.
  induction p as [|a p IH]; intros n r H1 H2; [destruct H1; apply under_nil|]. destruct r as [|b r]; [destruct H2; apply under_nil|].
  cbn [del]. destruct n as [c|t|l]; auto. destruct p as [|a' p].
  - cbn. destruct (teqb_spec a b) as [<-|N]; [destruct H1; rewrite under_cons; apply under_nil|]. now rewrite assoc_del1_other.
  - destruct (assoc a l) as [k|] eqn:E; auto. cbn [look]. destruct (teqb_spec a b) as [<-|N]; [|now rewrite assoc_put1_other].
    rewrite assoc_put1_same, E. rewrite under_cons in H1, H2. now apply IH.
Qed.
Lemma del_edit d m : edit d m (del d m).
Proof. split; [apply del_only|]. intros p P1 P2. now apply look_del_off. Qed.
Lemma rmtree_edit d m : edit d m (rmtree d m).
Proof. unfold rmtree. destruct (look d m) as [[c|t|l]|]; try apply edit_refl. apply del_edit. Qed.
Lemma edit_other d a b m m' : a <> b -> edit (d ++ [a]) m m' -> look (d ++ [b]) m' = look (d ++ [b]) m.
Proof. intros N [_ H]. apply H; intros X; apply under_snoc in X; congruence. Qed.
Lemma edit_apart d a e m m' : apart d e -> edit (d ++ [a]) m m' -> look e m' = look e m.
Proof.
  intros [A1 A2] [_ H]. apply H.
  - intros X. apply A1. eapply under_trans; [apply under_app|exact X].
  - intros X. destruct (under_two _ _ _ X (under_app d [a])); auto.
Qed.
Lemma edit_above d a m m' : edit (d ++ [a]) m m' -> entry_at m' d = entry_at m d.
Proof. intros [H _]. apply H. intros (q & E). apply (f_equal (@List.length text)) in E. rewrite !app_length in E. cbn in E. lia. Qed.
Lemma look_below e m m' q : look e m' = look e m -> look (e ++ q) m' = look (e ++ q) m.
Proof. intros E. now rewrite !look_app, E. Qed.
Lemma entry_look m m' p : look p m' = look p m -> entry_at m' p = entry_at m p.
Proof. unfold entry_at. now intros ->. Qed.

(** ** Trees stay as they are *)
Lemma put_sane p : forall v n, sane n -> sane v -> sane (put p v n).
Proof.
  induction p as [|a p IH]; intros v n HN HV; auto. cbn. destruct n as [c|t|l]; auto.
  set (k := match assoc a l with Some k => k | None => Dir [] end). assert (HK : sane k).
  { unfold k. destruct (assoc a l) as [k0|] eqn:E; [apply assoc_In in E; exact (sane_child _ _ _ HN E)|]. intros [|b q] l0; cbn; [intros [= <-]; constructor|discriminate]. }
  intros [|b q] l0; cbn.
  - intros [= <-]. specialize (HN [] l eq_refl). generalize (put p v k). clear - HN. intros nw. induction l as [|[b n] l IH]; cbn; [constructor; [intros []|constructor]|].
    inversion_clear HN as [|? ? N1 N2]. destruct (teqb_spec a b) as [-> |N]; cbn; (constructor; [|auto]); [exact N1|].
    intros H. apply assoc_In_iff in H. rewrite assoc_put1_other in H by auto. apply N1. apply assoc_In_iff. exact H.
  - destruct (teqb_spec a b) as [<-|N].
    + rewrite assoc_put1_same. intros E. now apply (IH v k HK HV q l0).
    + rewrite assoc_put1_other by auto. intros E. apply (HN (b :: q)). exact E.
Qed.
Lemma del_sane p : forall n, sane n -> sane (del p n).
Proof.
  induction p as [|a p IH]; intros n HN; auto. cbn [del]. destruct n as [c|t|l]; auto. destruct p as [|a' p].
  - intros [|b q] l0; cbn.
    + intros [= <-]. specialize (HN [] l eq_refl). unfold del1. clear - HN. induction l as [|[b n] l IH]; [constructor|]. inversion_clear HN as [|? ? N1 N2]. cbn [filter fst].
      destruct (negb _); auto. cbn. constructor; auto. intros H. apply N1. apply in_map_iff in H as (x & E & H). apply filter_In in H as [H _]. apply in_map_iff. eauto.
    + destruct (teqb_spec a b) as [<-|N]; [now rewrite assoc_del1_same|]. rewrite assoc_del1_other by auto. apply (HN (b :: q)).
  - destruct (assoc a l) as [k|] eqn:E; auto. change (Dir (put1 a (del (a' :: p) k) l)) with (Dir (put1 a (del (a' :: p) k) l)).
    assert (HK : sane k) by (apply assoc_In in E; exact (sane_child _ _ _ HN E)). specialize (IH k HK).
    pose proof (put_sane [a] (del (a' :: p) k) (Dir l) HN IH) as X. cbn in X. exact X.
Qed.
Lemma proper_sane m : proper m <-> sane m.
Proof. reflexivity. Qed.

(** ** What a fresh copy looks like *)
Fixpoint grafts (l k : list (text * node)) : list (text * node) * bool :=
  match l with
  | [] => (k, true)
  | (a, n) :: l' =>
      let r1 := graft a n (assoc a k) in
      let r2 := grafts l' (match fst r1 with Some v => put1 a v k | None => k end) in
      (fst r2, snd r1 && snd r2)
  end.
Lemma graft_dir a l : graft a (Dir l) None = (Some (Dir (fst (grafts l []))), snd (grafts l [])).
Proof. reflexivity. Qed.
Lemma entry_cons l a q : entry_at (Dir l) (a :: q) = match assoc a l with Some x => entry_at x q | None => None end.
Proof. unfold entry_at. cbn. destruct (assoc a l); auto. Qed.
Lemma sane_dir l : NoDup (map fst l) -> (forall a k, assoc a l = Some k -> sane k) -> sane (Dir l).
Proof. intros H1 H2 [|a q] l0; cbn; [intros [= <-]; auto|]. destruct (assoc a l) as [k|] eqn:E; [|discriminate]. apply (H2 a k E). Qed.
Lemma graft_fresh n : sane n -> forall a, exists k, graft a n None = (Some k, true) /\ (forall q, entry_at k q = entry_at n q) /\ sane k.
Proof.
  induction n as [c|t|l IH] using node_ind'; intros HS a; try (cbn; eexists; split; [reflexivity|split; [reflexivity|exact HS]]).
  rewrite graft_dir. enough (G : exists r, grafts l [] = (r, true) /\ NoDup (map fst r) /\ (forall b q, entry_at (Dir r) (b :: q) = entry_at (Dir l) (b :: q)) /\ forall b k, assoc b r = Some k -> sane k).
  { destruct G as (r & -> & G0 & G1 & G2). eexists. split; [reflexivity|]. split; [intros [|b q]; [reflexivity|apply G1]|]. now apply sane_dir. }
  assert (GG : forall l k0, Forall (fun x => sane (snd x) -> forall a, exists k, graft a (snd x) None = (Some k, true) /\ (forall q, entry_at k q = entry_at (snd x) q) /\ sane k) l ->
    (forall x, In x l -> sane (snd x)) -> NoDup (map fst l) -> (forall b, In b (map fst l) -> assoc b k0 = None) -> NoDup (map fst k0) -> (forall b k, assoc b k0 = Some k -> sane k) ->
    exists r, grafts l k0 = (r, true) /\ NoDup (map fst r) /\ (forall b q, entry_at (Dir r) (b :: q) = match assoc b l with Some x => entry_at x q | None => entry_at (Dir k0) (b :: q) end) /\ forall b k, assoc b r = Some k -> sane k).
  { clear. induction l as [|[b n] l IHl]; intros k0 HF HS HN HK N0 S0; [exists k0; cbn; auto|].
    apply Forall_inv in HF as F1. apply Forall_inv_tail in HF as F2. inversion_clear HN as [|? ? N1 N2]. cbn [grafts].
    rewrite (HK b) by (now left). cbn [snd] in F1. destruct (F1 (HS (b, n) (or_introl eq_refl)) b) as (k & -> & K1 & K2). cbn [fst snd].
    destruct (IHl (put1 b k k0)) as (r & -> & R0 & R1 & R2); auto.
    - intros x Hx. apply HS. now right.
    - intros b' Hb'. rewrite assoc_put1_other; [apply HK; now right|]. intros <-. auto.
    - specialize (HK b (or_introl eq_refl)). clear - N0 HK. induction k0 as [|[x y] k0 IH]; cbn; [constructor; [intros []|constructor]|]. cbn in HK.
      inversion_clear N0 as [|? ? N1 N2]. destruct (teqb_spec b x); [discriminate|]. cbn. constructor; auto. intros H. apply assoc_In_iff in H. rewrite assoc_put1_other in H by auto. apply N1. now apply assoc_In_iff.
    - intros b' k'. destruct (teqb_spec b b') as [<-|Nb]; [rewrite assoc_put1_same; now intros [= <-]|]. rewrite assoc_put1_other by auto. apply S0.
    - exists r. cbn [fst snd]. split; auto. split; auto. split; auto. intros b' q. rewrite R1. cbn [assoc]. destruct (teqb_spec b' b) as [-> |Nb].
      + assert (assoc b l = None) as ->. { destruct (assoc b l) eqn:E; auto. destruct N1. apply assoc_In_iff. congruence. } rewrite entry_cons, assoc_put1_same. apply K1.
      + destruct (assoc b' l); auto. rewrite !entry_cons, assoc_put1_other; auto. }
  destruct (GG l []) as (r & E & R0 & R1 & R2); auto.
  - intros [b n] Hx. eapply sane_child; [exact HS|exact Hx].
  - now apply (HS []).
  - constructor.
  - intros b k. discriminate.
  - exists r. split; auto. split; auto. split; auto. intros b q. rewrite R1. rewrite !entry_cons. destruct (assoc b l); auto.
Qed.

(** ** One registered directory *)
Lemma parent_snoc m d a : entry_at m d = Some IsDir -> parent_ok m (d ++ [a]) = true.
Proof. intros H. apply parent_entry. now rewrite removelast_snoc. Qed.
Lemma clear_edit (ov : bool) dest m : edit dest m (if ov then rmtree dest m else m).
Proof. destruct ov; [apply rmtree_edit|apply edit_refl]. Qed.
Lemma clear_free c m a : free_name c m a -> look (f_back c ++ [a]) (if f_overwrite c then rmtree (f_back c ++ [a]) m else m) = None.
Proof.
  intros [H|[HO H]].
  - apply entry_none in H. destruct (f_overwrite c); auto. unfold rmtree. now rewrite H.
  - rewrite HO. unfold rmtree. apply entry_dir in H as (l & ->). rewrite <- (app_nil_r (f_back c ++ [a])) at 1. apply look_del_in, app1_ne.
Qed.
Lemma clear_sane (ov : bool) dest m : proper m -> proper (if ov then rmtree dest m else m).
Proof. intros H. destruct ov; auto. unfold rmtree. destruct (look dest m) as [[c|t|l]|]; auto. now apply del_sane. Qed.

Lemma copy_dir_edit c p m m' e : copy_dir c p m = (m', e) -> edit (f_back c ++ [base p]) m m'.
Proof.
  unfold copy_dir. set (dest := f_back c ++ [base p]). set (m1 := if f_overwrite c then rmtree dest m else m).
  assert (E1 : edit dest m m1) by apply clear_edit. destruct (stat m1 p) as [[x|t|l]|]; try (intros [= <- _]; exact E1).
  assert (HP : forall d, (if parent_ok m1 dest then match graft (base p) (Dir l) d with (Some n, ok) => (put dest n m1, if ok then None else Some EShutil) | (None, _) => (m1, Some EShutil) end else (m1, Some ENoEntry)) = (m', e) -> edit dest m m').
  { intros d. destruct (parent_ok m1 dest) eqn:EP; [|intros [= <- _]; exact E1]. destruct (graft _ _ _) as [[n|] ok]; intros [= <- _]; [|exact E1].
    eapply edit_trans; [exact E1|]. apply put_edit; auto. apply app1_ne. }
  destruct (look dest m1) as [[x|t|k]|]; try (intros [= <- _]; exact E1); apply HP.
Qed.
Lemma copy_dir_copies c p m : (forall n, look p m = Some n -> sane n) -> entry_at m (f_back c) = Some IsDir -> apart (f_back c) p -> entry_at m p = Some IsDir -> free_name c m (base p) ->
  exists m', copy_dir c p m = (m', None) /\ (proper m -> proper m') /\ same_tree m p m' (f_back c ++ [base p]).
Proof.
  intros HPr HB HA HE HF. unfold copy_dir. set (dest := f_back c ++ [base p]). set (m1 := if f_overwrite c then rmtree dest m else m).
  assert (E1 : edit dest m m1) by apply clear_edit. assert (L1 : look p m1 = look p m) by (eapply edit_apart; eauto). apply entry_dir in HE as (l & HE).
  rewrite stat_plain by (intros t X; apply entry_link in X; congruence). rewrite L1, HE. assert (look dest m1 = None) as -> by now apply clear_free.
  assert (HPk : parent_ok m1 dest = true) by (apply parent_snoc; rewrite (edit_above _ _ _ _ E1); exact HB). rewrite HPk. destruct (graft_fresh (Dir l) (HPr _ HE) (base p)) as (k & -> & K1 & K2).
  eexists. split; [reflexivity|]. split; [intros PM; apply put_sane; auto; now apply clear_sane|]. intros q. unfold entry_at at 1. rewrite look_put by exact HPk.
  change (entry_at k q = entry_at m (p ++ q)). rewrite K1. unfold entry_at. now rewrite look_app, HE.
Qed.
