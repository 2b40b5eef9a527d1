(** The file system: what the primitive actions change. *)
From Coq Require Import String.
From Verif Require Import Base BaseLemmas TextModel TextProofs LabelModel FileModel FileSpec.
Local Notation length := List.length.
Local Open Scope list_scope.
Local Open Scope nat_scope.

(** ** Names *)
Lemma peqb_spec p q : reflect (p = q) (peqb p q).
Proof.
  unfold peqb. revert q. induction p as [|a p IH]; intros [|b q]; cbn; try (constructor; congruence).
  specialize (IH q). destruct (teqb_spec a b) as [-> |N].
  - cbn [andb]. destruct IH as [-> |N]; constructor; congruence.
  - cbn [andb]. rewrite andb_false_r. constructor. congruence.
Qed.
Lemma peqb_refl p : peqb p p = true.
Proof. destruct (peqb_spec p p); congruence. Qed.

Lemma assoc_put1_same a v l : assoc a (put1 a v l) = Some v.
Proof. induction l as [|[b n] l IH]; cbn; [now rewrite teqb_refl|]. destruct (teqb a b) eqn:E; cbn; rewrite E; auto. Qed.
Lemma assoc_put1_other a b v l : a <> b -> assoc b (put1 a v l) = assoc b l.
Proof.
  intros N. induction l as [|[x n] l IH]; cbn; [destruct (teqb_spec b a); congruence|].
  destruct (teqb_spec a x) as [<-|Nx]; cbn; [destruct (teqb_spec b a); congruence|]. now rewrite IH.
Qed.
Lemma assoc_del1_same a l : assoc a (del1 a l) = None.
Proof. unfold del1. induction l as [|[b n] l IH]; auto. cbn [filter fst]. destruct (teqb a b) eqn:E; cbn [negb]; auto. cbn. now rewrite E. Qed.
Lemma assoc_del1_other a b l : a <> b -> assoc b (del1 a l) = assoc b l.
Proof.
  intros N. unfold del1. induction l as [|[x n] l IH]; auto. cbn [filter fst assoc]. destruct (teqb_spec a x) as [<-|Nx]; cbn [negb].
  - rewrite IH. destruct (teqb_spec b a); congruence.
  - cbn. now rewrite IH.
Qed.
Lemma assoc_In a l k : assoc a l = Some k -> In (a, k) l.
Proof. induction l as [|[b n] l IH]; [discriminate|]. cbn. destruct (teqb_spec a b) as [-> |]; [intros [= ->]; auto|auto]. Qed.
Lemma assoc_In_iff a l : assoc a l <> None <-> In a (map fst l).
Proof.
  induction l as [|[b n] l IH]; [cbn; tauto|]. cbn. destruct (teqb_spec a b) as [-> |N]; [split; [auto|discriminate]|]. rewrite IH. split; [auto|]. intros [E|]; [congruence|auto].
Qed.
Lemma In_assoc a l k : NoDup (map fst l) -> In (a, k) l -> assoc a l = Some k.
Proof.
  induction l as [|[b n] l IH]; [intros _ []|]. cbn. intros N [[= -> ->]|H]; [now rewrite teqb_refl|]. inversion_clear N as [|? ? N1 N2].
  destruct (teqb_spec a b) as [-> |]; auto. destruct N1. apply (in_map fst) in H. exact H.
Qed.

(** ** Paths *)
Lemma under_refl p : under p p.
Proof. exists []. now rewrite app_nil_r. Qed.
Lemma under_app p q : under p (p ++ q).
Proof. now exists q. Qed.
Lemma under_trans a b c : under a b -> under b c -> under a c.
Proof. intros (q & ->) (r & ->). exists (q ++ r). now rewrite app_assoc. Qed.
Lemma under_nil p : under [] p.
Proof. now exists p. Qed.
Lemma under_cons a p q : under (a :: p) (a :: q) <-> under p q.
Proof. split; intros (r & E); exists r; [injection E; auto|cbn; congruence]. Qed.
Lemma under_dec d p : {under d p} + {~ under d p}.
Proof.
  revert p. induction d as [|a d IH]; intros p; [left; apply under_nil|]. destruct p as [|b p]; [right; intros (q & E); discriminate|].
  destruct (teqb_spec a b) as [-> |N]; [|right; intros (q & E); injection E as E _; congruence].
  destruct (IH p) as [H|H]; [left; now apply under_cons|right; now rewrite under_cons].
Qed.
Lemma under_app_iff d p q : under (d ++ p) (d ++ q) <-> under p q.
Proof. split; intros (r & E); exists r; [rewrite <- app_assoc in E; now apply app_inv_head in E|now rewrite E, app_assoc]. Qed.

(** ** Looking *)
Lemma look_app p q n : look (p ++ q) n = match look p n with Some k => look q k | None => None end.
Proof. revert n. induction p as [|a p IH]; intros n; auto. cbn. destruct n as [c|t|l]; auto. destruct (assoc a l); auto. Qed.
Lemma entry_none m p : entry_at m p = None <-> look p m = None.
Proof. unfold entry_at. destruct (look p m) as [[ | | ]|]; split; congruence. Qed.
Lemma entry_dir m p : entry_at m p = Some IsDir <-> exists l, look p m = Some (Dir l).
Proof. unfold entry_at. destruct (look p m) as [[ | |l]|]; split; try discriminate; try (intros (l0 & E); discriminate); eauto. Qed.
Lemma entry_link m p t : entry_at m p = Some (IsLink t) <-> look p m = Some (Link t).
Proof. unfold entry_at. destruct (look p m) as [[ | | ]|]; split; try discriminate; intros [= <-]; auto. Qed.
Lemma entry_file m p c : entry_at m p = Some (IsFile c) <-> look p m = Some (File c).
Proof. unfold entry_at. destruct (look p m) as [[ | | ]|]; split; try discriminate; intros [= <-]; auto. Qed.
Lemma entry_below_none m p q : entry_at m p = None -> entry_at m (p ++ q) = None.
Proof. rewrite !entry_none, look_app. now intros ->. Qed.
Lemma entry_above m p q : q <> [] -> entry_at m (p ++ q) <> None -> entry_at m p = Some IsDir.
Proof.
  intros Hq H. apply entry_dir. assert (X : look (p ++ q) m <> None) by (now rewrite <- entry_none). rewrite look_app in X.
  destruct q as [|a q]; [congruence|]. destruct (look p m) as [[c|t|l]|]; cbn in X; try congruence. eauto.
Qed.
Lemma look_same_tree m a m' b : look b m' = look a m -> same_tree m a m' b.
Proof. intros E q. unfold entry_at. now rewrite !look_app, E. Qed.

(** ** Putting *)
Lemma look_put_in p : forall v n, (forall a, under a p -> a <> p -> entry_at n a = None \/ entry_at n a = Some IsDir) -> forall q, look (p ++ q) (put p v n) = look q v.
Proof.
  induction p as [|a p IH]; intros v n H q; auto. cbn.
  destruct (H [] (under_nil _)) as [E|E]; [discriminate|destruct n; discriminate|]. apply entry_dir in E as (l & E). cbn in E. injection E as ->.
  rewrite assoc_put1_same. apply IH. intros b Hb Hn.
  destruct (H (a :: b)) as [E|E]; [now apply under_cons|congruence| |].
  - unfold entry_at in *. cbn in E. destruct (assoc a l) as [k|]; [left; exact E|]. destruct b as [|x b]; [right; reflexivity|left; reflexivity].
  - unfold entry_at in *. cbn in E. destruct (assoc a l) as [k|]; [right; exact E|discriminate].
Qed.
Lemma look_put_off p : forall v n r, ~ under p r -> ~ under r p -> look r (put p v n) = look r n.
Proof.
  induction p as [|a p IH]; intros v n r H1 H2; [destruct H1; apply under_nil|]. destruct r as [|b r]; [destruct H2; apply under_nil|].
  cbn. destruct n as [c|t|l]; auto. destruct (teqb_spec a b) as [<-|N]; [|now rewrite assoc_put1_other].
  rewrite assoc_put1_same. rewrite under_cons in H1, H2. rewrite IH; auto. destruct (assoc a l); auto. destruct r; [destruct H2; apply under_nil|reflexivity].
Qed.
Lemma entry_put_above p : forall v n r, ~ under p r -> under r p -> entry_at n r <> None -> entry_at (put p v n) r = entry_at n r.
Proof.
  induction p as [|a p IH]; intros v n r H1 H2 H3; [destruct H1; apply under_nil|]. destruct r as [|b r]; [cbn; destruct n; reflexivity|].
  assert (b = a) as -> by (destruct H2 as (q & E); now injection E). rewrite under_cons in H1, H2.
  unfold entry_at in *. cbn in *. destruct n as [c|t|l]; auto. rewrite assoc_put1_same. destruct (assoc a l) as [k|]; [|congruence].
  exact (IH v k r H1 H2 H3).
Qed.
Lemma parent_entry m p : parent_ok m p = true <-> entry_at m (removelast p) = Some IsDir.
Proof. unfold parent_ok. rewrite entry_dir. destruct (look (removelast p) m) as [[ | | ]|]; split; try discriminate; try (intros (l0 & E); discriminate); eauto. Qed.
Lemma split_last (p : path) : p <> [] -> p = removelast p ++ [base p].
Proof. intros H. unfold base. now apply app_removelast_last. Qed.
Lemma under_removelast r (p : path) : under r p -> r <> p -> under r (removelast p).
Proof.
  intros (q & ->) H. destruct q as [|x q] using rev_ind; [rewrite app_nil_r in H; congruence|]. clear IHq.
  rewrite app_assoc, removelast_last. apply under_app.
Qed.
Lemma entry_prefix_dir m a p : entry_at m p = Some IsDir -> under a p -> entry_at m a = Some IsDir.
Proof. intros H (q & ->). destruct q as [|x q]; [now rewrite app_nil_r in H|]. eapply entry_above with (q := x :: q); [discriminate|congruence]. Qed.
Lemma parent_room m p : entry_at m (removelast p) = Some IsDir -> forall a, under a p -> a <> p -> entry_at m a = None \/ entry_at m a = Some IsDir.
Proof. intros H a Ha Hn. right. eapply entry_prefix_dir; [exact H|]. now apply under_removelast. Qed.

(** A new thing at [p], below a directory: nothing else changes. *)
Lemma put_only p v m : parent_ok m p = true -> p <> [] -> differ_only (under p) m (put p v m).
Proof.
  intros HP Hn r Hr. apply parent_entry in HP. destruct (under_dec r p) as [Hu|Hu].
  - apply entry_put_above; auto. rewrite (entry_prefix_dir _ r _ HP); [discriminate|]. apply under_removelast; auto. intros ->. destruct Hr. apply under_refl.
  - unfold entry_at. now rewrite look_put_off.
Qed.
Lemma look_put p v m q : parent_ok m p = true -> look (p ++ q) (put p v m) = look q v.
Proof. intros HP. apply look_put_in. apply parent_room. now apply parent_entry. Qed.

(** ** Removing *)
Lemma look_del_in p : forall n q, p <> [] -> look (p ++ q) (del p n) = None.
Proof.
  induction p as [|a p IH]; intros n q H; [congruence|]. cbn. destruct n as [c|t|l]; auto. destruct p as [|b p].
  - cbn. now rewrite assoc_del1_same.
  - destruct (assoc a l) as [k|] eqn:E; [|now rewrite E]. rewrite assoc_put1_same. apply IH. discriminate.
Qed.
Lemma entry_del_off p : forall n r, ~ under p r -> entry_at (del p n) r = entry_at n r.
Proof.
  induction p as [|a p IH]; intros n r H; [destruct H; apply under_nil|]. cbn [del]. destruct n as [c|t|l]; auto.
  destruct r as [|b r]. { destruct p; [reflexivity|]. destruct (assoc a l); reflexivity. }
  destruct p as [|x p].
  - unfold entry_at. cbn. rewrite assoc_del1_other; auto. intros ->. apply H. rewrite under_cons. apply under_nil.
  - destruct (assoc a l) as [k|] eqn:E; auto. unfold entry_at. cbn [look]. destruct (teqb_spec a b) as [<-|N]; [|now rewrite assoc_put1_other].
    rewrite assoc_put1_same, E. apply IH. now rewrite under_cons in H.
Qed.
Lemma del_only p m : differ_only (under p) m (del p m).
Proof. intros r Hr. now apply entry_del_off. Qed.

(** ** Making directories *)
Lemma ensure_spec p : forall n n', ensure p n = Ok n' ->
  (forall a, under a p -> entry_at n' a = Some IsDir) /\
  (forall r, entry_at n r <> None -> entry_at n' r = entry_at n r) /\
  (forall r, ~ under r p -> look r n' = look r n).
Proof.
  induction p as [|a p IH]; intros n n'; destruct n as [c|t|l]; cbn; try discriminate.
  - intros [= <-]. split; [|auto]. intros b (q & E). symmetry in E. apply app_eq_nil in E as [-> _]. reflexivity.
  - destruct (ensure p _) as [k|e] eqn:E; [|discriminate]. cbn. intros [= <-]. apply IH in E as (E1 & E2 & E3).
    split; [|split].
    + intros b Hb. destruct b as [|x b]; [reflexivity|]. assert (x = a) as -> by (destruct Hb as (q & Eq); now injection Eq). rewrite under_cons in Hb.
      unfold entry_at. cbn. rewrite assoc_put1_same. now apply E1.
    + intros r Hr. destruct r as [|x r]; [reflexivity|]. unfold entry_at in *. cbn in *. destruct (teqb_spec a x) as [<-|N]; [|now rewrite assoc_put1_other].
      rewrite assoc_put1_same. destruct (assoc a l) as [k0|]; [now apply E2|congruence].
    + intros r Hr. destruct r as [|x r]; [destruct Hr; apply under_nil|]. cbn in *. destruct (teqb_spec a x) as [<-|N]; [|now rewrite assoc_put1_other].
      rewrite assoc_put1_same. rewrite under_cons in Hr. rewrite E3 by auto. destruct (assoc a l) as [k0|]; auto. destruct r; [destruct Hr; apply under_nil|reflexivity].
Qed.
Lemma ensure_ok p : forall n, (forall a, under a p -> entry_at n a = None \/ entry_at n a = Some IsDir) -> exists n', ensure p n = Ok n'.
Proof.
  induction p as [|a p IH]; intros n H; destruct (H [] (under_nil _)) as [E|E]; try (destruct n; discriminate); apply entry_dir in E as (l & E); cbn in E; injection E as ->; cbn; [eauto|].
  destruct (IH (match assoc a l with Some k => k | None => Dir [] end)) as (n' & ->); [|cbn; eauto].
  intros b Hb. destruct (H (a :: b)) as [E|E]; [now apply under_cons|..]; unfold entry_at in *; cbn in E; destruct (assoc a l); auto; try discriminate.
  destruct b; [right; reflexivity|left; reflexivity].
Qed.

(** ** Links *)
Lemma resolve_plain f m p : (forall t, entry_at m p <> Some (IsLink t)) -> resolve f m p = Some p.
Proof. intros H. destruct f; cbn; destruct (look p m) as [[c|t|l]|] eqn:E; auto; destruct (H t); now apply entry_link. Qed.
Lemma target_plain m p : (forall t, entry_at m p <> Some (IsLink t)) -> target m p = Some p.
Proof. apply resolve_plain. Qed.
Lemma stat_plain m p : (forall t, entry_at m p <> Some (IsLink t)) -> stat m p = look p m.
Proof. intros H. unfold stat. now rewrite target_plain. Qed.
Lemma is_dir_plain m p : (forall t, entry_at m p <> Some (IsLink t)) -> is_dir m p = true <-> entry_at m p = Some IsDir.
Proof. intros H. unfold is_dir. rewrite stat_plain by auto. rewrite entry_dir. destruct (look p m) as [[ | | ]|]; split; try discriminate; try (intros (l0 & E); discriminate); eauto. Qed.
Lemma resolve_end f m p q : resolve f m p = Some q -> forall t, entry_at m q <> Some (IsLink t).
Proof.
  revert p. induction f as [|f IH]; intros p; cbn; destruct (look p m) as [[c|t|l]|] eqn:E; try discriminate; try apply IH;
    intros [= <-] t0 Ht; apply entry_link in Ht; congruence.
Qed.

(** ** Following the links of a tree *)
Section NodeInd.
Variable P : node -> Prop.
Hypothesis Hf : forall c, P (File c).
Hypothesis Hl : forall p, P (Link p).
Hypothesis Hd : forall l, Forall (fun x => P (snd x)) l -> P (Dir l).
Fixpoint node_ind' (n : node) : P n :=
  match n with
  | File c => Hf c
  | Link p => Hl p
  | Dir l => Hd l ((fix go l : Forall (fun x => P (snd x)) l := match l with [] => Forall_nil _ | x :: l' => Forall_cons x (node_ind' (snd x)) (go l') end) l)
  end.
End NodeInd.

Lemma size_pos n : 0 < size n.
Proof. destruct n; cbn; lia. Qed.
Lemma size_child a k l : In (a, k) l -> size k < size (Dir l).
Proof.
  intros H. cbn. apply Nat.lt_succ_r. induction l as [|[b n] l IH]; [destruct H|]. destruct H as [[= -> ->]|H]; [lia|]. specialize (IH H). lia.
Qed.
Lemma size_look p : forall n k, look p n = Some k -> size k <= size n.
Proof.
  induction p as [|a p IH]; intros n k; cbn; [intros [= ->]; lia|]. destruct n as [c|t|l]; try discriminate. destruct (assoc a l) as [k0|] eqn:E; [|discriminate].
  intros H. apply IH in H. apply assoc_In in E. apply size_child in E. lia.
Qed.
Definition linkless (n : node) : Prop := forall q t, look q n <> Some (Link t).
Definition sane (n : node) : Prop := forall q l, look q n = Some (Dir l) -> NoDup (map fst l).
Lemma sane_child a k l : sane (Dir l) -> In (a, k) l -> sane k.
Proof. intros H Hi q l' E. apply (H (a :: q)). cbn. rewrite (In_assoc a l k); auto. now apply (H []). Qed.
Lemma linkless_child a k l : sane (Dir l) -> linkless (Dir l) -> In (a, k) l -> linkless k.
Proof. intros HS H Hi q t E. apply (H (a :: q) t). cbn. rewrite (In_assoc a l k); auto. now apply (HS []). Qed.
Lemma deref_linkless m n : forall fuel, size n <= fuel -> sane n -> linkless n -> deref fuel m n = (Some n, true).
Proof.
  induction n as [c|p|l IH] using node_ind'; intros fuel Hs HN HL; (destruct fuel as [|f]; [cbn in Hs; lia|]).
  - reflexivity.
  - destruct (HL [] p); reflexivity.
  - cbn [deref]. set (r := map _ l).
    assert (Hr : r = map (fun x => (fst x, (Some (snd x), true))) l).
    { apply map_ext_in. intros [a k] Hi. cbn [fst snd]. f_equal. rewrite Forall_forall in IH. apply (IH (a, k) Hi).
      - pose proof (size_child a k l Hi). cbn [snd]. lia.
      - now apply (sane_child a k l).
      - now apply (linkless_child a k l). }
    rewrite Hr. f_equal.
    + f_equal. f_equal. clear. induction l as [|[a k] l IH]; auto. cbn. now rewrite IH.
    + clear. induction l as [|[a k] l IH]; auto.
Qed.
(** what comes out never has links *)
Lemma deref_no_links fuel m : forall n k ok, deref fuel m n = (Some k, ok) -> linkless k.
Proof.
  induction fuel as [|f IH]; intros n k ok; cbn [deref]; [discriminate|]. destruct n as [c|p|l].
  - intros [= <- _] [|a q] t; cbn; discriminate.
  - destruct (stat m p) as [k0|]; [apply IH|discriminate].
  - intros [= <- _] [|a q] t; [discriminate|]. cbn [look]. set (L := flat_map _ _).
    destruct (assoc a L) as [k|] eqn:E; [|discriminate]. apply assoc_In in E. unfold L in E. apply in_flat_map in E as ([b [o ok0]] & H1 & H2).
    cbn in H2. destruct o as [k1|]; [|destruct H2]. destruct H2 as [[= -> ->]|[]]. apply in_map_iff in H1 as ([x n] & E & _). cbn [fst snd] in E. injection E as _ E.
    eapply IH. exact E.
Qed.
Lemma proper_look m p n : proper m -> look p m = Some n -> sane n.
Proof. intros H E q l E2. apply (H (p ++ q)). now rewrite look_app, E. Qed.
Lemma no_links_look m p n : no_links m p -> look p m = Some n -> linkless n.
Proof. intros H E q t E2. apply (H q t). apply entry_link. now rewrite look_app, E. Qed.
