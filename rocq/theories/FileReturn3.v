(** [copy_back] as a whole. *)
From Coq Require Import Ascii String.
From Verif Require Import Base BaseLemmas TextModel TextProofs LabelModel FileModel FileSpec FileProofs FileOps FileCalc FileBack FileReturn FileReturn2.
Local Notation length := List.length.
Local Open Scope list_scope.
Local Open Scope nat_scope.

Lemma own_not_worker c i r t : is_worker_name (own_name c i r t) = false.
Proof. destruct i; reflexivity. Qed.
Lemma run_flat c w s l : d_worker_dirs (f_names c) = false -> dirs_ok c w s l -> flat_dirs c (s_dirs s).
Proof.
  intros EW [_ H]. rewrite EW in H. destruct H as (H1 & H2 & _). split.
  - intros k p Hi Np. destruct (H1 k p Hi) as [[_ ->]|(i & r & t & _ & ->)]; [congruence|]. eexists. split; [reflexivity|apply own_not_worker].
  - clear - H1 H2. induction (s_dirs s) as [|[k p] ds IH]; [constructor|]. inversion_clear H2 as [|? ? N1 N2]. cbn. constructor; [|apply IH; auto; intros k' p' Hi; apply H1; now right].
    intros Hi. apply in_map_iff in Hi as ([k' p'] & E & Hi). cbn in E. subst p'. apply N1. replace k with k'; [now apply (in_map fst) in Hi|].
    destruct (H1 k p (or_introl eq_refl)) as [[-> ->]|(i & r & t & -> & ->)]; destruct (H1 k' _ (or_intror Hi)) as [[-> E]|(i' & r' & t' & -> & E)]; auto.
    + exfalso. symmetry in E. now apply snoc_ne in E.
    + exfalso. now apply snoc_ne in E.
    + apply app_inj_tail in E as [_ E]. congruence.
Qed.
Lemma run_calc_names c w s l : 0 < d_pad (f_names c) -> d_worker_dirs (f_names c) = false -> dirs_ok c w s l -> forall k p, In (k, p) (s_dirs s) -> p <> f_ens c -> is_calc_name (base p) = true.
Proof.
  intros HP EW [_ H]. rewrite EW in H. destruct H as (H1 & _). intros k p Hi Np. destruct (H1 k p Hi) as [[_ ->]|(i & r & t & _ & ->)]; [congruence|]. rewrite base_snoc. now apply own_calc.
Qed.
Definition others (c : dspecs) (m : node) : list text := filter (fun f => negb (is_calc_name f)) (listing m (f_ens c)).
Lemma others_nodup c m : (forall n, look (f_ens c) m = Some n -> sane n) -> (forall t, entry_at m (f_ens c) <> Some (IsLink t)) -> NoDup (others c m).
Proof.
  intros HS HL. unfold others. apply NoDup_filter. unfold listing. rewrite stat_plain by auto. destruct (look (f_ens c) m) as [[x|t|l]|] eqn:E; try constructor. now apply (HS _ eq_refl []).
Qed.
Lemma others_in c m f : entry_at m (f_ens c) = Some IsDir -> In f (others c m) <-> entry_at m (f_ens c ++ [f]) <> None /\ is_calc_name f = false.
Proof.
  intros H. unfold others. rewrite filter_In, negb_true_iff. apply entry_dir in H as (l & H). rewrite (entry_listed m _ l f H). unfold listing.
  rewrite stat_plain by (intros t X; apply entry_link in X; congruence). rewrite H. reflexivity.
Qed.
Lemma no_stop c ds : forall m m' stop, flat_dirs c ds -> copy_dirs c ds m = ((m', None), stop) -> stop = false.
Proof.
  induction ds as [|[k p] ds IH]; intros m m' stop HF; cbn [copy_dirs]; [congruence|]. destruct (peqb_spec p (f_ens c)) as [-> |Np]; [apply IH; eapply flat_tail; eauto|].
  destruct (copy_dir c p m) as [m1 [e1|]]; [discriminate|]. destruct (proj1 HF k p (or_introl eq_refl) Np) as (a & -> & Ha). rewrite base_snoc, Ha. apply IH. eapply flat_tail; eauto.
Qed.
(** the run of [copy_back] without worker directories *)
Lemma back_flat c w s l m' e : worker_run c w s l -> proper (s_fs s) -> 0 < d_pad (f_names c) -> apart (f_back c) (f_ens c) -> back_clean c (s_fs s) -> d_worker_dirs (f_names c) = false ->
  (forall t, entry_at (s_fs s) (f_ens c) <> Some (IsLink t)) -> negb (exists_ (s_fs s) (f_ens c)) || negb (f_copy_back c) || negb (s_used s) = false -> copy_back c s = (m', e) ->
  exists m1 e1 stop, copy_dirs c (s_dirs s) (s_fs s) = ((m1, e1), stop) /\ (forall f, In f (others c m1) -> misc_clean c m1 f) /\ NoDup (others c m1) /\
    ((m' = m1 /\ e = e1 /\ (e = None -> d_sim_make (f_names c) && d_gen_make (f_names c) = true)) \/ (d_sim_make (f_names c) && d_gen_make (f_names c) = false /\ e1 = None /\ foldx (copy_misc c) (others c m1) m1 = (m', e))).
Proof.
  intros HR HP HD HA HC EW HL UE. apply run_dirs in HR. unfold copy_back. rewrite UE. destruct (copy_dirs c (s_dirs s) (s_fs s)) as [[m1 e1] stop] eqn:ED.
  intros E. exists m1, e1, stop. split; auto. destruct (copy_dirs_edits _ _ _ _ _ _ HA ED) as (X1 & X2 & X3 & X4). split; [|split].
  - intros f Hf. apply filter_In in Hf as [_ Hf]. apply negb_true_iff in Hf. assert (L : look (f_back c ++ [f]) m1 = look (f_back c ++ [f]) (s_fs s)).
    { apply X4. intros k p Hi Np Hb. pose proof (run_calc_names c w s l HD EW HR k p Hi Np) as Y. congruence. }
    destruct (HC f) as [H|H]; [left|right].
    + intros q t Ht. apply (H q t). rewrite <- Ht. symmetry. now apply entry_look, look_below.
    + rewrite (entry_look _ _ _ L), H. symmetry. now apply entry_look, look_below.
  - apply others_nodup; [intros n; rewrite X1; now apply proper_look|]. intros t. rewrite (entry_look _ _ _ X1). apply HL.
  - destruct stop.
    + injection E as <- <-. left. split; auto. split; auto. intros ->. apply no_stop in ED; [discriminate|]. eapply run_flat; eauto.
    + destruct (_ && _) eqn:EB; [injection E as <- <-; left; auto|]. unfold bindx in E. destruct e1 as [e1|]; [injection E as <- <-; left; split; [auto|split; [auto|discriminate]]|right; auto].
Qed.

Section Kept.
Variables (c : dspecs) (w : nat) (s : store) (l : list path) (m' : node).
Hypothesis HR : worker_run c w s l.
Hypothesis HCB : f_copy_back c = true.
Hypothesis HP : proper (s_fs s).
Hypothesis HD : 0 < d_pad (f_names c).
Hypothesis HB : entry_at (s_fs s) (f_back c) = Some IsDir.
Hypothesis HA : apart (f_back c) (f_ens c).
Hypothesis HC : back_clean c (s_fs s).

Lemma used_ens : l <> [] -> entry_at (s_fs s) (f_ens c) = Some IsDir -> negb (exists_ (s_fs s) (f_ens c)) || negb (f_copy_back c) || negb (s_used s) = false.
Proof.
  intros Hl HE. pose proof (run_dirs _ _ _ _ HR) as [HU _]. rewrite HU, HCB by auto. unfold exists_. apply entry_dir in HE as (k & HE). rewrite stat_plain by (intros t X; apply entry_link in X; congruence). now rewrite HE.
Qed.
Lemma back_kept : (forall a q, In (f_ens c ++ a :: q) l -> free_name c (s_fs s) a) -> copy_back c s = (m', None) ->
  forall names, In (f_ens c ++ names) l -> names <> [] -> entry_at (s_fs s) (f_ens c ++ names) = Some IsDir -> same_tree (s_fs s) (f_ens c ++ names) m' (f_back c ++ names).
Proof.
  intros HF HB' names Hi Hn HE. assert (Hl : l <> []) by (intros ->; destruct Hi). assert (HEe : entry_at (s_fs s) (f_ens c) = Some IsDir) by (eapply entry_prefix_dir; [exact HE|apply under_app]).
  pose proof (used_ens Hl HEe) as UE. pose proof (run_dirs _ _ _ _ HR) as HO. destruct (d_worker_dirs (f_names c)) eqn:EW.
  - destruct HO as [_ HO]. rewrite EW in HO. destruct HO as [H1 H2]. destruct (H2 _ Hi) as [N1 U]. destruct H1 as [H1|(r & H1)]; [congruence|].
    destruct U as (q & U). rewrite <- app_assoc in U. apply app_inv_head in U. cbn in U. subst names. unfold copy_back in HB'. rewrite UE, H1 in HB'. cbn [copy_dirs] in HB'.
    destruct (peqb_spec (f_ens c ++ [worker_name w]) (f_ens c)) as [E|_]; [now apply snoc_ne in E|].
    destruct (copy_dir_copies c (f_ens c ++ [worker_name w]) (s_fs s)) as (m1 & C1 & _ & C3); auto.
    { intros n. now apply proper_look. } { now apply apart_below. } { eapply entry_prefix_dir; [exact HE|]. exists q. now rewrite <- app_assoc. } { rewrite base_snoc. now apply (HF _ q). }
    rewrite C1, base_snoc, worker_named in HB'. injection HB' as <-. rewrite base_snoc in C3. intros q'. specialize (C3 (q ++ q')). rewrite <- !app_assoc in *. exact C3.
  - assert (HL : forall t, entry_at (s_fs s) (f_ens c) <> Some (IsLink t)) by (intros t; rewrite HEe; discriminate).
    assert (GO : exists m1 stop, copy_dirs c (s_dirs s) (s_fs s) = ((m1, None), stop) /\ (m' = m1 \/ ((forall f, In f (others c m1) -> misc_clean c m1 f) /\ NoDup (others c m1) /\ foldx (copy_misc c) (others c m1) m1 = (m', None)))).
    { destruct (back_flat c w s l m' None HR HP HD HA HC EW HL UE HB') as (m1 & e1 & stop & E1 & E2 & E3 & E4). destruct E4 as [(-> & <- & _)|(_ & -> & E4)]; exists m1, stop; auto. }
    destruct GO as (m1 & stop & E1 & E2). pose proof (run_flat _ _ _ _ EW HO) as FD. destruct HO as [HU HO]. rewrite EW in HO. destruct HO as (O1 & O2 & O3).
    pose proof Hi as Hl0. apply O3, in_map_iff in Hi as ([k p] & Ep & Hi'). cbn in Ep. subst p. assert (Np : f_ens c ++ names <> f_ens c).
    { intros E. apply (f_equal (@List.length text)) in E. rewrite app_length in E. destruct names; [congruence|]. cbn in E. lia. }
    destruct (copy_dirs_copies c (s_dirs s) (s_fs s) m1 stop HA HB FD) as [_ CC]; auto. { intros q n. now apply proper_look. }
    destruct (O1 _ _ Hi') as [[_ E]|(i & r & t & _ & E)]; [congruence|]. apply app_inv_head in E. subst names. set (a := own_name c i r t) in *.
    specialize (CC k (f_ens c ++ [a]) Hi' Np HE). rewrite base_snoc in CC. assert (FR : free_name c (s_fs s) a).
    { apply (HF a []). exact Hl0. }
    specialize (CC FR). destruct E2 as [-> |(M1 & M2 & M3)]; [exact CC|]. intros q. rewrite <- CC. destruct (misc_edits c _ m1 m' None HA M2 M1 M3) as (_ & _ & _ & X).
    apply entry_look, look_below, X. intros Hx. apply filter_In in Hx as [_ Hx]. unfold a in Hx. now rewrite own_calc in Hx.
Qed.

(** Nothing outside the copyback directory changes. *)
Lemma back_frame e : (forall t, entry_at (s_fs s) (f_ens c) <> Some (IsLink t)) -> copy_back c s = (m', e) -> differ_only (under (f_back c)) (s_fs s) m'.
Proof.
  intros HL E. destruct (negb (exists_ (s_fs s) (f_ens c)) || negb (f_copy_back c) || negb (s_used s)) eqn:UE; [unfold copy_back in E; rewrite UE in E; injection E as <- _; apply differ_refl|].
  destruct (d_worker_dirs (f_names c)) eqn:EW.
  - pose proof (run_dirs _ _ _ _ HR) as [_ HO]. rewrite EW in HO. destruct HO as [H1 H2]. unfold copy_back in E. rewrite UE in E.
    destruct H1 as [H1|(r & H1)]; rewrite H1 in E; cbn [copy_dirs] in E.
    + destruct (_ && _); [injection E as <- _; apply differ_refl|]. cbn [bindx] in E. fold (others c (s_fs s)) in E.
      destruct (misc_edits c (others c (s_fs s)) (s_fs s) m' e HA) as (_ & _ & Y & _); auto; [|intros f _; apply HC].
      apply others_nodup; auto. intros n. now apply proper_look.
    + destruct (peqb_spec (f_ens c ++ [worker_name w]) (f_ens c)) as [Ex|_]; [now apply snoc_ne in Ex|].
      destruct (copy_dir c (f_ens c ++ [worker_name w]) (s_fs s)) as [m1 e1] eqn:E1. apply copy_dir_edit in E1. rewrite base_snoc, worker_named in *. destruct E1 as [E1 _].
      assert (m' = m1) as -> by (destruct e1; congruence). eapply differ_mono; [|exact E1]. intros q. apply under_trans, under_app.
  - destruct (back_flat c w s l m' e HR HP HD HA HC EW HL UE E) as (m1 & e1 & stop & E1 & E2 & E3 & E4). destruct (copy_dirs_edits _ _ _ _ _ _ HA E1) as (_ & _ & X & _).
    destruct E4 as [(-> & _)|(_ & _ & E4)]; [exact X|]. destruct (misc_edits c _ m1 m' e HA E3 E2 E4) as (_ & _ & Y & _). eapply differ_trans; eauto.
Qed.

(** Other files and directories of the ensemble directory. *)
Lemma back_others : d_worker_dirs (f_names c) = false -> d_sim_make (f_names c) && d_gen_make (f_names c) = false -> l <> [] -> copy_back c s = (m', None) ->
  (forall a x, ~ calc_like a -> entry_at (s_fs s) (f_ens c ++ [a]) = Some (IsFile x) -> free_name c (s_fs s) a \/ (exists y, entry_at (s_fs s) (f_back c ++ [a]) = Some (IsFile y)) ->
     entry_at m' (f_back c ++ [a]) = Some (IsFile x)) /\
  (forall a, ~ calc_like a -> entry_at (s_fs s) (f_ens c ++ [a]) = Some IsDir -> free_name c (s_fs s) a -> same_tree (s_fs s) (f_ens c ++ [a]) m' (f_back c ++ [a])).
Proof.
  intros EW EM Hl E.
  assert (GO : forall a, ~ calc_like a -> entry_at (s_fs s) (f_ens c ++ [a]) <> None -> exists m1, look (f_ens c) m1 = look (f_ens c) (s_fs s) /\ look (f_back c ++ [a]) m1 = look (f_back c ++ [a]) (s_fs s) /\
    entry_at m1 (f_back c) = Some IsDir /\ In a (others c m1) /\ NoDup (others c m1) /\ (forall f, In f (others c m1) -> misc_clean c m1 f) /\ foldx (copy_misc c) (others c m1) m1 = (m', None)).
  { intros a Ha HE. assert (HEe : entry_at (s_fs s) (f_ens c) = Some IsDir) by (eapply entry_above with (q := [a]); [discriminate|exact HE]).
    pose proof (used_ens Hl HEe) as UE. assert (HL : forall t, entry_at (s_fs s) (f_ens c) <> Some (IsLink t)) by (intros t; rewrite HEe; discriminate).
    destruct (back_flat c w s l m' None HR HP HD HA HC EW HL UE E) as (m1 & e1 & stop & E1 & E2 & E3 & E4).
    destruct E4 as [(_ & _ & E4)|(_ & -> & E4)]; [rewrite E4 in EM; [discriminate|auto]|]. destruct (copy_dirs_edits _ _ _ _ _ _ HA E1) as (X1 & X2 & _ & X4).
    exists m1. split; auto. assert (NC : is_calc_name a = false) by (destruct (is_calc_name a) eqn:Y; auto; destruct Ha; now apply calc_like_iff). split.
    { apply X4. intros k p Hip Np Hb. pose proof (run_calc_names c w s l HD EW (run_dirs _ _ _ _ HR) k p Hip Np) as Y. congruence. }
    split; [congruence|]. split; [|auto]. apply others_in; [rewrite (entry_look _ _ _ X1); auto|]. split; auto. now rewrite (entry_look _ _ _ (look_below _ _ _ [a] X1)). }
  split.
  - intros a x Ha HE HF. destruct (GO a Ha) as (m1 & G1 & G2 & G3 & G4 & G5 & G6 & G7); [congruence|].
    apply (misc_keeps c (others c m1) (fun m => entry_at m (f_ens c ++ [a]) = Some (IsFile x) /\ (free_name c m a \/ (exists y, entry_at m (f_back c ++ [a]) = Some (IsFile y)))) (fun m => entry_at m (f_back c ++ [a]) = Some (IsFile x)) a m1 m'); auto.
    + intros u v U1 U2 [Q1 Q2]. rewrite (entry_look _ _ _ (look_below _ _ _ [a] U1)). split; auto. unfold free_name. now rewrite (entry_look _ _ _ U2).
    + intros u v U1 Q1. now rewrite (entry_look _ _ _ U1).
    + intros u v U1 [Q1 Q2] EC. destruct (misc_file c a x u) as (v' & V1 & _ & V3); auto. rewrite EC in V1. injection V1 as <-. exact V3.
    + rewrite (entry_look _ _ _ (look_below _ _ _ [a] G1)). split; auto. unfold free_name. now rewrite (entry_look _ _ _ G2).
  - intros a Ha HE HF. destruct (GO a Ha) as (m1 & G1 & G2 & G3 & G4 & G5 & G6 & G7); [congruence|].
    assert (SS : forall n, look (f_ens c ++ [a]) (s_fs s) = Some n -> sane n) by (intros n; now apply proper_look).
    apply (misc_keeps c (others c m1) (fun m => look (f_ens c) m = look (f_ens c) (s_fs s) /\ free_name c m a) (fun m => same_tree (s_fs s) (f_ens c ++ [a]) m (f_back c ++ [a])) a m1 m'); auto.
    + intros u v U1 U2 [Q1 Q2]. split; [congruence|]. unfold free_name. now rewrite (entry_look _ _ _ U2).
    + intros u v U1 Q1 q. rewrite <- Q1. now apply entry_look, look_below.
    + intros u v U1 [Q1 Q2] EC. destruct (misc_dir c a u) as (v' & V1 & _ & V3); auto.
      * now rewrite (entry_look _ _ _ (look_below _ _ _ [a] Q1)).
      * intros n. rewrite (look_below _ _ _ [a] Q1). apply SS.
      * rewrite EC in V1. injection V1 as <-. intros q. rewrite V3. apply entry_look. now apply look_below, look_below.
    + split; auto. unfold free_name. now rewrite (entry_look _ _ _ G2).
Qed.
End Kept.

(** Into an empty copyback directory everything can be copied. *)
Lemma back_ok c w s l : worker_run c w s l -> proper (s_fs s) -> 0 < d_pad (f_names c) -> entry_at (s_fs s) (f_back c) = Some IsDir -> apart (f_back c) (f_ens c) ->
  (forall a, entry_at (s_fs s) (f_back c ++ [a]) = None) -> (forall k p, In (k, p) (s_dirs s) -> entry_at (s_fs s) p = Some IsDir) -> (forall t, entry_at (s_fs s) (f_ens c) <> Some (IsLink t)) ->
  exists m', copy_back c s = (m', None).
Proof.
  intros HR HP HD HB HA HF HE HL. destruct (negb (exists_ (s_fs s) (f_ens c)) || negb (f_copy_back c) || negb (s_used s)) eqn:UE; [unfold copy_back; rewrite UE; eauto|].
  assert (HX : entry_at (s_fs s) (f_ens c) <> None).
  { apply orb_false_iff in UE as [UE _]. apply orb_false_iff in UE as [UE _]. unfold exists_ in UE. rewrite stat_plain in UE by auto. rewrite entry_none. destruct (look _ _); [congruence|discriminate]. }
  pose proof (run_dirs _ _ _ _ HR) as HO. unfold copy_back. rewrite UE.
  assert (MISC : forall m1, look (f_ens c) m1 = look (f_ens c) (s_fs s) -> entry_at m1 (f_back c) = Some IsDir -> proper m1 -> (forall a, is_calc_name a = false -> entry_at m1 (f_back c ++ [a]) = None) ->
    exists m', foldx (copy_misc c) (others c m1) m1 = (m', None)).
  { intros m1 L1 B1 P1 F1. assert (HL1 : forall t, entry_at m1 (f_ens c) <> Some (IsLink t)) by (intros t; rewrite (entry_look _ _ _ L1); apply HL).
    apply misc_fresh_all; auto; [apply others_nodup; auto; intros n; now apply proper_look|].
    intros f Hf. destruct (entry_at m1 (f_ens c)) as [[x|t|]|] eqn:EE.
    - unfold others, listing in Hf. rewrite stat_plain in Hf by (intros t; congruence). apply entry_file in EE. rewrite EE in Hf. destruct Hf.
    - destruct (HL1 t). reflexivity.
    - apply others_in in Hf as [H1 H2]; auto.
    - rewrite (entry_look _ _ _ L1) in EE. congruence. }
  destruct (d_worker_dirs (f_names c)) eqn:EW.
  - destruct HO as [_ HO]. rewrite EW in HO. destruct HO as [[H1|(r & H1)] _]; rewrite H1; cbn [copy_dirs].
    + destruct (_ && _); [eauto|]. cbn [bindx]. apply MISC; auto.
    + destruct (peqb_spec (f_ens c ++ [worker_name w]) (f_ens c)) as [Ex|_]; [now apply snoc_ne in Ex|].
      destruct (copy_dir_copies c (f_ens c ++ [worker_name w]) (s_fs s)) as (m1 & C1 & _ & C3); auto.
      { intros n. now apply proper_look. } { now apply apart_below. } { apply (HE (KWorker w)). rewrite H1. now left. } { left. apply HF. }
      rewrite C1, base_snoc, worker_named. eauto.
  - destruct (copy_dirs_ok c (s_dirs s) (s_fs s)) as (m1 & E1 & E2); auto.
    { eapply run_flat; eauto. } { intros k p Hi Np. split; [now apply (HE k)|]. left. apply HF. }
    rewrite E1. destruct (_ && _); [eauto|]. cbn [bindx]. fold (others c m1). destruct (copy_dirs_edits _ _ _ _ _ _ HA E1) as (X1 & X2 & _ & X4). apply MISC; auto; [congruence|].
    intros a Ha. rewrite <- (HF a). apply entry_look, X4. intros k p Hip Np Hb. pose proof (run_calc_names c w s l HD EW HO k p Hip Np) as Y. congruence.
Qed.
