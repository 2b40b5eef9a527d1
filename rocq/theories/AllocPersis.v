(** Facts about only_persistent_gens, give_pregenerated and ensure_one_active_gen. *)
From Coq Require Import String Permutation Sorted.
From Verif Require Import Base BaseLemmas HistoryModel HistoryProofs WorkModel RsetModel RsetSpec SchedModel SchedSpec SchedServe AllocModel AllocSpec AllocProofs AllocLoops AllocFacts AllocFast.
Local Notation length := List.length.

Lemma avail_rows W p a z g ws w : avail_workers W p a z g = Ok ws -> In w ws -> exists r, In r W /\ w_id r = w /\
  (if a then w_recv r = true else w_active r = 0) /\ match p with None => True | Some t => w_persis r = t end.
Proof.
  intros E Hin. destruct (avail_ok _ _ _ _ _ _ E) as (ok & -> & Hok). apply in_map_iff in Hin. destruct Hin as (r & <- & Hr). apply filter_In in Hr.
  exists r. destruct Hr as [H1 H2]. apply Hok in H2. tauto.
Qed.

Lemma nodup_fields_In f l : In f (nodup_fields l) <-> In f l.
Proof.
  induction l as [|x l IH]; cbn; [tauto|]. destruct (has x l) eqn:E; cbn; rewrite IH; [|tauto].
  apply has_In in E. split; [auto|]. intros [<-|H]; auto.
Qed.
Lemma countb_filter {A} (q : A -> bool) l : countb q l = length (filter q l).
Proof. reflexivity. Qed.

(** ** Setting an entry *)
Lemma dict_set_keys d w k : incl (map fst (dict_set d w k)) (w :: map fst d).
Proof.
  induction d as [|[v x] d IH]; cbn; [intros y Hy; exact Hy|]. destruct (v =? w); cbn; intros y [<-|Hy].
  - now left. - right; now right. - right; now left. - destruct (IH y Hy) as [<-|H']; [now left|right; now right].
Qed.
Lemma dict_set_nodup d w k : NoDup (map fst d) -> NoDup (map fst (dict_set d w k)).
Proof.
  induction d as [|[v x] d IH]; cbn; intros Hn; [constructor; auto; intros []|]. inversion Hn as [|? ? H1 H2]; subst. destruct (Nat.eqb_spec v w) as [->|E]; cbn; constructor; auto.
  intros Hin. destruct (dict_set_keys _ _ _ _ Hin) as [<-|Hx]; auto.
Qed.
Lemma dict_set_In d w k p : In p (dict_set d w k) -> p = (w, k) \/ In p d.
Proof.
  induction d as [|[v x] d IH]; cbn; [intuition|]. destruct (v =? w); cbn; intros [<-|Hp]; auto. destruct (IH Hp); auto.
Qed.
Lemma dict_set_sets d w k : exists rest, Permutation (sets_given d ++ team_of k) (sets_given (dict_set d w k) ++ rest).
Proof.
  induction d as [|[v x] d [rest IH]]; unfold sets_given in *; cbn.
  - exists []. fold (team_of k). now rewrite !app_nil_r.
  - fold (team_of x). destruct (v =? w); cbn.
    + fold (team_of k). exists (team_of x). rewrite <- !app_assoc. apply Permutation_trans with (l' := (concat (map (fun p => team_of (snd p)) d) ++ team_of k) ++ team_of x).
      * apply Permutation_app_comm.
      * rewrite <- app_assoc. apply Permutation_trans with (l' := (team_of k ++ team_of x) ++ concat (map (fun p => team_of (snd p)) d)); [apply Permutation_app_comm|].
        rewrite <- app_assoc. apply Permutation_app_head, Permutation_app_comm.
    + fold (team_of x). exists rest. rewrite <- !app_assoc. now apply Permutation_app_head.
Qed.
Lemma dict_set_sims d w k : k_tag k = EVAL_GEN -> exists rest, Permutation (sim_rows d) (sim_rows (dict_set d w k) ++ rest).
Proof.
  intros Hk. induction d as [|[v x] d [rest IH]]; unfold sim_rows, sims in *; cbn.
  - exists []. rewrite Hk. cbn. constructor.
  - destruct (v =? w); cbn; rewrite ?Hk; cbn [Nat.eqb EVAL_GEN EVAL_SIM].
    + destruct (k_tag x =? EVAL_SIM); cbn.
      * exists (k_rows x). apply Permutation_app_comm.
      * exists []. rewrite app_nil_r. apply Permutation_refl.
    + destruct (k_tag x =? EVAL_SIM); cbn; exists rest; auto. rewrite <- app_assoc. now apply Permutation_app_head.
Qed.

(** ** Results back to the generators *)
Lemma returned_spec H w i : In i (returned_for H w) <->
  exists r, nth_error H i = Some r /\ truthy (r F_sim_ended) = true /\ truthy (r F_gen_informed) = false /\ as_int (r F_gen_worker) = Z.of_nat w.
Proof.
  unfold returned_for. rewrite filter_In, in_seq. split.
  - intros [_ Hb]. destruct (nth_error H i) as [r|]; [|discriminate]. apply andb_true_iff in Hb. destruct Hb as [Hb B3]. apply andb_true_iff in Hb. destruct Hb as [B1 B2].
    exists r. split; auto. apply negb_true_iff in B2. apply Z.eqb_eq in B3. auto.
  - intros (r & Hr & A1 & A2 & A3). split. { assert (i < length H) by (apply nth_error_Some; congruence). lia. } rewrite Hr. unfold flag. rewrite A1, A2, A3, Z.eqb_refl. reflexivity.
Qed.
Lemma returned_NoDup H w : NoDup (returned_for H w).
Proof. apply NoDup_filter, seq_NoDup. Qed.

(** A unit that hands results back. *)
Definition back_unit (c : actx) (H : list row) (u : puser) (async : bool) (p : nat * work) : Prop :=
  k_tag (snd p) = EVAL_GEN /\ k_persistent (snd p) = true /\ k_recv (snd p) = Some (pu_recv u) /\
  k_fields (snd p) = nodup_fields (ac_persis_in c) /\ k_rows (snd p) = returned_for H (fst p) /\ k_rows (snd p) <> [] /\
  (async = true \/ all_sim_ended H (gen_of H (fst p)) 0 = true).

Lemma back_loop_spec c H u async : resources_ok c -> forall ws work s handed work' s' e,
  NoDup ws -> (forall w, In w ws -> in_dict work w = false) -> sinv c handed s ->
  back_loop c H u async ws work s = (work', s', e) ->
  exists new, work' = work ++ new /\ incl (map fst new) ws /\ NoDup (map fst new) /\ Forall (back_unit c H u async) new /\ sinv c (handed ++ sets_given new) s'.
Proof.
  intros Hr. induction ws as [|w ws IH]; intros work s handed work' s' e Hw Hd Hs; cbn [back_loop].
  - intros E. injection E as <- <- <-. exists []. unfold sets_given. cbn. rewrite !app_nil_r. split; auto. split; [intros x []|]. split; [constructor|]. split; [constructor|exact Hs].
  - inversion Hw as [|? ? Hw1 Hw2]; subst x l.
    assert (Skip : back_loop c H u async ws work s = (work', s', e) ->
      exists new, work' = work ++ new /\ incl (map fst new) (w :: ws) /\ NoDup (map fst new) /\ Forall (back_unit c H u async) new /\ sinv c (handed ++ sets_given new) s').
    { intros E. destruct (IH _ _ _ _ _ _ Hw2 (fun v Hv => Hd v (or_intror Hv)) Hs E) as (new & E1 & E2 & E3 & E4 & E5). exists new. split; auto. split; [intros v Hv; right; now apply E2|]. auto. }
    destruct (returned_for H w) as [|i ids] eqn:Er; auto. destruct (async || all_sim_ended H (gen_of H w) 0) eqn:Ea; auto.
    destruct (gen_work c w (ac_persis_in c) (i :: ids) true (Some (pu_recv u)) s) as [a s1] eqn:Eg.
    pose proof (gen_work_spec _ _ _ _ _ _ _ _ _ _ Hr Hs Eg) as X. destruct a as [k|er].
    + destruct X as (X1 & X2 & X3 & X4 & X5 & X6 & _). rewrite dict_set_new by (apply Hd; now left). intros E.
      destruct (IH _ _ _ _ _ _ Hw2 (dict_fresh _ _ k _ Hw Hd) X1 E) as (new & E1 & E2 & E3 & E4 & E5). exists ((w, k) :: new).
      split; [rewrite E1, <- app_assoc; reflexivity|]. split. { cbn. intros v [<-|Hv]; [now left|right; now apply E2]. }
      split. { cbn. constructor; auto. }
      split. { constructor; auto. unfold back_unit. cbn [fst snd]. rewrite X3, Er. repeat (split; [solve [auto]|]). split; [discriminate|]. now apply orb_true_iff. }
      unfold sets_given in *. cbn. fold (team_of k). now rewrite app_assoc.
    + destruct X as (X1 & _). intros E. injection E as <- <- <-. exists []. unfold sets_given. cbn. rewrite !app_nil_r. split; auto. split; [intros x []|]. split; [constructor|]. split; [constructor|exact X1].
Qed.

(** ** Starting persistent generators *)
Definition start_unit (c : actx) (H : list row) (u : puser) (k : work) : Prop :=
  k_tag k = EVAL_GEN /\ k_persistent k = true /\ k_recv k = Some (pu_recv u) /\
  k_fields k = nodup_fields (ac_gen_in c) /\ k_rows k = seq 0 (length H).

Lemma start_loop_spec c H u : resources_ok c -> forall ws gc st work s handed work' s' st' e,
  NoDup ws -> sinv c handed s -> NoDup (map fst work) -> (exists rest, Permutation handed (sets_given work ++ rest)) ->
  start_loop c H u ws gc st work s = (work', s', st', e) ->
  exists handed', sinv c handed' s' /\ NoDup (map fst work') /\ (exists rest, Permutation handed' (sets_given work' ++ rest)) /\
    (exists rest, Permutation (sim_rows work) (sim_rows work' ++ rest)) /\
    (forall p, In p work' -> In p work \/ In (fst p) ws /\ start_unit c H u (snd p)) /\
    st <= st' /\ gc + (st' - st) <= Nat.max gc (pu_num_gens u) /\
    ((forall w, In w ws -> ~ In w (map fst work)) -> exists new, work' = work ++ new /\ length new = st' - st).
Proof.
  intros Hr. induction ws as [|w ws IH]; intros gc st work s handed work' s' st' e Hw Hs Hn Hh; cbn [start_loop].
  - intros E. injection E as <- <- <- <-. exists handed. split; auto. split; auto. split; auto. split; [exists []; now rewrite app_nil_r|]. split; [auto|]. split; [lia|]. split; [lia|]. intros _. exists []. rewrite app_nil_r. split; auto. cbn. lia.
  - inversion Hw as [|? ? Hw1 Hw2]; subst x l.
    destruct (Nat.ltb_spec gc (pu_num_gens u)) as [L|L].
    + destruct (gen_work c w (ac_gen_in c) (seq 0 (length H)) true (Some (pu_recv u)) s) as [a s1] eqn:Eg.
      pose proof (gen_work_spec _ _ _ _ _ _ _ _ _ _ Hr Hs Eg) as X. destruct a as [k|er].
      * destruct X as (X1 & X2 & X3 & X4 & X5 & X6 & _). intros E. destruct Hh as [rest Hh].
        assert (Hh' : exists rest', Permutation (handed ++ team_of k) (sets_given (dict_set work w k) ++ rest')).
        { destruct (dict_set_sets work w k) as [r2 P]. exists (r2 ++ rest). rewrite app_assoc.
          apply Permutation_trans with (l' := (sets_given work ++ rest) ++ team_of k); [now apply Permutation_app_tail|].
          rewrite <- app_assoc. apply Permutation_trans with (l' := sets_given work ++ team_of k ++ rest); [apply Permutation_app_head, Permutation_app_comm|].
          rewrite app_assoc. now apply Permutation_app_tail. }
        destruct (IH _ _ _ _ _ _ _ _ _ Hw2 X1 (dict_set_nodup _ _ _ Hn) Hh' E) as (handed' & E1 & E2 & E3 & (r4 & E4) & E5 & E6 & E7 & E8).
        exists handed'. split; auto. split; auto. split; auto.
        split. { destruct (dict_set_sims work w k X2) as [r3 P]. exists (r4 ++ r3). rewrite app_assoc. eapply Permutation_trans; [exact P|]. now apply Permutation_app_tail. }
        split. { intros p Hp. destruct (E5 p Hp) as [Hq|[Hq1 Hq2]].
                 - destruct (dict_set_In _ _ _ _ Hq) as [->|Hq']; auto. right. cbn. split; [now left|]. unfold start_unit. auto.
                 - right. split; [now right|auto]. }
        split; [lia|]. split; [lia|]. intros Hf. rewrite dict_set_new in E8 by (apply in_dict_false, Hf; now left).
        destruct E8 as (new & N1 & N2). { intros v Hv. rewrite map_app. cbn. rewrite in_app_iff. intros [Hx|[<-|[]]]; [exact (Hf v (or_intror Hv) Hx)|contradiction]. }
        exists ((w, k) :: new). rewrite N1, <- app_assoc. split; auto. cbn [length]. lia.
      * destruct X as (X1 & _). intros E. assert (Z : work' = work /\ s' = s1 /\ st' = st) by (destruct er; injection E as <- <- <- <-; auto). destruct Z as (-> & -> & ->).
        exists handed. split; auto. split; auto. split; auto. split; [exists []; now rewrite app_nil_r|]. split; [auto|]. split; [lia|]. split; [lia|]. intros _. exists []. rewrite app_nil_r. split; auto. cbn. lia.
    + intros E. destruct (IH _ _ _ _ _ _ _ _ _ Hw2 Hs Hn Hh E) as (handed' & E1 & E2 & E3 & E4 & E5 & E6 & E7 & E8).
      exists handed'. split; auto. split; auto. split; auto. split; auto. split. { intros p Hp. destruct (E5 p Hp) as [Hq|[Hq1 Hq2]]; auto. right. split; auto. now right. }
      split; auto. split; auto. intros Hf. apply E8. intros v Hv. apply Hf. now right.
Qed.

Lemma nodup_perm_l (a b r : list nat) : NoDup a -> Permutation a (b ++ r) -> NoDup b /\ incl b a.
Proof.
  intros Hn P. split.
  - apply (NoDup_app_remove_r b r). exact (Permutation_NoDup P Hn).
  - intros x Hx. apply (Permutation_in _ (Permutation_sym P)). apply in_or_app. now left.
Qed.

Lemma sim_workers_spec c u ws : set_order (ac_ord c) -> ids_distinct (ac_W c) -> sim_workers c u = Ok ws ->
  NoDup ws /\ forall w, In w ws -> exists r, In r (ac_W c) /\ w_id r = w /\ w_active r = 0 /\ (w_persis r = 0 \/ pu_alt u = true /\ w_persis r = EVAL_SIM).
Proof.
  intros Ho Hi. unfold sim_workers. destruct (pu_alt u).
  - destruct (avail_workers _ (Some 0) false (Some false) None) as [a|] eqn:Ea; [|discriminate]. cbn [bindr].
    destruct (avail_workers _ (Some EVAL_SIM) false (Some false) None) as [b|] eqn:Eb; [|discriminate]. cbn [bindr]. intros E. injection E as <-. split.
    + apply (Permutation_NoDup (Permutation_sym (Ho _))), NoDup_nodup.
    + intros w Hw. apply (Permutation_in _ (Ho _)) in Hw. apply nodup_In, in_app_or in Hw. destruct Hw as [Hw|Hw].
      * destruct (avail_rows _ _ _ _ _ _ _ Ea Hw) as (r & R1 & R2 & R3 & R4). exists r. auto.
      * destruct (avail_rows _ _ _ _ _ _ _ Eb Hw) as (r & R1 & R2 & R3 & R4). exists r. auto 6.
  - intros E. split; [exact (avail_sub _ _ _ _ _ _ E Hi)|]. intros w Hw. destruct (avail_rows _ _ _ _ _ _ _ E Hw) as (r & R1 & R2 & R3 & R4). exists r. auto.
Qed.

Section Persistent.
  Variables (c : actx) (d : dtype) (u : puser) (g : nat) (p p' : pinfo) (H : list row) (out : aout).
  Hypothesis (Hids : ids_distinct (ac_W c)) (Hres : resources_ok c).
  Hypothesis Hrun : only_persistent_gens c d u false g p H = (out, p').
  Let async := pu_async u && (pu_init_sample u <=? countb (flag F_sim_ended) H).

  Definition pers_unit (q : nat * work) : Prop :=
    listening_gen (ac_W c) (fst q) /\ back_unit c H u async q \/
    (exists r, In r (ac_W c) /\ w_id r = fst q /\ w_active r = 0 /\ (w_persis r = 0 \/ pu_alt u = true /\ w_persis r = EVAL_SIM)) /\ sim_unit c d H (pu_alt u) q \/
    (exists r, In r (ac_W c) /\ w_id r = fst q /\ w_active r = 0 /\ w_persis r = 0) /\ start_unit c H u (snd q).

  Definition pers_ok (wk : wdict) (handed : list nat) : Prop :=
    NoDup (map fst wk) /\ (forall q, In q wk -> pers_unit q) /\
    NoDup (sim_rows wk) /\ (forall i, In i (sim_rows wk) -> evaluable H i) /\ exists rest, Permutation handed (sets_given wk ++ rest).

  Lemma pers_ok_teams wk handed s : pers_ok wk handed -> sinv c handed s ->
    forall m, ac_rm c = Some m -> NoDup (sets_given wk) /\ forall i, In i (sets_given wk) -> is_free m i.
  Proof.
    intros (_ & _ & _ & _ & rest & P) Hs m Hm. destruct (sinv_free c _ _ m Hm Hs) as [N F]. destruct (nodup_perm_l _ _ _ N P) as [N' I]. split; auto.
  Qed.

  Lemma persis_facts :
    (exists handed s, pers_ok (o_work out) handed /\ sinv c handed s) /\
    o_rows out = H /\ pi_gens_started p <= pi_gens_started p' /\
    count_persis_gens (ac_W c) + (pi_gens_started p' - pi_gens_started p) <= Nat.max (count_persis_gens (ac_W c)) (pu_num_gens u) /\
    (o_flag out = 1 <-> count_persis_gens (ac_W c) < pi_gens_started p) /\ (o_flag out = 1 -> o_work out = []) /\
    (some_gen_only (ac_W c) -> pu_alt u = false -> pi_gens_started p < pi_gens_started p' -> forall i, evaluable H i -> In i (sim_rows (o_work out))).
  Proof.
    revert Hrun. unfold only_persistent_gens. fold async. pose proof (support_init_sinv c g Hres) as Si.
    assert (Nil : pers_ok [] []).
    { unfold pers_ok, sets_given, sim_rows. cbn. split; [constructor|]. split; [intros q []|]. split; [constructor|]. split; [intros i []|]. exists []. constructor. }
    destruct (Nat.ltb_spec (count_persis_gens (ac_W c)) (pi_gens_started p)) as [L|L].
    { intros E. injection E as <- <-. cbn [o_work o_rows o_flag]. split; [eexists _, _; split; [exact Nil|exact Si]|]. split; auto. split; [lia|]. split; [lia|]. split; [tauto|]. split; auto. intros; lia. }
    assert (Fin : forall wk g0 e0 handed s, pers_ok wk handed -> sinv c handed s -> (mkAO H wk 0 g0 e0, p) = (out, p') ->
      (exists handed s, pers_ok (o_work out) handed /\ sinv c handed s) /\ o_rows out = H /\ pi_gens_started p <= pi_gens_started p' /\
      count_persis_gens (ac_W c) + (pi_gens_started p' - pi_gens_started p) <= Nat.max (count_persis_gens (ac_W c)) (pu_num_gens u) /\
      (o_flag out = 1 <-> count_persis_gens (ac_W c) < pi_gens_started p) /\ (o_flag out = 1 -> o_work out = []) /\
      (some_gen_only (ac_W c) -> pu_alt u = false -> pi_gens_started p < pi_gens_started p' -> forall i, evaluable H i -> In i (sim_rows (o_work out)))).
    { intros wk g0 e0 handed s P Q E. injection E as <- <-. cbn [o_work o_rows o_flag]. split; [exists handed, s; auto|]. split; auto. split; [lia|]. split; [lia|]. split; [split; [discriminate|lia]|]. split; [discriminate|]. intros; lia. }
    destruct (avail_workers _ (Some EVAL_GEN) _ _ _) as [bs|er] eqn:Eb; [|intros E; exact (Fin _ _ _ _ _ Nil Si E)].
    destruct (back_loop _ _ _ _ _ _ _) as [[wk1 s1] e1] eqn:E1.
    destruct (back_loop_spec c H u async Hres bs [] _ [] _ _ _ (avail_sub _ _ _ _ _ _ Eb Hids) (fun w _ => eq_refl) Si E1) as (n1 & A1 & A2 & A3 & A4 & A5).
    cbn in A1. subst n1. cbn [app] in A5. rewrite Forall_forall in A4.
    assert (G1 : forall q, In q wk1 -> k_tag (snd q) = EVAL_GEN) by (intros q Hq; apply (A4 q Hq)).
    assert (S1 : sims wk1 = []) by (apply gens_all, Forall_forall, G1).
    assert (B1 : forall q, In q wk1 -> exists r, In r (ac_W c) /\ w_id r = fst q /\ w_persis r = EVAL_GEN /\ (w_active r = 0 \/ w_recv r = true)).
    { intros q Hq. destruct (avail_rows _ _ _ _ _ _ _ Eb (A2 _ (in_map fst _ _ Hq))) as (r & R1 & R2 & R3 & R4). exists r. destruct (pu_recv u); auto. }
    assert (P1 : pers_ok wk1 (sets_given wk1)).
    { split; auto. split. { intros q Hq. left. split; auto. exact (B1 q Hq). } unfold sim_rows. rewrite S1. cbn. split; [constructor|]. split; [intros i []|]. exists []. now rewrite app_nil_r. }
    destruct e1 as [e1|]; [intros E; exact (Fin _ _ _ _ _ P1 A5 E)|].
    destruct (sim_workers c u) as [ws|er] eqn:Ew; [|intros E; exact (Fin _ _ _ _ _ P1 A5 E)].
    destruct (sim_workers_spec c u ws (proj1 Hres) Hids Ew) as [W1 W2].
    assert (Fr : forall w, In w ws -> in_dict wk1 w = false).
    { intros w Hw. apply in_dict_false. intros Hin. apply in_map_iff in Hin. destruct Hin as (q & Eq & Hq). destruct (B1 q Hq) as (r & R1 & R2 & R3 & _).
      destruct (W2 w Hw) as (r' & Q1 & Q2 & _ & Q3). rewrite (id_unique _ r r' Hids R1 Q1) in R3 by congruence. unfold EVAL_GEN, EVAL_SIM in *. destruct Q3 as [Q3|[_ Q3]]; congruence. }
    destruct (sim_loop _ _ _ _ _ _ _ _ _) as [[[wk2 s2] pts] e2] eqn:E2.
    destruct (sim_loop_spec c d H _ _ Hres ws _ wk1 s1 _ _ _ _ _ W1 (to_evaluate_nodup H) Fr A5 E2) as (n2 & rest & D1 & D2 & D3 & D4 & D5 & _ & _ & _).
    assert (S2 : sim_rows wk2 = concat (map (fun q => k_rows (snd q)) n2)).
    { unfold sim_rows. rewrite D1, sims_app, S1. cbn [app]. destruct (sims_all n2) as [-> _]; auto. eapply Forall_impl; [|exact D3]. intros q Hq. apply Hq. }
    assert (P2 : pers_ok wk2 (sets_given wk1 ++ sets_given n2)).
    { rewrite Forall_forall in D3. split.
      { rewrite D1, map_app. apply NoDup_app_intro; auto. { rewrite D2 in W1. exact (NoDup_app_remove_r _ _ W1). }
        intros w Hx Hy. assert (Hw : In w ws) by (rewrite D2; apply in_or_app; now left). apply (in_dict_false wk1 w); auto. }
      split. { intros q Hq. rewrite D1 in Hq. apply in_app_or in Hq. destruct Hq as [Hq|Hq]; [left; split; auto; exact (B1 q Hq)|]. right. left. split; auto. apply W2. rewrite D2. apply in_or_app. left. now apply in_map. }
      rewrite S2. pose proof (Permutation_NoDup D4 (to_evaluate_nodup _)) as Hp. split; [exact (NoDup_app_remove_r _ _ Hp)|]. split.
      { intros i Hi. apply to_evaluate_spec. apply (Permutation_in _ (Permutation_sym D4)). apply in_or_app. now left. }
      exists []. rewrite app_nil_r, D1, sets_given_app. apply Permutation_refl. }
    destruct e2 as [e2|]; [intros E; exact (Fin _ _ _ _ _ P2 D5 E)|]. destruct pts as [|i0 pts]; [|intros E; exact (Fin _ _ _ _ _ P2 D5 E)].
    destruct (avail_workers _ (Some 0) false (Some true) (Some true)) as [gs|er] eqn:Eg; [|intros E; exact (Fin _ _ _ _ _ P2 D5 E)].
    destruct (start_loop _ _ _ _ _ _ _ _) as [[[wk3 s3] st] e3] eqn:E3. destruct P2 as (P21 & P22 & P23 & P24 & P25).
    destruct (start_loop_spec c H u Hres gs _ _ wk2 s2 _ _ _ _ _ (avail_sub _ _ _ _ _ _ Eg Hids) D5 P21 P25 E3) as (handed' & K1 & K2 & K3 & (r4 & K4) & K5 & K6 & K7 & K8).
    intros E. injection E as <- <-. cbn [o_work o_rows o_flag pi_gens_started].
    split. { exists handed', s3. split; auto. destruct (nodup_perm_l _ _ _ P23 K4) as [Z1 Z2]. split; auto. split.
      { intros q Hq. destruct (K5 q Hq) as [Hq'|[Hq1 Hq2]]; [now apply P22|]. right. right. split; auto. destruct (avail_rows _ _ _ _ _ _ _ Eg Hq1) as (r & R1 & R2 & R3 & R4). exists r. auto. }
      split; auto. }
    split; auto. split; auto. split; [exact K7|]. split; [split; [discriminate|lia]|]. split; [discriminate|].
    intros Hg Ha Hst i Hi. destruct K8 as (new & N1 & _).
    { intros w Hw Hin. rewrite D1, map_app in Hin. destruct (avail_gen _ _ _ _ _ _ Eg Hw Hg) as (r & Q1 & Q2 & Q3). destruct (avail_rows _ _ _ _ _ _ _ Eg Hw) as (r0 & R1 & R2 & R3 & R4).
      assert (r0 = r) by (apply (id_unique _ r0 r Hids R1 Q1); congruence). subst r0.
      apply in_app_or in Hin. destruct Hin as [Hin|Hin].
      - apply in_map_iff in Hin. destruct Hin as (q & Eq & Hq). destruct (B1 q Hq) as (r' & T1 & T2 & T3 & _). rewrite (id_unique _ r' r Hids T1 Q1) in T3 by congruence. unfold EVAL_GEN in *. congruence.
      - assert (Hws : In w ws) by (rewrite D2; apply in_or_app; now left). unfold sim_workers in Ew. rewrite Ha in Ew.
        destruct (avail_gen _ _ _ _ _ _ Ew Hws Hg) as (r' & T1 & T2 & T3). rewrite (id_unique _ r' r Hids T1 Q1) in T3 by congruence. congruence. }
    rewrite N1. unfold sim_rows. rewrite sims_app, map_app, concat_app. apply in_or_app. left. fold (sim_rows wk2). rewrite S2.
    apply to_evaluate_spec in Hi. apply (Permutation_in _ D4) in Hi. now rewrite app_nil_r in Hi.
  Qed.
End Persistent.

(** ** Pre-generated points, one generator at a time *)
Definition counting_ok (c : actx) (d : dtype) (H : list row) (nx nx' : nat) (wk : wdict) : Prop :=
  (forall w k, In (w, k) wk -> idle (ac_W c) w) /\ NoDup (map fst wk) /\ nx <= nx' /\
  (forall m, ac_rm c = Some m -> NoDup (sets_given wk) /\ forall i, In i (sets_given wk) -> is_free m i) /\
  (forall q, In q (sims wk) -> unit_served c d H (fst q) (snd q)) /\
  (nx <= length H -> (forall r, nth_error H (pred (length H)) = Some r -> truthy (r F_cancel_requested) = false) ->
   nx' <= length H /\ sim_rows wk = wanted_between H nx nx').

Lemma counting_nil c d H nx : counting_ok c d H nx nx [].
Proof.
  unfold counting_ok, sets_given, sim_rows. cbn. rewrite wanted_empty by lia. split; [intros w k []|]. split; [constructor|]. split; [lia|]. split; [intros; split; [constructor|intros i []]|]. split; [intros q []|]. auto.
Qed.

Lemma counting_sims c d H g nx ws wk s nx' e : ids_distinct (ac_W c) -> resources_ok c -> nx < length H ->
  avail_workers (ac_W c) None false None (Some false) = Ok ws -> next_sims c d H ws nx [] (support_init c g) = (wk, s, nx', e) ->
  counting_ok c d H nx nx' wk /\ gens wk = [] /\ (forall q, In q wk -> sim_unit c d H false q).
Proof.
  intros Hi Hr Hnx Ew E.
  destruct (next_sims_spec c d H Hr ws _ [] _ [] _ _ _ _ (avail_sub _ _ _ _ _ _ Ew Hi) (fun w _ => eq_refl) (support_init_sinv c g Hr) Hnx E) as (new & E1 & (rest & E2) & E3 & E4 & E5 & E6 & E7).
  cbn in E1. subst new. cbn [app] in E6. rewrite Forall_forall in E3.
  assert (Es : sims wk = wk /\ gens wk = []). { apply sims_all, Forall_forall. intros q Hq. apply (E3 q Hq). } destruct Es as [Es Eg].
  pose proof (avail_sub _ _ _ _ _ _ Ew Hi) as Hn. rewrite E2 in Hn.
  split; [|split; auto]. unfold counting_ok, sim_rows. rewrite Es. split.
  - intros w k Hin. apply (avail_idle _ _ _ _ _ w Ew). rewrite E2. apply in_or_app. left. change w with (fst (w, k)). now apply in_map.
  - split; [exact (NoDup_app_remove_r _ _ Hn)|]. split; [lia|]. split; [intros m Hm; exact (sinv_free c _ _ m Hm E6)|]. split; [intros q Hq; apply (E3 q Hq)|].
    intros _ Hl. unfold rows_of in E7. destruct E7 as [[E7 E7']|(_ & _ & r & R1 & R2)]; [auto|rewrite (Hl r R1) in R2; discriminate].
Qed.

Lemma pregenerated_facts c d stop g p H out p' : ids_distinct (ac_W c) -> resources_ok c ->
  give_pregenerated c d stop g p H = (out, p') ->
  counting_ok c d H (pi_next p) (pi_next p') (o_work out) /\ gens (o_work out) = [] /\ o_rows out = H /\
  (o_flag out = 1 <-> stop = false /\ length H <= pi_next p) /\ (o_flag out <> 1 \/ o_work out = []).
Proof.
  intros Hi Hr. unfold give_pregenerated. destruct stop.
  - intros E. injection E as <- <-. cbn [o_work o_rows o_flag]. split; [apply counting_nil|]. split; auto. split; auto. split; [split; [discriminate|intros [? _]; discriminate]|auto].
  - destruct (Nat.leb_spec (length H) (pi_next p)) as [L|L].
    + intros E. injection E as <- <-. cbn [o_work o_rows o_flag]. split; [apply counting_nil|]. split; auto. split; auto. split; [tauto|auto].
    + destruct (avail_workers _ None false None (Some false)) as [ws|] eqn:Ew; [|cbn in Ew; discriminate].
      destruct (next_sims _ _ _ _ _ _ _) as [[[wk s1] nx] e] eqn:E1. intros E. injection E as <- <-. cbn [o_work o_rows o_flag pi_next].
      destruct (counting_sims c d H g _ ws wk s1 nx e Hi Hr L Ew E1) as (C1 & C2 & _). split; auto. split; auto. split; auto. split; [split; [discriminate|intros [_ ?]; lia]|left; discriminate].
Qed.

Lemma all_ended_settled H sel lo : all_sim_ended H sel lo = true <-> forall k r, lo <= k -> nth_error H k = Some r -> sel k = true -> settled r.
Proof.
  unfold all_sim_ended. rewrite all_selected_spec. unfold given_up, settled, flag. split; intros A k r H1 H2 H3.
  - specialize (A k r H1 H2 H3). destruct (truthy (r F_cancel_requested)), (truthy (r F_sim_started)); cbn in A; auto.
  - specialize (A k r H1 H2 H3). destruct A as [A|[A B]]; [auto|]. rewrite A, B. discriminate.
Qed.

Lemma one_gen_facts c d stop g p H out p' : ids_distinct (ac_W c) -> resources_ok c ->
  ensure_one_active_gen c d stop g p H = (out, p') ->
  counting_ok c d H (pi_next p) (pi_next p') (o_work out) /\ o_rows out = H /\ (stop = true -> o_work out = []) /\
  (gens (o_work out) <> [] -> length (o_work out) = 1 /\ pi_next p' = pi_next p /\ length H <= pi_next p /\
     (forall r, In r (ac_W c) -> w_active r <> EVAL_GEN) /\ (forall i r, nth_error H i = Some r -> settled r)) /\
  pi_gen_calls p' = pi_gen_calls p + length (gens (o_work out)).
Proof.
  intros Hi Hr. unfold ensure_one_active_gen.
  assert (Nil : forall g0 e0, (mkAO H [] 0 g0 e0, p) = (out, p') ->
    counting_ok c d H (pi_next p) (pi_next p') (o_work out) /\ o_rows out = H /\ (stop = true -> o_work out = []) /\
    (gens (o_work out) <> [] -> length (o_work out) = 1 /\ pi_next p' = pi_next p /\ length H <= pi_next p /\
       (forall r, In r (ac_W c) -> w_active r <> EVAL_GEN) /\ (forall i r, nth_error H i = Some r -> settled r)) /\
    pi_gen_calls p' = pi_gen_calls p + length (gens (o_work out))).
  { intros g0 e0 E. injection E as <- <-. cbn [o_work o_rows gens filter length]. split; [apply counting_nil|]. split; auto. split; auto. split; [congruence|lia]. }
  destruct stop; [apply Nil|]. destruct (Nat.ltb_spec (pi_next p) (length H)) as [L|L].
  - destruct (avail_workers _ None false None (Some false)) as [ws|] eqn:Ew; [|apply Nil].
    destruct (next_sims _ _ _ _ _ _ _) as [[[wk s1] nx] e] eqn:E1. intros E. injection E as <- <-. cbn [o_work o_rows pi_next pi_gen_calls].
    destruct (counting_sims c d H g _ ws wk s1 nx e Hi Hr L Ew E1) as (C1 & C2 & _). rewrite C2. split; auto. split; auto. split; [discriminate|]. split; [congruence|cbn; lia].
  - destruct (test_any_gen (ac_W c)) eqn:Et; [apply Nil|]. cbn [negb]. destruct (avail_workers _ None false None (Some true)) as [[|w ws]|] eqn:Ew; try apply Nil.
    destruct (all_sim_ended H (fun _ => true) 0) eqn:Ea; [|apply Nil]. cbn [negb]. set (rows := match ac_gen_in c with [] => [] | _ => seq 0 (length H) end).
    destruct (gen_work c w (ac_gen_in c) rows false None (support_init c g)) as [a s1] eqn:Eg.
    pose proof (gen_work_spec _ _ _ _ _ _ _ _ _ _ Hr (support_init_sinv c g Hr) Eg) as X. destruct a as [k|er].
    + destruct X as (X1 & X2 & _). intros E. injection E as <- <-. cbn [o_work o_rows pi_next pi_gen_calls].
      destruct (gens_all [(w, k)]) as [Gg Gs]; [constructor; [exact X2|constructor]|]. rewrite Gg. split; [|split; [auto|split; [discriminate|split]]].
      * unfold counting_ok, sim_rows. rewrite Gs. split; [intros v q [E|[]]; injection E as <- <-; apply (avail_idle _ _ _ _ _ w Ew); now left|].
        split; [constructor; [intros []|constructor]|]. split; [lia|]. split. { intros m Hm. unfold sets_given. cbn. rewrite app_nil_r. exact (sinv_free c _ _ m Hm X1). }
        split; [intros q []|]. intros Hnx _. split; auto. cbn. symmetry. apply wanted_empty. lia.
      * intros _. split; auto. split; auto. split; auto. split.
        -- intros r Hin E. assert (X : test_any_gen (ac_W c) = true) by (apply existsb_exists; exists r; split; auto; now apply Nat.eqb_eq). congruence.
        -- intros i r Hn. apply (proj1 (all_ended_settled H _ 0) Ea i r); auto. lia.
      * cbn. lia.
    + destruct er; apply Nil.
Qed.
