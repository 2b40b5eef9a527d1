(** One call of start_only_persistent, without resource management and with
    passive generators. *)
From Coq Require Import Permutation.
From Verif Require Import Base BaseLemmas HistoryModel HistoryProofs WorkModel RsetModel RsetSpec SchedModel SchedSpec SchedServe AllocModel AllocSpec AllocProofs AllocLoops AllocFacts AllocFast AllocPersis DrivenOrders.

Section Call.
Variables (x : actx) (u : puser).
Hypotheses (Hman : ac_manage x = false) (Hwg : forall w, In w (map w_id (ac_W x)) -> wget (ac_gom x) (ac_W x) w <> None).

Lemma gen_work_ok w fields rows recv s : In w (map w_id (ac_W x)) ->
  exists k s', gen_work x w fields rows true recv s = (Ok k, s') /\ k_tag k = EVAL_GEN /\ k_rows k = rows /\ k_persistent k = true /\ k_recv k = recv.
Proof.
  intros Hw. unfold gen_work. destruct (team_none x w (req_gen x) s Hman) as ([[t np] ng] & ->).
  destruct (wget (ac_gom x) (ac_W x) w) as [r|] eqn:Eg; [|destruct (Hwg w Hw Eg)]. unfold avail_workers. cbn [andb]. eexists _, _. split; [reflexivity|]. auto.
Qed.

Lemma back_none H async : forall ws work s work' s' e, (forall w, In w ws -> In w (map w_id (ac_W x))) -> back_loop x H u async ws work s = (work', s', e) ->
  e = None /\ (work <> [] -> work' <> []) /\ (forall w, In w ws -> returned_for H w <> [] -> all_sim_ended H (gen_of H w) 0 = true -> work' <> []).
Proof.
  induction ws as [|w ws IH]; intros work s work' s' e Hw; cbn [back_loop].
  { intros [= <- _ <-]. split; [reflexivity|]. split; [auto|]. intros w []. }
  assert (Hw' : forall v, In v ws -> In v (map w_id (ac_W x))) by (intros v Hv; apply Hw; now right).
  destruct (returned_for H w) as [|i ids] eqn:Er.
  { intros E. apply IH in E as (E1 & E2 & E3); auto. split; auto. split; auto. intros v [<-|Hv]; [rewrite Er; congruence|eauto]. }
  destruct (async || all_sim_ended H (gen_of H w) 0) eqn:Ea.
  - destruct (gen_work_ok w (ac_persis_in x) (i :: ids) (Some (pu_recv u)) s (Hw w (or_introl eq_refl))) as (k & s1 & -> & _). intros E. apply IH in E as (E1 & E2 & E3); auto.
    assert (work' <> []) by (apply E2, dict_set_nonempty). auto.
  - intros E. apply IH in E as (E1 & E2 & E3); auto. split; auto. split; auto. intros v [<-|Hv]; [|eauto]. intros _ X. rewrite X in Ea. rewrite orb_true_r in Ea. discriminate.
Qed.

(** a unit that starts a generator *)
Definition starts_gen (H : list row) (p : nat * work) : Prop :=
  k_tag (snd p) = EVAL_GEN /\ k_rows (snd p) = seq 0 (length H) /\ k_persistent (snd p) = true /\ k_recv (snd p) = Some (pu_recv u).

Lemma start_exact H : forall ws gc st work s work' s' st' e, (forall w, In w ws -> In w (map w_id (ac_W x))) -> NoDup ws -> (forall w, In w ws -> in_dict work w = false) ->
  start_loop x H u ws gc st work s = (work', s', st', e) ->
  e = None /\ exists new, work' = work ++ new /\ map fst new = firstn (pu_num_gens u - gc) ws /\ st' = st + length new /\ Forall (starts_gen H) new.
Proof.
  induction ws as [|w ws IH]; intros gc st work s work' s' st' e Hw Hn Hd; cbn [start_loop].
  { intros [= <- _ <- <-]. split; auto. exists []. rewrite firstn_nil, app_nil_r. cbn. auto. }
  inversion Hn as [|? ? N1 N2]; subst.
  assert (Hw' : forall v, In v ws -> In v (map w_id (ac_W x))) by (intros v Hv; apply Hw; now right).
  destruct (Nat.ltb_spec gc (pu_num_gens u)) as [L|L].
  - destruct (gen_work_ok w (ac_gen_in x) (seq 0 (length H)) (Some (pu_recv u)) s (Hw w (or_introl eq_refl))) as (k & s1 & -> & K1 & K2 & K3 & K4).
    rewrite dict_set_new by (apply Hd; now left). intros E. apply IH in E as (E1 & new & E2 & E3 & E4 & E5); auto; [|exact (dict_fresh work w k ws Hn Hd)].
    split; auto. exists ((w, k) :: new). rewrite E2, <- app_assoc. split; auto. cbn [map fst length]. rewrite E3. split.
    { replace (pu_num_gens u - gc) with (S (pu_num_gens u - S gc)) by lia. reflexivity. }
    split; [lia|]. constructor; [|assumption]. repeat split; assumption.
  - intros E. apply IH in E as (E1 & new & E2 & E3 & E4 & E5); auto; [|intros v Hv; apply Hd; now right]. split; auto. exists new. split; auto.
    rewrite E3. replace (pu_num_gens u - gc) with 0 by lia. cbn. auto.
Qed.

Lemma start_idle H ws gc st work s : ws = [] \/ pu_num_gens u <= gc -> start_loop x H u ws gc st work s = (work, s, st, None).
Proof.
  revert gc. induction ws as [|w ws IH]; intros gc; cbn [start_loop]; auto. intros [X|X]; [discriminate|].
  destruct (Nat.ltb_spec gc (pu_num_gens u)); [lia|]. apply IH. auto.
Qed.

Hypotheses (Hids : ids_distinct (ac_W x)) (Hres : resources_ok x) (Hrecv : pu_recv u = false) (Halt : pu_alt u = false).

Lemma persis_shape d g p H out p' : pi_gens_started p <= count_persis_gens (ac_W x) -> only_persistent_gens x d u false g p H = (out, p') ->
  exists bs ws gs wk1 n2 s2 rest pts, let async := pu_async u && (pu_init_sample u <=? countb (flag F_sim_ended) H) in
  avail_workers (ac_W x) (Some EVAL_GEN) false None None = Ok bs /\ avail_workers (ac_W x) (Some 0) false (Some false) (Some false) = Ok ws /\
  avail_workers (ac_W x) (Some 0) false (Some true) (Some true) = Ok gs /\
  incl (map fst wk1) bs /\ Forall (back_unit x H u async) wk1 /\
  (forall w, In w bs -> returned_for H w <> [] -> all_sim_ended H (gen_of H w) 0 = true -> wk1 <> []) /\
  ws = map fst n2 ++ rest /\ Forall (sim_unit x d H false) n2 /\ (pu_batch_give u = false -> Forall (fun q => length (k_rows (snd q)) = 1) n2) /\
  (to_evaluate H = [] -> n2 = []) /\ (rest = [] \/ pts = []) /\ Permutation (to_evaluate H) (concat (map (fun q => k_rows (snd q)) n2) ++ pts) /\ NoDup (map fst (wk1 ++ n2)) /\
  o_rows out = H /\ o_flag out = 0 /\ o_err out = None /\
  ((pts <> [] /\ o_work out = wk1 ++ n2 /\ pi_gens_started p' = pi_gens_started p) \/
   (pts = [] /\ exists s3 st e, start_loop x H u gs (count_persis_gens (ac_W x)) (pi_gens_started p) (wk1 ++ n2) s2 = (o_work out, s3, st, e) /\ pi_gens_started p' = st)).
Proof.
  intros Hc. unfold only_persistent_gens. cbn zeta. set (async := pu_async u && _).
  destruct (Nat.ltb_spec (count_persis_gens (ac_W x)) (pi_gens_started p)) as [L|L]; [lia|]. rewrite Hrecv.
  destruct (avail_workers _ (Some EVAL_GEN) _ _ _) as [bs|er] eqn:Eb; [|discriminate Eb].
  destruct (back_loop _ _ _ _ _ _ _) as [[wk1 s1] e1] eqn:E1.
  destruct (back_loop_spec x H u async Hres bs [] _ [] _ _ _ (avail_sub _ _ _ _ _ _ Eb Hids) (fun w _ => eq_refl) (support_init_sinv x g Hres) E1) as (n1 & A1 & A2 & A3 & A4 & A5).
  cbn in A1. subst n1. cbn [app] in A5.
  assert (Ib : forall z g0 q ws, avail_workers (ac_W x) q false z g0 = Ok ws -> forall w, In w ws -> In w (map w_id (ac_W x))).
  { intros z g0 q ws Ea w Hw. destruct (avail_rows _ _ _ _ _ _ _ Ea Hw) as (r & R1 & <- & _). now apply in_map. }
  destruct (back_none H async bs [] _ _ _ _ (Ib _ _ _ _ Eb) E1) as (-> & _ & BN).
  unfold sim_workers. rewrite Halt. destruct (avail_workers _ (Some 0) false (Some false) (Some false)) as [ws|er] eqn:Ew; [|discriminate Ew].
  assert (Fr : forall w, In w ws -> in_dict wk1 w = false).
  { intros w Hw. apply in_dict_false. intros Hin. apply A2 in Hin. destruct (avail_rows _ _ _ _ _ _ _ Eb Hin) as (r & R1 & R2 & _ & R3).
    destruct (avail_rows _ _ _ _ _ _ _ Ew Hw) as (r' & Q1 & Q2 & _ & Q3). rewrite (id_unique _ r r' Hids R1 Q1) in R3 by congruence. rewrite Q3 in R3. discriminate. }
  destruct (sim_loop _ _ _ _ _ _ _ _ _) as [[[wk2 s2] pts] e2] eqn:E2.
  destruct (sim_loop_spec x d H _ _ Hres ws _ wk1 s1 _ _ _ _ _ (avail_sub _ _ _ _ _ _ Ew Hids) (to_evaluate_nodup H) Fr A5 E2) as (n2 & rest & D1 & D2 & D3 & D4 & D5 & _ & D6 & D7).
  destruct (D7 Hman) as [-> D8]. subst wk2.
  assert (D9 : to_evaluate H = [] -> n2 = []).
  { intros E0. rewrite E0 in E2. assert (X : wk1 ++ n2 = wk1) by (destruct ws; cbn [sim_loop] in E2; congruence). clear - X. apply (app_inv_head wk1). now rewrite app_nil_r. }
  destruct (avail_workers _ (Some 0) false (Some true) (Some true)) as [gs|er] eqn:Eg; [|discriminate Eg].
  assert (Nd : NoDup (map fst (wk1 ++ n2))).
  { rewrite map_app. pose proof (avail_sub _ _ _ _ _ _ Ew Hids) as Nw. rewrite D2 in Nw. apply NoDup_app_remove_r in Nw.
    clear - A3 Nw Fr D2. induction (map fst wk1) as [|w l IH] eqn:El in wk1, A3, Fr |- *; auto. cbn. destruct wk1 as [|[v k] wk1]; [discriminate|]. cbn in El. injection El as -> El.
    inversion_clear A3 as [|? ? N1 N2]. constructor.
    - rewrite in_app_iff. intros [X|X]; auto. assert (Y : in_dict ((w, k) :: wk1) w = false) by (apply Fr; rewrite D2; apply in_app_iff; auto). cbn in Y. rewrite Nat.eqb_refl in Y. discriminate.
    - apply (IH wk1); auto. intros v Hv. specialize (Fr v Hv). unfold in_dict in *. cbn in Fr. apply orb_false_iff in Fr. apply Fr. }
  destruct pts as [|i pts].
  - destruct (start_loop _ _ _ _ _ _ _ _) as [[[wk3 s3] st] e3] eqn:E3.
    assert (X3 : e3 = None).
    { assert (G : forall ws gc st work s work' s' st' e, (forall w, In w ws -> In w (map w_id (ac_W x))) -> start_loop x H u ws gc st work s = (work', s', st', e) -> e = None).
      { clear E3. induction ws0 as [|w ws0 IH]; intros gc st0 work s work' s' st' e Hw; cbn [start_loop]; [now intros [= _ _ _ <-]|].
        assert (Hw' : forall v, In v ws0 -> In v (map w_id (ac_W x))) by (intros v Hv; apply Hw; now right).
        destruct (gc <? pu_num_gens u); [|now apply IH].
        destruct (gen_work_ok w (ac_gen_in x) (seq 0 (length H)) (Some (pu_recv u)) s (Hw w (or_introl eq_refl))) as (k & s0 & -> & _). now apply IH. }
      eapply G; [|exact E3]. exact (Ib _ _ _ _ Eg). }
    intros [= <- <-]. exists bs, ws, gs, wk1, n2, s2, rest, []. cbn [o_rows o_flag o_err o_work pi_gens_started]. repeat (split; [solve [auto]|]). right. split; auto. eauto.
  - intros [= <- <-]. exists bs, ws, gs, wk1, n2, s2, rest, (i :: pts). cbn [o_rows o_flag o_err o_work]. repeat (split; [solve [auto]|]). left. split; [discriminate|auto].
Qed.
End Call.
