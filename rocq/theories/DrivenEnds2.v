(** Runs driven by the default allocation function come to an end: from the
    invariant to the run. *)
From Coq Require Import Permutation.
From Verif Require Import Base BaseLemmas HistoryModel HistorySpec HistoryProofs HistoryXIn HistoryInv HistoryInv2 HistoryRun HistoryRun2 HistoryRun3 HistoryBack RsetModel RsetSpec WorkModel SchedModel SchedSpec AllocModel AllocSpec AllocProofs AllocLoops AllocFacts ManagerModel ManagerSpec ManagerProofs ManagerMsg ManagerRun ManagerInv ManagerFinal ManagerEnd ManagerRes DrivenModel DrivenSpec DrivenProofs DrivenInv DrivenPoints DrivenRes DrivenSets DrivenGens DrivenOrders DrivenTrace DrivenEnds.

(** ** Orders go to workers of the table *)
Definition Qi (ids : list nat) (l : list event) (e : event) : Prop := match e with Sent w (OWork k) => k_tag k <> PERSIS_STOP -> In w ids | _ => True end.
Lemma Qi_quiet ids a e : ~ is_order e -> Qi ids a e.
Proof. unfold Qi. destruct e as [w o|]; auto. destruct o; auto. cbn. tauto. Qed.

Lemma orders_known c its t rounds m m' o : table_ok c m -> m_log m = [] -> run c its t rounds m = (m', o) -> log_ok (Qi (map w_id (m_W m))) (m_log m').
Proof.
  intros T0 E0 E. set (ids := map w_id (m_W m)).
  eapply (LT_run c (Qi ids) (Qi_quiet ids) (fun m => LT c (Qi ids) m /\ map w_id (m_W m) = ids) (fun _ _ => True)); eauto.
  - intros a Ha. apply Ha.
  - intros a a' e [Ha Hi] Ek. assert (LT c (Qi ids) a') by (eapply LT_kill; eauto using Qi_quiet). split; auto. intros _. split; auto. now rewrite (kill_table _ _ _ _ Ek).
  - intros w i t0 a a' e [Ha Hi] _ Ek. assert (LT c (Qi ids) a') by (eapply LT_poll; eauto using Qi_quiet). split; auto. intros _. split; auto.
    apply poll_table in Ek as [_ Ek]; [congruence|apply Ha].
  - intros ed a [Ha Hi]. cbn zeta. split; [exact Ha|]. intros _. split; [exact Ha|exact Hi].
  - intros t0 w k a a' e [Ha Hi] _ _ Ek. apply give_order_spec in Ek as (_ & _ & _ & T1 & T2 & E2 & _); [|apply Ha].
    assert (HL : LT c (Qi ids) a').
    { split; auto. destruct E2 as [->|(r0 & k' & l & G & _ & E2 & -> & _)]; [apply Ha|]. eapply log_ok_order; eauto; [apply Ha| |]; cbn; auto.
      intros _. rewrite <- Hi. apply in_map. eapply wget_In; eauto. }
    split; auto. intros _. split; auto. congruence.
  - split; auto. split; auto. rewrite E0. intros [|? ?] ? ? [=].
  - intros it ws w k tt _ _ _. exact I.
Qed.

Lemma known_gens ids l : log_ok (Qi ids) l -> at_most_gens task (length ids) l.
Proof.
  intros HL p q E ws Nd Hw. apply NoDup_incl_length; auto. intros w Hin. specialize (Hw w Hin).
  assert (HP : log_ok (Qi ids) p) by (intros a e b ->; apply (HL a e (b ++ q)); rewrite E, <- app_assoc; reflexivity).
  clear - Hw HP. revert Hw. induction p as [|e p IH] using rev_ind; [discriminate|].
  unfold task. rewrite fold_left_app. cbn [fold_left]. fold (task w p).
  assert (IH' : task w p = EVAL_GEN -> In w ids) by (apply IH; intros a e0 b ->; apply (HP a e0 (b ++ [e])); now rewrite <- app_assoc).
  specialize (HP p e [] eq_refl). unfold step_task. destruct e as [v o|v i]; auto.
  - destruct o as [k| | |]; auto. destruct (Nat.eqb_spec v w) as [->|]; cbn [andb]; auto.
    destruct (Nat.eqb_spec (k_tag k) PERSIS_STOP); cbn [negb]; auto.
  - destruct i as [a| | |]; auto. destruct (_ && _); auto. intros X. discriminate X.
Qed.

(** ** Start *)
Lemma init_ends c single outs H0 safe n zeros gens rm pin : H0_scalar H0 -> Je c (length (a_rows H0)) single (init_manager c (fresh_history c outs H0 safe) n zeros gens rm pin).
Proof.
  intros Hs. unfold fresh_history. set (M := match c_sim_max c with Some n => n | None => 100 end).
  destruct (init_counts M outs H0 safe) as (I1 & _ & _ & _ & I2 & _).
  split; [split; [apply init_table|intros [|? ?] ? ? [=]]|]. split; [apply init_cnt|]. split; [reflexivity|]. split.
  { intros r Hr. eapply init_workers_idle in Hr. apply Hr. }
  split. { cbn [m_h m_log init_manager points_out]. rewrite I2. lia. }
  intros _. split; [split; [|reflexivity]|].
  { intros r Hr. eapply init_workers_idle in Hr. split; [reflexivity|]. intros _. apply Hr. }
  cbn [m_h m_log init_manager points_sent gen_answers]. rewrite I1. split; [|cbn; lia].
  assert (S : forall f, In f (names libE_fields) -> scalar (init_history M outs H0 safe) f) by (intros f Hf; split; [now apply init_column|now apply init_shape]).
  split; [apply S; cbn; tauto|]. split; [apply S; cbn; tauto|]. split; [apply init_column; cbn; tauto|]. split; [rewrite I1, init_length; lia|]. split.
  - intros k Hk Hc. destruct (init_back M outs H0 safe k F_cancel_requested (or_intror eq_refl) Hs Hk Hc).
  - intros k Hk Hc. destruct (init_back M outs H0 safe k F_sim_started (or_introl eq_refl) Hs Hk Hc).
Qed.

(** ** The run *)
Definition Jd c i0 single (m : mgr) : Prop := Je c i0 single m /\ reach m.

Lemma Jd_kill c i0 single m m' e : Jd c i0 single m -> kill_cancelled c m = (m', e) -> LT c (Qe single) m' /\ (e = None -> Jd c i0 single m').
Proof.
  intros [HJ R] E. pose proof (Je_kill _ _ _ _ _ _ HJ E) as [A B]. split; auto. intros He. split; auto.
  apply kill_cancelled_spec in E as ((E1 & E3 & _) & _). unfold reach. rewrite E3. exact R.
Qed.
Lemma Jd_poll c i0 single w i t m m' e : Jd c i0 single m -> poll c (w, i, t) m = (m', e) -> LT c (Qe single) m' /\ (e = None -> Jd c i0 single m').
Proof.
  intros [HJ R] E. pose proof (Je_poll _ _ _ _ _ _ _ _ _ HJ E) as [A B]. split; auto. intros ->. split; auto. eapply poll_reach; eauto; apply HJ.
Qed.
Lemma Jd_alloc c i0 single a u v g m out g' : (single = true -> u_batch_give u = false) -> Jd c i0 single m -> set_order (v_ord v) -> default_alloc c a u v g m = (out, g') ->
  Jd c i0 single (edited m out) /\ forall m2 e, give_orders c (stamped v (o_work out)) (edited m out) = (m2, e) -> LT c (Qe single) m2 /\ (e = None -> Jd c i0 single m2).
Proof.
  intros Hs [HJ R] HO EA. destruct (Je_alloc c i0 single a u v g m out g' Hs HJ R HO EA) as [A1 A2]. split; [split; auto|].
  intros m2 e EG. destruct (A2 m2 e EG) as [A3 A4]. split; auto. intros ->. split; auto.
  assert (T : table_ok c m) by apply HJ.
  destruct (default_careful c a u v g m out g' T R HO EA) as [[_ _ C3 C4 C5] _].
  refine (proj1 (orders_index c v (o_work out) (edited m out) m2 T R _ EG)). intros _ w k Hk. eauto.
Qed.

Lemma driven_ends c i0 single a u vs s m m' x : (single = true -> u_batch_give u = false) -> Forall (fun v => set_order (v_ord v)) vs -> Jd c i0 single m ->
  driven_loop (default_alloc c a u) c vs s m = (m', x) -> LT c (Qe single) m' /\ ((forall e, x <> CExc e) -> Jd c i0 single m').
Proof.
  intros Hs HV HJ E.
  eapply (driven_ind (default_alloc c a u) c (fun _ => Jd c i0 single) (LT c (Qe single)) (fun v => set_order (v_ord v)) (fun _ _ => True)) in E as [E1 E2]; eauto.
  - split; auto. intros Hx. destruct (E2 Hx) as (_ & H). exact H.
  - intros _ m0 H. apply H.
  - intros _ m0 m1 e. apply Jd_kill.
  - intros _ w i t m0 m1 e H _. apply Jd_poll; auto.
  - intros s0 s1 v m0 out H HO E0. destruct (Jd_alloc c i0 single a u v s0 m0 out s1 Hs H HO E0) as [A1 A2].
    split; [apply A1|]. split; [auto|]. intros _ _. exact A2.
Qed.

Lemma ends_final c single t rounds m m' f : LT c (Qe single) m -> final_phase c t rounds m = (m', f) -> LT c (Qe single) m'.
Proof.
  intros HJ E. eapply (final_ind c (LT c (Qe single)) (LT c (Qe single)) (fun _ _ => True)) in E as [E _]; eauto using LT_poll, LT_stop, LT_finish, Qe_quiet.
  - intros a Ha. apply Ha.
  - intros w i t0 a a' e Ha _ E0. assert (LT c (Qe single) a') by (eapply LT_poll; eauto using Qe_quiet). auto.
  - intros t0 w a a' e Ha _ E0. assert (LT c (Qe single) a') by (eapply LT_stop; eauto using Qe_quiet). auto.
  - red. auto.
Qed.

(** What the trace of such a run satisfies *)
Lemma trace_facts single l : log_ok (Qe single) l -> fine l -> fair l /\ calls_needed l /\
  (single = true -> forall w k, In (Sent w (OWork k)) l -> k_tag k = EVAL_SIM -> length (k_rows k) = 1).
Proof.
  intros HL HF. split; [|split].
  - intros p w k q E Hk. destruct (HL p (Sent w (OWork k)) q E Hk) as (Q1 & Q2 & _); auto. rewrite E in HF. eapply fine_app; eauto.
  - intros p w k q E Hk. destruct (HL p (Sent w (OWork k)) q E) as (_ & _ & _ & Q); auto; [rewrite Hk; discriminate|]. rewrite E in HF. eapply fine_app; eauto.
  - intros Hs w k Hin Hk. apply in_split in Hin as (p & q & E). destruct (HL p (Sent w (OWork k)) q E) as (_ & _ & Q & _); auto; [rewrite Hk; discriminate|].
    rewrite E in HF. eapply fine_app; eauto.
Qed.

(** ** Nobody waits for nothing *)
Lemma any_active_true m : any_active m = true <-> exists r, In r (m_W m) /\ w_active r <> 0.
Proof.
  unfold any_active. rewrite existsb_exists. split; intros (r & H1 & H2); exists r; split; auto.
  - apply negb_true_iff, Nat.eqb_neq in H2. exact H2.
  - apply negb_true_iff, Nat.eqb_neq. exact H2.
Qed.

Lemma idle_closed c i0 single m : Je c i0 single m -> fine (m_log m) -> any_active m = false -> opens (m_log m) = [].
Proof.
  intros ((_ & HL) & _ & _ & _ & _ & H6) HF HA. destruct (H6 HF) as ((T1 & T2) & _). destruct (trace_facts single _ HL HF) as (FR & _).
  destruct (opens_spec _ FR) as [_ OS]. destruct (opens (m_log m)) as [|[w k] l]; auto. exfalso.
  assert (E : open_order w (m_log m) = Some k) by (apply OS; now left).
  destruct (in_dec Nat.eq_dec w (map w_id (m_W m))) as [Hin|Hn]; [|rewrite (T2 w Hn) in E; discriminate].
  apply in_map_iff in Hin as (r & <- & Hr). assert (X : any_active m = true); [|congruence]. apply any_active_true. exists r. split; auto.
  intros Ha. apply (T1 r Hr) in Ha. congruence.
Qed.

Lemma not_stalled c i0 single t m : Je c i0 single m -> fine (m_log m) -> sim_max_given c m = true -> any_active m = false -> term_test c t m = Ok 0 -> False.
Proof.
  intros HJ HF HS HA HT. pose proof (idle_closed c i0 single m HJ HF HA) as EO. pose proof HJ as ((_ & HL) & (_ & _ & HE) & _ & _ & HP & _).
  destruct (trace_facts single _ HL HF) as (FR & _). destruct (balance (c_ret_sim c) _ FR (proj1 HF)) as (_ & _ & B). rewrite EO in B. cbn in B.
  unfold sim_max_given in HS. unfold term_test in HT. destruct (c_sim_max c) as [N|]; [|discriminate]. apply Nat.leb_le in HS.
  assert (X : N + h_ended_off (m_h m) <=? h_ended (m_h m) = true) by (apply Nat.leb_le; lia). rewrite X in HT. destruct (match c_wall c with Some _ => _ | None => _ end); discriminate.
Qed.

Lemma active_open c i0 single m : Je c i0 single m -> fine (m_log m) -> any_active m = true -> exists w k, In w (map w_id (m_W m)) /\ open_order w (m_log m) = Some k.
Proof.
  intros HJ HF HA. apply any_active_true in HA as (r & Hr & Ha). destruct HJ as (_ & _ & _ & _ & _ & H6). destruct (H6 HF) as ((T1 & _) & _).
  destruct (open_order (w_id r) (m_log m)) as [k|] eqn:E; [exists (w_id r), k; split; auto; now apply in_map|]. destruct Ha. now apply T1.
Qed.

Lemma Jd_receive c i0 single msgs : forall m m', Jd c i0 single m -> receive c msgs m = (m', None) -> Jd c i0 single m'.
Proof.
  unfold receive. induction msgs as [|[[w i] t] msgs IH]; intros m m' HJ; cbn [foldx]; [intros [= <-]; auto|].
  destruct (poll c (w, i, t) m) as [m1 [e1|]] eqn:E; cbn [bindx]; [discriminate|]. apply IH. eapply Jd_poll in E as [_ E]; eauto.
Qed.
Lemma Jd_turn c i0 single v m m1 : Jd c i0 single m -> bindx (kill_cancelled c m) (receive c (v_msgs v)) = (m1, None) -> Jd c i0 single m1.
Proof.
  intros HJ. destruct (kill_cancelled c m) as [mk [ek|]] eqn:EK; cbn [bindx]; [discriminate|]. eapply Jd_kill in EK as [_ EK]; eauto. apply Jd_receive; auto.
Qed.

Lemma ends_turn c i0 single a u v s m m2 e : (single = true -> u_batch_give u = false) -> u_sim_in a <> [] -> (c_kill c = true -> u_batch_give u = false) ->
  Jo c a True m -> Jd c i0 single m -> set_order (v_ord v) -> u_manage a = false -> u_batch_mode u = false -> u_num_active_gens u <> Some 0 ->
  iterate c (fst (turn_of (default_alloc c a u) c v s m)) m = (m2, CExc e) -> fine (m_log m2) ->
  term_test c (v_elapsed v) m = Err e \/ snd (bindx (kill_cancelled c m) (receive c (v_msgs v))) = Some e \/ term_test c (v_elapsed2 v) m2 = Err e.
Proof.
  intros Hs Hsim Hk HJ HD HO Hm Hb Hn E HF.
  destruct (default_turn c a True Hsim u v s m m2 e Hk HJ I HO Hm Hb Hn E) as [A|[A|[A|((m1 & out & s' & E1 & E2 & E3) & A1 & A2 & A3)]]]; auto.
  exfalso. apply (Jd_turn c i0 single) in E1; auto. destruct (Jd_alloc c i0 single a u v s m1 out s' Hs E1 HO E2) as [_ A4].
  destruct (A4 m2 None E3) as [_ A5]. exact (not_stalled c i0 single _ m2 (proj1 (A5 eq_refl)) HF A1 A2 A3).
Qed.

(** ** Turns and answers *)
Lemma kill_answers c m m' : kill_cancelled c m = (m', None) -> answers_in (m_log m') = answers_in (m_log m) /\ map w_id (m_W m') = map w_id (m_W m).
Proof.
  intros E. pose proof (kill_table _ _ _ _ E) as ET. apply kill_cancelled_spec in E as (_ & (l & -> & F) & _). rewrite ET. split; auto. rewrite answers_app.
  assert (X : answers_in l = 0); [|lia]. induction F as [|e l (w & _ & ->) F IH]; auto.
Qed.
Lemma poll_answers c w i t m m' : table_ok c m -> poll c (w, i, t) m = (m', None) ->
  answers_in (m_log m') = answers_in (m_log m) + match i with IData _ => if memb w (map w_id (m_W m)) then 1 else 0 | _ => 0 end.
Proof.
  intros T E. apply poll_spec in E as [(Hn & -> & _)|(r0 & Hin & <- & _ & _ & _ & [(-> & _)|(E & _)] & _)]; auto; [| |discriminate].
  - destruct i; try lia. destruct (memb w (map w_id (m_W m))) eqn:Em; [|lia]. apply memb_In in Em. contradiction.
  - rewrite answers_app. assert (Em : memb (w_id r0) (map w_id (m_W m)) = true) by (apply memb_In; now apply in_map). rewrite Em. destruct i; cbn; lia.
Qed.
Lemma receive_answers c msgs : forall m m', table_ok c m -> receive c msgs m = (m', None) ->
  map w_id (m_W m') = map w_id (m_W m) /\ answers_in (m_log m) <= answers_in (m_log m') /\
  ((exists w a t, In (w, IData a, t) msgs /\ In w (map w_id (m_W m))) -> answers_in (m_log m) < answers_in (m_log m')).
Proof.
  unfold receive. induction msgs as [|[[w i] t] msgs IH]; intros m m' T; cbn [foldx].
  { intros [= <-]. split; auto. split; auto. intros (w & a & t & [] & _). }
  destruct (poll c (w, i, t) m) as [m1 [e1|]] eqn:E; cbn [bindx]; [discriminate|]. intros ER.
  pose proof (poll_answers _ _ _ _ _ _ T E) as EA. apply poll_table in E as [T1 Ei]; auto. destruct (IH m1 m' T1 ER) as (I1 & I2 & I3). rewrite Ei in *.
  split; auto. split; [lia|]. intros (w' & a & t' & [[= -> -> ->]|Hin] & Hw).
  - apply memb_In in Hw. rewrite Hw in EA. lia.
  - assert (answers_in (m_log m1) < answers_in (m_log m')); [|lia]. apply I3. exists w', a, t'. auto.
Qed.
Lemma orders_answers c wk : forall m m', table_ok c m -> give_orders c wk m = (m', None) -> answers_in (m_log m') = answers_in (m_log m) /\ map w_id (m_W m') = map w_id (m_W m) /\ table_ok c m'.
Proof.
  induction wk as [|[[w k] t] wk IH]; intros m m' T; cbn [give_orders]; [intros [= <-]; auto|].
  destruct (sim_max_given c m); [intros [= <-]; auto|]. cbn [fst]. destruct (give_order c t w k m) as [m1 [e1|]] eqn:E; cbn [bindx]; [discriminate|].
  apply give_order_spec in E as (_ & _ & _ & T1 & T2 & E2 & _); auto. intros EO. destruct (IH m1 m' T1 EO) as (I1 & I2 & I3). rewrite I1, I2. split; [|split; [congruence|auto]].
  destruct E2 as [->|(r0 & k' & l & G & _ & E2 & -> & _)]; auto. rewrite answers_app. assert (X : answers_in l = 0); [|lia].
  destruct E2 as [->|(d & ->)]; reflexivity.
Qed.

Section Turns.
Context {S : Type}.
Variables (A : alloc_fn S) (c : mcfg).
(** A turn that goes on *)
Lemma turn_answers v s m m' : table_ok c m -> iterate c (fst (turn_of A c v s m)) m = (m', CGo) ->
  table_ok c m' /\ map w_id (m_W m') = map w_id (m_W m) /\ answers_in (m_log m) <= answers_in (m_log m') /\
  ((exists w a t, In (w, IData a, t) (v_msgs v) /\ In w (map w_id (m_W m))) -> answers_in (m_log m) < answers_in (m_log m')) /\
  (any_active m' = true \/ exists n, term_test c (v_elapsed2 v) m' = Ok (Datatypes.S n)).
Proof.
  intros T. unfold turn_of. destruct (bindx (kill_cancelled c m) (receive c (v_msgs v))) as [m1 e1] eqn:E1. cbn [fst snd].
  destruct (A v s m1) as [out s'] eqn:EA. unfold iterate. cbn [fst it_elapsed it_msgs it_alloc it_elapsed2].
  destruct (term_test c (v_elapsed v) m) as [[|n]|e0]; [|discriminate|discriminate]. rewrite E1. destruct e1 as [e1|]; [discriminate|].
  destruct (kill_cancelled c m) as [mk [ek|]] eqn:EK; cbn [bindx] in E1; [discriminate|].
  assert (Tk : table_ok c mk) by (unfold table_ok; rewrite (kill_table _ _ _ _ EK); exact T).
  apply kill_answers in EK as [K1 K2]. destruct (receive_answers c (v_msgs v) mk m1 Tk E1) as (R1 & R2 & R3).
  assert (T1 : table_ok c m1).
  { clear - Tk E1. revert mk m1 Tk E1. unfold receive. induction (v_msgs v) as [|[[w i] t] msgs IH]; intros mk m1 Tk; cbn [foldx]; [intros [= <-]; auto|].
    destruct (poll c (w, i, t) mk) as [m2 [e1|]] eqn:E; cbn [bindx]; [discriminate|]. apply poll_table in E as [T2 _]; auto. now apply IH. }
  unfold alloc_work. cbn [it_edit it_alloc]. change (set_h m1 (alloc_edit (fun i r => nth i (o_rows out) r) (m_h m1))) with (edited m1 out).
  destruct (result_of v out) as [eo| |ws]; [discriminate|destruct (_ && _); discriminate|].
  destruct (_ && _); [discriminate|].
  destruct (give_orders c _ _) as [m3 [e3|]] eqn:EG; [discriminate|]. apply orders_answers in EG as (G1 & G2 & G3); [|exact T1].
  change (m_log (edited m1 out)) with (m_log m1) in G1. change (m_W (edited m1 out)) with (m_W m1) in G2.
  intros E. assert (m' = m3) as ->. { destruct (term_test c (v_elapsed2 v) m3) as [[|n]|e4]; [destruct (any_active m3)| |]; congruence. }
  split; auto. split; [congruence|]. split; [lia|]. split.
  - rewrite K1, K2 in *. intros H. specialize (R3 H). lia.
  - destruct (term_test c (v_elapsed2 v) m3) as [[|n]|e4]; [|eauto|discriminate]. destruct (any_active m3); [auto|discriminate].
Qed.

Lemma turns_answers vs : forall s m m', table_ok c m -> driven_loop A c vs s m = (m', CGo) ->
  table_ok c m' /\ map w_id (m_W m') = map w_id (m_W m) /\ answers_in (m_log m) <= answers_in (m_log m') /\
  ((forall v, In v vs -> exists w a t, In (w, IData a, t) (v_msgs v) /\ In w (map w_id (m_W m))) -> answers_in (m_log m) + length vs <= answers_in (m_log m')) /\
  (vs <> [] -> any_active m' = true \/ exists v vs1 n, vs = vs1 ++ [v] /\ term_test c (v_elapsed2 v) m' = Ok (Datatypes.S n)).
Proof.
  induction vs as [|v vs IH]; intros s m m' T; cbn [driven_loop].
  { intros [= <-]. split; auto. split; auto. split; auto. split; [cbn; intros; lia|congruence]. }
  destruct (turn_of A c v s m) as [it s'] eqn:ET. assert (Ei : it = fst (turn_of A c v s m)) by now rewrite ET. rewrite Ei. clear Ei ET.
  destruct (iterate c (fst (turn_of A c v s m)) m) as [m1 y] eqn:EI. destruct y; [|discriminate|discriminate]. intros E.
  destruct (turn_answers v s m m1 T EI) as (A1 & A2 & A3 & A4 & A5). destruct (IH s' m1 m' A1 E) as (B1 & B2 & B3 & B4 & B5). rewrite A2 in *.
  split; auto. split; auto. split; [lia|]. split.
  - intros H. cbn [length]. specialize (A4 (H v (or_introl eq_refl))). specialize (B4 (fun v0 Hv => H v0 (or_intror Hv))). lia.
  - intros _. destruct vs as [|v' vs].
    + cbn [driven_loop] in E. injection E as <-. destruct A5 as [A5|(n & A5)]; auto. right. exists v, [], n. auto.
    + destruct B5 as [B5|(v0 & vs1 & n & -> & B5)]; [discriminate|auto|]. right. exists v0, (v :: vs1), n. auto.
Qed.
End Turns.

(** ** How the loop ends *)
Lemma default_flag x d u now stop g H : o_flag (give_sim_work_first x d u now stop g H) = 0.
Proof.
  unfold give_sim_work_first. destruct stop; auto. destruct (to_evaluate _) as [|i l]; destruct (avail_workers _ _ _ _ _) as [ws|]; auto.
  - destruct (gen_loop _ _ _ _ _ _ _) as [[wk s1] e]; auto.
  - destruct (sim_loop _ _ _ _ _ _ _ _ _) as [[[wk s1] pts] e]; auto.
Qed.
Lemma default_stop c a u vs : forall s m m', driven_loop (default_alloc c a u) c vs s m = (m', CStop) -> exists v n, In v vs /\ term_test c (v_elapsed v) m' = Ok (S n).
Proof.
  induction vs as [|v vs IH]; intros s m m'; cbn [driven_loop]; [discriminate|].
  destruct (turn_of (default_alloc c a u) c v s m) as [it s'] eqn:ET. destruct (iterate c it m) as [m1 y] eqn:EI. destruct y; [| |discriminate].
  - intros E. destruct (IH _ _ _ E) as (v' & n & H1 & H2). exists v', n. split; auto. now right.
  - intros [= <-]. exists v. unfold turn_of in ET. destruct (default_alloc c a u v s _) as [out s1] eqn:EA in ET. injection ET as <- <-.
    revert EI. unfold iterate. cbn [it_elapsed it_msgs it_alloc it_elapsed2]. destruct (term_test c (v_elapsed v) m) as [[|n]|e1] eqn:Et; [|intros [= <-]; exists n; split; [now left|exact Et]|discriminate].
    destruct (bindx _ _) as [m2 [e2|]]; [discriminate|]. cbn [fst] in EA. unfold alloc_work. cbn [it_alloc]. unfold result_of.
    unfold default_alloc in EA. cbn zeta in EA. injection EA as EA _.
    assert (EF : o_flag out = 0) by (rewrite <- EA; apply default_flag). rewrite EF. cbn [Nat.eqb].
    destruct (o_err out); [discriminate|]. destruct (_ && _); [discriminate|]. destruct (give_orders _ _ _) as [m3 [e3|]]; [discriminate|].
    destruct (term_test c (v_elapsed2 v) m3) as [[|k]|e4]; [destruct (any_active m3)| |]; discriminate.
Qed.
