(** C76: runs in which start_only_persistent decides the work end. *)
From Coq Require Import String Permutation.
From Verif Require Import Base BaseLemmas HistoryModel HistorySpec HistoryProofs HistoryInv HistoryInv2 HistoryRun HistoryRun2 HistoryRun3 HistoryBack RsetModel RsetSpec WorkModel SchedModel SchedSpec AllocModel AllocSpec ManagerModel ManagerSpec ManagerProofs ManagerRun ManagerInv ManagerRes DrivenModel DrivenSpec DrivenProofs DrivenInv DrivenPoints DrivenRes DrivenSets DrivenGens DrivenOrders DrivenTrace DrivenEnds DrivenEnds2 PersisEndsSpec PersisHist PersisTrace PersisEnds PersisRun HistoryExamples PropsResources ManagerExamples PropsManager PropsDriven PropsDrivenRes PropsDrivenGens PropsDrivenOrders PropsDrivenEnds.
Local Notation length := List.length.
Local Open Scope nat_scope.

(** The runs spoken of: neither resource sets nor active receive mode nor alternative
    batch modes are in use, at least one generator is asked for, the columns
    asked for exist, sim_max is not 0, and the workers suffice. With kill
    signals, points are given out one by one. *)
Definition persistent_run (c : mcfg) (a : asetup) (u : puser) (h : hist) (W : list wrow) : Prop :=
  u_manage a = false /\ pu_recv u = false /\ pu_alt u = false /\ 1 <= pu_num_gens u /\ columns_asked a h /\ u_persis_in a <> [] /\
  (c_kill c = true -> pu_batch_give u = false) /\ c_sim_max c <> Some 0 /\ enough_workers (pu_num_gens u) W.
(** What the workers and the user's functions are taken to do. *)
Definition traffic_in_turn (l : list event) : Prop := answers_in_turn l /\ cancels_nothing l /\ unnumbered l /\ points_each_time l.

Lemma init_flags m outs H0 safe k f : In f [F_sim_started; F_cancel_requested; F_sim_ended; F_gen_informed] -> H0_scalar H0 -> length (a_rows H0) <= k -> ~ is_set (init_history m outs H0 safe) k f.
Proof.
  intros H2 Hs Hk (v & Hv & Ht). pose proof (cell_Some_lt _ _ _ _ Hv) as Hl. rewrite init_length in Hl.
  unfold cell in Hv. rewrite init_tail in Hv by lia. cbn in Hv.
  assert (Hf : In f (names libE_fields)) by (cbn in H2; intuition (subst; cbn; tauto)).
  pose proof (init_shape m outs H0 safe f Hs Hf) as X. rewrite init_dtype_eq in X.
  cbn in H2. destruct H2 as [<-|[<-|[<-|[<-|[]]]]]; cbn in Hv; unfold zero_row in Hv; rewrite X in Hv; injection Hv as <-; discriminate.
Qed.

Lemma start_persis c a u single outs n zeros gens pin p : let m0 := init_manager c (fresh_history c outs no_H0 false) n zeros gens None pin in
  persistent_run c a u (m_h m0) (m_W m0) -> pi_gens_started p = 0 -> Jo c a True m0 /\ Jp c single (pu_num_gens u) p m0.
Proof.
  intros m0 (H1 & H2 & H3 & H4 & [H5 H5'] & H6 & H7 & H8 & H9) Hp. split.
  { apply init_orders; [discriminate|congruence|exact H5'| |reflexivity]. intros _. eapply enough_plain; eauto. }
  assert (HM : exists M, 0 < M /\ fresh_history c outs no_H0 false = init_history M outs no_H0 false).
  { unfold fresh_history. destruct (c_sim_max c) as [M|]; eexists; split; try reflexivity; [|lia]. destruct M; [congruence|lia]. }
  destruct HM as (M & M0 & EM). destruct (init_counts M outs no_H0 false) as (I1 & _ & _ & _ & I2 & _).
  assert (W0 : forall r, In r (m_W m0) -> w_active r = 0 /\ w_persis r = 0 /\ w_recv r = false) by (intros r Hr; eapply init_workers_idle; exact Hr).
  assert (F : forall i f, In f [F_sim_started; F_cancel_requested; F_sim_ended; F_gen_informed] -> ~ is_set (m_h m0) i f).
  { intros i f Hf. unfold m0. cbn [m_h init_manager]. rewrite EM. apply init_flags; [exact Hf|exact calm_scalar|cbn; lia]. }
  assert (E0 : m_log m0 = []) by reflexivity. assert (Eh : m_h m0 = init_history M outs no_H0 false) by exact EM.
  split.
  - split; [split; [apply init_table|intros [|? ?] ? ? [=]]|]. split; [apply init_cnt|]. split; [reflexivity|]. split; [intros r Hr; now apply W0|]. split; [reflexivity|].
    split; [rewrite E0, Eh; cbn [points_out]; lia|]. split; [exact H9|]. intros _. split; [|split; [|rewrite E0; cbn; lia]].
    + split; [|reflexivity]. intros r Hr. destruct (W0 r Hr) as (A & B & _). rewrite E0. cbn. auto.
    + rewrite E0. cbn [points_sent rows_back].
      split; [rewrite Eh; apply init_prov; [lia|exact calm_scalar|]|].
      { intros k r Hk. destruct k; discriminate. }
      split; [rewrite Eh, I1; cbn; lia|].
      split; [intros i Hi; exfalso; eapply F; [|exact Hi]; cbn; auto|].
      split; [intros i Hi; exfalso; eapply F; [|exact Hi]; cbn; auto|].
      split; [intros i Hi; exfalso; eapply F; [|exact Hi]; cbn; auto|].
      split; [intros i Hi; exfalso; eapply F; [|exact Hi]; cbn; auto|].
      split; [intros i; split; [intros Hi; exfalso; eapply F; [|exact Hi]; cbn; auto|intros []]|]. intros i [].
  - intros _. right. left. split; auto. split; [intros r Hr; destruct (W0 r Hr) as (A & B & _); auto|]. split; [rewrite Eh; exact I1|reflexivity].
Qed.

Lemma persis_main c a u single outs n zeros gens pin vs s m x : let m0 := init_manager c (fresh_history c outs no_H0 false) n zeros gens None pin in
  persistent_run c a u (m_h m0) (m_W m0) -> pi_gens_started (snd s) = 0 -> (single = true -> pu_batch_give u = false) -> Forall (fun v => set_order (v_ord v)) vs ->
  driven_loop (persistent_alloc c a u) c vs s m0 = (m, x) -> traffic_in_turn (m_log m) ->
  LT c (Qp single (pu_num_gens u) (c_sim_max c)) m /\
  match x with
  | CGo => exists p, Jp c single (pu_num_gens u) p m
  | CStop => exists v, In v vs /\ ((exists n, term_test c (v_elapsed v) m = Ok (Datatypes.S n)) \/ gen_ended (m_log m))
  | CExc e => exists vs1 v vs2 m1, vs = (vs1 ++ v :: vs2)%list /\ driven_loop (persistent_alloc c a u) c vs1 s m0 = (m1, CGo) /\
      (term_test c (v_elapsed v) m1 = Err e \/ snd (bindx (kill_cancelled c m1) (receive c (v_msgs v))) = Some e \/ term_test c (v_elapsed2 v) m = Err e)
  end.
Proof.
  intros m0 HR Hs H1 HV E HT. destruct (start_persis c a u single outs n zeros gens pin (snd s) HR Hs) as [J1 J2]. fold m0 in J1, J2.
  destruct HR as (R1 & R2 & R3 & R4 & [R5 R5'] & R6 & R7 & R8 & R9).
  destruct (persis_loop c single a u R1 R2 R3 H1 R4 R5 R6 R7 vs HV s m0 m x J1 (fun _ => J2) E HT) as (_ & B & C). split; auto.
  destruct x as [| |e]; auto.
  - destruct C as (v & C1 & _ & C2). eauto.
  - destruct C as (vs1 & v & vs2 & s1 & m1 & C1 & C2 & _ & C3). eauto 10.
Qed.

(** The loop does not end in an error of its own: it raises only when the test of
    the exit criteria fails (stop_val names a column that does not exist) or when a
    kill signal or a message cannot be dealt with (a worker reported a failure). *)
Theorem C76_persistent_never_stuck : forall c a u outs n zeros gens pin vs s m e,
  let m0 := init_manager c (fresh_history c outs no_H0 false) n zeros gens None pin in
  persistent_run c a u (m_h m0) (m_W m0) -> pi_gens_started (snd s) = 0 -> Forall (fun v => set_order (v_ord v)) vs ->
  driven_loop (persistent_alloc c a u) c vs s m0 = (m, CExc e) -> traffic_in_turn (m_log m) ->
  exists vs1 v vs2 m1, vs = (vs1 ++ v :: vs2)%list /\ driven_loop (persistent_alloc c a u) c vs1 s m0 = (m1, CGo) /\
    (term_test c (v_elapsed v) m1 = Err e \/ snd (bindx (kill_cancelled c m1) (receive c (v_msgs v))) = Some e \/ term_test c (v_elapsed2 v) m = Err e).
Proof.
  intros c a u outs n zeros gens pin vs s m e m0 HR Hs HV E HT. exact (proj2 (persis_main c a u false outs n zeros gens pin vs s m (CExc e) HR Hs ltac:(discriminate) HV E HT)).
Qed.
Print Assumptions C76_persistent_never_stuck.

(** While the loop goes on, there is something to wait for: a worker that was sent
    an order and has not answered. Otherwise an exit criterion is met already. *)
Theorem C76_persistent_someone_works : forall c a u outs n zeros gens pin vs v s m,
  let m0 := init_manager c (fresh_history c outs no_H0 false) n zeros gens None pin in
  persistent_run c a u (m_h m0) (m_W m0) -> pi_gens_started (snd s) = 0 -> Forall (fun v => set_order (v_ord v)) (vs ++ [v]) ->
  driven_loop (persistent_alloc c a u) c (vs ++ [v]) s m0 = (m, CGo) -> traffic_in_turn (m_log m) ->
  (exists w k, In w (map w_id (m_W m)) /\ open_order w (m_log m) = Some k) \/ (exists x, term_test c (v_elapsed2 v) m = Ok (Datatypes.S x)).
Proof.
  intros c a u outs n zeros gens pin vs v s m m0 HR Hs HV E HT.
  destruct (persis_main c a u false outs n zeros gens pin (vs ++ [v]) s m CGo HR Hs ltac:(discriminate) HV E HT) as (_ & p & J & _).
  destruct J as (_ & _ & _ & _ & _ & _ & _ & J). destruct (J HT) as ([K _] & _ & _).
  apply turns_answers in E as (_ & _ & _ & _ & E); [|apply init_table].
  destruct (E ltac:(now destruct vs)) as [Ha|(v1 & vs1 & x & Ev & Ex)].
  - left. unfold any_active in Ha. apply existsb_exists in Ha as (r & Hr & Ha). destruct (K r Hr) as (K1 & _).
    destruct (open_order (w_id r) (m_log m)) as [k|] eqn:Eo; [exists (w_id r), k; split; auto; now apply in_map|].
    rewrite K1 in Ha. discriminate.
  - right. apply app_inj_tail in Ev as [_ ->]. eauto.
Qed.
Print Assumptions C76_persistent_someone_works.

(** Each result goes back to a generator once at most, only points that were
    given out do, and no more generators are started than asked for. *)
Theorem C76_persistent_results_once : forall c a u outs n zeros gens pin vs s m x,
  let m0 := init_manager c (fresh_history c outs no_H0 false) n zeros gens None pin in
  persistent_run c a u (m_h m0) (m_W m0) -> pi_gens_started (snd s) = 0 -> Forall (fun v => set_order (v_ord v)) vs ->
  driven_loop (persistent_alloc c a u) c vs s m0 = (m, x) -> traffic_in_turn (m_log m) ->
  NoDup (rows_back (m_log m)) /\ incl (rows_back (m_log m)) (points_sent (m_log m)) /\ gen_starts (m_log m) <= pu_num_gens u /\
  gen_calls (m_log m) <= gen_starts (m_log m) + length (rows_back (m_log m)).
Proof.
  intros c a u outs n zeros gens pin vs s m x m0 HR Hs HV E HT.
  destruct (persis_main c a u false outs n zeros gens pin vs s m x HR Hs ltac:(discriminate) HV E HT) as ([_ HL] & _).
  destruct (Qp_counts _ _ _ _ HL HT) as (C1 & C2 & C3 & C4 & _). auto.
Qed.
Print Assumptions C76_persistent_results_once.

(** With sim_max = N: never more than 2N orders, plus one per generator, and no
    more answers than orders. *)
Theorem C76_persistent_work_bounded : forall c a u N outs n zeros gens pin vs s m x,
  let m0 := init_manager c (fresh_history c outs no_H0 false) n zeros gens None pin in
  persistent_run c a u (m_h m0) (m_W m0) -> pi_gens_started (snd s) = 0 -> Forall (fun v => set_order (v_ord v)) vs ->
  c_sim_max c = Some N -> pu_batch_give u = false ->
  driven_loop (persistent_alloc c a u) c vs s m0 = (m, x) -> traffic_in_turn (m_log m) ->
  answers_in (m_log m) <= orders_sent (m_log m) /\ orders_sent (m_log m) <= 2 * N + pu_num_gens u.
Proof.
  intros c a u N outs n zeros gens pin vs s m x m0 HR Hs HV HN Hb E HT.
  destruct (persis_main c a u true outs n zeros gens pin vs s m x HR Hs (fun _ => Hb) HV E HT) as ([_ HL] & _).
  pose proof (Qp_fair _ _ _ _ HL HT) as HF. destruct (balanceP (c_ret_sim c) _ HF (proj1 HT)) as (B1 & _).
  pose proof (Qp_orders _ _ _ _ N HL HT eq_refl HN) as B2. split; lia.
Qed.
Print Assumptions C76_persistent_work_bounded.

(** So the loop ends: it does not go on after 2N turns (plus one per generator) in
    which an answer arrives; one more turn starts the generators. *)
Theorem C76_persistent_turns_bounded : forall c a u N outs n zeros gens pin v0 vs s m,
  let m0 := init_manager c (fresh_history c outs no_H0 false) n zeros gens None pin in
  persistent_run c a u (m_h m0) (m_W m0) -> pi_gens_started (snd s) = 0 -> Forall (fun v => set_order (v_ord v)) (v0 :: vs) ->
  c_sim_max c = Some N -> pu_batch_give u = false -> (forall v, In v vs -> brings_answer m0 v) ->
  driven_loop (persistent_alloc c a u) c (v0 :: vs) s m0 = (m, CGo) -> traffic_in_turn (m_log m) ->
  length vs <= 2 * N + pu_num_gens u.
Proof.
  intros c a u N outs n zeros gens pin v0 vs s m m0 HR Hs HV HN Hb Hbr E HT.
  destruct (C76_persistent_work_bounded c a u N outs n zeros gens pin (v0 :: vs) s m CGo HR Hs HV HN Hb E HT) as [B1 B2].
  cbn [driven_loop] in E. destruct (turn_of (persistent_alloc c a u) c v0 s m0) as [it s'] eqn:ET. assert (Ei : it = fst (turn_of (persistent_alloc c a u) c v0 s m0)) by now rewrite ET.
  rewrite Ei in E. clear Ei ET. destruct (iterate c (fst (turn_of (persistent_alloc c a u) c v0 s m0)) m0) as [m1 y] eqn:EI. destruct y; [|discriminate|discriminate].
  destruct (turn_answers _ c v0 s m0 m1 (init_table _ _ _ _ _ _ _) EI) as (A1 & A2 & _). destruct (turns_answers _ c vs s' m1 m A1 E) as (_ & _ & _ & A4 & _).
  specialize (A4 ltac:(intros v Hv; rewrite A2; exact (Hbr v Hv))). lia.
Qed.
Print Assumptions C76_persistent_turns_bounded.

(** When the loop ends regularly and sim_max = N is the only criterion, the results
    of N points have come in or a generator has ended. *)
Theorem C76_persistent_completes : forall c a u N outs n zeros gens pin vs s m,
  let m0 := init_manager c (fresh_history c outs no_H0 false) n zeros gens None pin in
  persistent_run c a u (m_h m0) (m_W m0) -> pi_gens_started (snd s) = 0 -> Forall (fun v => set_order (v_ord v)) vs ->
  c_sim_max c = Some N -> c_wall c = None -> c_gen_max c = None -> c_stop c = None ->
  driven_loop (persistent_alloc c a u) c vs s m0 = (m, CStop) -> traffic_in_turn (m_log m) ->
  N <= results_in (c_ret_sim c) (m_log m) \/ gen_ended (m_log m).
Proof.
  intros c a u N outs n zeros gens pin vs s m m0 HR Hs HV HN Hw Hg Hst E HT.
  destruct (persis_main c a u false outs n zeros gens pin vs s m CStop HR Hs ltac:(discriminate) HV E HT) as (_ & v & _ & [(k & Et)|Et]); [left|auto].
  destruct (driven_main (persistent_alloc c a u) c vs s m0) as (its & Ei & _).
  rewrite <- Ei in E. destruct (proj1 (C07_sim_max_counts_results c its outs no_H0 false n zeros gens None pin m CStop E ltac:(discriminate))) as (N' & HN' & HL); [|congruence].
  unfold term_test in Et. rewrite Hw, HN, Hg, Hst in Et. exists N. split; auto.
  destruct (Nat.leb_spec (N + h_ended_off (m_h m)) (h_ended (m_h m))); [lia|discriminate].
Qed.
Print Assumptions C76_persistent_completes.

(** Together: with sim_max = N as the only criterion, once an answer has arrived in
    more than 2N turns (plus one per generator), the loop has ended regularly with
    the results of N points or because a generator has ended, unless a worker
    reported a failure. *)
Theorem C76_persistent_run_completes : forall c a u N outs n zeros gens pin v0 vs s m x,
  let m0 := init_manager c (fresh_history c outs no_H0 false) n zeros gens None pin in
  persistent_run c a u (m_h m0) (m_W m0) -> pi_gens_started (snd s) = 0 -> Forall (fun v => set_order (v_ord v)) (v0 :: vs) ->
  c_sim_max c = Some N -> c_wall c = None -> c_gen_max c = None -> c_stop c = None -> pu_batch_give u = false ->
  (forall v, In v vs -> brings_answer m0 v) -> 2 * N + pu_num_gens u < length vs ->
  driven_loop (persistent_alloc c a u) c (v0 :: vs) s m0 = (m, x) -> traffic_in_turn (m_log m) ->
  x = CStop /\ (N <= results_in (c_ret_sim c) (m_log m) \/ gen_ended (m_log m)) \/
  exists vs1 v vs2 m1 e, v0 :: vs = (vs1 ++ v :: vs2)%list /\ driven_loop (persistent_alloc c a u) c vs1 s m0 = (m1, CGo) /\ x = CExc e /\
    snd (bindx (kill_cancelled c m1) (receive c (v_msgs v))) = Some e.
Proof.
  intros c a u N outs n zeros gens pin v0 vs s m x m0 HR Hs HV HN Hw Hg Hst Hb Hbr HL E HT. destruct x as [| |e].
  - pose proof (C76_persistent_turns_bounded c a u N outs n zeros gens pin v0 vs s m HR Hs HV HN Hb Hbr E HT) as B. lia.
  - left. split; auto. exact (C76_persistent_completes c a u N outs n zeros gens pin (v0 :: vs) s m HR Hs HV HN Hw Hg Hst E HT).
  - right. assert (T : forall t mm, term_test c t mm <> Err e).
    { intros t mm. unfold term_test. rewrite Hw, HN, Hg, Hst. destruct (_ <=? _); discriminate. }
    destruct (C76_persistent_never_stuck c a u outs n zeros gens pin (v0 :: vs) s m e HR Hs HV E HT) as (vs1 & v & vs2 & m1 & A1 & A2 & A3).
    exists vs1, v, vs2, m1, e. split; auto. split; auto. split; auto.
    destruct A3 as [A3|[A3|A3]]; [destruct (T _ _ A3)|exact A3|destruct (T _ _ A3)].
Qed.
Print Assumptions C76_persistent_run_completes.

(** ** Cases *)
(** Checks of the traffic, for the cases below. *)
Definition turn_ok (p : list event) (e : event) : bool :=
  match e with
  | Got w (IData a) =>
      match open_order w p with
      | Some k => (n_type a =? k_tag k) && (negb (k_tag k =? EVAL_SIM) || same_rows (n_rows a) (k_rows k) && negb (n_persistent a)) &&
                  negb (n_keep a) && negb (n_status a =? FIN_PERSIS_SIM) && (negb (n_status a =? FIN_PERSIS_GEN) || (n_type a =? EVAL_GEN))
      | None => false
      end &&
      match n_out a with
      | UArr D => negb (existsb protected (names (a_dtype D))) && negb (has F_cancel_requested (names (a_dtype D))) && negb (has F_sim_id (names (a_dtype D)))
      | _ => true
      end
  | _ => true
  end.
Definition brings_ok (e : event) : bool :=
  match e with
  | Got w (IData a) => negb (n_type a =? EVAL_GEN) || (n_status a =? FIN_PERSIS_GEN) || match n_out a with UArr D => negb (match a_rows D with [] => true | _ => false end) | _ => false end
  | _ => true
  end.
Fixpoint turns_ok (p l : list event) : bool := match l with [] => true | e :: l' => turn_ok p e && turns_ok (p ++ [e]) l' end.
Lemma turns_each l : forall p, turns_ok p l = true -> forall q e r, l = (q ++ e :: r)%list -> turn_ok (p ++ q) e = true.
Proof.
  induction l as [|x l IH]; intros p H q e r E; [now destruct q|]. cbn in H. apply andb_true_iff in H as [H1 H2]. destruct q as [|y q]; injection E as -> E.
  - now rewrite app_nil_r.
  - specialize (IH _ H2 q e r E). now rewrite <- app_assoc in IH.
Qed.
Lemma turns_fine l : turns_ok [] l = true -> answers_in_turn l /\ cancels_nothing l /\ unnumbered l.
Proof.
  intros H. assert (K : forall p w a q, l = (p ++ Got w (IData a) :: q)%list -> turn_ok p (Got w (IData a)) = true) by (intros p w a q E; exact (turns_each l [] H p _ q E)).
  cbn [turn_ok] in K. split; [|split].
  - intros p w a q E. specialize (K p w a q E). apply andb_true_iff in K as [K _]. destruct (open_order w p) as [k|]; [|discriminate].
    apply andb_true_iff in K as [K K5]. apply andb_true_iff in K as [K K4]. apply andb_true_iff in K as [K K3]. apply andb_true_iff in K as [K1 K2].
    apply Nat.eqb_eq in K1. apply negb_true_iff in K3, K4. apply Nat.eqb_neq in K4. split.
    + exists k. split; auto. split; auto. intros Hk. rewrite Hk in K2. cbn in K2. apply andb_true_iff in K2 as [K2 K6]. apply negb_true_iff in K6.
      unfold same_rows in K2. destruct (list_eq_dec _ _ _); [auto|discriminate].
    + split; auto. split; auto. intros Hf. rewrite Hf in K5. cbn in K5. now apply Nat.eqb_eq in K5.
  - intros w a D Hin EO. apply in_split in Hin as (p & q & E). specialize (K p w a q E). rewrite EO in K. apply andb_true_iff in K as [_ K].
    apply andb_true_iff in K as [K _]. apply andb_true_iff in K as [K1 K2]. apply negb_true_iff in K1, K2. split.
    + intros (f & Hf & Hp). assert (X : existsb protected (names (a_dtype D)) = true) by (apply existsb_exists; eauto). congruence.
    + intros Hf. apply has_In in Hf. congruence.
  - intros w a D Hin EO. apply in_split in Hin as (p & q & E). specialize (K p w a q E). rewrite EO in K. apply andb_true_iff in K as [_ K].
    apply andb_true_iff in K as [_ K]. apply negb_true_iff in K. intros Hf. apply has_In in Hf. congruence.
Qed.
Lemma brings_fine l : forallb brings_ok l = true -> points_each_time l.
Proof.
  intros H w a Hin Ht Hf. rewrite forallb_forall in H. specialize (H _ Hin). cbn in H. rewrite Ht in H. cbn in H. apply Nat.eqb_neq in Hf. rewrite Hf in H. cbn in H.
  destruct (n_out a) as [|D|]; [discriminate| |discriminate]. exists D. split; auto. destruct (a_rows D); [discriminate|discriminate].
Qed.
Lemma all_fine l : turns_ok [] l && forallb brings_ok l = true -> traffic_in_turn l.
Proof. intros H. apply andb_true_iff in H as [H1 H2]. destruct (turns_fine l H1) as (A & B & C). repeat (split; auto). now apply brings_fine. Qed.

Definition c4 : mcfg := cfg (Some 4) None false.
Definition fresh_info : nat * pinfo := (0, mkPI 0 0 0).
Lemma calm_enough c : c_gom c = false -> enough_workers 1 (m_W (m_calm c)).
Proof.
  intros Hg.
  assert (Z : forall r, In r (m_W (m_calm c)) -> w_zero r = false /\ w_gen r = false).
  { intros r Hr. assert (X : forallb (fun r => negb (w_zero r) && negb (w_gen r)) (m_W (m_calm c)) = true) by (unfold m_calm; cbn; rewrite Hg; reflexivity).
    rewrite forallb_forall in X. specialize (X r Hr). apply andb_true_iff in X as [X1 X2]. now apply negb_true_iff in X1, X2. }
  assert (MG : forall r, may_gen (m_W (m_calm c)) r /\ (In r (m_W (m_calm c)) -> may_sim (m_W (m_calm c)) r)).
  { intros r. split; [|intros Hr; destruct (Z r Hr); split; auto]. split; intros (q & Hq & Eq); destruct (Z q Hq); congruence. }
  assert (HR : exists r1 r2, In r1 (m_W (m_calm c)) /\ In r2 (m_W (m_calm c)) /\ w_id r1 = 1 /\ w_id r2 = 2).
  { unfold m_calm. cbn. rewrite Hg. cbn. do 2 eexists. split; [left; reflexivity|]. split; [right; left; reflexivity|]. auto. }
  destruct HR as (r1 & r2 & A1 & A2 & B1 & B2). split; [exists r1; split; auto; apply MG|]. right. exists [1; 2]. split; [repeat constructor; cbn; intuition discriminate|]. split; [cbn; lia|].
  intros w [<-|[<-|[]]]; [exists r1|exists r2]; split; auto; split; auto; now apply MG.
Qed.
Lemma calm_run c u : c_gom c = false -> c_sim_max c <> Some 0 -> pu_recv u = false -> pu_alt u = false -> pu_batch_give u = false -> pu_num_gens u = 1 ->
  persistent_run c plain_setup u (m_h (m_calm c)) (m_W (m_calm c)).
Proof.
  intros Hg Hn H1 H2 H3 H4. split; [reflexivity|]. split; [exact H1|]. split; [exact H2|]. split; [rewrite H4; lia|]. split; [apply calm_columns|]. split; [discriminate|].
  split; [now intros _|]. split; [exact Hn|]. rewrite H4. now apply calm_enough.
Qed.

(** sim_max = 4, in rounds: the generator makes two points, gets their results
    back together, and makes two more; once the results of these are in, the loop
    has ended. What arrives later is not read. *)
Definition in_rounds : puser := mkPU false 0 false false false 1.
Definition d_rounds : list surr :=
  [here 2 [(1, persis_answer [10; 20]%Z)]; here 3 [(2, sim_answer [0] [100]%Z)]; here 4 [(3, sim_answer [1] [101]%Z)]; here 5 [(1, persis_answer [30; 40]%Z)];
   here 6 [(2, sim_answer [2] [102]%Z)]; here 7 [(3, sim_answer [3] [103]%Z)]; here 8 [(1, persis_end)]; here 9 [(1, persis_end)]; here 10 [(1, persis_end)]; here 11 [(1, persis_end)]].
Definition r_rounds u k := driven_loop (persistent_alloc c4 plain_setup u) c4 (here 1 [] :: firstn k d_rounds) fresh_info (m_calm c4).
Lemma d_rounds_orders k : Forall (fun v => set_order (v_ord v)) (here 1 [] :: firstn k d_rounds).
Proof.
  apply Forall_cons; [apply here_order|]. apply Forall_forall. intros v Hv. assert (Hv' : In v d_rounds) by (rewrite <- (firstn_skipn k); apply in_app_iff; now left).
  cbn [d_rounds In] in Hv'. repeat (destruct Hv' as [<-|Hv']; [apply here_order|]). destruct Hv'.
Qed.
Lemma d_rounds_brings c : c_gom c = false -> forall v, In v d_rounds -> brings_answer (m_calm c) v.
Proof.
  intros Hg v Hv. assert (Ew : map w_id (m_W (m_calm c)) = [1; 2; 3]) by (unfold m_calm; cbn; now rewrite Hg). unfold brings_answer. rewrite Ew.
  cbn [d_rounds In] in Hv. repeat (destruct Hv as [<-|Hv]; [cbn; eexists _, _, _; split; [left; reflexivity|cbn; auto]|]). destruct Hv.
Qed.
Example C76_rounds_case :
  persistent_run c4 plain_setup in_rounds (m_h (m_calm c4)) (m_W (m_calm c4)) /\ pi_gens_started (snd fresh_info) = 0 /\
  Forall (fun v => set_order (v_ord v)) (here 1 [] :: d_rounds) /\ (forall v, In v d_rounds -> brings_answer (m_calm c4) v) /\
  2 * 4 + pu_num_gens in_rounds < length d_rounds /\
  let l := m_log (fst (r_rounds in_rounds 10)) in
  traffic_in_turn l /\ snd (r_rounds in_rounds 10) = CStop /\ results_in false l = 4 /\ rows_back l = [0; 1] /\ points_sent l = [0; 1; 2; 3] /\
  gen_starts l = 1 /\ gen_calls l = 2 /\ orders_sent l = 6 /\ answers_in l = 6.
Proof.
  split; [apply calm_run; auto; discriminate|]. split; [reflexivity|]. split; [exact (d_rounds_orders 10)|]. split; [now apply d_rounds_brings|]. split; [cbn; lia|].
  split; [apply all_fine; vm_compute; reflexivity|]. vm_compute. auto 20.
Qed.

(** In between: after the second round of points, two simulations are out and the
    generator waits. *)
Example C76_waiting_case :
  let l := m_log (fst (r_rounds in_rounds 4)) in
  traffic_in_turn l /\ snd (r_rounds in_rounds 4) = CGo /\
  map (fun w => match open_order w l with Some k => k_rows k | None => [] end) [1; 2; 3] = [[]; [2]; [3]].
Proof. split; [apply all_fine; vm_compute; reflexivity|]. vm_compute. auto. Qed.

(** Results returned at once: one generator order per message, as far as the
    generator keeps up. *)
Example C76_async_case :
  persistent_run c4 plain_setup p_opts (m_h (m_calm c4)) (m_W (m_calm c4)) /\
  let l := m_log (fst (r_rounds p_opts 10)) in
  traffic_in_turn l /\ snd (r_rounds p_opts 10) = CStop /\ results_in false l = 4 /\ rows_back l = [0; 1] /\ gen_calls l = 3 /\ orders_sent l = 7 /\ answers_in l = 6.
Proof.
  split; [apply calm_run; auto; discriminate|]. split; [apply all_fine; vm_compute; reflexivity|]. vm_compute. auto 20.
Qed.

(** A generator that ends by itself ends the run. *)
Example C76_ended_case :
  let r := driven_loop (persistent_alloc c4 plain_setup in_rounds) c4 [here 1 []; here 2 [(1, persis_end)]; here 3 []] fresh_info (m_calm c4) in
  traffic_in_turn (m_log (fst r)) /\ snd r = CStop /\ gen_ended (m_log (fst r)) /\ results_in false (m_log (fst r)) = 0.
Proof.
  split; [apply all_fine; vm_compute; reflexivity|]. split; [vm_compute; reflexivity|]. split; [|vm_compute; reflexivity].
  exists 1, (mkAns EVAL_GEN FIN_PERSIS_GEN UNone [] false true). split; [vm_compute; auto 10|reflexivity].
Qed.

(** ** Where the conditions are needed *)
(** A generator that sends a message without points: nobody has anything to do, and
    the manager stops with an assertion, although no exit criterion failed and no
    message was out of order. *)
Theorem C76_empty_message_refuted : exists c a u outs n zeros gens pin vs s m,
  let m0 := init_manager c (fresh_history c outs no_H0 false) n zeros gens None pin in
  persistent_run c a u (m_h m0) (m_W m0) /\ pi_gens_started (snd s) = 0 /\ Forall (fun v => set_order (v_ord v)) vs /\
  driven_loop (persistent_alloc c a u) c vs s m0 = (m, CExc EAssert) /\
  answers_in_turn (m_log m) /\ cancels_nothing (m_log m) /\ unnumbered (m_log m) /\ c_stop c = None /\
  (forall w a', In (Got w (IData a')) (m_log m) -> n_type a' = EVAL_GEN -> exists D, n_out a' = UArr D /\ a_rows D = []).
Proof.
  exists c4, plain_setup, in_rounds, [(X, ShS); (FF, ShS)], 3, [], [], None, [here 1 []; here 2 [(1, persis_answer []%Z)]], fresh_info.
  set (r := driven_loop (persistent_alloc c4 plain_setup in_rounds) c4 [here 1 []; here 2 [(1, persis_answer []%Z)]] fresh_info (m_calm c4)).
  exists (fst r). cbv zeta. split; [apply (calm_run c4 in_rounds); auto; discriminate|]. split; [reflexivity|]. split; [repeat (apply Forall_cons; [apply here_order|]); apply Forall_nil|].
  split; [change (r = (fst r, CExc EAssert)); rewrite (surjective_pairing r) at 1; f_equal; vm_compute; reflexivity|].
  destruct (turns_fine (m_log (fst r))) as (A & B & C); [vm_compute; reflexivity|]. split; [exact A|]. split; [exact B|]. split; [exact C|]. split; [reflexivity|].
  assert (EG : filter (fun e => match e with Got _ _ => true | _ => false end) (m_log (fst r)) = [Got 1 (persis_answer []%Z)]) by (vm_compute; reflexivity).
  intros w a' Hin _. assert (Hin' : In (Got w (IData a')) [Got 1 (persis_answer []%Z)]) by (rewrite <- EG; apply filter_In; auto).
  destruct Hin' as [Hin'|[]]. injection Hin' as <- <-. eexists. split; reflexivity.
Qed.
Print Assumptions C76_empty_message_refuted.

(** As many generators as workers: the points cannot be given to anybody, and the
    manager stops with the same assertion. *)
Theorem C76_too_few_workers_refuted : exists c a u outs n zeros gens pin vs s m,
  let m0 := init_manager c (fresh_history c outs no_H0 false) n zeros gens None pin in
  length (m_W m0) = pu_num_gens u /\ pu_num_gens u = 1 /\ columns_asked a (m_h m0) /\ u_manage a = false /\ pu_recv u = false /\ pu_alt u = false /\
  pi_gens_started (snd s) = 0 /\ Forall (fun v => set_order (v_ord v)) vs /\
  driven_loop (persistent_alloc c a u) c vs s m0 = (m, CExc EAssert) /\ traffic_in_turn (m_log m) /\ c_stop c = None.
Proof.
  exists c4, plain_setup, in_rounds, [(X, ShS); (FF, ShS)], 1, [], [], None, [here 1 []; here 2 [(1, persis_answer [10; 20]%Z)]], fresh_info.
  set (r := driven_loop (persistent_alloc c4 plain_setup in_rounds) c4 [here 1 []; here 2 [(1, persis_answer [10; 20]%Z)]] fresh_info (init_manager c4 (calm c4) 1 [] [] None None)).
  exists (fst r). cbv zeta. split; [reflexivity|]. split; [reflexivity|]. split; [apply calm_columns|]. split; [reflexivity|]. split; [reflexivity|]. split; [reflexivity|]. split; [reflexivity|].
  split; [repeat (apply Forall_cons; [apply here_order|]); apply Forall_nil|].
  split; [change (r = (fst r, CExc EAssert)); rewrite (surjective_pairing r) at 1; f_equal; vm_compute; reflexivity|].
  split; [apply all_fine; vm_compute; reflexivity|reflexivity].
Qed.
Print Assumptions C76_too_few_workers_refuted.
