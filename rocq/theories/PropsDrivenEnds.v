(** C59: runs in which the default allocation function decides the work end. *)
From Coq Require Import String Permutation.
From Verif Require Import Base BaseLemmas HistoryModel HistorySpec HistoryProofs RsetModel RsetSpec WorkModel SchedModel SchedSpec AllocModel AllocSpec ManagerModel ManagerSpec ManagerProofs ManagerRun ManagerInv ManagerRes DrivenModel DrivenSpec DrivenProofs DrivenInv DrivenPoints DrivenRes DrivenSets DrivenGens DrivenOrders DrivenTrace DrivenEnds DrivenEnds2 HistoryExamples PropsResources ManagerExamples PropsManager PropsDriven PropsDrivenRes PropsDrivenGens PropsDrivenOrders.
Local Notation length := List.length.
Local Open Scope nat_scope.

Lemma start_ends c single outs H0 safe n zeros gens rm pin : H0_scalar H0 -> table_new rm ->
  Jd c (length (a_rows H0)) single (init_manager c (fresh_history c outs H0 safe) n zeros gens rm pin).
Proof. intros Hs Hr. split; [now apply init_ends|]. unfold reach. cbn. destruct rm as [r|]; auto. now apply Hr. Qed.

Lemma run_trace c a u outs H0 safe n zeros gens rm pin vs s t rounds m o : H0_scalar H0 -> table_new rm -> Forall (fun v => set_order (v_ord v)) vs ->
  driven_run (default_alloc c a u) c vs s t rounds (init_manager c (fresh_history c outs H0 safe) n zeros gens rm pin) = (m, o) ->
  log_ok (Qe (negb (u_batch_give u))) (m_log m) /\
  at_most_gens task (gens_at_once u (length (m_W (init_manager c (fresh_history c outs H0 safe) n zeros gens rm pin)))) (m_log m).
Proof.
  intros Hs Hr HV E. split.
  - apply driven_cases in E as (m1 & x & E & E2).
    eapply (driven_ends c (length (a_rows H0)) (negb (u_batch_give u))) in E as [E _]; eauto; [|now rewrite negb_true_iff|now apply start_ends].
    destruct E2 as [(_ & -> & _)|(_ & f & E2 & _)]; [apply E|]. eapply ends_final in E2; eauto. apply E2.
  - unfold gens_at_once. destruct (u_num_active_gens u) as [k|] eqn:Ek; [eapply C57_default_gen_limit; eauto|].
    destruct (driven_run_is_run (default_alloc c a u) c vs s t rounds (init_manager c (fresh_history c outs H0 safe) n zeros gens rm pin)) as (its & Ei & _).
    rewrite E in Ei. apply orders_known in Ei; [|apply init_table|reflexivity]. apply known_gens in Ei. now rewrite map_length in Ei.
Qed.

(** However long the run is, the generator is called no more often than points are
    given out for simulation, plus the calls that may be under way at once: the
    allocation function asks for points only when it has none left. *)
Theorem C59_default_generator_calls : forall c a u outs H0 safe n zeros gens rm pin vs s t rounds m o,
  let m0 := init_manager c (fresh_history c outs H0 safe) n zeros gens rm pin in
  H0_scalar H0 -> table_new rm -> Forall (fun v => set_order (v_ord v)) vs ->
  driven_run (default_alloc c a u) c vs s t rounds m0 = (m, o) ->
  answers_match (m_log m) -> cancels_nothing (m_log m) -> gens_deliver (m_log m) ->
  gen_calls (m_log m) <= length (points_sent (m_log m)) + gens_at_once u (length (m_W m0)).
Proof.
  intros c a u outs H0 safe n zeros gens rm pin vs s t rounds m o m0 Hs Hr HV E F1 F2 F3.
  destruct (run_trace c a u outs H0 safe n zeros gens rm pin vs s t rounds m o Hs Hr HV E) as [T1 T2]. destruct (trace_facts _ _ T1) as (G1 & G2 & _); [now split|].
  now apply few_calls.
Qed.
Print Assumptions C59_default_generator_calls.

(** With sim_max = N: never more than 2N orders, plus the generator calls that may
    be under way at once, and no more answers than orders. *)
Theorem C59_default_work_bounded : forall c a u N outs H0 safe n zeros gens rm pin vs s t rounds m o,
  let m0 := init_manager c (fresh_history c outs H0 safe) n zeros gens rm pin in
  H0_scalar H0 -> table_new rm -> Forall (fun v => set_order (v_ord v)) vs ->
  c_sim_max c = Some N -> u_batch_give u = false ->
  driven_run (default_alloc c a u) c vs s t rounds m0 = (m, o) ->
  answers_match (m_log m) -> cancels_nothing (m_log m) -> gens_deliver (m_log m) ->
  answers_in (m_log m) <= orders_sent (m_log m) /\ orders_sent (m_log m) <= 2 * N + gens_at_once u (length (m_W m0)).
Proof.
  intros c a u N outs H0 safe n zeros gens rm pin vs s t rounds m o m0 Hs Hr HV HN Hb E F1 F2 F3.
  pose proof (C59_default_generator_calls c a u outs H0 safe n zeros gens rm pin vs s t rounds m o Hs Hr HV E F1 F2 F3) as G0. fold m0 in G0.
  destruct (run_trace c a u outs H0 safe n zeros gens rm pin vs s t rounds m o Hs Hr HV E) as [T1 T2]. destruct (trace_facts _ _ T1) as (G1 & G2 & G3); [now split|].
  rewrite Hb in G3. specialize (G3 eq_refl). destruct (balance (c_ret_sim c) _ G1 F1) as (B1 & _). pose proof (orders_kinds _ G3 G1) as B2.
  destruct (driven_run_is_run (default_alloc c a u) c vs s t rounds m0) as (its & Ei & _). rewrite E in Ei.
  assert (U : units_up_to 1 (m_log m)) by (intros w k Hin Hk; rewrite (G3 w k Hin Hk); auto).
  pose proof (C06_total_points_sent c N 1 its t rounds outs H0 safe n zeros gens rm pin m o HN (Nat.le_refl 1) Ei U) as B3.
  rewrite points_len in G0. split; lia.
Qed.
Print Assumptions C59_default_work_bounded.

(** So the loop ends: it does not go on after 2N (plus the generator calls at once)
    turns in which an answer arrives; one more turn gives out the first work. *)
Theorem C59_default_turns_bounded : forall c a u N outs H0 safe n zeros gens rm pin v0 vs s m,
  let m0 := init_manager c (fresh_history c outs H0 safe) n zeros gens rm pin in
  H0_scalar H0 -> table_new rm -> Forall (fun v => set_order (v_ord v)) (v0 :: vs) ->
  c_sim_max c = Some N -> u_batch_give u = false -> (forall v, In v vs -> brings_answer m0 v) ->
  driven_loop (default_alloc c a u) c (v0 :: vs) s m0 = (m, CGo) ->
  answers_match (m_log m) -> cancels_nothing (m_log m) -> gens_deliver (m_log m) ->
  length vs <= 2 * N + gens_at_once u (length (m_W m0)).
Proof.
  intros c a u N outs H0 safe n zeros gens rm pin v0 vs s m m0 Hs Hr HV HN Hb Hbr E F1 F2 F3.
  assert (ER : driven_run (default_alloc c a u) c (v0 :: vs) s 0 [] m0 = (m, Running)) by (unfold driven_run; now rewrite E).
  destruct (C59_default_work_bounded c a u N outs H0 safe n zeros gens rm pin (v0 :: vs) s 0 [] m Running Hs Hr HV HN Hb ER F1 F2 F3) as [B1 B2]. fold m0 in B2.
  cbn [driven_loop] in E. destruct (turn_of (default_alloc c a u) c v0 s m0) as [it s'] eqn:ET. assert (Ei : it = fst (turn_of (default_alloc c a u) c v0 s m0)) by now rewrite ET.
  rewrite Ei in E. clear Ei ET. destruct (iterate c (fst (turn_of (default_alloc c a u) c v0 s m0)) m0) as [m1 y] eqn:EI. destruct y; [|discriminate|discriminate].
  destruct (turn_answers _ c v0 s m0 m1 (init_table _ _ _ _ _ _ _) EI) as (A1 & A2 & _). destruct (turns_answers _ c vs s' m1 m A1 E) as (_ & _ & _ & A4 & _).
  specialize (A4 ltac:(intros v Hv; rewrite A2; exact (Hbr v Hv))). lia.
Qed.
Print Assumptions C59_default_turns_bounded.

(** While the loop goes on, there is something to wait for: a worker that was sent
    an order and has not answered. Otherwise an exit criterion is met already. *)
Theorem C59_default_someone_works : forall c a u outs H0 safe n zeros gens rm pin vs v s m,
  H0_scalar H0 -> table_new rm -> Forall (fun v => set_order (v_ord v)) (vs ++ [v]) ->
  driven_loop (default_alloc c a u) c (vs ++ [v]) s (init_manager c (fresh_history c outs H0 safe) n zeros gens rm pin) = (m, CGo) ->
  answers_match (m_log m) -> cancels_nothing (m_log m) -> gens_deliver (m_log m) ->
  (exists w k, In w (map w_id (m_W m)) /\ open_order w (m_log m) = Some k) \/ (exists x, term_test c (v_elapsed2 v) m = Ok (Datatypes.S x)).
Proof.
  intros c a u outs H0 safe n zeros gens rm pin vs v s m Hs Hr HV E F1 F2 F3.
  pose proof E as E'. eapply (driven_ends c (length (a_rows H0)) false) in E' as [_ E']; eauto; [|discriminate|now apply start_ends].
  destruct (E' ltac:(discriminate)) as [HJ _]. apply turns_answers in E as (_ & _ & _ & _ & E); [|apply init_table].
  destruct (E ltac:(now destruct vs)) as [Ha|(v1 & vs1 & x & Ev & Ex)].
  - left. eapply active_open; eauto. now split.
  - right. apply app_inj_tail in Ev as [_ ->]. eauto.
Qed.
Print Assumptions C59_default_someone_works.

(** And the loop does not end in an error of its own: without resource sets, batch
    mode and safe mode, and with a worker that may run simulations, a run with such
    traffic raises only when the test of the exit criteria fails (stop_val names a
    column that does not exist) or when a kill signal or a message cannot be dealt
    with (a worker reported a failure). *)
Theorem C59_default_never_stuck : forall c a u outs H0 n zeros gens pin vs s m' e,
  let m0 := init_manager c (fresh_history c outs H0 false) n zeros gens None pin in
  H0_scalar H0 -> columns_asked a (fresh_history c outs H0 false) -> u_manage a = false -> (c_kill c = true -> u_batch_give u = false) ->
  u_batch_mode u = false -> u_num_active_gens u <> Some 0 -> (exists r, In r (m_W m0) /\ w_gen r = false) ->
  Forall (fun v => set_order (v_ord v)) vs ->
  driven_loop (default_alloc c a u) c vs s m0 = (m', CExc e) ->
  answers_match (m_log m') -> cancels_nothing (m_log m') -> gens_deliver (m_log m') ->
  exists vs1 v vs2 m, vs = (vs1 ++ v :: vs2)%list /\ driven_loop (default_alloc c a u) c vs1 s m0 = (m, CGo) /\
    (term_test c (v_elapsed v) m = Err e \/ snd (bindx (kill_cancelled c m) (receive c (v_msgs v))) = Some e \/ term_test c (v_elapsed2 v) m' = Err e).
Proof.
  intros c a u outs H0 n zeros gens pin vs s m' e m0 H0s [Hs Hc] Hm Hk Hb Hn Hp HV E F1 F2 F3. apply driven_split in E as (vs1 & v & vs2 & s1 & m & -> & E1 & E2).
  exists vs1, v, vs2, m. split; auto. split; auto. apply Forall_app in HV as [HV1 HV2]. inversion_clear HV2 as [|? ? HO _].
  assert (HJ : Jo c a True m).
  { eapply driven_orders; [exact Hs|apply (passive_default c a u)|exact HV1| |exact E1|discriminate]. apply init_orders; [discriminate|congruence|exact Hc|auto|].
    intros _. unfold fresh_history. reflexivity. }
  assert (HD : Jd c (length (a_rows H0)) false m).
  { eapply (driven_ends c (length (a_rows H0)) false) in E1 as [_ E1]; eauto; [apply E1; discriminate|discriminate|]. apply start_ends; auto. intros r [=]. }
  eapply (ends_turn c (length (a_rows H0)) false); eauto; [discriminate|]. now split.
Qed.
Print Assumptions C59_default_never_stuck.

(** When the loop ends regularly and sim_max = N is the only criterion, the results
    of N points have come in. *)
Theorem C59_default_completes : forall c a u N outs H0 safe n zeros gens rm pin vs s m,
  c_sim_max c = Some N -> c_wall c = None -> c_gen_max c = None -> c_stop c = None ->
  driven_loop (default_alloc c a u) c vs s (init_manager c (fresh_history c outs H0 safe) n zeros gens rm pin) = (m, CStop) ->
  N <= results_in (c_ret_sim c) (m_log m).
Proof.
  intros c a u N outs H0 safe n zeros gens rm pin vs s m HN Hw Hg Hst E. destruct (driven_main (default_alloc c a u) c vs s (init_manager c (fresh_history c outs H0 safe) n zeros gens rm pin)) as (its & Ei & _).
  pose proof E as E'. rewrite <- Ei in E'. destruct (proj1 (C07_sim_max_counts_results c its outs H0 safe n zeros gens rm pin m CStop E' ltac:(discriminate))) as (N' & HN' & HL); [|congruence].
  apply default_stop in E as (v & k & _ & E). unfold term_test in E. rewrite Hw, HN, Hg, Hst in E. exists N. split; auto.
  destruct (Nat.leb_spec (N + h_ended_off (m_h m)) (h_ended (m_h m))); [lia|discriminate].
Qed.
Print Assumptions C59_default_completes.

(** Together: with sim_max = N as the only criterion, once an answer has arrived in
    more than 2N turns (plus the generator calls at once), the loop has ended
    regularly with the results of N points, unless a worker reported a failure. *)
Theorem C59_default_run_completes : forall c a u N outs H0 n zeros gens pin v0 vs s m x,
  let m0 := init_manager c (fresh_history c outs H0 false) n zeros gens None pin in
  H0_scalar H0 -> columns_asked a (fresh_history c outs H0 false) -> u_manage a = false -> u_batch_give u = false ->
  u_batch_mode u = false -> u_num_active_gens u <> Some 0 -> (exists r, In r (m_W m0) /\ w_gen r = false) ->
  c_sim_max c = Some N -> c_wall c = None -> c_gen_max c = None -> c_stop c = None ->
  Forall (fun v => set_order (v_ord v)) (v0 :: vs) -> (forall v, In v vs -> brings_answer m0 v) -> 2 * N + gens_at_once u (length (m_W m0)) < length vs ->
  driven_loop (default_alloc c a u) c (v0 :: vs) s m0 = (m, x) ->
  answers_match (m_log m) -> cancels_nothing (m_log m) -> gens_deliver (m_log m) ->
  x = CStop /\ N <= results_in (c_ret_sim c) (m_log m) \/
  exists vs1 v vs2 m1 e, v0 :: vs = (vs1 ++ v :: vs2)%list /\ driven_loop (default_alloc c a u) c vs1 s m0 = (m1, CGo) /\ x = CExc e /\
    snd (bindx (kill_cancelled c m1) (receive c (v_msgs v))) = Some e.
Proof.
  intros c a u N outs H0 n zeros gens pin v0 vs s m x m0 Hs Hc Hm Hb Hbm Hn Hp HN Hw Hg Hst HV Hbr HL E F1 F2 F3. destruct x as [| |e].
  - pose proof (C59_default_turns_bounded c a u N outs H0 false n zeros gens None pin v0 vs s m Hs ltac:(intros r [=]) HV HN Hb Hbr E F1 F2 F3) as B. fold m0 in B. lia.
  - left. split; auto. eapply C59_default_completes; eauto.
  - right. assert (T : forall t mm, term_test c t mm <> Err e).
    { intros t mm. unfold term_test. rewrite Hw, HN, Hg, Hst. destruct (_ <=? _); discriminate. }
    eapply C59_default_never_stuck in E as (vs1 & v & vs2 & m1 & A1 & A2 & A3); eauto. exists vs1, v, vs2, m1, e. split; auto. split; auto. split; auto.
    destruct A3 as [A3|[A3|A3]]; [destruct (T _ _ A3)|exact A3|destruct (T _ _ A3)].
Qed.
Print Assumptions C59_default_run_completes.

(** ** Cases *)
(** Checks of the traffic, for the cases below. *)
Definition same_rows (a b : list nat) : bool := if list_eq_dec Nat.eq_dec a b then true else false.
Definition answer_ok (p : list event) (e : event) : bool :=
  match e with
  | Got w (IData a) =>
      match open_order w p with
      | Some k => (n_type a =? k_tag k) && (negb (k_tag k =? EVAL_SIM) || same_rows (n_rows a) (k_rows k)) &&
                  negb (n_persistent a) && negb (n_keep a) && negb (n_status a =? FIN_PERSIS_SIM) && negb (n_status a =? FIN_PERSIS_GEN)
      | None => false
      end &&
      match n_out a with UArr D => negb (existsb protected (names (a_dtype D))) && negb (has F_cancel_requested (names (a_dtype D))) | _ => true end &&
      (negb (n_type a =? EVAL_GEN) || match n_out a with UArr D => negb (match a_rows D with [] => true | _ => false end) && negb (has F_sim_id (names (a_dtype D))) | _ => false end)
  | _ => true
  end.
Fixpoint traffic_from (p l : list event) : bool := match l with [] => true | e :: l' => answer_ok p e && traffic_from (p ++ [e]) l' end.
Definition traffic_ok (l : list event) : bool := traffic_from [] l.

Lemma traffic_each l : forall p, traffic_from p l = true -> forall q e r, l = (q ++ e :: r)%list -> answer_ok (p ++ q) e = true.
Proof.
  induction l as [|x l IH]; intros p H q e r E; [now destruct q|]. cbn in H. apply andb_true_iff in H as [H1 H2]. destruct q as [|y q]; injection E as -> E.
  - now rewrite app_nil_r.
  - specialize (IH _ H2 q e r E). now rewrite <- app_assoc in IH.
Qed.
Lemma traffic_fine l : traffic_ok l = true -> answers_match l /\ cancels_nothing l /\ gens_deliver l.
Proof.
  intros H. assert (K : forall p w a q, l = (p ++ Got w (IData a) :: q)%list -> answer_ok p (Got w (IData a)) = true) by (intros p w a q E; exact (traffic_each l [] H p _ q E)).
  cbn [answer_ok] in K. split; [|split].
  - intros p w a q E. specialize (K p w a q E). apply andb_true_iff in K as [K _]. apply andb_true_iff in K as [K _]. destruct (open_order w p) as [k|]; [|discriminate].
    repeat (apply andb_true_iff in K as [K ?]). rewrite negb_true_iff in *. repeat match goal with X : (_ =? _) = false |- _ => apply Nat.eqb_neq in X end.
    split; [|auto]. exists k. split; auto. apply Nat.eqb_eq in K. split; auto. intros Hk. rewrite Hk in *. cbn in *. unfold same_rows in *. destruct (list_eq_dec _ _ _); [auto|discriminate].
  - intros w a D Hin EO. apply in_split in Hin as (p & q & E). specialize (K p w a q E). rewrite EO in K. apply andb_true_iff in K as [K _]. apply andb_true_iff in K as [_ K].
    apply andb_true_iff in K as [K1 K2]. apply negb_true_iff in K1, K2. split.
    + intros (f & Hf & Hp). assert (X : existsb protected (names (a_dtype D)) = true) by (apply existsb_exists; eauto). congruence.
    + intros Hf. apply has_In in Hf. congruence.
  - intros w a Hin Ht. apply in_split in Hin as (p & q & E). specialize (K p w a q E). apply andb_true_iff in K as [_ K]. rewrite Ht in K. cbn in K.
    destruct (n_out a) as [|D|]; [discriminate| |discriminate]. exists D. apply andb_true_iff in K as [K1 K2]. apply negb_true_iff in K1, K2. split; auto. split; [destruct (a_rows D); congruence|].
    intros Hf. apply has_In in Hf. congruence.
Qed.

Definition m_calm (c : mcfg) : mgr := init_manager c (calm c) 3 [] [] None None.
(** sim_max = 2. The generator makes three points, two of them are given out, the
    results come one by one, and the loop has ended; what arrives later is not read. *)
Definition d_ends : list surr :=
  [here 2 [(1, gen_answer [10; 20; 30]%Z)]; here 3 [(2, sim_answer [1] [101]%Z)]; here 4 [(1, sim_answer [0] [100]%Z)];
   here 5 [(1, sim_answer [0] [100]%Z)]; here 6 [(1, sim_answer [0] [100]%Z)]; here 7 [(1, sim_answer [0] [100]%Z)]].
Lemma d_ends_orders v0 : v0 = here 1 [] -> Forall (fun v => set_order (v_ord v)) (v0 :: d_ends).
Proof. intros ->. repeat (apply Forall_cons; [apply here_order|]); apply Forall_nil. Qed.
Lemma calm_scalar : H0_scalar no_H0.
Proof. intros f sh []. Qed.

Example C59_default_case :
  H0_scalar no_H0 /\ columns_asked plain_setup (calm c2) /\ u_manage plain_setup = false /\ u_batch_give one_gen = false /\ u_batch_mode one_gen = false /\
  (exists r, In r (m_W (m_calm c2)) /\ w_gen r = false) /\
  Forall (fun v => set_order (v_ord v)) (here 1 [] :: d_ends) /\ (forall v, In v d_ends -> brings_answer (m_calm c2) v) /\
  2 * 2 + gens_at_once one_gen (length (m_W (m_calm c2))) < length d_ends /\
  let r := driven_loop (default_alloc c2 plain_setup one_gen) c2 (here 1 [] :: d_ends) 0 (m_calm c2) in
  answers_match (m_log (fst r)) /\ cancels_nothing (m_log (fst r)) /\ gens_deliver (m_log (fst r)) /\
  snd r = CStop /\ results_in (c_ret_sim c2) (m_log (fst r)) = 2 /\ gen_calls (m_log (fst r)) = 1 /\ orders_sent (m_log (fst r)) = 3 /\ answers_in (m_log (fst r)) = 3.
Proof.
  split; [exact calm_scalar|]. split; [apply calm_columns|]. split; [reflexivity|]. split; [reflexivity|]. split; [reflexivity|].
  split; [eexists; split; [left; reflexivity|reflexivity]|]. split; [now apply d_ends_orders|]. split.
  { intros v Hv. cbn [d_ends In] in Hv. unfold brings_answer. repeat (destruct Hv as [<-|Hv]; [cbn; eexists _, _, _; split; [left; reflexivity|cbn; auto]|]). destruct Hv. }
  split; [cbn; lia|]. cbn zeta.
  destruct (traffic_fine (m_log (fst (driven_loop (default_alloc c2 plain_setup one_gen) c2 (here 1 [] :: d_ends) 0 (m_calm c2))))) as (A & B & C); [vm_compute; reflexivity|].
  split; [exact A|]. split; [exact B|]. split; [exact C|]. vm_compute. auto 10.
Qed.

(** In between, two workers are at it. *)
Example C59_waiting_case :
  let r := driven_loop (default_alloc c2 plain_setup one_gen) c2 (here 1 [] :: firstn 1 d_ends) 0 (m_calm c2) in
  snd r = CGo /\ traffic_ok (m_log (fst r)) = true /\ map (fun w => match open_order w (m_log (fst r)) with Some k => k_rows k | None => [] end) [1; 2; 3] = [[0]; [1]; []].
Proof. vm_compute. auto. Qed.

(** Without a limit the generator is called by all three workers, and when they
    bring one point each, no more than once per point. *)
Example C59_no_limit_case :
  let u := mkUO None false None false in
  let r := driven_loop (default_alloc noend plain_setup u) noend
    [here 1 []; here 2 [(1, gen_answer [10]%Z); (2, gen_answer [20]%Z); (3, gen_answer [30]%Z)]; here 3 [(1, sim_answer [0] [100]%Z); (2, sim_answer [1] [101]%Z)]] 0 (m_calm noend) in
  snd r = CGo /\ traffic_ok (m_log (fst r)) = true /\ gen_calls (m_log (fst r)) = 5 /\ length (points_sent (m_log (fst r))) = 3 /\ gens_at_once u 3 = 3.
Proof. vm_compute. auto. Qed.

(** ** Where the condition on the generator is needed *)
(** A generator that returns an array without rows is called again, and again,
    while a second worker is still busy: the run goes on for any number of turns,
    all of which bring an answer. *)
Definition nothing_new : surr := here 1 [(1, gen_answer []%Z)].
Definition busy (L : list event) : mgr :=
  let m := fst (driven_loop (default_alloc c2 plain_setup two_gens) c2 [here 1 []] 0 (m_calm c2)) in
  mkM (m_h m) (m_W m) (m_res m) (m_exc m) (m_pending m) (m_persis_in m) L.
Definition next_call (g : nat) : work := mkWork EVAL_GEN [] [] false None None None None (Some (Datatypes.S g)) (Some 2).
Lemma busy_turn g L : let T := turn_of (default_alloc c2 plain_setup two_gens) c2 nothing_new g (busy L) in
  iterate c2 (fst T) (busy L) = (busy ((L ++ [Got 1 (gen_answer []%Z)]) ++ [Sent 1 (OWork (next_call g))]), CGo).
Proof. vm_compute. reflexivity. Qed.
Lemma busy_turns k : forall g L, exists L', driven_loop (default_alloc c2 plain_setup two_gens) c2 (repeat nothing_new k) g (busy L) = (busy L', CGo) /\
  gen_calls L' = gen_calls L + k /\ answers_in L' = answers_in L + k /\
  (answers_match L -> (exists a, open_order 1 L = Some a /\ k_tag a = EVAL_GEN) -> answers_match L') /\ (cancels_nothing L -> cancels_nothing L') /\
  points_sent L' = points_sent L.
Proof.
  induction k as [|k IH]; intros g L.
  { exists L. cbn. split; [reflexivity|]. split; [lia|]. split; [lia|]. auto. }
  cbn [repeat driven_loop]. pose proof (busy_turn g L) as E. cbn zeta in E.
  destruct (turn_of (default_alloc c2 plain_setup two_gens) c2 nothing_new g (busy L)) as [it g'] eqn:ET. cbn [fst] in E. rewrite E.
  set (L1 := ((L ++ [Got 1 (gen_answer []%Z)]) ++ [Sent 1 (OWork (next_call g))])%list).
  destruct (IH g' L1) as (L' & E1 & E2 & E3 & E4 & E5 & E6). exists L'. split; [exact E1|].
  assert (X1 : gen_calls L1 = gen_calls L + 1) by (unfold L1; rewrite !calls_app; cbn; lia).
  assert (X2 : answers_in L1 = answers_in L + 1) by (unfold L1; rewrite !answers_app; cbn; lia).
  split; [lia|]. split; [lia|]. split; [|split; [|rewrite E6; unfold L1; rewrite !points_sent_app; cbn; now rewrite !app_nil_r]].
  - intros HM (a & Ha & Ht). apply E4.
    + intros p w b q El. unfold L1 in El.
      assert (C : (exists q', (p ++ Got w (IData b) :: q')%list = L) \/ p = L /\ Got w (IData b) = Got 1 (gen_answer []%Z)).
      { destruct q as [|e q _] using rev_ind; [apply app_inj_tail in El as [_ El]; discriminate|]. rewrite app_comm_cons, app_assoc in El. apply app_inj_tail in El as [El _].
        destruct q as [|e' q _] using rev_ind; [apply app_inj_tail in El as [El1 El2]; auto|]. rewrite app_comm_cons, app_assoc in El. apply app_inj_tail in El as [El _]. eauto. }
      destruct C as [(q' & C)|[-> C]]; [exact (HM p w b q' (eq_sym C))|]. injection C as -> ->. cbn. split; [|repeat split; discriminate].
      exists a. split; auto. split; [now rewrite Ht|]. rewrite Ht. discriminate.
    + exists (next_call g). unfold L1. rewrite open_snoc. split; reflexivity.
  - intros HC. apply E5. intros w b D Hin. unfold L1 in Hin. apply in_app_iff in Hin as [Hin|[Hin|[]]]; [|discriminate]. apply in_app_iff in Hin as [Hin|[Hin|[]]]; [now apply (HC w b D)|].
    injection Hin as <- <-. cbn. intros [= <-]. cbn. split; [intros (f & [<-|[]] & Hp); discriminate|]. intros [Hf|[]]. discriminate.
Qed.
Lemma loop_first {S} (A : alloc_fn S) c v s m m1 : driven_loop A c [v] s m = (m1, CGo) -> exists s', forall vs, driven_loop A c (v :: vs) s m = driven_loop A c vs s' m1.
Proof.
  cbn [driven_loop]. destruct (turn_of A c v s m) as [it s']. destruct (iterate c it m) as [m2 y]. destruct y; intros [= ->]. now exists s'.
Qed.
Lemma mgr_parts (D : mgr * ctrl) x : snd D = x -> let m := fst D in D = (mkM (m_h m) (m_W m) (m_res m) (m_exc m) (m_pending m) (m_persis_in m) (m_log m), x).
Proof. intros <-. now destruct D as [[] y]. Qed.
Definition first_log : list event := m_log (fst (driven_loop (default_alloc c2 plain_setup two_gens) c2 [here 1 []] 0 (m_calm c2))).
Lemma first_turn : driven_loop (default_alloc c2 plain_setup two_gens) c2 [here 1 []] 0 (m_calm c2) = (busy first_log, CGo).
Proof.
  apply mgr_parts. vm_compute. reflexivity.
Qed.
Lemma first_facts : traffic_ok first_log = true /\ (exists a, open_order 1 first_log = Some a /\ k_tag a = EVAL_GEN) /\ gen_calls first_log = 2 /\ points_sent first_log = [].
Proof. vm_compute. eauto 10. Qed.

Theorem C59_empty_generator_refuted : forall k, exists m,
  driven_loop (default_alloc c2 plain_setup two_gens) c2 (here 1 [] :: repeat nothing_new k) 0 (m_calm c2) = (m, CGo) /\
  brings_answer (m_calm c2) nothing_new /\ answers_match (m_log m) /\ cancels_nothing (m_log m) /\
  gen_calls (m_log m) = 2 + k /\ points_sent (m_log m) = [].
Proof.
  intros k. destruct (loop_first _ _ _ _ _ _ first_turn) as (g & EL). rewrite EL. destruct first_facts as (F1 & F2 & F3 & F4).
  destruct (busy_turns k g first_log) as (L' & E1 & E2 & E3 & E4 & E5 & E6). destruct (traffic_fine _ F1) as (A & B & _).
  exists (busy L'). split; [exact E1|]. split.
  { exists 1, (mkAns EVAL_GEN 35 (UArr (pts []%Z)) [] false false), 1%Z. split; [left; reflexivity|left; reflexivity]. }
  assert (EB : m_log (busy L') = L') by reflexivity. rewrite EB. rewrite F3 in E2. rewrite F4 in E6. auto.
Qed.
Print Assumptions C59_empty_generator_refuted.
