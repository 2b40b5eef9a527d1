(** C58: the manager takes every order of the shipped allocation functions, and
    the default one does not bring a run down. *)
From Coq Require Import String Permutation.
From Verif Require Import Base BaseLemmas HistoryModel HistorySpec RsetModel RsetSpec WorkModel SchedModel SchedSpec AllocModel AllocSpec ManagerModel ManagerSpec ManagerRun DrivenModel DrivenSpec DrivenProofs DrivenInv DrivenPoints DrivenRes DrivenSets DrivenOrders HistoryExamples PropsResources ManagerExamples PropsDriven PropsDrivenRes.
Local Notation length := List.length.
Local Open Scope nat_scope.

Lemma passive_taken c a S (A : alloc_fn S) F h n zeros gens rm pin vs s m v s1 m1 : passive c a S A F ->
  columns_asked a h -> table_new rm -> (rm <> None -> u_manage a = true) -> Forall (fun v => set_order (v_ord v)) vs -> set_order (v_ord v) ->
  driven_loop A c vs s (init_manager c h n zeros gens rm pin) = (m, CGo) -> bindx (kill_cancelled c m) (receive c (v_msgs v)) = (m1, None) -> F m1 s1 ->
  order_error A c v s1 m1 = None.
Proof.
  intros HA [Hs Hc] Hr Hm HV HO E E1 HF.
  assert (HJ : Jo c a False m) by (eapply driven_orders; eauto; [apply init_orders; auto; intros []|discriminate]).
  apply (Jo_turn c a False) in E1; auto. unfold order_error. destruct (A v s1 m1) as [out s'] eqn:EA.
  pose proof (fits_all c a False Hs S A F v s1 m1 out s' HA HF E1 HO EA) as HFA.
  destruct (give_orders c _ _) as [m2 e] eqn:EG. cbn [snd].
  eapply (orders_taken_all c v (o_work out) (edited m1 out) m2 e) in EG; [apply EG|apply E1|apply E1|exact HFA].
Qed.

(** The default allocation function, whatever the workers have sent: after any
    number of turns, and whatever arrives next, none of the orders it gives is
    refused by the manager or makes it fail. With batches (give_all_with_same_priority)
    kill_canceled_sims must be off. *)
Theorem C58_default_orders_taken : forall c a u h n zeros gens rm pin vs s m v s1 m1,
  columns_asked a h -> table_new rm -> (rm <> None -> u_manage a = true) -> (c_kill c = true -> u_batch_give u = false) ->
  Forall (fun v => set_order (v_ord v)) vs -> set_order (v_ord v) ->
  driven_loop (default_alloc c a u) c vs s (init_manager c h n zeros gens rm pin) = (m, CGo) ->
  bindx (kill_cancelled c m) (receive c (v_msgs v)) = (m1, None) ->
  order_error (default_alloc c a u) c v s1 m1 = None.
Proof. intros. eapply (passive_taken c a nat); eauto; [apply passive_default|auto]. Qed.
Print Assumptions C58_default_orders_taken.

Theorem C58_fast_orders_taken : forall c a num h n zeros gens rm pin vs s m v s1 m1,
  columns_asked a h -> table_new rm -> (rm <> None -> u_manage a = true) ->
  Forall (fun v => set_order (v_ord v)) vs -> set_order (v_ord v) ->
  driven_loop (fast_alloc_fn c a num) c vs s (init_manager c h n zeros gens rm pin) = (m, CGo) ->
  bindx (kill_cancelled c m) (receive c (v_msgs v)) = (m1, None) ->
  order_error (fast_alloc_fn c a num) c v s1 m1 = None.
Proof. intros. eapply (passive_taken c a (nat * pinfo)); eauto; [apply passive_fast|exact I]. Qed.
Print Assumptions C58_fast_orders_taken.

(** only_persistent_gens without active receive: the same, if results can be sent
    back (persis_in is not empty), and if a generator that is started late, when
    there are points already, is one that reads them (gen_specs["in"] not empty). *)
Theorem C58_persistent_orders_taken : forall c a u h n zeros gens rm pin vs s m v s1 m1,
  columns_asked a h -> table_new rm -> (rm <> None -> u_manage a = true) -> (c_kill c = true -> pu_batch_give u = false) ->
  pu_recv u = false -> u_persis_in a <> [] ->
  u_gen_in a <> [] \/ trim_H (m_h m1) = [] \/ pu_num_gens u <= pi_gens_started (snd s1) ->
  Forall (fun v => set_order (v_ord v)) vs -> set_order (v_ord v) ->
  driven_loop (persistent_alloc c a u) c vs s (init_manager c h n zeros gens rm pin) = (m, CGo) ->
  bindx (kill_cancelled c m) (receive c (v_msgs v)) = (m1, None) ->
  order_error (persistent_alloc c a u) c v s1 m1 = None.
Proof. intros. eapply (passive_taken c a (nat * pinfo)); eauto; [now apply passive_persistent|cbn; auto]. Qed.
Print Assumptions C58_persistent_orders_taken.

(** When does a run driven by the default allocation function raise? Without
    resource sets, batch mode and safe mode, and with a worker that may run
    simulations, only for one of these reasons: the test of the exit criteria
    fails; a kill signal or a message cannot be dealt with (a worker reported a
    failure); or as many points as sim_max allows have been given out, no worker
    is active, and yet no exit criterion is met: results are missing. *)
Theorem C58_default_raises : forall c a u h n zeros gens pin vs s m' e,
  columns_asked a h -> u_manage a = false -> (c_kill c = true -> u_batch_give u = false) ->
  u_batch_mode u = false -> u_num_active_gens u <> Some 0 -> h_safe h = false ->
  (exists r, In r (m_W (init_manager c h n zeros gens None pin)) /\ w_gen r = false) ->
  Forall (fun v => set_order (v_ord v)) vs ->
  driven_loop (default_alloc c a u) c vs s (init_manager c h n zeros gens None pin) = (m', CExc e) ->
  exists vs1 v vs2 m, vs = (vs1 ++ v :: vs2)%list /\ driven_loop (default_alloc c a u) c vs1 s (init_manager c h n zeros gens None pin) = (m, CGo) /\
    (term_test c (v_elapsed v) m = Err e \/ snd (bindx (kill_cancelled c m) (receive c (v_msgs v))) = Some e \/ term_test c (v_elapsed2 v) m' = Err e \/
     (sim_max_given c m' = true /\ any_active m' = false /\ term_test c (v_elapsed2 v) m' = Ok 0)).
Proof.
  intros c a u h n zeros gens pin vs s m' e [Hs Hc] Hm Hk Hb Hn Hsafe Hp HV E. apply driven_split in E as (vs1 & v & vs2 & s1 & m & -> & E1 & E2).
  exists vs1, v, vs2, m. split; auto. split; auto. apply Forall_app in HV as [HV1 HV2]. inversion_clear HV2 as [|? ? HO _].
  assert (HJ : Jo c a True m).
  { eapply driven_orders; [exact Hs|apply (passive_default c a u)|exact HV1| |exact E1|discriminate]. apply init_orders; [discriminate|congruence|exact Hc|auto|auto]. }
  destruct (default_turn c a True Hs u v s1 m m' e Hk HJ I HO Hm Hb Hn E2) as [A|[A|[A|(_ & A)]]]; auto.
Qed.
Print Assumptions C58_default_raises.

(** With neither sim_max nor stop_val, only a kill signal or a message can do it. *)
Theorem C58_default_raises_on_messages : forall c a u h n zeros gens pin vs s m' e,
  columns_asked a h -> u_manage a = false -> (c_kill c = true -> u_batch_give u = false) ->
  u_batch_mode u = false -> u_num_active_gens u <> Some 0 -> h_safe h = false ->
  (exists r, In r (m_W (init_manager c h n zeros gens None pin)) /\ w_gen r = false) ->
  Forall (fun v => set_order (v_ord v)) vs -> c_sim_max c = None -> c_stop c = None ->
  driven_loop (default_alloc c a u) c vs s (init_manager c h n zeros gens None pin) = (m', CExc e) ->
  exists vs1 v vs2 m, vs = (vs1 ++ v :: vs2)%list /\ driven_loop (default_alloc c a u) c vs1 s (init_manager c h n zeros gens None pin) = (m, CGo) /\
    snd (bindx (kill_cancelled c m) (receive c (v_msgs v))) = Some e.
Proof.
  intros c a u h n zeros gens pin vs s m' e H1 H2 H3 H4 H5 H6 H7 H8 Hx Hy E.
  eapply C58_default_raises in E as (vs1 & v & vs2 & m & A1 & A2 & A3); eauto. exists vs1, v, vs2, m. split; auto. split; auto.
  assert (T : forall t mm, term_test c t mm <> Err e).
  { intros t mm. unfold term_test. rewrite Hx, Hy. destruct (match c_wall c with Some _ => _ | None => _ end); [discriminate|].
    destruct (match c_gen_max c with Some _ => _ | None => _ end); discriminate. }
  destruct A3 as [A3|[A3|[A3|[A3 _]]]]; [destruct (T _ _ A3)|exact A3|destruct (T _ _ A3)|].
  unfold sim_max_given in A3. rewrite Hx in A3. discriminate.
Qed.
Print Assumptions C58_default_raises_on_messages.

(** ** Cases *)
Definition calm (c : mcfg) : hist := fresh_history c [(X, ShS); (FF, ShS)] no_H0 false.
Lemma here_order t l : set_order (v_ord (here t l)).
Proof. apply here_fits. Qed.
Lemma calm_columns c d safe : columns_asked plain_setup (fresh_history c [(X, ShS); (FF, ShS)] (mkA d []) safe).
Proof. split; [discriminate|]. intros f Hf. cbn in Hf. unfold column. cbn. intuition (subst; auto 20). Qed.

(** The default: three points, the results of two are there and more work is given. *)
Example C58_default_case :
  columns_asked plain_setup (calm noend) /\ table_new None /\ Forall (fun v => set_order (v_ord v)) (firstn 2 d_plain) /\
  (exists r, In r (m_W (init_manager noend (calm noend) 3 [] [] None None)) /\ w_gen r = false) /\
  let m := driven_loop (default_alloc noend plain_setup one_gen) noend (firstn 2 d_plain) 0 (init_manager noend (calm noend) 3 [] [] None None) in
  snd m = CGo /\
  let m1 := bindx (kill_cancelled noend (fst m)) (receive noend [(2, sim_answer [1] [101]%Z, 3%Z); (1, sim_answer [0] [100]%Z, 3%Z)]) in
  snd m1 = None /\ map fst (o_work (fst (default_alloc noend plain_setup one_gen (here 3 []) 1 (fst m1)))) = [1] /\
  order_error (default_alloc noend plain_setup one_gen) noend (here 3 []) 1 (fst m1) = None.
Proof.
  split; [apply calm_columns|]. split; [intros r [=]|]. split; [repeat (apply Forall_cons; [apply here_order|]); apply Forall_nil|].
  split; [eexists; split; [left; reflexivity|reflexivity]|]. vm_compute. auto 10.
Qed.

(** The default with resource sets. *)
Example C58_managed_case :
  columns_asked managed_setup (calm noend) /\ table_new (Some ex_table) /\
  let m := driven_loop (default_alloc noend managed_setup one_gen) noend (firstn 1 d_plain) 0 (init_manager noend (calm noend) 4 [] [] (Some ex_table) None) in
  snd m = CGo /\
  let m1 := bindx (kill_cancelled noend (fst m)) (receive noend [(1, gen_answer [10; 20; 30]%Z, 3%Z)]) in
  snd m1 = None /\ map (fun p => (fst p, k_team (snd p))) (o_work (fst (default_alloc noend managed_setup one_gen (here 3 []) 1 (fst m1)))) = [(1, Some [2]); (2, Some [3]); (3, Some [6])] /\
  order_error (default_alloc noend managed_setup one_gen) noend (here 3 []) 1 (fst m1) = None.
Proof.
  split; [apply calm_columns|]. split; [apply ex_new|]. vm_compute. auto 10.
Qed.

(** fast_alloc and only_persistent_gens at the same place; the generator lives, so
    gen_specs["in"] may be empty. *)
Example C58_others_case :
  let m := driven_loop (fast_alloc_fn noend plain_setup (Some 1)) noend (firstn 1 d_plain) (0, mkPI 0 0 0) (init_manager noend (calm noend) 3 [] [] None None) in
  let m1 := bindx (kill_cancelled noend (fst m)) (receive noend [(1, gen_answer [10; 20]%Z, 3%Z)]) in
  let p := driven_loop (persistent_alloc noend plain_setup p_opts) noend (firstn 2 d_persis) (0, mkPI 0 0 0) (init_manager noend (calm noend) 3 [] [] None None) in
  let p1 := bindx (kill_cancelled noend (fst p)) (receive noend [(2, sim_answer [0] [100]%Z, 3%Z)]) in
  snd m = CGo /\ snd m1 = None /\ snd p = CGo /\ snd p1 = None /\
  map fst (o_work (fst (fast_alloc_fn noend plain_setup (Some 1) (here 3 []) (1, mkPI 0 1 0) (fst m1)))) = [1; 2; 3] /\
  order_error (fast_alloc_fn noend plain_setup (Some 1)) noend (here 3 []) (1, mkPI 0 1 0) (fst m1) = None /\
  map fst (o_work (fst (persistent_alloc noend plain_setup p_opts (here 3 []) (1, mkPI 0 0 1) (fst p1)))) = [1; 2] /\
  order_error (persistent_alloc noend plain_setup p_opts) noend (here 3 []) (1, mkPI 0 0 1) (fst p1) = None.
Proof. vm_compute. auto 10. Qed.

(** A worker reports a failure: the run raises, and for that reason. *)
Example C58_raises_case :
  snd (driven_loop (default_alloc noend plain_setup one_gen) noend (firstn 2 d_plain ++ [here 3 [(2, IErr)]])%list 0 (init_manager noend (calm noend) 3 [] [] None None)) = CExc EWorker.
Proof. vm_compute. reflexivity. Qed.

(** sim_max points have been given out, and the two workers answer with something
    else. Nobody is active, nothing can be given: the run raises. *)
Example C58_missing_results_case :
  let r := driven_loop (default_alloc c2 plain_setup one_gen) c2 (firstn 2 d_plain ++ [here 3 [(1, gen_answer [40]%Z); (2, gen_answer [50]%Z)]])%list 0 (init_manager c2 (calm c2) 3 [] [] None None) in
  snd r = CExc EAssert /\ sim_max_given c2 (fst r) = true /\ any_active (fst r) = false.
Proof. vm_compute. auto. Qed.

(** ** Where the conditions are needed *)
(** Points of an earlier run, all simulated. *)
Definition H0_done : sarr := mkA [(X, ShS); (F_sim_started, ShS); (F_sim_ended, ShS)] [(fun f => if feqb X f then vint 7 else vbool true)].
Definition with_done (c : mcfg) : mgr := init_manager c (fresh_history c [(X, ShS); (FF, ShS)] H0_done false) 3 [] [] None None.
(** only_persistent_gens with such an H0 and gen_specs["in"] empty: its very first
    order, which starts the generator, names rows but no fields; the manager
    refuses it and the run raises. *)
Theorem C58_persistent_H0_no_in_refuted :
  let m1 := bindx (kill_cancelled noend (with_done noend)) (receive noend []) in
  snd m1 = None /\ u_gen_in plain_setup = [] /\ u_persis_in plain_setup <> [] /\ pu_recv p_opts = false /\
  order_error (persistent_alloc noend plain_setup p_opts) noend (here 1 []) (0, mkPI 0 0 0) (fst m1) = Some EAssert /\
  snd (driven_run (persistent_alloc noend plain_setup p_opts) noend [here 1 []] (0, mkPI 0 0 0) 6 [] (with_done noend)) = Raised EAssert.
Proof. cbn zeta. split; [vm_compute; reflexivity|]. split; [reflexivity|]. split; [discriminate|]. split; [reflexivity|]. split; vm_compute; reflexivity. Qed.
Print Assumptions C58_persistent_H0_no_in_refuted.

(** Points whose priority is NaN, given out in batches (give_all_with_same_priority)
    while kill_canceled_sims is on: the unit has no rows, np.max of nothing raises. *)
Definition nan_points : sarr := mkA [(X, ShS); (F_priority, ShS)] [(fun f => if feqb X f then vint 7 else VS SNaN); (fun f => if feqb X f then vint 8 else VS SNaN)].
Definition batches : user_opts := mkUO None true (Some 1) false.
Definition with_prio (c : mcfg) : mgr := init_manager c (fresh_history c [(X, ShS); (FF, ShS); (F_priority, ShS)] no_H0 false) 3 [] [] None None.
Theorem C58_batch_nan_priority_refuted :
  c_kill noend = true /\ exists vs, Forall (fun v => set_order (v_ord v)) vs /\
  snd (driven_loop (default_alloc noend plain_setup batches) noend vs 0 (with_prio noend)) = CExc EValue.
Proof.
  split; [reflexivity|]. exists [here 1 []; here 2 [(1, IData (mkAns EVAL_GEN 35 (UArr nan_points) [] false false))]].
  split; [repeat (apply Forall_cons; [apply here_order|]); apply Forall_nil|]. vm_compute. reflexivity.
Qed.
Print Assumptions C58_batch_nan_priority_refuted.
