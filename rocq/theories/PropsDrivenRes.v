(** C56: runs in which libEnsemble's own allocation functions decide the work;
    at no moment do two workers hold a resource set together. *)
From Coq Require Import String Permutation.
From Verif Require Import Base BaseLemmas HistoryModel HistorySpec RsetModel RsetSpec WorkModel SchedModel SchedSpec AllocModel AllocSpec ManagerModel ManagerSpec ManagerRun DrivenModel DrivenSpec DrivenProofs DrivenInv DrivenPoints DrivenRes DrivenSets HistoryExamples PropsResources ManagerExamples PropsDriven.
Local Notation length := List.length.
Local Open Scope nat_scope.

(** The table a run starts with: built from a platform, nobody holds anything. *)
Definition table_new (rm : option rman) : Prop := forall r, rm = Some r -> reachable_table r /\ forall i, holder r i = None.

(** Whatever arrives, with every shipped allocation function, with and without
    num_resource_sets: while the main loop goes on, and also when it is left by an
    exception, no resource set is ever with two workers. Without num_resource_sets
    the generator must not run on the manager. *)
Theorem C56_loop_never_shared : forall c a S (A : alloc_fn S) h n zeros gens rm pin vs s m x,
  shipped c a S A -> table_new rm -> (u_manage a = false -> c_gom c = false) -> Forall (fun v => set_order (v_ord v)) vs ->
  driven_loop A c vs s (init_manager c h n zeros gens rm pin) = (m, x) -> never_shared (m_log m).
Proof.
  intros c a S A h n zeros gens rm pin vs s m x HA Hr Hg HV E.
  eapply driven_sets in E as [(_ & E) _]; eauto. now apply init_sets.
Qed.
Print Assumptions C56_loop_never_shared.

(** The same for the whole run, with the shutdown, if the generators are not sent
    a last batch (final_gen_send). *)
Theorem C56_run_never_shared : forall c a S (A : alloc_fn S) h n zeros gens rm pin vs s t rounds m o,
  shipped c a S A -> table_new rm -> (u_manage a = false -> c_gom c = false) -> c_final_send c = false -> Forall (fun v => set_order (v_ord v)) vs ->
  driven_run A c vs s t rounds (init_manager c h n zeros gens rm pin) = (m, o) -> never_shared (m_log m).
Proof.
  intros c a S A h n zeros gens rm pin vs s t rounds m o HA Hr Hg Hf HV E. apply driven_cases in E as (m1 & x & E & E2).
  eapply driven_sets in E as [E _]; eauto; [|now apply init_sets].
  destruct E2 as [(_ & -> & _)|(_ & f & E2 & _)]; [apply E|]. eapply Lres_final in E2; eauto. apply E2.
Qed.
Print Assumptions C56_run_never_shared.

(** While the main loop has not raised, the manager's table of holders is exactly
    what the traffic says: a set has a holder if and only if that worker was given
    it and has not given it back. *)
Theorem C56_table_tells : forall c a S (A : alloc_fn S) h n zeros gens rm pin vs s m x,
  shipped c a S A -> table_new rm -> (u_manage a = false -> c_gom c = false) -> Forall (fun v => set_order (v_ord v)) vs ->
  driven_loop A c vs s (init_manager c h n zeros gens rm pin) = (m, x) -> (forall e, x <> CExc e) -> table_tells m.
Proof.
  intros c a S A h n zeros gens rm pin vs s m x HA Hr Hg HV E Hx.
  eapply driven_sets in E as [_ E]; eauto; [|now apply init_sets]. now apply E.
Qed.
Print Assumptions C56_table_tells.

(** ** Cases *)
Definition held_by (ws : list nat) (r : mgr * ctrl) : list (nat * list nat) := map (fun w => (w, held_sets w (m_log (fst r)))) ws.
Definition table_of (r : mgr * ctrl) : list (option nat) := match m_res (fst r) with Some rm => map rs_owner (rm_rsets rm) | None => [] end.
Lemma ex_new : table_new (Some ex_table).
Proof.
  intros r [= <-]. split; [exact ex_start|]. intros i. unfold holder.
  destruct (nth_error (rm_rsets ex_table) i) as [r|] eqn:E; auto. apply nth_error_In in E. revert r E. apply Forall_forall. vm_compute.
  repeat constructor.
Qed.
Example C56_managed_case :
  table_new (Some ex_table) /\ shipped noend managed_setup nat (default_alloc noend managed_setup one_gen) /\
  let r := driven_loop (default_alloc noend managed_setup one_gen) noend d_plain 0 (m4 noend) in
  snd r = CGo /\ held_by [1; 2; 3; 4] r = [(1, []); (2, [3]); (3, [6]); (4, [])] /\
  table_of r = [None; None; None; Some 2; None; None; Some 3; None].
Proof. split; [exact ex_new|]. split; [constructor|]. vm_compute. auto. Qed.
Example C56_own_set_case :
  let r := driven_loop (persistent_alloc noend plain_setup p_opts) noend (firstn 2 d_persis) (0, mkPI 0 0 0) (m4 noend) in
  snd r = CGo /\ held_by [1; 2; 3; 4] r = [(1, [0]); (2, [1]); (3, [2]); (4, [3])] /\
  table_of r = [Some 1; Some 2; Some 3; Some 4; None; None; None; None].
Proof. vm_compute. auto. Qed.

(** With the generator on the manager and no num_resource_sets, worker 0 takes the
    last worker's set (index_list[-1]): both hold it at once. *)
Definition own_plat : platform := mkPlat ["n1"%string] None [] 0 None 4.
Definition own_table : rman := match rman_init 3 own_plat with Ok m => m | Err _ => mkRman [] [] 0 0 0 0 [] 0 0 0 end.
Definition on_manager : mcfg := mkC true true true true false false None None None None.
Lemma own_new : table_new (Some own_table).
Proof.
  intros r [= <-]. split.
  - exists 3, own_plat, own_table, []. split; [repeat constructor; cbn; intuition discriminate|]. split; [discriminate|]. split; [vm_compute; reflexivity|]. split; [constructor|reflexivity].
  - intros i. unfold holder. destruct (nth_error (rm_rsets own_table) i) as [r|] eqn:E; auto. apply nth_error_In in E. revert r E. apply Forall_forall. vm_compute. repeat constructor.
Qed.
Definition d_manager : list surr := [here 1 []; here 2 [(0, persis_answer [10; 20; 30]%Z)]].
Theorem C56_generator_on_manager_shares_refuted : exists c a S (A : alloc_fn S) h n zeros gens rm pin vs s m x,
  shipped c a S A /\ table_new rm /\ u_manage a = false /\ c_gom c = true /\ Forall (fun v => set_order (v_ord v)) vs /\
  driven_loop A c vs s (init_manager c h n zeros gens rm pin) = (m, x) /\ (forall e, x <> CExc e) /\ ~ never_shared (m_log m).
Proof.
  pose (A := persistent_alloc on_manager plain_setup p_opts). pose (m0 := init_manager on_manager (fresh_history on_manager [(X, ShS); (FF, ShS)] no_H0 true) 3 [] [] (Some own_table) (Some [F_sim_id; FF])).
  exists on_manager, plain_setup, (nat * pinfo)%type, A, (fresh_history on_manager [(X, ShS); (FF, ShS)] no_H0 true), 3, [], [], (Some own_table), (Some [F_sim_id; FF]), d_manager, (0, mkPI 0 0 0).
  destruct (driven_loop A on_manager d_manager (0, mkPI 0 0 0) m0) as [m x] eqn:E. exists m, x. fold m0.
  assert (G : (snd (driven_loop A on_manager d_manager (0, mkPI 0 0 0) m0), held_by [0; 3] (driven_loop A on_manager d_manager (0, mkPI 0 0 0) m0)) = (CGo, [(0, [2]); (3, [2])])) by (vm_compute; reflexivity).
  rewrite E in G. cbn [fst snd held_by map] in G. injection G as -> H0 H3.
  split; [constructor|]. split; [exact own_new|]. split; [reflexivity|]. split; [reflexivity|]. split; [repeat (apply Forall_cons; [apply here_fits|]); apply Forall_nil|].
  split; [exact E|]. split; [discriminate|]. intros HN. refine (HN (m_log m) [] (eq_sym (app_nil_r _)) 0 3 2 _ _ _); [discriminate|rewrite H0|rewrite H3]; now left.
Qed.
Print Assumptions C56_generator_on_manager_shares_refuted.

(** The last batch for a persistent generator (final_gen_send) goes out with the
    worker's default set even under resource management, although a simulation
    that still runs holds that set. *)
Definition last_batch : mcfg := cfg None (Some 3%Z) true.
Definition free_gen_setup : asetup := mkSetup true false false 1 1 0 None 0 0 [X; F_sim_id] [] [F_sim_id; FF].
Definition d_last : list surr := [here 1 []; here 2 [(3, persis_answer [10; 20; 30]%Z)]; here 3 []].
Theorem C56_final_gen_send_shares_refuted : exists c a S (A : alloc_fn S) h n zeros gens rm pin vs s t rounds m o,
  shipped c a S A /\ table_new rm /\ u_manage a = true /\ c_gom c = false /\ Forall (fun v => set_order (v_ord v)) vs /\
  driven_run A c vs s t rounds (init_manager c h n zeros gens rm pin) = (m, o) /\ (forall e, o <> Raised e) /\ ~ never_shared (m_log m).
Proof.
  pose (A := persistent_alloc last_batch free_gen_setup p_opts).
  exists last_batch, free_gen_setup, (nat * pinfo)%type, A, (fresh_history last_batch [(X, ShS); (FF, ShS)] no_H0 true), 4, [], [3], (Some ex_table), (Some [F_sim_id; FF]), d_last, (0, mkPI 0 0 0), 4%Z, [].
  set (m0 := init_manager _ _ _ _ _ _ _).
  destruct (driven_run A last_batch d_last (0, mkPI 0 0 0) 4 [] m0) as [m o] eqn:E. exists m, o.
  assert (G : (snd (driven_run A last_batch d_last (0, mkPI 0 0 0) 4 [] m0), held_by [1; 2; 3; 4] (fst (driven_run A last_batch d_last (0, mkPI 0 0 0) 4 [] m0), CGo)) = (Running, [(1, [2]); (2, [3]); (3, [2]); (4, [6])])) by (vm_compute; reflexivity).
  rewrite E in G. cbn [fst snd held_by map] in G. injection G as -> H0 _ H3 _.
  split; [constructor|]. split; [exact ex_new|]. split; [reflexivity|]. split; [reflexivity|]. split; [repeat (apply Forall_cons; [apply here_fits|]); apply Forall_nil|].
  split; [reflexivity|]. split; [discriminate|]. intros HN. refine (HN (m_log m) [] (eq_sym (app_nil_r _)) 1 3 2 _ _ _); [discriminate|rewrite H0|rewrite H3]; now left.
Qed.
Print Assumptions C56_final_gen_send_shares_refuted.
