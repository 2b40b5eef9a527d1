(** C57: the limit on generators that run at the same time, in runs in which
    libEnsemble's own allocation functions decide the work. *)
From Coq Require Import String Permutation.
From Verif Require Import Base BaseLemmas HistoryModel HistorySpec RsetModel RsetSpec WorkModel SchedModel SchedSpec AllocModel AllocSpec ManagerModel ManagerSpec ManagerRun DrivenModel DrivenSpec DrivenProofs DrivenInv DrivenPoints DrivenRes DrivenGens HistoryExamples PropsResources ManagerExamples PropsDriven.
Local Notation length := List.length.
Local Open Scope nat_scope.

Lemma run_gens {S} c a pers n (A : alloc_fn S) h k zeros gens rm pin vs s t rounds m o : limits c a pers n A -> Forall (fun v => set_order (v_ord v)) vs ->
  driven_run A c vs s t rounds (init_manager c h k zeros gens rm pin) = (m, o) -> hon pers (m_log m) -> at_most_gens (tsk pers) n (m_log m).
Proof.
  intros HA HV E Hh. apply driven_cases in E as (m1 & x & E & E2).
  eapply driven_gens in E; eauto; [|apply init_gens].
  destruct E2 as [(_ & -> & _)|(_ & f & E2 & _)]; [now apply E|]. eapply Lg_final in E2; eauto. now apply E2.
Qed.

(** The default allocation function with num_active_gens = n: whatever the workers
    send, from any history, at no moment of the run, the shutdown included, do
    more than n workers work on a generator call. *)
Theorem C57_default_gen_limit : forall c a u n h k zeros gens rm pin vs s t rounds m o,
  u_num_active_gens u = Some n -> Forall (fun v => set_order (v_ord v)) vs ->
  driven_run (default_alloc c a u) c vs s t rounds (init_manager c h k zeros gens rm pin) = (m, o) -> at_most_gens task n (m_log m).
Proof. intros. eapply (run_gens c a false n); eauto; [now apply default_limits|discriminate]. Qed.
Print Assumptions C57_default_gen_limit.

(** The same for fast_alloc, *)
Theorem C57_fast_gen_limit : forall c a n h k zeros gens rm pin vs s t rounds m o,
  Forall (fun v => set_order (v_ord v)) vs ->
  driven_run (fast_alloc_fn c a (Some n)) c vs s t rounds (init_manager c h k zeros gens rm pin) = (m, o) -> at_most_gens task n (m_log m).
Proof. intros. eapply (run_gens c a false n); eauto; [apply fast_limits|discriminate]. Qed.
Print Assumptions C57_fast_gen_limit.

(** for the allocation function that allows one generator, *)
Theorem C57_one_active_gen : forall c a h k zeros gens rm pin vs s t rounds m o,
  Forall (fun v => set_order (v_ord v)) vs ->
  driven_run (one_gen_alloc c a) c vs s t rounds (init_manager c h k zeros gens rm pin) = (m, o) -> at_most_gens task 1 (m_log m).
Proof. intros. eapply (run_gens c a false 1); eauto; [apply one_gen_limits|discriminate]. Qed.
Print Assumptions C57_one_active_gen.

(** and for the one that gives out pregenerated points: no generator is ever called. *)
Theorem C57_pregenerated_no_gen : forall c a h k zeros gens rm pin vs s t rounds m o,
  Forall (fun v => set_order (v_ord v)) vs ->
  driven_run (pregenerated_alloc c a) c vs s t rounds (init_manager c h k zeros gens rm pin) = (m, o) -> at_most_gens task 0 (m_log m).
Proof. intros. eapply (run_gens c a false 0); eauto; [apply pregenerated_limits|discriminate]. Qed.
Print Assumptions C57_pregenerated_no_gen.

(** only_persistent_gens with num_active_gens = n: at no moment do more than n
    persistent generators live, provided that the answers of the workers name the
    function that runs. *)
Theorem C57_persistent_gen_limit : forall c a u h k zeros gens rm pin vs s t rounds m o,
  Forall (fun v => set_order (v_ord v)) vs ->
  driven_run (persistent_alloc c a u) c vs s t rounds (init_manager c h k zeros gens rm pin) = (m, o) ->
  persis_honest (m_log m) -> at_most_gens persis_task (pu_num_gens u) (m_log m).
Proof. intros. eapply (run_gens c a true (pu_num_gens u)); eauto; [apply persistent_limits|now intros _]. Qed.
Print Assumptions C57_persistent_gen_limit.

(** ** Cases *)
Definition two_gens : user_opts := mkUO None false (Some 2) false.
Definition tasks_after (ws : list nat) (n : nat) (r : mgr * outcome) : list nat := map (fun w => task w (firstn n (m_log (fst r)))) ws.
Definition lives_after (ws : list nat) (n : nat) (r : mgr * outcome) : list nat := map (fun w => persis_task w (firstn n (m_log (fst r)))) ws.

(** Two of three workers get the generator, the third waits; then one of them
    answers, and its points come first. *)
Example C57_default_case :
  Forall (fun v => set_order (v_ord v)) d_plain /\ u_num_active_gens two_gens = Some 2 /\
  let r := driven_run (default_alloc noend plain_setup two_gens) noend d_plain 0 6 [] (m3 noend) in
  tasks_after [1; 2; 3] 1 r = [EVAL_GEN; 0; 0] /\ tasks_after [1; 2; 3] 2 r = [EVAL_GEN; EVAL_GEN; 0] /\ tasks_after [1; 2; 3] 3 r = [0; EVAL_GEN; 0] /\
  tasks_after [1; 2; 3] 5 r = [EVAL_SIM; EVAL_GEN; 0].
Proof. split; [repeat (apply Forall_cons; [apply here_fits|]); apply Forall_nil|]. vm_compute. auto 10. Qed.
(** With no limit all three are called at once. *)
Example C57_no_limit_case :
  tasks_after [1; 2; 3] 3 (driven_run (default_alloc noend plain_setup (mkUO None false None false)) noend d_plain 0 6 [] (m3 noend)) = [EVAL_GEN; EVAL_GEN; EVAL_GEN].
Proof. vm_compute. reflexivity. Qed.
Definition two_persis : puser := mkPU false 0 false true false 2.
Definition honest_at (l : list event) (i : nat) : bool :=
  match nth_error l i with
  | Some (Got w (IData a)) => negb (n_persistent a) || (negb (n_type a =? 0) && (persis_task w (firstn i l) =? n_type a))
  | _ => true
  end.
Lemma honest_checked l : forallb (honest_at l) (seq 0 (length l)) = true -> persis_honest l.
Proof.
  intros H p w a q E Hp. rewrite forallb_forall in H. specialize (H (length p)). unfold honest_at in H. rewrite E, nth_error_app2, Nat.sub_diag in H by lia.
  cbn [nth_error] in H. rewrite Hp, firstn_app, Nat.sub_diag, firstn_all, firstn_O, app_nil_r in H. cbn [negb orb] in H.
  assert (G : (negb (n_type a =? 0) && (persis_task w p =? n_type a)) = true) by (apply H, in_seq; rewrite app_length; cbn; lia).
  apply andb_true_iff in G as [G1 G2]. apply negb_true_iff, Nat.eqb_neq in G1. apply Nat.eqb_eq in G2. auto.
Qed.
(** Two persistent generators live while a result goes back to the first. *)
Definition d_two : list surr := [here 1 []; here 2 [(1, persis_answer [10]%Z)]; here 3 [(3, sim_answer [0] [100]%Z)]].
Example C57_persistent_case :
  let r := driven_run (persistent_alloc noend plain_setup two_persis) noend d_two (0, mkPI 0 0 0) 6 [] (m3 noend) in
  persis_honest (m_log (fst r)) /\ lives_after [1; 2; 3] 2 r = [EVAL_GEN; EVAL_GEN; 0] /\ lives_after [1; 2; 3] 20 r = [EVAL_GEN; EVAL_GEN; 0] /\
  trace r = ([("work", 1, []); ("work", 2, []); ("answer", 1, []); ("work", 3, [0]); ("rows", 3, [1]); ("answer", 3, [0]); ("work", 1, [0]); ("rows", 1, [1])]%string, Running).
Proof. cbn zeta. split; [apply honest_checked; vm_compute; reflexivity|]. vm_compute; auto. Qed.
