(** C63: runs in which the other allocation functions of libEnsemble decide the
    work. No point is sent out for simulation twice, and at no moment do two
    workers hold a resource set together. *)
From Coq Require Import String Permutation.
From Verif Require Import Base BaseLemmas HistoryModel HistorySpec HistoryProofs HistoryFacts HistoryRun HistoryRun2 RsetModel RsetSpec WorkModel SchedModel SchedSpec AllocModel AllocSpec AllocModel2 AllocSpec2 AllocMore7 ManagerModel ManagerSpec ManagerProofs ManagerMsg ManagerRun ManagerInv DrivenModel DrivenSpec DrivenProofs DrivenInv DrivenPoints DrivenRes DrivenModel2 DrivenSpec2 DrivenSets DrivenSets2 DrivenPending DrivenCareful2 HistoryExamples PropsResources ManagerExamples PropsDriven PropsDrivenRes.
Local Notation length := List.length.
Local Open Scope nat_scope.

(** start_fd_persistent, inverse_bayes_allocf and start_persistent_local_opt_gens:
    whatever arrives, and also when the run is aborted, no point is sent out
    twice, and no point of H0 that was given out before is sent at all. The
    results must not overwrite the protected columns, or safe_mode must be on.
    For the local runs: whatever the numerical parts decide. *)
Theorem C63_fd_never_twice : forall c a u outs H0 safe n zeros gens rm pin vs g t rounds m o,
  table_start rm -> c_sim_max c <> Some 0 ->
  Forall (fun v => set_order (v_ord v) /\ (safe = true \/ surr_tidy v)) vs ->
  driven_run (fd_alloc_fn c a u) c vs g t rounds (init_manager c (fresh_history c outs H0 safe) n zeros gens rm pin) = (m, o) ->
  NoDup (points_sent (m_log m)) /\ forall i, started_before H0 i -> ~ In i (points_sent (m_log m)).
Proof.
  intros c a u outs H0 safe n zeros gens rm pin vs g t rounds m o Hr Hm HV E.
  eapply (never_twice _ c (started_before H0) safe) in E; [apply E| |apply init_pts; auto|exact HV].
  - intros. eapply fd_careful; eauto.
  - intros i Hi. now apply started_before_cell.
Qed.
Print Assumptions C63_fd_never_twice.
Theorem C63_bayes_never_twice : forall c a k outs H0 safe n zeros gens rm pin vs g t rounds m o,
  table_start rm -> c_sim_max c <> Some 0 ->
  Forall (fun v => set_order (v_ord v) /\ (safe = true \/ surr_tidy v)) vs ->
  driven_run (bayes_alloc_fn c a k) c vs g t rounds (init_manager c (fresh_history c outs H0 safe) n zeros gens rm pin) = (m, o) ->
  NoDup (points_sent (m_log m)) /\ forall i, started_before H0 i -> ~ In i (points_sent (m_log m)).
Proof.
  intros c a k outs H0 safe n zeros gens rm pin vs g t rounds m o Hr Hm HV E.
  eapply (never_twice _ c (started_before H0) safe) in E; [apply E| |apply init_pts; auto|exact HV].
  - intros. eapply bayes_careful; eauto.
  - intros i Hi. now apply started_before_cell.
Qed.
Print Assumptions C63_bayes_never_twice.
Theorem C63_local_opt_never_twice : forall c a O outs H0 safe n zeros gens rm pin vs g t rounds m o,
  table_start rm -> c_sim_max c <> Some 0 ->
  Forall (fun v => set_order (v_ord v) /\ (safe = true \/ surr_tidy v)) vs ->
  driven_run (local_opt_alloc_fn c a O) c vs g t rounds (init_manager c (fresh_history c outs H0 safe) n zeros gens rm pin) = (m, o) ->
  NoDup (points_sent (m_log m)) /\ forall i, started_before H0 i -> ~ In i (points_sent (m_log m)).
Proof.
  intros c a O outs H0 safe n zeros gens rm pin vs g t rounds m o Hr Hm HV E.
  eapply (never_twice _ c (started_before H0) safe) in E; [apply E| |apply init_pts; auto|exact HV].
  - intros. eapply local_opt_careful; eauto.
  - intros i Hi. now apply started_before_cell.
Qed.
Print Assumptions C63_local_opt_never_twice.

Lemma fresh_n c outs H0 safe : h_index (fresh_history c outs H0 safe) = length (a_rows H0).
Proof. unfold fresh_history. now destruct (init_counts (match c_sim_max c with Some n => n | None => 100 end) outs H0 safe) as (-> & _). Qed.
Lemma init_pending {S} c (B : nat -> Prop) num (pend fine : S -> nat -> Prop) s h n zeros gens rm pin :
  h_index h <= length (h_rows h) -> table_start rm -> (num = true -> nums h) -> fine s (h_index h) ->
  Kp c B num pend fine s (init_manager c h n zeros gens rm pin).
Proof.
  intros Hi Hr Hn Hf. split; [split; [apply init_table|]; cbn; split; [constructor|auto]|]. split; [exact Hr|]. split; [exact Hi|]. split; [exact Hn|]. split; [exact Hf|]. intros i [].
Qed.

(** persistent_aposmm_alloc: no point is sent out twice and no point of H0 at
    all; no assumption about the results is needed. *)
Theorem C63_aposmm_never_twice : forall c a init outs H0 safe n zeros gens rm pin vs g p t rounds m o,
  table_start rm -> ap_first p = true -> Forall (fun v => set_order (v_ord v)) vs ->
  driven_run (aposmm_alloc_fn c a init) c vs (g, p) t rounds (init_manager c (fresh_history c outs H0 safe) n zeros gens rm pin) = (m, o) ->
  NoDup (points_sent (m_log m)) /\ forall i, i < length (a_rows H0) -> ~ In i (points_sent (m_log m)).
Proof.
  intros c a init outs H0 safe n zeros gens rm pin vs g p t rounds m o Hr Hp HV E.
  eapply (pending_never_twice (aposmm_alloc_fn c a init) c (fun i => i < length (a_rows H0)) false ap_pend (ap_fine (length (a_rows H0)))) in E; [apply E| | | |].
  - intros. eapply ap_fine_mono; eauto.
  - intros. eapply aposmm_pending; eauto.
  - apply init_pending; auto; [apply fresh_index|discriminate|]. rewrite fresh_n. split; [lia|]. cbn. congruence.
  - eapply Forall_impl; [|exact HV]. intros v Hv. split; [exact Hv|discriminate].
Qed.
Print Assumptions C63_aposmm_never_twice.

(** fast_alloc_and_pausing, whatever the rule for partly evaluated points decides:
    no point is sent out twice, and none of the first [k], the value that H_len
    starts with. Points of H0 and of the generators are numbered by their rows. *)
Theorem C63_pausing_never_twice : forall c a U outs H0 safe n zeros gens rm pin vs g k t rounds m o,
  table_start rm -> c_sim_max c <> Some 0 -> H0_ids H0 -> k <= length (a_rows H0) ->
  Forall (fun v => set_order (v_ord v) /\ surr_numbers v) vs ->
  driven_run (pausing_alloc_fn c a U) c vs (g, mkPS k [] [] None 0) t rounds (init_manager c (fresh_history c outs H0 safe) n zeros gens rm pin) = (m, o) ->
  NoDup (points_sent (m_log m)) /\ forall i, i < k -> ~ In i (points_sent (m_log m)).
Proof.
  intros c a U outs H0 safe n zeros gens rm pin vs g k t rounds m o Hr Hm HI Hk HV E.
  eapply (pending_never_twice (pausing_alloc_fn c a U) c (fun i => i < k) true ps_pend (psf k)) in E; [apply E| | | |].
  - intros. eapply psf_mono; eauto.
  - intros. eapply pausing_pending; eauto.
  - apply init_pending; auto; [apply fresh_index| |].
    + intros _. split; [apply init_ids; auto; destruct (c_sim_max c) as [[|j]|]; [congruence|lia|lia]|apply init_column; cbn; tauto].
    + rewrite fresh_n. split; [split; [constructor|intros i []]|]. cbn. split; [lia|]. intros i [].
  - eapply Forall_impl; [|exact HV]. intros v [H1 H2]. auto.
Qed.
Print Assumptions C63_pausing_never_twice.

(** With each of the five functions: no resource set is ever with two workers. *)
Theorem C63_loop_never_shared : forall c a S (A : alloc_fn S) h n zeros gens rm pin vs s m x,
  shipped_too c a S A -> table_new rm -> (u_manage a = false -> c_gom c = false) -> Forall (fun v => set_order (v_ord v)) vs ->
  driven_loop A c vs s (init_manager c h n zeros gens rm pin) = (m, x) -> never_shared (m_log m).
Proof.
  intros c a S A h n zeros gens rm pin vs s m x HA Hr Hg HV E.
  eapply too_driven_sets in E as [(_ & E) _]; eauto. now apply init_sets.
Qed.
Print Assumptions C63_loop_never_shared.
Theorem C63_run_never_shared : forall c a S (A : alloc_fn S) h n zeros gens rm pin vs s t rounds m o,
  shipped_too c a S A -> table_new rm -> (u_manage a = false -> c_gom c = false) -> c_final_send c = false -> Forall (fun v => set_order (v_ord v)) vs ->
  driven_run A c vs s t rounds (init_manager c h n zeros gens rm pin) = (m, o) -> never_shared (m_log m).
Proof.
  intros c a S A h n zeros gens rm pin vs s t rounds m o HA Hr Hg Hf HV E. apply driven_cases in E as (m1 & x & E & E2).
  eapply too_driven_sets in E as [E _]; eauto; [|now apply init_sets].
  destruct E2 as [(_ & -> & _)|(_ & f & E2 & _)]; [apply E|]. eapply Lres_final in E2; eauto. apply E2.
Qed.
Print Assumptions C63_run_never_shared.
Theorem C63_table_tells : forall c a S (A : alloc_fn S) h n zeros gens rm pin vs s m x,
  shipped_too c a S A -> table_new rm -> (u_manage a = false -> c_gom c = false) -> Forall (fun v => set_order (v_ord v)) vs ->
  driven_loop A c vs s (init_manager c h n zeros gens rm pin) = (m, x) -> (forall e, x <> CExc e) -> table_tells m.
Proof.
  intros c a S A h n zeros gens rm pin vs s m x HA Hr Hg HV E Hx.
  eapply too_driven_sets in E as [_ E]; eauto; [|now apply init_sets]. now apply E.
Qed.
Print Assumptions C63_table_tells.

(** ** Cases *)
Definition ap_start : ap_state := mkAP true 0 0 false false.
Definition fd_three : fd_user := mkFD 1 1 3.
Definition no_runs (v : surr) (g : nat) (m : mgr) : lo_oracle := mkLO None (fun _ _ => vint 0) (fun _ _ _ => vint 0) (fun _ => []).
Definition in_batches (v : surr) (s : nat * ps_state) (m : mgr) : ps_user := mkPZ true (fun _ => []) (Some 1) true.
(** one generator that is given x of what there is *)
Definition gen_in_setup : asetup := mkSetup true false false 1 1 1 None 0 0 [X; F_sim_id] [X] [F_sim_id; FF].
Example C63_fd_case :
  trace (driven_run (fd_alloc_fn noend plain_setup fd_three) noend d_persis 0 6 [] (m3 noend)) =
    ([("work", 1, []); ("answer", 1, []); ("work", 2, [0]); ("rows", 2, [1]); ("work", 3, [1]); ("rows", 3, [1]);
      ("answer", 2, [0]); ("work", 2, [2]); ("rows", 2, [1]); ("answer", 3, [1]); ("answer", 2, [2]);
      ("work", 1, [0; 1; 2]); ("rows", 1, [3])]%string, Running) /\
  Forall fits d_persis.
Proof. split; [vm_compute; reflexivity|repeat (apply Forall_cons; [apply here_fits|]); apply Forall_nil]. Qed.
(** On the example machine, under resource management. *)
Example C63_fd_managed_case :
  table_new (Some ex_table) /\ shipped_too noend managed_setup nat (fd_alloc_fn noend managed_setup fd_three) /\
  let r := driven_loop (fd_alloc_fn noend managed_setup fd_three) noend (firstn 2 d_persis) 0 (m4 noend) in
  snd r = CGo /\ held_by [1; 2; 3; 4] r = [(1, [2]); (2, [3]); (3, [6]); (4, [7])] /\
  table_of r = [None; None; Some 1; Some 2; None; None; Some 3; Some 4].
Proof. split; [exact ex_new|]. split; [constructor|]. vm_compute. auto. Qed.
(** One subbatch of three points goes to one worker; with its results the generator is told. *)
Definition d_bayes : list surr :=
  [here 1 []; here 2 [(1, persis_answer [10; 20; 30]%Z)]; here 3 [(2, sim_answer [0; 1; 2] [100; 101; 102]%Z)]].
Definition m_like : mgr := init_manager noend (fresh_history noend [(X, ShS); (FF, ShS); (F_like, ShS)] no_H0 true) 3 [] [] None (Some [F_sim_id; FF; F_like]).
Example C63_bayes_case :
  trace (driven_run (bayes_alloc_fn noend plain_setup 3) noend d_bayes 0 6 [] m_like) =
    ([("work", 1, []); ("answer", 1, []); ("work", 2, [0; 1; 2]); ("rows", 2, [3]); ("answer", 2, [0; 1; 2]); ("work", 1, [0; 1; 2]); ("rows", 1, [3])]%string, Running) /\
  Forall fits d_bayes.
Proof. split; [vm_compute; reflexivity|repeat (apply Forall_cons; [apply here_fits|]); apply Forall_nil]. Qed.
Example C63_local_opt_case :
  trace (driven_run (local_opt_alloc_fn noend plain_setup no_runs) noend d_persis 0 6 [] (m3 noend)) =
    ([("work", 1, []); ("answer", 1, []); ("work", 2, [0]); ("rows", 2, [1]); ("work", 3, [1]); ("rows", 3, [1]);
      ("answer", 2, [0]); ("work", 2, [2]); ("rows", 2, [1]); ("answer", 3, [1]); ("answer", 2, [2]);
      ("work", 1, [2]); ("rows", 1, [1])]%string, Running).
Proof. vm_compute; reflexivity. Qed.
Example C63_aposmm_case :
  trace (driven_run (aposmm_alloc_fn noend plain_setup 2) noend d_persis (0, ap_start) 6 [] (m3 noend)) =
    ([("work", 1, []); ("answer", 1, []); ("work", 2, [0]); ("rows", 2, [1]); ("work", 3, [1]); ("rows", 3, [1]);
      ("answer", 2, [0]); ("work", 2, [2]); ("rows", 2, [1]); ("answer", 3, [1]); ("work", 1, [0; 1]); ("rows", 1, [2]);
      ("answer", 2, [2])]%string, Running) /\ ap_first ap_start = true.
Proof. vm_compute; auto. Qed.
(** With a point in H0 that has not come back, the first call stops the run. *)
Example C63_aposmm_H0_case :
  trace (driven_run (aposmm_alloc_fn noend plain_setup 2) noend d_persis (0, ap_start) 6 [] (m_H0 noend)) =
    ([("stop", 1, [20]); ("stop", 2, [20]); ("stop", 3, [20])]%string, Raised EAssert).
Proof. vm_compute; reflexivity. Qed.
Definition d_batches : list surr :=
  [here 1 []; here 2 [(1, gen_answer [10; 20; 30]%Z)]; here 3 [(1, sim_answer [0] [100]%Z)]; here 4 [(3, sim_answer [2] [101]%Z)];
   here 5 [(2, sim_answer [1] [102]%Z)]; here 6 [(1, gen_answer [40]%Z)]].
Lemma d_batches_number : Forall (fun v => set_order (v_ord v) /\ surr_numbers v) d_batches.
Proof.
  repeat (apply Forall_cons; [split; [apply here_fits|intros w i t Hi]|]); try apply Forall_nil; cbn in Hi; try (now destruct Hi);
    destruct Hi as [[= <- <- <-]|[]]; cbn; intros Hx; repeat (destruct Hx as [Hx|Hx]; try discriminate Hx); destruct Hx.
Qed.
Example C63_pausing_case :
  trace (driven_run (pausing_alloc_fn noend gen_in_setup in_batches) noend d_batches (0, mkPS 0 [] [] None 0) 6 [] (m4 noend)) =
    ([("work", 1, []); ("answer", 1, []); ("work", 1, [0]); ("rows", 1, [1]); ("work", 2, [1]); ("rows", 2, [1]);
      ("work", 3, [2]); ("rows", 3, [1]); ("answer", 1, [0]); ("answer", 3, [2]); ("answer", 2, [1]); ("work", 1, [0; 1; 2]); ("rows", 1, [3]);
      ("answer", 1, []); ("work", 1, [3]); ("rows", 1, [1])]%string, Running) /\ H0_ids no_H0.
Proof. split; [vm_compute; reflexivity|]. unfold H0_ids. cbn. intuition. Qed.
