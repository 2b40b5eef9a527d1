(** C50: runs in which libEnsemble's own allocation functions decide the work;
    no point is sent out for simulation twice. *)
From Coq Require Import String Permutation.
From Verif Require Import Base BaseLemmas HistoryModel HistorySpec HistoryProofs HistoryFacts HistoryRun HistoryRun2 RsetModel RsetSpec WorkModel SchedModel SchedSpec AllocModel AllocSpec ManagerModel ManagerSpec ManagerRun DrivenModel DrivenSpec DrivenProofs DrivenInv DrivenPoints HistoryExamples PropsResources ManagerExamples.
Local Notation length := List.length.
Local Open Scope nat_scope.

(** Point [i] of the user's H0 was given out before: H0 has no "sim_started"
    column (then libEnsemble takes all its points as done), or says so. *)
Definition started_before (H0 : sarr) (i : nat) : Prop :=
  exists r, nth_error (a_rows H0) i = Some r /\ (~ In F_sim_started (names (a_dtype H0)) \/ truthy (r F_sim_started) = true).
Definition table_start (rm : option rman) : Prop := match rm with Some r => reachable_table r | None => True end.

Lemma started_before_cell c outs H0 safe i : c_sim_max c <> Some 0 -> started_before H0 i ->
  cell (h_rows (fresh_history c outs H0 safe)) i F_sim_started = Some (vbool true).
Proof.
  intros Hm (r & E & Hs). assert (Hp : 0 < match c_sim_max c with Some n => n | None => 100 end) by (destruct (c_sim_max c) as [[|n]|]; [congruence|lia|lia]).
  unfold cell, fresh_history. rewrite (init_nth _ _ _ _ _ _ Hp E). cbn. f_equal.
  destruct (row_from_cells (a_dtype H0) (init_dtype outs H0) i r) as (R1 & R2 & _).
  destruct (has F_sim_started (names (a_dtype H0))) eqn:Eh.
  - rewrite R1 by (auto; discriminate). cbn. destruct Hs as [Hs| ->]; auto. apply has_In in Eh. contradiction.
  - now apply R2.
Qed.

(** A run driven by any allocation function is a run of the manager: everything
    proved of all runs (C06, C07, C08, C37, C38, C45, C46) holds of it. The turns
    have the messages and the clocks of the surroundings. *)
Theorem C50_driven_is_a_run : forall S (A : alloc_fn S) c vs s t rounds m, exists its,
  run c its t rounds m = driven_run A c vs s t rounds m /\
  forall it, In it its -> exists v, In v vs /\ it_msgs it = v_msgs v /\ it_elapsed it = v_elapsed v /\ it_elapsed2 it = v_elapsed2 v.
Proof. intros. apply driven_run_is_run. Qed.
Print Assumptions C50_driven_is_a_run.

(** The default allocation function: whatever arrives, and also when the run is
    aborted, no point is sent out twice, and no point of H0 that was given out
    before is sent at all. The results must not overwrite the protected columns,
    or safe_mode must be on. *)
Theorem C50_default_never_twice : forall c a u outs H0 safe n zeros gens rm pin vs g t rounds m o,
  table_start rm -> c_sim_max c <> Some 0 ->
  Forall (fun v => set_order (v_ord v) /\ (safe = true \/ surr_tidy v)) vs ->
  driven_run (default_alloc c a u) c vs g t rounds (init_manager c (fresh_history c outs H0 safe) n zeros gens rm pin) = (m, o) ->
  NoDup (points_sent (m_log m)) /\ forall i, started_before H0 i -> ~ In i (points_sent (m_log m)).
Proof.
  intros c a u outs H0 safe n zeros gens rm pin vs g t rounds m o Hr Hm HV E.
  eapply (never_twice _ c (started_before H0) safe) in E; [apply E| |apply init_pts; auto|exact HV].
  - intros. eapply default_careful; eauto.
  - intros i Hi. now apply started_before_cell.
Qed.
Print Assumptions C50_default_never_twice.

(** The same of start_only_persistent (persistent generators, with and without
    asynchronous return, alternating results, given batches). *)
Theorem C50_persistent_never_twice : forall c a u outs H0 safe n zeros gens rm pin vs s t rounds m o,
  table_start rm -> c_sim_max c <> Some 0 ->
  Forall (fun v => set_order (v_ord v) /\ (safe = true \/ surr_tidy v)) vs ->
  driven_run (persistent_alloc c a u) c vs s t rounds (init_manager c (fresh_history c outs H0 safe) n zeros gens rm pin) = (m, o) ->
  NoDup (points_sent (m_log m)) /\ forall i, started_before H0 i -> ~ In i (points_sent (m_log m)).
Proof.
  intros c a u outs H0 safe n zeros gens rm pin vs g t rounds m o Hr Hm HV E.
  eapply (never_twice _ c (started_before H0) safe) in E; [apply E| |apply init_pts; auto|exact HV].
  - intros. eapply persistent_careful; eauto.
  - intros i Hi. now apply started_before_cell.
Qed.
Print Assumptions C50_persistent_never_twice.

Lemma fresh_index c outs H0 safe : h_index (fresh_history c outs H0 safe) <= length (h_rows (fresh_history c outs H0 safe)).
Proof. unfold fresh_history. rewrite init_length. destruct (init_counts (match c_sim_max c with Some n => n | None => 100 end) outs H0 safe) as (-> & _). lia. Qed.

(** The allocation functions that keep a position ("next_to_give") never send a
    point twice either; they need no assumption about the results. *)
Theorem C50_fast_never_twice : forall c a num outs H0 safe n zeros gens rm pin vs s t rounds m o,
  table_start rm -> pi_next (snd s) <= length (a_rows H0) -> Forall (fun v => set_order (v_ord v)) vs ->
  driven_run (fast_alloc_fn c a num) c vs s t rounds (init_manager c (fresh_history c outs H0 safe) n zeros gens rm pin) = (m, o) ->
  NoDup (points_sent (m_log m)).
Proof.
  intros c a num outs H0 safe n zeros gens rm pin vs s t rounds m o Hr Hn HV E.
  eapply (counting_never_twice _ c true) in E; eauto.
  - intros. eapply fast_counts; eauto.
  - apply init_count; auto. apply fresh_index.
Qed.
Print Assumptions C50_fast_never_twice.

Theorem C50_pregenerated_never_twice : forall c a outs H0 safe n zeros gens rm pin vs s t rounds m o,
  table_start rm -> Forall (fun v => set_order (v_ord v)) vs ->
  driven_run (pregenerated_alloc c a) c vs s t rounds (init_manager c (fresh_history c outs H0 safe) n zeros gens rm pin) = (m, o) ->
  NoDup (points_sent (m_log m)).
Proof.
  intros c a outs H0 safe n zeros gens rm pin vs s t rounds m o Hr HV E.
  eapply (counting_never_twice _ c false) in E; eauto.
  - intros. eapply pregenerated_counts; eauto.
  - apply init_count; auto; [apply fresh_index|discriminate].
Qed.
Print Assumptions C50_pregenerated_never_twice.

Theorem C50_one_gen_never_twice : forall c a outs H0 safe n zeros gens rm pin vs s t rounds m o,
  table_start rm -> Forall (fun v => set_order (v_ord v)) vs ->
  driven_run (one_gen_alloc c a) c vs s t rounds (init_manager c (fresh_history c outs H0 safe) n zeros gens rm pin) = (m, o) ->
  NoDup (points_sent (m_log m)).
Proof.
  intros c a outs H0 safe n zeros gens rm pin vs s t rounds m o Hr HV E.
  eapply (counting_never_twice _ c false) in E; eauto.
  - intros. eapply one_gen_counts; eauto.
  - apply init_count; auto; [apply fresh_index|discriminate].
Qed.
Print Assumptions C50_one_gen_never_twice.

(** ** Cases *)
Definition here (t : Z) (msgs : list (nat * imsg)) : surr := mkSurr t (map (fun p => (p, t)) msgs) t (fun l => l) (fun _ => t) t.
Definition plain_setup : asetup := mkSetup false false false 1 0 0 None 0 0 [X; F_sim_id] [] [F_sim_id; FF].
Definition one_gen : user_opts := mkUO None false (Some 1) false.
Definition d_plain : list surr :=
  [here 1 []; here 2 [(1, gen_answer [10; 20; 30]%Z)]; here 3 [(2, sim_answer [1] [101]%Z)]; here 4 [(1, sim_answer [0] [100]%Z)]; here 5 []].

Definition managed_setup : asetup := mkSetup true false false 1 1 1 None 0 0 [X; F_sim_id] [] [F_sim_id; FF].
Definition p_opts : puser := mkPU false 0 false true false 1.
Definition d_persis : list surr :=
  [here 1 []; here 2 [(1, persis_answer [10; 20; 30]%Z)]; here 3 [(2, sim_answer [0] [100]%Z)]; here 4 [(3, sim_answer [1] [101]%Z)]; here 5 [(2, sim_answer [2] [102]%Z)]].
(** two points, the first already simulated *)
Definition H0_one_done : sarr :=
  mkA [(X, ShS); (F_sim_started, ShS); (F_sim_ended, ShS)]
      [(fun f => if feqb X f then vint 7 else vbool true); (fun f => if feqb X f then vint 8 else vbool false)].
Definition m_H0 (c : mcfg) : mgr := init_manager c (fresh_history c [(X, ShS); (FF, ShS)] H0_one_done true) 3 [] [] None (Some [F_sim_id; FF]).
Definition noend : mcfg := cfg None None false.
Definition fits (v : surr) : Prop := set_order (v_ord v) /\ (true = true \/ surr_tidy v).

Lemma ex_start : table_start (Some ex_table).
Proof. exists 4, ex_plat, ex_table, []. split; [repeat constructor; cbn; intuition discriminate|]. split; [discriminate|]. split; [vm_compute; reflexivity|]. split; [constructor|reflexivity]. Qed.
Lemma here_fits t l : fits (here t l).
Proof. split; [intros x; apply Permutation_refl|auto]. Qed.

(** The generator is called; its three points go to the three workers; after two
    results the generator is called once more. *)
Example C50_default_case :
  Forall fits d_plain /\ table_start None /\
  trace (driven_run (default_alloc noend plain_setup one_gen) noend d_plain 0 6 [] (m3 noend)) =
    ([("work", 1, []); ("answer", 1, []); ("work", 1, [0]); ("rows", 1, [1]); ("work", 2, [1]); ("rows", 2, [1]);
     ("work", 3, [2]); ("rows", 3, [1]); ("answer", 2, [1]); ("work", 2, []); ("answer", 1, [0])]%string, Running).
Proof. split; [repeat (apply Forall_cons; [apply here_fits|]); apply Forall_nil|]. split; [exact I|]. vm_compute; reflexivity. Qed.
Example C50_default_managed_case :
  Forall fits d_plain /\ table_start (Some ex_table) /\
  trace (driven_run (default_alloc noend managed_setup one_gen) noend d_plain 0 6 [] (m4 noend)) =
    ([("work", 1, []); ("answer", 1, []); ("work", 1, [0]); ("rows", 1, [1]); ("work", 2, [1]); ("rows", 2, [1]);
     ("work", 3, [2]); ("rows", 3, [1]); ("answer", 2, [1]); ("work", 2, []); ("answer", 1, [0])]%string, Running).
Proof. split; [repeat (apply Forall_cons; [apply here_fits|]); apply Forall_nil|]. split; [apply ex_start|]. vm_compute; reflexivity. Qed.
Example C50_persistent_case :
  trace (driven_run (persistent_alloc noend plain_setup p_opts) noend d_persis (0, mkPI 0 0 0) 6 [] (m3 noend)) =
    ([("work", 1, []); ("answer", 1, []); ("work", 2, [0]); ("rows", 2, [1]); ("work", 3, [1]); ("rows", 3, [1]);
     ("answer", 2, [0]); ("work", 1, [0]); ("rows", 1, [1]); ("work", 2, [2]); ("rows", 2, [1]); ("answer", 3, [1]);
     ("answer", 2, [2])]%string, Running).
Proof. vm_compute; reflexivity. Qed.
Example C50_H0_case :
  started_before H0_one_done 0 /\ ~ started_before H0_one_done 1 /\
  trace (driven_run (default_alloc noend plain_setup one_gen) noend [here 1 []; here 2 []] 0 6 [] (m_H0 noend)) =
    ([("work", 1, [1]); ("rows", 1, [1]); ("work", 2, [])]%string, Running).
Proof. split; [|split]; [eexists; split; [reflexivity|right; reflexivity]|intros (r & E & [N|T]); [apply N; cbn; auto|injection E as <-; discriminate]|]. vm_compute; reflexivity. Qed.

(** fast_alloc with a history from an earlier run: it starts at row 0 (the
    default of "next_to_give") and never looks at "sim_started", so the point that
    was simulated before is simulated again. *)
Theorem C50_fast_H0_points_again_refuted : exists c a outs H0 vs m o,
  started_before H0 0 /\ Forall (fun v => set_order (v_ord v)) vs /\
  driven_run (fast_alloc_fn c a None) c vs (0, mkPI 0 0 0) 3 [] (init_manager c (fresh_history c outs H0 true) 3 [] [] None None) = (m, o) /\
  In 0 (points_sent (m_log m)).
Proof.
  exists noend, plain_setup, [(X, ShS); (FF, ShS)], H0_one_done, [here 1 []].
  destruct (driven_run (fast_alloc_fn noend plain_setup None) noend [here 1 []] (0, mkPI 0 0 0) 3 [] (init_manager noend (fresh_history noend [(X, ShS); (FF, ShS)] H0_one_done true) 3 [] [] None None)) as [m o] eqn:E.
  exists m, o. split; [eexists; split; [reflexivity|right; reflexivity]|]. split; [apply Forall_cons; [apply here_fits|apply Forall_nil]|]. split; auto.
  assert (G : points_sent (m_log (fst (driven_run (fast_alloc_fn noend plain_setup None) noend [here 1 []] (0, mkPI 0 0 0) 3 [] (init_manager noend (fresh_history noend [(X, ShS); (FF, ShS)] H0_one_done true) 3 [] [] None None)))) = [0; 1]) by (vm_compute; reflexivity).
  rewrite E in G. cbn [fst] in G. rewrite G. now left.
Qed.
Print Assumptions C50_fast_H0_points_again_refuted.

(** Without safe_mode (the default) a simulation may write "sim_started" itself;
    then its point is sent again. So the assumption of the first two theorems is needed. *)
Definition unstarts (i : nat) : imsg := IData (mkAns EVAL_SIM 35 (UArr (mkA [(F_sim_started, ShS)] [fun _ => vbool false])) [i] false false).
Theorem C50_overwritten_point_again_refuted : exists c a u vs m o,
  Forall (fun v => set_order (v_ord v)) vs /\
  driven_run (default_alloc c a u) c vs 0 3 [] (init_manager c (fresh_history c [(X, ShS); (FF, ShS)] no_H0 false) 3 [] [] None None) = (m, o) /\
  ~ NoDup (points_sent (m_log m)).
Proof.
  exists noend, plain_setup, one_gen. pose (vs := [here 1 []; here 2 [(1, gen_answer [10; 20]%Z)]; here 3 [(1, unstarts 0)]]). exists vs.
  destruct (driven_run (default_alloc noend plain_setup one_gen) noend vs 0 3 [] (init_manager noend (fresh_history noend [(X, ShS); (FF, ShS)] no_H0 false) 3 [] [] None None)) as [m o] eqn:E.
  exists m, o. split; [repeat (apply Forall_cons; [apply here_fits|]); apply Forall_nil|]. split; auto.
  assert (G : points_sent (m_log (fst (driven_run (default_alloc noend plain_setup one_gen) noend vs 0 3 [] (init_manager noend (fresh_history noend [(X, ShS); (FF, ShS)] no_H0 false) 3 [] [] None None)))) = [0; 1; 0]) by (vm_compute; reflexivity).
  rewrite E in G. cbn [fst] in G. rewrite G. intros H. inversion H as [|? ? N _]. apply N. cbn. auto.
Qed.
Print Assumptions C50_overwritten_point_again_refuted.
