(** Property theorems about the manager: C06, C07, C08, C37, C38, C45.
    The proofs are in the Manager files. Runs start from [init_manager] with any
    settings, history, number of workers and resources, and take any iterations
    (messages, allocation results, edits and clock readings) and any shutdown
    rounds. *)
From Coq Require Import String.
From Verif Require Import Base BaseLemmas HistoryModel HistorySpec HistoryInv RsetModel RsetSpec WorkModel ManagerModel ManagerSpec ManagerProofs ManagerInv ManagerRes ManagerFacts HistoryExamples ManagerExamples PropsResources.
Local Notation length := List.length.
Local Open Scope string_scope.
Local Open Scope list_scope.
Local Open Scope nat_scope.

(** ** C06: sim_max *)

(** Whenever a work order is sent, fewer than sim_max points have been sent out
    for simulation before it. *)
Theorem C06_orders_only_below_sim_max :
  forall c N its t rounds outs H0 safe n zeros gens rm pin m' o l1 e l2, c_sim_max c = Some N ->
  run c its t rounds (init_manager c (fresh_history c outs H0 safe) n zeros gens rm pin) = (m', o) ->
  m_log m' = l1 ++ e :: l2 -> is_order e -> points_out l1 < N.
Proof.
  intros c N its t rounds outs H0 safe n zeros gens rm pin m' o l1 e l2 HN E EL Ho.
  pose proof (budget_run c N its t rounds _ m' o HN (init_budget c N outs H0 safe n zeros gens rm pin) E l1 e l2 EL) as Q.
  destruct e as [w k|]; [|contradiction]. destruct k; try contradiction. apply Q. exact Ho.
Qed.
Print Assumptions C06_orders_only_below_sim_max.

(** With units of at most b points, at most sim_max + b - 1 points are sent out;
    with single points at most sim_max. *)
Theorem C06_total_points_sent :
  forall c N b its t rounds outs H0 safe n zeros gens rm pin m' o, c_sim_max c = Some N -> 1 <= b ->
  run c its t rounds (init_manager c (fresh_history c outs H0 safe) n zeros gens rm pin) = (m', o) ->
  units_up_to b (m_log m') -> points_out (m_log m') <= N + b - 1.
Proof.
  intros c N b its t rounds outs H0 safe n zeros gens rm pin m' o HN Hb E U. apply budget_total; auto.
  exact (budget_run c N its t rounds _ m' o HN (init_budget c N outs H0 safe n zeros gens rm pin) E).
Qed.
Print Assumptions C06_total_points_sent.

(** The third order of the allocation function is dropped: sim_max is 2. *)
Example C06_run : trace (run c2 plain_its 9 [] (m3 c2)) =
  ([("work", 1, []); ("answer", 1, []); ("work", 1, [0]); ("rows", 1, [1]); ("work", 2, [1]); ("rows", 2, [1]);
    ("answer", 2, [1]); ("answer", 1, [0]); ("stop", 1, [20]); ("stop", 2, [20]); ("stop", 3, [20])], Returned 0).
Proof. vm_compute. reflexivity. Qed.

(** The bound for larger units is reached: sim_max 2, three points sent. *)
Example C06_bound_is_tight :
  let its := [turn 1 [] [(1, gen_order)]; turn 2 [(1, gen_answer [10; 20; 30]%Z)] [(1, sim_order [0]); (2, sim_order [1; 2])]] in
  let m' := fst (run c2 its 9 [] (m3 c2)) in points_out (m_log m') = 3 /\ units_up_to 2 (m_log m').
Proof.
  split; [vm_compute; reflexivity|]. intros w k Hin. vm_compute in Hin.
  repeat match goal with H : _ \/ _ |- _ => destruct H as [H|H] end; inversion Hin; subst; cbn; auto.
Qed.

(** ** C07: the stop test *)

Theorem C07_stop_test :
  forall c el m, (forall key v, c_stop c = Some (key, v) -> column (m_h m) key) ->
  (wall_passed c el -> term_test c el m = Ok 2) /\
  (~ wall_passed c el -> (sim_max_reached c (m_h m) \/ gen_max_reached c (m_h m) \/ stop_reached c (m_h m)) -> term_test c el m = Ok 1) /\
  (~ wall_passed c el -> ~ sim_max_reached c (m_h m) -> ~ gen_max_reached c (m_h m) -> ~ stop_reached c (m_h m) -> term_test c el m = Ok 0).
Proof. exact term_spec. Qed.
Print Assumptions C07_stop_test.

(** A stop_val on a column that does not exist is an error, unless another
    criterion is met first. *)
Theorem C07_unknown_stop_key :
  forall c el m key v, c_stop c = Some (key, v) -> ~ column (m_h m) key ->
  ~ wall_passed c el -> ~ sim_max_reached c (m_h m) -> ~ gen_max_reached c (m_h m) -> term_test c el m = Err EValue.
Proof. exact term_unknown. Qed.
Print Assumptions C07_unknown_stop_key.

(** NaN never triggers stop_val: if every entry of the column in ended rows is
    NaN, or the stop value is NaN, it is not reached. *)
Theorem C07_nan_never_stops :
  forall c h key v, c_stop c = Some (key, v) ->
  (v = SNaN \/ forall k x s, is_set h k F_sim_ended -> cell (h_rows h) k key = Some x -> in_cell s x -> s = SNaN) ->
  ~ stop_reached c h.
Proof.
  intros c h key v Hc H (key'&v'&k&x&s&E&H1&H2&H3&H4). rewrite Hc in E. injection E as <- <-.
  destruct H as [->|H]; [inversion H4|]. rewrite (H _ _ _ H1 H2 H3) in H4. inversion H4.
Qed.
Print Assumptions C07_nan_never_stops.

(** At every loop test of a run, sim_max counts as reached exactly when results
    for that many points have been received. *)
Theorem C07_sim_max_counts_results :
  forall c its outs H0 safe n zeros gens rm pin m s,
  main_loop c its (init_manager c (fresh_history c outs H0 safe) n zeros gens rm pin) = (m, s) -> (forall e, s <> CExc e) ->
  (sim_max_reached c (m_h m) <-> exists N, c_sim_max c = Some N /\ N <= results_in (c_ret_sim c) (m_log m)).
Proof.
  intros c its outs H0 safe n zeros gens rm pin m s E Hs.
  destruct (cnt_main c its _ m s (init_cnt c outs H0 safe n zeros gens rm pin) E Hs) as (_&_&H).
  unfold sim_max_reached. split; intros (N&HN&HL); exists N; (split; [auto|lia]).
Qed.
Print Assumptions C07_sim_max_counts_results.

(** Once a criterion is met at a loop test, nothing more is ordered from anyone. *)
Theorem C07_no_order_after_criterion :
  forall c its1 it its2 t rounds h n zeros gens rm pin m1 m' o,
  main_loop c its1 (init_manager c h n zeros gens rm pin) = (m1, CGo) ->
  (forall key v, c_stop c = Some (key, v) -> column (m_h m1) key) ->
  (wall_passed c (it_elapsed it) \/ sim_max_reached c (m_h m1) \/ gen_max_reached c (m_h m1) \/ stop_reached c (m_h m1)) ->
  run c (its1 ++ it :: its2) t rounds (init_manager c h n zeros gens rm pin) = (m', o) ->
  exists l, m_log m' = m_log m1 ++ l /\ forall e, In e l -> ~ is_order e.
Proof.
  intros c its1 it its2 t rounds h n zeros gens rm pin m1 m' o E1 Hc H E.
  destruct (main_table _ _ _ _ _ (init_table c h n zeros gens rm pin) E1) as (T&_).
  destruct (term_spec c (it_elapsed it) m1 Hc) as (H1&H2&H3).
  assert (HD : wall_passed c (it_elapsed it) \/ ~ wall_passed c (it_elapsed it)).
  { unfold wall_passed. destruct (c_wall c) as [x|].
    - destruct (Z.le_gt_cases x (it_elapsed it)) as [Hx|Hx]; [left; eauto|]. right. intros (y&[= <-]&Hy). lia.
    - right. intros (y&[=]&_). }
  assert (exists k, term_test c (it_elapsed it) m1 = Ok (S k)) as (k&Hk).
  { destruct HD as [HD|HD]; [exists 1; auto|]. destruct H as [H|H]; [tauto|]. exists 0. auto. }
  exact (stop_here _ _ _ _ _ _ _ _ _ _ _ T E1 Hk E).
Qed.
Print Assumptions C07_no_order_after_criterion.

(** In the run of C06_run the test is 0 after three turns and 1 after four. *)
Example C07_run :
  let m k := fst (main_loop c2 (firstn k plain_its) (m3 c2)) in
  snd (main_loop c2 (firstn 4 plain_its) (m3 c2)) = CGo /\
  term_test c2 5 (m 3) = Ok 0 /\ term_test c2 5 (m 4) = Ok 1 /\ results_in true (m_log (m 4)) = 2 /\ sim_max_reached c2 (m_h (m 4)) /\
  term_test (cfg None (Some 5%Z) false) 5 (m 3) = Ok 2.
Proof.
  cbv zeta. split; [vm_compute; reflexivity|]. split; [vm_compute; reflexivity|]. split; [vm_compute; reflexivity|].
  split; [vm_compute; reflexivity|]. split; [|vm_compute; reflexivity]. exists 2. split; [reflexivity|]. vm_compute. lia.
Qed.
(** stop_val: a column with a NaN and a small number. *)
Example C07_stop_val :
  let rows := [fun f => match f with F_sim_ended => vbool true | _ => VS SNaN end;
               fun f => match f with F_sim_ended => vbool false | _ => vint 3 end;
               fun f => match f with F_sim_ended => vbool true | _ => vint 5 end] in
  let h := set_rows start rows in
  let m := init_manager c2 h 2 [] [] None None in
  let stop v := mkC false false false false false false None None (Some (FF, v)) None in
  term_test (stop (SNum 4)) 0 m = Ok 0 /\ term_test (stop (SNum 5)) 0 m = Ok 1 /\ term_test (stop SNaN) 0 m = Ok 0.
Proof. vm_compute. repeat split; reflexivity. Qed.

(** ** C08: no worker is given work while it is busy *)

Theorem C08_only_free_workers_get_work :
  forall c its t rounds h n zeros gens rm pin m' o l1 w k l2,
  run c its t rounds (init_manager c h n zeros gens rm pin) = (m', o) ->
  m_log m' = l1 ++ Sent w (OWork k) :: l2 -> k_tag k <> PERSIS_STOP ->
  free_after l1 w \/ (k_recv k <> None /\ receiving_after l1 w).
Proof.
  intros c its t rounds h n zeros gens rm pin m' o l1 w k l2 E EL.
  exact (free_run c its t rounds _ m' o (init_free c h n zeros gens rm pin) E l1 _ l2 EL).
Qed.
Print Assumptions C08_only_free_workers_get_work.

(** An order for a worker that is marked busy and is not in active-receive mode,
    or for one in that mode without the active_recv mark, raises; nothing is
    sent for it or for the orders after it, and nothing changes. *)
Theorem C08_other_orders_raise :
  forall c n ws1 w k t ws2 m m1 r, map w_id (m_W m1) = worker_ids c n ->
  give_orders c ws1 m = (m1, None) -> sim_max_given c m1 = false ->
  In r (m_W m1) -> w_id r = w -> (w_recv r = false /\ w_active r <> 0 \/ w_recv r = true /\ k_recv k = None) ->
  give_orders c (ws1 ++ (w, k, t) :: ws2) m = (m1, Some EAssert).
Proof.
  intros c n ws1 w k t ws2 m m1 r HI HG HS Hin Hw Hr. rewrite (give_orders_app _ _ _ _ _ HS HG).
  eapply refused; eauto. unfold table_ok. assert (HL : length (m_W m1) = length (worker_ids c n)) by (rewrite <- HI; now rewrite map_length).
  rewrite HI, HL. unfold worker_ids. destruct (c_gom c); now rewrite seq_length.
Qed.
Print Assumptions C08_other_orders_raise.

(** The second order for worker 2 in one call stops the run. *)
Example C08_run :
  let its := [turn 1 [] [(1, gen_order)]; turn 2 [(1, gen_answer [10; 20; 30]%Z)] [(2, sim_order [0]); (2, sim_order [1]); (3, sim_order [2])]] in
  trace (run (cfg None None false) its 9 [round 3 [(2, sim_answer [0] [100]%Z)]] (m3 (cfg None None false))) =
  ([("work", 1, []); ("answer", 1, []); ("work", 2, [0]); ("rows", 2, [1]); ("answer", 2, [0]);
    ("stop", 1, [20]); ("stop", 2, [20]); ("stop", 3, [20])], Raised EAssert).
Proof. vm_compute. reflexivity. Qed.

(** ** C37: shutdown *)

(** A run that returns has sent every worker exactly one finish signal, as the
    last thing it did. *)
Theorem C37_finish_sent_once :
  forall c its t rounds h n zeros gens rm pin m' f,
  run c its t rounds (init_manager c h n zeros gens rm pin) = (m', Returned f) ->
  exists l, m_log m' = l ++ finishes (worker_ids c n) /\ no_finish l /\ no_error l.
Proof. exact returned_finish. Qed.
Print Assumptions C37_finish_sent_once.

(** The flag is 0 with every worker idle, or 2 after the wall-clock limit with no
    persistent worker left. *)
Theorem C37_exit_flag :
  forall c its t rounds h n zeros gens rm pin m' f,
  run c its t rounds (init_manager c h n zeros gens rm pin) = (m', Returned f) ->
  (f = 0 /\ forall r, In r (m_W m') -> w_active r = 0 /\ w_persis r = 0) \/
  (f = 2 /\ (forall r, In r (m_W m') -> w_persis r = 0) /\ exists msgs el, In (msgs, el) rounds /\ wall_passed c el).
Proof. exact returned_how. Qed.
Print Assumptions C37_exit_flag.

(** With flag 0 (always, without a wall-clock limit) every worker has answered
    its last order and every persistent function has ended. *)
Theorem C37_nobody_left_working :
  forall c its t rounds h n zeros gens rm pin m' f, msgs_ok honest its -> rounds_ok honest rounds ->
  run c its t rounds (init_manager c h n zeros gens rm pin) = (m', Returned f) -> f = 0 \/ c_wall c = None ->
  f = 0 /\ forall w, In w (worker_ids c n) -> free_after (m_log m') w /\ ended_after (m_log m') w.
Proof.
  intros c its t rounds h n zeros gens rm pin m' f H1 H2 E Hf.
  assert (f = 0).
  { destruct Hf as [Hf|Hf]; auto. apply returned_how in E as [(E&_)|(_&_&_&el&_&x&Hx&_)]; auto. congruence. }
  subst f. split; auto. exact (returned_idle _ _ _ _ _ _ _ _ _ _ _ H1 H2 E).
Qed.
Print Assumptions C37_nobody_left_working.

(** At the end of the main loop each persistent worker is asked to stop exactly
    once, before any further message is taken, and nobody else is. *)
Theorem C37_persistent_workers_stopped_once :
  forall c its t rounds h n zeros gens rm pin m' f,
  run c its t rounds (init_manager c h n zeros gens rm pin) = (m', Returned f) ->
  exists m0 l1 l2, main_loop c its (init_manager c h n zeros gens rm pin) = (m0, CStop) /\
    m_log m' = m_log m0 ++ l1 ++ l2 ++ finishes (worker_ids c n) /\
    stops l1 = map w_id (filter (fun r => negb (w_persis r =? 0)) (m_W m0)) /\ (forall w i, ~ In (Got w i) l1) /\
    stops l2 = [] /\ no_finish l2.
Proof. exact returned_stops. Qed.
Print Assumptions C37_persistent_workers_stopped_once.

(** In safe mode, at the end every row given out for simulation is marked
    started, and every row of every simulation answer, whether it came in the
    main loop or in the shutdown, is marked ended. *)
Theorem C37_results_recorded :
  forall c its t rounds outs H0 n zeros gens rm pin m' f,
  run c its t rounds (init_manager c (fresh_history c outs H0 true) n zeros gens rm pin) = (m', Returned f) -> recorded m'.
Proof. exact returned_recorded. Qed.
Print Assumptions C37_results_recorded.

(** The answer of worker 3 arrives during the shutdown and is stored. *)
Example C37_run :
  let c := cfg None None false in
  let r := run c persis_its 9 persis_rounds (m4 c) in
  trace r =
  ([("work", 1, []); ("answer", 1, []); ("work", 2, [0]); ("rows", 2, [1]); ("work", 3, [1; 2]); ("rows", 3, [2]);
    ("answer", 2, [0]); ("work", 1, [0]); ("rows", 1, [1]); ("persis_stop", 1, [21]); ("answer", 3, [1; 2]); ("answer", 1, []);
    ("stop", 1, [20]); ("stop", 2, [20]); ("stop", 3, [20]); ("stop", 4, [20])], Returned 0) /\
  cell (h_rows (m_h (fst r))) 2 FF = Some (vint 102) /\ msgs_ok honest persis_its /\ rounds_ok honest persis_rounds.
Proof.
  cbv zeta. split; [vm_compute; reflexivity|]. split; [vm_compute; reflexivity|]. split.
  - intros it w i t H1 H2. cbn in H1. repeat (destruct H1 as [<-|H1]; [cbn in H2; intuition idtac; match goal with H : _ = _ |- _ => inversion H; subst end; cbn; discriminate|]). contradiction.
  - intros ms el w i t H1 H2. cbn in H1. repeat (destruct H1 as [H1|H1]; [inversion H1; subst; cbn in H2; intuition idtac; match goal with H : _ = (w, i, t) |- _ => inversion H; subst end; cbn; discriminate|]). contradiction.
Qed.
(** With a wall-clock limit the manager leaves the running simulation of worker 3 behind. *)
Example C37_wall_clock :
  let c := cfg None (Some 5%Z) false in
  snd (run c persis_its 9 [round 5 [(1, persis_end)]] (m4 c)) = Returned 2.
Proof. vm_compute. reflexivity. Qed.

(** Refuted for runs that end with an exception: when a message of the shutdown
    itself is refused (here a simulation returns the protected field
    sim_ended), no worker is sent a finish signal. *)
Theorem C37_finish_sent_after_exception_refuted :
  exists c its t rounds m' e, run c its t rounds (m4 c) = (m', Raised e) /\ no_finish (m_log m') /\ m_W (m4 c) <> [].
Proof.
  exists (cfg None None false), persis_its, 9%Z, bad_rounds.
  exists (fst (run (cfg None None false) persis_its 9 bad_rounds (m4 (cfg None None false)))), EAssert.
  split; [|split].
  - rewrite (surjective_pairing (run _ _ _ _ _)) at 1. f_equal.
  - intros e Hin (w&->). vm_compute in Hin. repeat (destruct Hin as [Hin|Hin]; [discriminate|]). contradiction.
  - discriminate.
Qed.
Print Assumptions C37_finish_sent_after_exception_refuted.

(** final_gen_send and a persistent generator in active-receive mode: the
    shutdown raises AssertionError and no finish signal is sent. *)
Theorem C37_final_send_to_receiving_worker_refuted :
  exists c its t rounds m' e, c_final_send c = true /\ main_loop c its (m4 c) = (fst (main_loop c its (m4 c)), CStop) /\
    run c its t rounds (m4 c) = (m', Raised e) /\ no_finish (m_log m').
Proof.
  pose (k := mkWork EVAL_GEN [] [] true (Some true) None None None None None).
  pose (its := [turn 1 [] [(1, k)]; mkIt 2 [] keep_rows AStop 2]).
  exists (cfg None None true), its, 9%Z, [round 5 [(1, persis_end)]].
  exists (fst (run (cfg None None true) its 9 [round 5 [(1, persis_end)]] (m4 (cfg None None true)))), EAssert.
  split; [reflexivity|]. split; [|split].
  - rewrite (surjective_pairing (main_loop _ _ _)) at 1. f_equal.
  - rewrite (surjective_pairing (run _ _ _ _ _)) at 1. f_equal.
  - intros e Hin (w&->). vm_compute in Hin. repeat (destruct Hin as [Hin|Hin]; [discriminate|]). contradiction.
Qed.
Print Assumptions C37_final_send_to_receiving_worker_refuted.

(** ** C38: a worker failure ends the run *)

(** If a worker ever reports an error, every worker was told to finish directly
    after the first failure was received, at most once more, and the run does
    not return normally. *)
Theorem C38_failure_stops_everyone :
  forall c its t rounds h n zeros gens rm pin m' o w,
  run c its t rounds (init_manager c h n zeros gens rm pin) = (m', o) -> In (Got w IErr) (m_log m') ->
  error_trace (worker_ids c n) (m_log m') /\ forall f, o <> Returned f.
Proof. exact error_reported. Qed.
Print Assumptions C38_failure_stops_everyone.

(** An error reported in the main loop ends the run with an exception after one
    more round of messages, whatever the other workers do. *)
Theorem C38_failure_ends_the_run :
  forall c its t rounds h n zeros gens rm pin m0 s m' o w,
  main_loop c its (init_manager c h n zeros gens rm pin) = (m0, s) -> In (Got w IErr) (m_log m0) -> rounds <> [] ->
  run c its t rounds (init_manager c h n zeros gens rm pin) = (m', o) -> exists e, o = Raised e.
Proof.
  intros c its t rounds h n zeros gens rm pin m0 s m' o w E1 Hin Hr E.
  exact (error_run c _ its t rounds _ m0 s m' o w (ManagerFinal.init_F c h n zeros gens rm pin) E1 Hin Hr E).
Qed.
Print Assumptions C38_failure_ends_the_run.

(** Two workers fail; everyone is told to finish at once, and again at the end. *)
Theorem C38_finish_sent_exactly_once_refuted :
  let c := cfg None None false in
  trace (run c error_its 9 [round 5 [(1, sim_answer [0] [100]%Z); (3, IErr)]] (m3 c)) =
  ([("work", 1, []); ("answer", 1, []); ("work", 1, [0]); ("rows", 1, [1]); ("work", 2, [1]); ("rows", 2, [1]); ("work", 3, [2]); ("rows", 3, [1]);
    ("error", 2, []); ("stop", 1, [20]); ("stop", 2, [20]); ("stop", 3, [20]); ("answer", 1, [0]); ("error", 3, []);
    ("stop", 1, [20]); ("stop", 2, [20]); ("stop", 3, [20])], Raised EWorker).
Proof. vm_compute. reflexivity. Qed.
Print Assumptions C38_finish_sent_exactly_once_refuted.

(** ** C45: resource sets follow the workers *)

(** At every loop test, a resource set is held only by a worker that is busy or
    runs a persistent function. Orders must name workers that exist. *)
Theorem C45_only_working_workers_hold_resources :
  forall c its h n zeros gens rm pin m s rm' i w, (forall r i, rm = Some r -> holder r i = None) ->
  orders_ok (addressed (worker_ids c n)) its -> msgs_ok honest its ->
  main_loop c its (init_manager c h n zeros gens rm pin) = (m, s) -> (forall e, s <> CExc e) ->
  m_res m = Some rm' -> holder rm' i = Some w ->
  exists r, In r (m_W m) /\ w_id r = w /\ (w_active r <> 0 \/ w_persis r <> 0).
Proof.
  intros c its h n zeros gens rm pin m s rm' i w HR HO HM E Hs Hrm Hh.
  destruct (main_res c its h n zeros gens rm pin m s HR HO HM E Hs) as (_&_&_&H). eauto.
Qed.
Print Assumptions C45_only_working_workers_hold_resources.

(** A run that returns 0 has given all resource sets back. *)
Theorem C45_all_resources_returned :
  forall c its t rounds h n zeros gens rm pin m' rm' i, (forall r i, rm = Some r -> holder r i = None) ->
  orders_ok (addressed (worker_ids c n)) its -> msgs_ok honest its -> rounds_ok honest rounds ->
  run c its t rounds (init_manager c h n zeros gens rm pin) = (m', Returned 0) -> m_res m' = Some rm' -> holder rm' i = None.
Proof. exact returned_res. Qed.
Print Assumptions C45_all_resources_returned.

(** In the persistent run workers 1 and 3 hold a set each when the loop ends. *)
Example C45_run :
  let c := cfg None None false in
  (exists rm, m_res (fst (main_loop c persis_its (m4 c))) = Some rm /\ map (holder rm) (seq 0 8) = [Some 1; None; Some 3; None; None; None; None; None]) /\
  (exists rm, m_res (fst (run c persis_its 9 persis_rounds (m4 c))) = Some rm /\ map (holder rm) (seq 0 8) = repeat None 8) /\
  orders_ok (addressed (worker_ids c 4)) persis_its /\ (forall r i, Some ex_table = Some r -> holder r i = None).
Proof.
  cbv zeta. split; [eexists; split; vm_compute; reflexivity|]. split; [eexists; split; vm_compute; reflexivity|]. split.
  - intros it ws w k t H1 H2 H3. cbn in H1. repeat (destruct H1 as [<-|H1]; [inversion H2; subst; cbn in H3; intuition idtac; match goal with H : _ = (w, k, t) |- _ => inversion H; subst end; cbn; tauto|]). contradiction.
  - intros r i [= <-]. do 8 (destruct i as [|i]; [vm_compute; reflexivity|]). destruct i; reflexivity.
Qed.

(** Refuted without the condition on orders: Work[0], without a generator on the
    manager, reaches the last worker, and its resource set is never given back. *)
Theorem C45_order_to_worker_zero_refuted :
  exists c its t rounds m' rm', c_gom c = false /\ msgs_ok honest its /\ run c its t rounds (m4 c) = (m', Returned 0) /\
    m_res m' = Some rm' /\ holder rm' 3 = Some 0 /\ In (Sent 4 (OWork (with_team gen_order [3]))) (m_log m').
Proof.
  pose (its := [turn 1 [] [(0, gen_order)]; mkIt 2 [((4, gen_answer [10]%Z), 2%Z)] keep_rows AStop 2]).
  exists (cfg None None false), its, 9%Z, [].
  pose (m' := fst (run (cfg None None false) its 9 [] (m4 (cfg None None false)))). exists m'.
  pose (rm' := match m_res m' with Some r => r | None => ex_table end). exists rm'.
  split; [reflexivity|]. split.
  { intros it w i t H1 H2. cbn in H1. repeat (destruct H1 as [<-|H1]; [cbn in H2; intuition idtac; match goal with H : _ = _ |- _ => inversion H; subst end; cbn; discriminate|]). contradiction. }
  split. { unfold m'. rewrite (surjective_pairing (run _ _ _ _ _)) at 1. f_equal. }
  split; [vm_compute; reflexivity|]. split; [vm_compute; reflexivity|]. vm_compute. auto 10.
Qed.
Print Assumptions C45_order_to_worker_zero_refuted.
