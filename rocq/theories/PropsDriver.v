(** C54: how a call of libE() ends. *)
From Verif Require Import Base BaseLemmas HistoryModel HistorySpec HistoryRun WorkModel ManagerModel ManagerSpec ManagerFacts HistoryExamples ManagerExamples DriverModel DriverSpec DriverProofs.
Local Open Scope nat_scope.

(** A run that completes: libE returns the history so far and the exit flag, which
    is 0 or 2, and writes no abort file. *)
Theorem C54_completed :
  forall d io c its t rounds h n zeros gens rm pin team m' f,
  run c its t rounds (init_manager c h n zeros gens rm pin) = (m', Returned f) -> healthy team -> can_end d team ->
  exists v', libE d io c its t rounds (init_manager c h n zeros gens rm pin) team = (v', DReturn (generated (m_h m')) f) /\
    v_files v' = [] /\ (f = 0 \/ f = 2).
Proof.
  intros d io c its t rounds h n zeros gens rm pin team m' f E HH HC. unfold libE. rewrite E. cbn [manager_routine].
  set (v := mkWorld [] team 0 false). set (r := DReturn _ f).
  pose proof (finally_ok d v r HH HC) as H1. pose proof (finally_files d v r) as H2. destruct (finally d v r) as [v' r'].
  cbn in H1, H2. subst r'. exists v'. split; auto. split; auto.
  apply returned_how in E as [(E&_)|(E&_)]; auto.
Qed.
Print Assumptions C54_completed.

(** A run that fails: libE does not return. Unless switched off, and if the files
    can be written, the history so far and persis_info are on disk, whatever the
    workers do afterwards. *)
Theorem C54_failed_saved :
  forall d c its t rounds m team m' e v' r,
  run c its t rounds m = (m', Raised e) -> libE d (true, true) c its t rounds m team = (v', r) ->
  (forall H f, r <> DReturn H f) /\
  v_files v' = if d_save d then [AHistory (h_ended (m_h m')) (generated (m_h m')); APersis (h_ended (m_h m'))] else [].
Proof.
  intros d c its t rounds m team m' e v' r E. unfold libE. rewrite E. cbn [manager_routine].
  unfold dump. cbn [fst snd].
  destruct (d_save d); cbn [v_files v_team v_logs v_mpi_abort app]; intros H;
  match type of H with context[finally d ?v ?x] => pose proof (finally_files d v x) as F1;
    assert (F2 : forall H f, snd (finally d v x) <> DReturn H f) by (intros; apply finally_raise; discriminate);
    pose proof (cleanup_files d v) as F3 end;
  (destruct (d_comms d); [rewrite H in *; auto|rewrite H in *; auto|rewrite H in *; auto|]);
  (destruct (d_abort d); [|rewrite H in *; auto]);
  destruct (cleanup d _) as [v2 c2]; injection H as <- <-; cbn in *; (split; [discriminate|assumption]).
Qed.
Print Assumptions C54_failed_saved.

(** If the workers end normally, what is raised is the error of the run (or, with
    MPI and abort_on_exception, MPI is aborted). *)
Theorem C54_failed_raised :
  forall d c its t rounds m team m' e,
  run c its t rounds m = (m', Raised e) -> healthy team -> can_end d team ->
  snd (libE d (true, true) c its t rounds m team) =
    match d_comms d with Mpi => if d_abort d then DGone else DLogged e | _ => DLogged e end.
Proof.
  intros d c its t rounds m team m' e E HH HC. unfold libE. rewrite E. cbn [manager_routine].
  pose proof (dump_team d (true, true) (m_h m') (mkWorld [] team 0 false)) as HT.
  destruct (dump d (true, true) (m_h m') (mkWorld [] team 0 false)) as [v1 b] eqn:ED. cbn in HT.
  assert (b = true) as ->. { unfold dump in ED. destruct (d_save d); cbn in ED; now injection ED as _ <-. }
  destruct (d_comms d) eqn:EC; try (apply finally_ok; now rewrite HT).
  destruct (d_abort d); [now destruct (cleanup d v1)|]. apply finally_ok; now rewrite HT.
Qed.
Print Assumptions C54_failed_raised.

(** Even if the dump fails, an error of the run is never swallowed. *)
Theorem C54_never_silent :
  forall d io c its t rounds m team m' e H f,
  run c its t rounds m = (m', Raised e) -> snd (libE d io c its t rounds m team) <> DReturn H f.
Proof.
  intros d io c its t rounds m team m' e H f E. unfold libE. rewrite E. cbn [manager_routine].
  destruct (dump d io (m_h m') (mkWorld [] team 0 false)) as [v1 []]; [|apply finally_raise; discriminate].
  destruct (d_comms d); try (apply finally_raise; discriminate).
  destruct (d_abort d); [|apply finally_raise; discriminate]. destruct (cleanup d v1). discriminate.
Qed.
Print Assumptions C54_never_silent.

(** When libE returns or raises, every worker it launched has ended (MPI workers are
    not launched by it). *)
Theorem C54_team_ended :
  forall d io c its t rounds m team v' r, d_comms d <> Mpi -> healthy team ->
  libE d io c its t rounds m team = (v', r) -> r <> DForever ->
  length (v_team v') = length team /\ forall w, In w (v_team v') -> wk_alive w = false.
Proof.
  intros d io c its t rounds m team v' r HM HH. unfold libE. destruct (run c its t rounds m) as [m' [|f|e]]; cbn [manager_routine].
  - intros [= <- <-]. congruence.
  - intros E N. eapply finally_ended in E; eauto. discriminate.
  - pose proof (dump_team d io (m_h m') (mkWorld [] team 0 false)) as HT.
    destruct (dump d io (m_h m') (mkWorld [] team 0 false)) as [v1 b]. cbn in HT.
    destruct b.
    + destruct (d_comms d) eqn:EC; try congruence; intros E N; rewrite <- HT; (eapply finally_ended in E; eauto; [congruence|now rewrite HT|discriminate]).
    + intros E N. rewrite <- HT. eapply finally_ended in E; eauto; [now rewrite HT|discriminate].
Qed.
Print Assumptions C54_team_ended.

(** With worker processes and a timeout libE does not wait for ever once the run is
    over, whatever the workers do. *)
Theorem C54_processes_never_block :
  forall d io c its t rounds m team m' o,
  run c its t rounds m = (m', o) -> o <> Running -> d_comms d <> Threads -> d_timeout d <> None ->
  snd (libE d io c its t rounds m team) <> DForever.
Proof.
  intros d io c its t rounds m team m' o E HO HC HT. unfold libE. rewrite E.
  assert (K : forall tm, snd (kill_proc_team false (d_timeout d) tm) <> CForever).
  { induction tm as [|w tm IH]; [discriminate|]. cbn. pose proof (result_forever (d_timeout d) (wk_msgs w) (or_introl HT)) as N.
    destruct (result_loop _ _) as [[]| |]; try congruence; cbn; try discriminate;
      destruct (kill_proc_team false (d_timeout d) tm); auto. }
  assert (F : forall v r, r <> DForever -> snd (finally d v r) <> DForever).
  { intros v r Hr. unfold finally, cleanup. destruct (d_comms d); try congruence; cbn; auto.
    specialize (K (v_team v)). destruct (kill_proc_team _ _ _) as [l []]; cbn in *; auto; discriminate. }
  destruct o as [|f|e]; [congruence| |]; cbn [manager_routine].
  - apply F. discriminate.
  - destruct (dump d io (m_h m') _) as [v1 []]; [|apply F; discriminate].
    destruct (d_comms d); try congruence; try (apply F; discriminate).
    destruct (d_abort d); [|apply F; discriminate]. destruct (cleanup d v1). discriminate.
Qed.
Print Assumptions C54_processes_never_block.

(** In safe mode, when a run fails, the saved history holds every simulation result
    received, except for at most two answers: those whose handling raised (one in
    the main loop and one in the shutdown). *)
Theorem C54_results_in_dump :
  forall d c its t rounds outs H0 n zeros gens rm pin team m' e v' r, polite its -> d_save d = true ->
  let m := init_manager c (fresh_history c outs H0 true) n zeros gens rm pin in
  run c its t rounds m = (m', Raised e) -> libE d (true, true) c its t rounds m team = (v', r) ->
  exists a bad, In (AHistory (h_ended (m_h m')) a) (v_files v') /\ length bad <= 2 /\
    forall w x i, In (Got w (IData x)) (m_log m') -> sim_results x -> In i (n_rows x) -> i < length (a_rows a) ->
    marked_ended a i \/ In x bad.
Proof.
  intros d c its t rounds outs H0 n zeros gens rm pin team m' e v' r HP HS m E EL.
  apply (C54_failed_saved d c its t rounds m team m' e v' r E) in EL as [_ EL]. rewrite HS in EL.
  destruct (run_R c its t rounds m m' _ HP (init_R c outs H0 n zeros gens rm pin) E) as (_&_&_&bad&HB&HC).
  exists (generated (m_h m')), bad. rewrite EL. split; [now left|]. split; auto.
  intros w x i Hin Hx Hi Hl. destruct (HC w x i Hin Hx Hi) as [H|H]; auto. left.
  unfold ended_cell, cell in H. unfold marked_ended. cbn [generated a_rows] in *. rewrite firstn_length in Hl.
  destruct (nth_error (h_rows (m_h m')) i) as [rw|] eqn:EN; [|discriminate]. exists rw. injection H as H. split; auto.
  rewrite BaseLemmas.nth_error_firstn. assert ((i <? h_index (m_h m')) = true) as -> by (apply Nat.ltb_lt; lia). exact EN.
Qed.
Print Assumptions C54_results_in_dump.

(** Three workers: one ends at once, one sends log messages first, one is busy. *)
Definition team3 : list wk :=
  [mkWk true [(0, MResult)] false; mkWk true [(0, MOther); (300, MOther); (200, MResult)] false; mkWk true [] true]%Z.
Definition plain_drv : drv := mkDrv Local true true (Some 1000%Z).
Lemma team3_healthy : healthy team3.
Proof. intros w d Hw. cbn in Hw. repeat destruct Hw as [<- | Hw]; cbn; intuition discriminate. Qed.
Lemma team3_can_end : can_end plain_drv team3.
Proof. split; [left; discriminate|discriminate]. Qed.
Example C54_completed_used :
  snd (run c2 plain_its 9 [] (m3 c2)) = Returned 0 /\ healthy team3 /\ can_end plain_drv team3 /\
  match libE plain_drv (true, true) c2 plain_its 9 [] (m3 c2) team3 with
  | (v, DReturn H 0) => length (a_rows H) = 3 /\ v_files v = [] /\ map wk_alive (v_team v) = [false; false; false]
  | _ => False
  end.
Proof. split; [vm_compute; reflexivity|]. split; [exact team3_healthy|]. split; [exact team3_can_end|]. vm_compute. repeat split. Qed.

(** Workers 2 and 3 fail: the result worker 1 had sent is in the file. *)
Example C54_failed_used :
  snd (run c2 error_its 9 [round 4 [(1, sim_answer [0] [100]%Z)]] (m3 c2)) = Raised EWorker /\ polite error_its /\
  match libE plain_drv (true, true) c2 error_its 9 [round 4 [(1, sim_answer [0] [100]%Z)]] (m3 c2) team3 with
  | (v, DLogged EWorker) =>
      match v_files v with
      | [AHistory 1 a; APersis 1] => length (a_rows a) = 3 /\ map (fun r => r F_sim_ended) (a_rows a) = [vbool true; vbool false; vbool false]
      | _ => False
      end
  | _ => False
  end.
Proof.
  split; [vm_compute; reflexivity|]. split.
  - intros it i r f Hi. cbn in Hi. repeat destruct Hi as [<- | Hi]; try reflexivity. destruct Hi.
  - vm_compute. repeat split.
Qed.

(** Finding: a worker whose last act raises (for instance in copying its output
    back) makes libE raise although the run is complete, so the history is not
    returned; and the workers after it are not ended. *)
Theorem C54_one_failure_refuted :
  exists team v', length team = 3 /\ d_timeout plain_drv <> None /\
    snd (run c2 plain_its 9 [] (m3 c2)) = Returned 0 /\
    libE plain_drv (true, true) c2 plain_its 9 [] (m3 c2) team = (v', DRemote) /\
    map wk_alive (v_team v') = [false; true; true] /\ v_files v' = [].
Proof.
  exists [mkWk true [(0, MError)]%Z false; mkWk true [] false; mkWk true [] false].
  eexists. split; [reflexivity|]. split; [discriminate|]. split; [vm_compute; reflexivity|].
  split; [vm_compute; reflexivity|]. split; reflexivity.
Qed.
Print Assumptions C54_one_failure_refuted.

(** Finding: with worker threads the timeout does not bound the wait: a user
    function that does not return keeps libE waiting for ever. *)
Theorem C54_threads_block_refuted :
  exists team, healthy team /\ snd (run c2 plain_its 9 [] (m3 c2)) = Returned 0 /\
    snd (libE (mkDrv Threads true true (Some 1000%Z)) (true, true) c2 plain_its 9 [] (m3 c2) team) = DForever.
Proof. exists team3. split; [exact team3_healthy|]. split; vm_compute; reflexivity. Qed.
Print Assumptions C54_threads_block_refuted.
