(** Property theorems about executor tasks: C29, C30, C31, C40. *)
From Verif Require Import Base ExecutorModel ExecutorSpec ExecutorProofs.
Local Open Scope Z_scope.

(** ** C40: timers *)

(** After any number of completed intervals the total is the sum of their
    lengths, and while a further one runs its length so far is added. *)
Theorem C40_total_is_sum_of_intervals :
  forall l now, tm_total now (tm_run (intervals l)) = lengths l /\
  forall start, tm_total now (tm_run (intervals l ++ [TStart start])) = lengths l + (now - start).
Proof.
  intros l now. unfold tm_run. destruct (tm_run_intervals l new_timer) as (H1 & H2). specialize (H2 (or_intror eq_refl)). split.
  - unfold tm_total. rewrite H2, H1. reflexivity.
  - intros start. rewrite fold_left_app. cbn [fold_left tm_do]. unfold tm_total, tm_elapsed. cbn [tm_begin tm_on tm_cum tm_start]. rewrite H1. cbn. lia.
Qed.
Print Assumptions C40_total_is_sum_of_intervals.

(** The total never decreases while the clock does not go backwards. *)
Theorem C40_total_never_decreases :
  forall l start now1 now2, (forall a b, In (a, b) l -> a <= b) -> start <= now1 <= now2 ->
  0 <= tm_total now1 (tm_run (intervals l ++ [TStart start])) <= tm_total now2 (tm_run (intervals l ++ [TStart start])) /\
  tm_total now1 (tm_run (intervals l)) <= tm_total now1 (tm_run (intervals l ++ [TStart start])) /\
  tm_total now2 (tm_run (intervals l ++ [TStart start])) = tm_total now2 (tm_run (intervals (l ++ [(start, now2)]))).
Proof.
  intros l start now1 now2 Hl Hn. destruct (C40_total_is_sum_of_intervals l now1) as (A1 & A2). destruct (C40_total_is_sum_of_intervals l now2) as (_ & A3).
  destruct (C40_total_is_sum_of_intervals (l ++ [(start, now2)]) now2) as (A4 & _). rewrite A1, A2, A3, A4.
  assert (E : lengths (l ++ [(start, now2)]) = lengths l + (now2 - start)).
  { clear. unfold lengths. induction l as [|[a b] l IH]; cbn; [lia|]. cbn in IH. rewrite IH. lia. }
  assert (P : 0 <= lengths l).
  { clear - Hl. induction l as [|[a b] l IH]; cbn; [lia|]. assert (H := Hl a b (or_introl eq_refl)). assert (0 <= lengths l) by (apply IH; intros; apply Hl; now right).
    unfold lengths in *. lia. }
  rewrite E. lia.
Qed.
Print Assumptions C40_total_never_decreases.

(** A second stop without a start in between counts the interval again. *)
Theorem C40_second_stop_counts_again_refuted :
  exists l now, l = [TStart 0; TStop 10; TStop 15] /\ tm_total now (tm_run l) = 25.
Proof. exists [TStart 0; TStop 10; TStop 15], 20. split; reflexivity. Qed.
Print Assumptions C40_second_stop_counts_again_refuted.

Example C40_example : tm_total 100 (tm_run (intervals [(0, 10); (20, 25)] ++ [TStart 90])) = 25. Proof. reflexivity. Qed.

(** ** C29: tasks *)

(** Whatever is called on a submitted task: it is either open - no return code
    has been seen, it is not a success - or in one of the four final states,
    with the return code and success flag that belong to it. *)
Theorem C29_state_consistent :
  forall t0 l t, submitted t0 -> calls t0 l t -> (t_finished t = true /\ final_state t) \/ (t_finished t = false /\ open_state t).
Proof.
  intros t0 l t Hs Hc. destruct (calls_ok t0 l t (submitted_ok _ Hs) Hc) as (Hg & _). destruct (t_finished t) eqn:E.
  - left. split; [reflexivity|]. now apply good_fin.
  - right. split; [reflexivity|]. now apply good_open.
Qed.
Print Assumptions C29_state_consistent.

(** A finished task never changes again, in any attribute. *)
Theorem C29_final_is_final :
  forall t0 l t l' t', submitted t0 -> calls t0 l t -> t_finished t = true -> calls t l' t' -> t' = t.
Proof.
  intros t0 l t l' t' Hs Hc Hf Hc'. destruct (calls_ok t0 l t (submitted_ok _ Hs) Hc) as (Hg & _). eapply calls_final; eauto.
Qed.
Print Assumptions C29_final_is_final.

(** Only a kill of an unfinished task sends signals to the process. *)
Theorem C29_signals_only_by_kill :
  forall t0 l t x t' e, submitted t0 -> calls t0 l t -> do_call x t = Some (t', e) -> signals t' <> signals t ->
  t_finished t = false /\ exists now obs w later g f, x = CKill now obs w later g f.
Proof.
  intros t0 l t x t' e Hs Hc E Hne. destruct (calls_ok t0 l t (submitted_ok _ Hs) Hc) as (Hg & _).
  destruct (call_signals _ _ _ _ Hg E) as [H|(now & obs & w & later & g & f & H1 & H2)]; [contradiction|]. split; [exact H2|eauto 8].
Qed.
Print Assumptions C29_signals_only_by_kill.

(** A kill with a positive wait time of a task whose process still runs: when it
    returns the process has ended and the task is USER_KILLED; SIGTERM was sent,
    and SIGKILL exactly if the process did not end within the wait time. *)
Theorem C29_kill_ends_process :
  forall t0 l t now w later grace final t' e, submitted t0 -> calls t0 l t -> t_finished t = false -> t_dry t = false ->
  0 < w -> do_call (CKill now None (Some w) later grace final) t = Some (t', e) ->
  e = None /\ t_state t' = UserKilled /\ exit_code t' <> None /\
  signals t' = signals t ++ SigTerm :: match grace with Some _ => [] | None => [SigKill] end.
Proof.
  intros t0 l t now w later grace final t' e Hs Hc Hf Hd Hw E. destruct (calls_ok t0 l t (submitted_ok _ Hs) Hc) as (Hg & Hk).
  destruct (Hk Hd Hf) as (Hp & _). cbn in E. destruct (kill_cases _ _ _ _ _ _ _ _ _ Hg E) as [(e0 & Ep & _ & Hor)|(t1 & p & p' & Ep & Hf1 & Hd1 & Hp1 & Hcan & -> & ->)].
  - exfalso. destruct (poll_cases _ _ _ _ _ Hg Ep) as [(? & _)|[(_ & ? & _)|[(? & _ & _ & ? & _)|[(q & _ & _ & _ & _ & -> & ->)|(? & ? & _ & _ & _ & ? & _)]]]]; try congruence.
    cbn in Hor. destruct Hor; congruence.
  - destruct (poll_good _ _ _ _ _ Hg Ep) as (G1 & _ & _ & S1 & _).
    match goal with |- context [calc_timing ?a ?x] => destruct (calc_timing_same a x) as (A1 & A2 & _) end.
    split; [reflexivity|]. split; [rewrite A1; reflexivity|]. split; [unfold exit_code; rewrite A2; cbn; eapply cancel_ended; eauto|].
    unfold signals at 1. rewrite A2. cbn [set_ended set_proc t_proc]. rewrite <- S1. rewrite (signals_proc _ _ Hp1).
    assert (Hrc : p_rc p = None). { destruct (good_open _ G1 Hf1) as (_ & _ & _ & O & _). unfold exit_code in O. now rewrite Hp1 in O. }
    unfold cancel in Hcan. replace (0 <? w) with true in Hcan by (symmetry; now apply Z.ltb_lt). unfold proc_poll in Hcan. cbn [send_signal p_rc p_sig] in Hcan. rewrite Hrc in Hcan.
    destruct grace as [g|]; cbn in Hcan.
    + injection Hcan as <-. reflexivity.
    + destruct final as [f|]; [|discriminate]. injection Hcan as <-. cbn. now rewrite <- app_assoc.
Qed.
Print Assumptions C29_kill_ends_process.

(** A running task, polled twice, killed and polled again. *)
Definition start_input : list attempt := [LStart 0 5 6 [mkLook 1 None 2; mkLook 7 None 2000] 8 None].
Definition started_once : task :=
  match submit false 0 3 true 1000 start_input 9 with Some t => t | None => new_task false 0 end.
Example C29_submitted : submitted started_once /\ t_finished started_once = false.
Proof. split; [left; exists false, 0%nat, 2%nat, true, 1000, start_input, 9; vm_compute; reflexivity|vm_compute; reflexivity]. Qed.
Fixpoint run_calls (l : list call) (t : task) : option task :=
  match l with [] => Some t | x :: l' => match do_call x t with Some (t1, _) => run_calls l' t1 | None => None end end.
Lemma run_calls_calls l : forall t t', run_calls l t = Some t' -> calls t l t'.
Proof.
  induction l as [|x l IH]; intros t t' H; cbn in H; [injection H as <-; apply ca_nil|].
  destruct (do_call x t) as [[t1 e]|] eqn:E; [|discriminate]. eapply ca_cons; eauto.
Qed.
Definition some_calls : list call := [CPoll 20 None; CWait 30 true None; CKill 40 None (Some 60000) 50 None (Some (-9)); CPoll 60 (Some 0)].
Definition after_calls : task := mkTask UserKilled (Some (mkProc (Some (-9)) [SigTerm; SigKill])) None true false (Some 5) 45 (Some 45) (mkTimer 45 5 50 false) false 0 1.
Example C29_run : calls started_once some_calls after_calls.
Proof. apply run_calls_calls. vm_compute. reflexivity. Qed.

(** Task.cancel, that is a kill without a wait time, is documented to terminate
    the process and wait for it; it sends it no signal at all. The call returns
    when the process ends on its own, and the task is then USER_KILLED. *)
Theorem C29_cancel_sends_no_signal_refuted :
  (exists t0 t', submitted t0 /\ t_finished t0 = false /\ do_call (CKill 20 None None 50 (Some 0) None) t0 = Some (t', None) /\
     t_state t' = UserKilled /\ exit_code t' = Some 0 /\ signals t' = []) /\
  forall t0 l t now later grace final t' e, submitted t0 -> calls t0 l t ->
    do_call (CKill now None None later grace final) t = Some (t', e) -> signals t' = signals t.
Proof.
  split.
  - exists started_once, (mkTask UserKilled (Some (mkProc (Some 0) [])) None true false (Some 5) 45 (Some 45) (mkTimer 45 5 50 false) false 0 1).
    split; [apply C29_submitted|]. split; [vm_compute; reflexivity|]. split; [vm_compute; reflexivity|]. repeat split.
  - intros t0 l t now later grace final t' e Hs Hc E. destruct (calls_ok t0 l t (submitted_ok _ Hs) Hc) as (Hg & _). cbn in E.
    destruct (kill_cases _ _ _ _ _ _ _ _ _ Hg E) as [(e0 & Ep & _)|(t1 & p & p' & Ep & Hf1 & Hd1 & Hp1 & Hcan & -> & ->)].
    + now destruct (poll_good _ _ _ _ _ Hg Ep) as (_ & _ & _ & S1 & _).
    + destruct (poll_good _ _ _ _ _ Hg Ep) as (G1 & _ & _ & S1 & _).
      match goal with |- context [calc_timing ?a ?x] => destruct (calc_timing_same a x) as (A1 & A2 & _) end.
      unfold signals at 1. rewrite A2. cbn [set_ended set_proc t_proc]. rewrite <- S1, (signals_proc _ _ Hp1).
      unfold cancel in Hcan. destruct (p_rc (proc_poll grace p)); [|discriminate]. injection Hcan as <-. unfold proc_poll. now destruct (p_rc p).
Qed.
Print Assumptions C29_cancel_sends_no_signal_refuted.

(** ** C31: launching with retries *)

(** The submitted task comes from one attempt [a]; all attempts before it raised
    or failed while starting; no more than the allowed number were made, and if
    the last one failed, too, exactly that number; and the status attributes of
    the task are those that [a] alone would have given. *)
Theorem C31_retries :
  forall gpus max wait ft l now t, submit false gpus (S max) wait ft l now = Some t ->
  exists pre a rest, l = pre ++ a :: rest /\ (length pre <= max)%nat /\ t_attempts t = S (length pre) /\
    (forall b, In b pre -> fails_to_start wait ft now b) /\
    (fails_to_start wait ft now a -> length pre = max) /\
    exists t1, submit false gpus 1 wait ft [a] now = Some t1 /\ same_status t t1 /\ (pre = [] -> t = t1).
Proof.
  intros gpus max wait ft l now t E. unfold submit in E. destruct (launch (S max) wait ft l (new_task false gpus)) as [x|] eqn:El; [|discriminate].
  destruct (launch_spec _ _ _ _ _ _ (ready_new wait gpus) El) as (pre & a & rest & u & I1 & I2 & I3 & I4 & I5 & I6 & I7 & I8 & I9).
  assert (Hone : forall g b v v', ready wait v -> try_launch wait ft b v = Some v' ->
    exists v1, try_launch wait ft b (new_task false g) = Some v1 /\ same_status v' v1 /\ (t_finished v' = false -> tm_on (t_timer v') = true \/ t_timer v' = t_timer v1)).
  { intros g b v v' Hv Hb. generalize (try_alike wait ft b v (new_task false g) Hv (ready_new wait g)). rewrite Hb.
    destruct (try_launch wait ft b (new_task false g)) as [v1|]; [|contradiction]. intros (H1 & H2). exists v1. auto. }
  assert (Hsub : forall g b v1, try_launch wait ft b (new_task false g) = Some v1 ->
    submit false g 1 wait ft [b] now = Some (if negb (tm_on (t_timer v1)) && negb (t_finished v1) then set_submit (Some now) (tm_begin now (t_timer v1)) v1 else v1)).
  { intros g b v1 Hb. unfold submit. cbn [launch]. rewrite Hb. rewrite andb_false_r. reflexivity. }
  assert (Hstate : forall v1, t_state (if negb (tm_on (t_timer v1)) && negb (t_finished v1) then set_submit (Some now) (tm_begin now (t_timer v1)) v1 else v1) = t_state v1).
  { intros v1. destruct (negb (tm_on (t_timer v1)) && negb (t_finished v1)); reflexivity. }
  exists pre, a, rest. split; [exact I1|]. split; [exact I2|]. injection E as <-.
  split; [cbn in I5; destruct (negb (tm_on (t_timer x)) && negb (t_finished x)); cbn; rewrite I5; reflexivity|]. split; [|split].
  - intros b Hb. destruct (I8 b Hb) as (v & v' & Hv & Hv' & Hr). destruct b as [|b0 b1 b2 looks bn bo]; [left; reflexivity|right].
    destruct (Hone gpus _ _ _ Hv Hv') as (v1 & E1 & S1 & _). exists gpus. eexists. split; [apply Hsub; exact E1|]. rewrite Hstate.
    unfold wants_retry in Hr. destruct S1 as (<- & _). destruct (t_state v'); try discriminate. reflexivity.
  - intros Hfail. apply I9. destruct Hfail as [->|(g & tf & Ef & Hst)]; [reflexivity|].
    destruct (Hone g _ _ _ I3 I4) as (v1 & E1 & S1 & _). rewrite (Hsub g a v1 E1) in Ef. injection Ef as <-. rewrite Hstate in Hst.
    destruct S1 as (S1 & _). rewrite <- S1 in Hst. unfold wants_retry. rewrite Hst. destruct a; reflexivity.
  - destruct (Hone gpus _ _ _ I3 I4) as (v1 & E1 & S1 & S2). eexists. split; [apply Hsub; exact E1|]. split.
    + assert (S1' := S1). destruct S1' as (B1 & B2 & B3 & B4 & B5 & B6 & B7 & B8 & B9 & B10). rewrite <- B10, <- B4.
      destruct (negb (tm_on (t_timer x)) && negb (t_finished x)); [|exact S1]. unfold same_status. cbn. repeat split; congruence.
    + intros Hpre. rewrite (I6 Hpre) in I4. rewrite E1 in I4. injection I4 as ->. reflexivity.
Qed.
Print Assumptions C31_retries.

(** A first attempt that fails after 4 ms, a second that raises, a third that starts. *)
Definition flaky : list attempt :=
  [LStart 0 5 6 [mkLook 1 None 2; mkLook 9 (Some 1) 10] 11 None; LRaise; LStart 100 105 106 [mkLook 101 None 102; mkLook 107 None 9000] 108 None].
Example C31_run : option_map (fun t => (t_state t, t_attempts t, t_submit t, t_errcode t)) (submit false 2 5 true 1000 flaky 200) =
  Some (Running, 3%nat, Some 105, None).
Proof. vm_compute. reflexivity. Qed.

(** "No trace of earlier attempts" fails for the timer and for ngpus_req: the
    task's total time includes the failed attempts, and a task that was retried
    has forgotten how many GPUs it was submitted with. *)
Theorem C31_earlier_attempts_leave_time_refuted :
  exists gpus l a now t t1 later, submit false gpus 3 true 1000 l now = Some t /\ submit false gpus 3 true 1000 [a] now = Some t1 /\ In a l /\
    same_status t t1 /\ tm_total later (t_timer t) <> tm_total later (t_timer t1) /\ t_gpus t <> t_gpus t1.
Proof.
  exists 2%nat, flaky, (LStart 100 105 106 [mkLook 101 None 102; mkLook 107 None 9000] 108 None), 200. do 2 eexists. exists 300.
  split; [vm_compute; reflexivity|]. split; [vm_compute; reflexivity|]. split; [cbn; auto|]. split; [repeat split|]. split; discriminate.
Qed.
Print Assumptions C31_earlier_attempts_leave_time_refuted.

(** ** C30: the polling loop *)

(** For every submitted task and whatever happens, the status returned is:
    WORKER_DONE for a task that is FINISHED, TASK_FAILED for one that is FAILED,
    TASK_FAILED_TO_START for one that never started, nothing for one that had
    been killed before; or the kill signal received from the manager; or
    WORKER_KILL_ON_TIMEOUT when more than the timeout has passed since the
    submission. The task has ended in every case. *)
Theorem C30_status_tells_how_it_ended :
  forall t0 cs t timeout pm l r t', submitted t0 -> calls t0 cs t -> (forall tmo, timeout = Some tmo -> 0 <= tmo) ->
  polling_loop timeout pm l t = Some (r, t') ->
  t_finished t' = true /\ final_state t' /\ exists s, r = Some s /\
  ((t_state t' = Finished /\ s = 35%nat) \/ (t_state t' = Failed /\ s = 33%nat) \/
   (t_state t' = FailedToStart /\ s = 34%nat /\ t' = t) \/ (t_state t' = UserKilled /\ s = 0%nat /\ t' = t) \/
   (t_finished t = false /\ pm = true /\ man_kill s /\ exists x, In x l /\ ps_sig x = Some s) \/
   (t_finished t = false /\ s = 32%nat /\ exists x tmo start, In x l /\ timeout = Some tmo /\ t_submit t = Some start /\ tmo < ps_now x - start)).
Proof.
  intros t0 cs t timeout pm l r t' Hs Hc Htm E. destruct (calls_ok t0 cs t (submitted_ok _ Hs) Hc) as (Hg & Hk).
  destruct (loop_spec timeout pm l t r t' Hg Hk E) as (G' & F' & C). split; [exact F'|]. assert (FS := good_fin _ G' F'). split; [exact FS|].
  destruct C as [(-> & C1 & C2)|[(x & s & I1 & I2 & I3 & I4 & -> & I6)|(x & tmo & t1 & I1 & I2 & I3 & -> & I5 & I6)]].
  - eexists. split; [reflexivity|]. unfold closing_status. cbn [Nat.eqb]. unfold final_state in FS.
    destruct (t_finished t) eqn:Ef.
    + specialize (C1 eq_refl). destruct (t_state t') eqn:Es; try contradiction; auto 10.
    + destruct (C2 eq_refl) as [H|H]; rewrite H; auto.
  - exists s. split; [reflexivity|]. do 4 right. left. split; [exact I6|]. split; [exact I2|]. split; [|eauto].
    unfold kill_signal in I4. apply orb_true_iff in I4 as [H|H]; apply Nat.eqb_eq in H; [left|right]; exact H.
  - exists 32%nat. split; [reflexivity|]. do 5 right. split; [exact I3|]. split; [reflexivity|].
    destruct I6 as [(Hd & Hr)|(Hd & start & S1 & S2)].
    + exfalso. specialize (Htm tmo I2). rewrite Hr in I5.
      assert (Hz : forall u, submitted u -> t_dry u = true -> t_runtime u = 0).
      { intros u [(dry & gpus & n & wait & ft & la & now & Eu)|(dry & wait & a & now & Eu)] Hdu.
        - destruct dry; [cbn in Eu; injection Eu as <-; reflexivity|]. exfalso. unfold submit in Eu.
          destruct (launch (S n) wait ft la (new_task false gpus)) as [x1|] eqn:El; [|discriminate].
          destruct (launch_spec _ _ _ _ _ _ (ready_new wait gpus) El) as (pre & a & rest & u1 & _ & _ & Hu & Ht & _).
          destruct (try_facts _ _ _ _ _ Hu Ht) as (_ & _ & _ & Hd1 & _). injection Eu as <-. destruct (negb _ && _) in Hdu; cbn in Hdu; congruence.
        - destruct dry; [cbn in Eu; injection Eu as <-; reflexivity|]. exfalso. unfold submit_serial in Eu. destruct a as [|a0 a1 a2 looks an ao]; [discriminate|].
          assert (Hgx : good (set_proc (Some new_proc) (new_task false 0))). { split; [discriminate|split; [|discriminate]]. intros _. unfold open_state, exit_code. cbn. auto 8. }
          destruct wait as [f|].
          + destruct (wait_on_start a0 a1 a2 f looks (set_proc (Some new_proc) (new_task false 0))) as [y|] eqn:Ew; [|discriminate].
            destruct (wos_keeps _ _ _ _ _ _ _ Hgx Ew) as (_ & _ & _ & Dy & _). injection Eu as <-. cbn in Dy. destruct (negb (tm_on (t_timer y)) && negb (t_finished y)); cbn in Hdu; congruence.
          + injection Eu as <-. discriminate. }
      assert (Hz2 : t_runtime t = 0).
      { assert (Hzc : forall u cl v, good u -> calls u cl v -> t_dry u = true -> t_runtime v = t_runtime u).
        { clear. intros u cl v Hg H. induction H as [u|u x u1 e cl u2 Ex _ IH]; intros Hd; [reflexivity|].
          destruct (call_good _ _ _ _ Hg Ex) as (Ga & Da & _). rewrite IH; auto; [|congruence].
          destruct x as [now obs|now tm obs|now obs w later g f]; cbn in Ex.
          - unfold poll in Ex. rewrite Hd, complete_dry in Ex by exact Hd. injection Ex as <- <-. reflexivity.
          - unfold wait in Ex. rewrite Hd, complete_dry in Ex by exact Hd. injection Ex as <- <-. reflexivity.
          - unfold kill, poll in Ex. rewrite Hd, complete_dry in Ex by exact Hd. cbn in Ex. rewrite Hd in Ex. cbn in Ex. injection Ex as <- <-. reflexivity. }
        destruct (submitted_ok _ Hs) as (Hg0 & _). destruct (calls_good _ _ _ Hg0 Hc) as (_ & Hdd). rewrite (Hzc t0 cs t Hg0 Hc) by congruence. apply Hz; auto. congruence. }
      lia.
    + exists x, tmo, start. repeat split; auto. lia.
Qed.
Print Assumptions C30_status_tells_how_it_ended.

(** The loop ends: once a pass sees the process gone, or a kill signal from the
    manager (provided hard-killed processes end). *)
Theorem C30_loop_ends :
  forall t0 cs t timeout pm l, submitted t0 -> calls t0 cs t -> (forall x, In x l -> ps_kfinal x <> None) ->
  (exists x, In x l /\ (ps_obs x <> None \/ pm = true /\ exists s, ps_sig x = Some s /\ man_kill s)) ->
  exists r t', polling_loop timeout pm l t = Some (r, t').
Proof.
  intros t0 cs t timeout pm l Hs Hc Hk (x & Hx & Hor). destruct (calls_ok t0 cs t (submitted_ok _ Hs) Hc) as (Hg & Hck).
  destruct (polling_loop timeout pm l t) as [[r t']|] eqn:E; [eauto|]. exfalso. revert E. apply loop_ends; auto. exists x. split; [exact Hx|].
  destruct Hor as [H|(Hp & s & H1 & H2)]; [left; exact H|right]. split; [exact Hp|]. exists s. split; [exact H1|]. destruct H2 as [-> | ->]; reflexivity.
Qed.
Print Assumptions C30_loop_ends.

(** A task that succeeded can be reported as killed: it ends between two looks
    and the last look is after the timeout, or finds a kill signal too. *)
Theorem C30_success_reported_as_timeout_refuted :
  exists t0 l t', submitted t0 /\ polling_loop (Some 100) false l t0 = Some (Some 32%nat, t') /\ t_state t' = Finished /\ exit_code t' = Some 0 /\ signals t' = [].
Proof.
  exists started_once, [mkPass 50 None None 0 None 0 None None; mkPass 150 (Some 0) None 151 None 152 None None]. eexists.
  split; [apply C29_submitted|]. split; [vm_compute; reflexivity|]. repeat split.
Qed.
Print Assumptions C30_success_reported_as_timeout_refuted.

Theorem C30_success_reported_as_killed_refuted :
  exists t0 l t', submitted t0 /\ polling_loop None true l t0 = Some (Some 21%nat, t') /\ t_state t' = Finished /\ exit_code t' = Some 0 /\ signals t' = [].
Proof.
  exists started_once, [mkPass 50 None None 0 None 0 None None; mkPass 150 (Some 0) (Some 21%nat) 151 None 152 None None]. eexists.
  split; [apply C29_submitted|]. split; [vm_compute; reflexivity|]. repeat split.
Qed.
Print Assumptions C30_success_reported_as_killed_refuted.

Example C30_runs :
  map (fun l => option_map (fun p => (fst p, t_state (snd p), signals (snd p))) (polling_loop (Some 100) true l started_once))
    [[mkPass 50 (Some 0) None 0 None 0 None None]; [mkPass 50 (Some 3) None 0 None 0 None None];
     [mkPass 120 None (Some 7%nat) 121 None 122 None (Some (-9))]; [mkPass 20 None (Some 20%nat) 21 None 22 (Some (-15)) None]; [mkPass 20 None None 0 None 0 None None]] =
  [Some (Some 35%nat, Finished, []); Some (Some 33%nat, Failed, []); Some (Some 32%nat, UserKilled, [SigTerm; SigKill]);
   Some (Some 20%nat, UserKilled, [SigTerm]); None].
Proof. vm_compute. reflexivity. Qed.
