(** Property theorem C96: the status of a simulation that runs an application for each of
    its points. *)
From Coq Require Import QArith.
From Verif Require Import Base ExecutorModel ExecutorSpec ExecutorProofs PropsExecutor MultiPointModel.
Local Open Scope Z_scope.

Lemma poll_not_killed now obs t : t_state t <> UserKilled -> t_state (fst (poll now obs t)) <> UserKilled.
Proof.
  intros H. unfold poll, set_complete. 
  repeat (match goal with |- context [match ?x with _ => _ end] => destruct x eqn:? end; cbn [fst t_state set_ended set_state set_proc set_runtime set_total]; try rewrite (proj1 (calc_timing_same _ _)); try discriminate; try assumption).
Qed.
Lemma launch_not_killed ft : forall left l t t', t_state t <> UserKilled -> launch left false ft l t = Some t' -> t_state t' <> UserKilled.
Proof.
  induction left as [|left IH]; intros l t t' H E; cbn [launch] in E; [congruence|]. destruct l as [|a l]; [discriminate|].
  destruct (try_launch false ft a t) as [t1|] eqn:Et; [|discriminate].
  assert (H1 : t_state t1 <> UserKilled).
  { unfold try_launch in Et. destruct a; injection Et as <-; [discriminate|]. apply poll_not_killed. exact H. }
  destruct (wants_retry a t1 && (0 <? left)%nat); [|congruence]. eapply IH; [|exact E]. discriminate.
Qed.

(** A point's task has ended with exit code 0 and is FINISHED, or with another one and is
    FAILED; in a dry run it is FINISHED. *)
Definition exited_well (t : task) : Prop := t_state t = Finished /\ exit_code t = Some 0.
Definition exited_badly (t : task) : Prop := t_state t = Failed /\ exists rc, rc <> 0 /\ exit_code t = Some rc.

Lemma one_point_ok six dry j t q : one_point six dry j = Some (Ok (t, q)) ->
  (if dry then t_state t = Finished /\ t_proc t = None else exited_well t \/ exited_badly t) /\
  (if six then j_out j = Some q else q = j_value j).
Proof.
  unfold one_point. intros E. destruct (submit dry _ _ _ _ _ _) as [t0|] eqn:Es; [|discriminate].
  assert (Hs : submitted t0) by (left; eauto 10).
  destruct (submitted_ok _ Hs) as [Hg _].
  assert (V : forall t1, (if six then match j_out j with Some q0 => Some (Ok (t1, q0)) | None => Some (Err EValue) end else Some (Ok (t1, j_value j))) = Some (Ok (t, q)) ->
              t1 = t /\ (if six then j_out j = Some q else q = j_value j)).
  { intros t1 H. destruct six; [destruct (j_out j); [|discriminate]|]; split; congruence. }
  destruct dry.
  - cbn in E. apply V in E as [<- E]. split; [|exact E]. unfold submit in Es. injection Es as <-. split; reflexivity.
  - destruct (wait (j_wnow j) false (j_code j) t0) as [[t1 [e|]]|] eqn:Ew; try discriminate. apply V in E as [<- E]. split; [|exact E].
    destruct (wait_good _ _ _ _ _ _ Hg Ew) as (G1 & D1 & _ & _).
    assert (N0 : t_state t0 <> UserKilled /\ t_dry t0 = false).
    { unfold submit in Es. destruct (launch _ _ _ _ _) as [tl|] eqn:El; [|discriminate].
      assert (K := launch_not_killed _ _ _ _ _ (ltac:(discriminate) : t_state (new_task false (j_gpus j)) <> UserKilled) El).
      destruct (launch_spec _ _ _ _ _ _ (ready_new false (j_gpus j)) El) as (pre & a & rest & u & _ & _ & Hu & Ht & _).
      destruct (try_facts _ _ _ _ _ Hu Ht) as (_ & _ & _ & Hd & _).
      injection Es as <-. destruct (negb (tm_on (t_timer tl)) && negb (t_finished tl)); split; auto. }
    destruct N0 as [N0 D0].
    assert (F : t_finished t1 = true /\ t_state t1 <> UserKilled /\ t_proc t1 <> None).
    { unfold wait in Ew. rewrite D0 in Ew. destruct (t_proc t0) as [p|] eqn:Ep; [|discriminate].
      destruct (t_finished t0) eqn:Ef; [injection Ew as <-; repeat split; auto; congruence|].
      destruct (p_rc (proc_poll (j_code j) p)) as [rc|] eqn:Er; [|discriminate]. injection Ew as <-.
      destruct (complete_spec (j_wnow j) (set_proc (Some (proc_poll (j_code j) p)) t0) _ rc eq_refl Er D0) as (A1 & A2 & A3 & A4 & A5 & A6 & A7 & A8).
      split; [assumption|]. split; [|congruence].
      unfold set_complete. cbn [t_dry set_proc]. rewrite D0. cbn.
      repeat (match goal with |- context [match ?x with _ => _ end] => destruct x eqn:? end; cbn [t_state set_ended]; try rewrite (proj1 (calc_timing_same _ _)); try discriminate). }
    destruct F as (F1 & F2 & F3). assert (FS := good_fin _ G1 F1). unfold final_state in FS. unfold exited_well, exited_badly.
    destruct (t_state t1) eqn:E1; try contradiction.
    + destruct FS as [_ [FS|[_ FS]]]; [congruence|]. left. auto.
    + destruct FS as (_ & rc & Hrc & _ & FS). right. eauto.
    + destruct FS as (_ & _ & FS). contradiction.
Qed.

(** ** C96 *)

(** When the simulation returns from a run that is not a dry run, there is a value for
    each point, in order: the one in the output of its application, or that of the
    function. Every application has ended. The status is WORKER_DONE if all have exited
    with 0, and TASK_FAILED if one has not; there is no other. *)
Theorem C96_status_of_the_batch :
  forall six js fs st ts, multi_points six false js = Some (Ok (fs, st, ts)) ->
  length ts = length js /\ length fs = length js /\
  (forall i j q, nth_error js i = Some j -> nth_error fs i = Some q -> if six then j_out j = Some q else q = j_value j) /\
  (forall t, In t ts -> exists rc, exit_code t = Some rc) /\
  ((st = 35%nat /\ forall t, In t ts -> exit_code t = Some 0) \/
   (st = 33%nat /\ exists t rc, In t ts /\ exit_code t = Some rc /\ rc <> 0)).
Proof.
  intros six js fs st ts E. unfold multi_points in E. destruct (all_points six false js) as [[l|e]|] eqn:El; try discriminate.
  assert (K : length l = length js /\ (forall i j a, nth_error js i = Some j -> nth_error l i = Some a -> if six then j_out j = Some (snd a) else snd a = j_value j) /\
              forall a, In a l -> exited_well (fst a) \/ exited_badly (fst a)).
  { clear E. revert l El. induction js as [|j js IH]; intros l El; cbn [all_points] in El.
    - injection El as <-. split; [reflexivity|]. split; [intros [|i]; discriminate|intros a []].
    - destruct (one_point six false j) as [[[t q]|e]|] eqn:E1; try discriminate. destruct (all_points six false js) as [[l'|e]|]; try discriminate.
      injection El as <-. destruct (IH _ eq_refl) as (K1 & K2 & K3). destruct (one_point_ok _ _ _ _ _ E1) as [O1 O2].
      split; [cbn; congruence|]. split.
      + intros [|i] j' a Hj Ha; cbn in Hj, Ha; [|eapply K2; eauto]. injection Hj as <-. injection Ha as <-. exact O2.
      + intros a [<-|Ha]; [exact O1|auto]. }
  destruct K as (K1 & K2 & K3). cbn zeta in E.
  assert (fs = map snd l /\ ts = map fst l) as [-> ->] by (split; congruence).
  split; [rewrite map_length; exact K1|]. split; [rewrite map_length; exact K1|]. split; [|split].
  - intros i j q Hj Hq. destruct (nth_error l i) as [a|] eqn:Ea.
    + rewrite (map_nth_error _ _ _ Ea) in Hq. injection Hq as <-. eapply K2; eauto.
    + apply nth_error_None in Ea. assert (nth_error (map snd l) i = None) by (apply nth_error_None; rewrite map_length; exact Ea). congruence.
  - intros t Ht. apply in_map_iff in Ht as (a & <- & Ha). destruct (K3 a Ha) as [[_ W]|(_ & rc & _ & W)]; eauto.
  - destruct (forallb is_finished (map (fun a => t_state (fst a)) l)) eqn:Ef.
    + left. split; [unfold WORKER_DONE in E; congruence|]. intros t Ht. apply in_map_iff in Ht as (a & <- & Ha).
      rewrite forallb_forall in Ef. specialize (Ef _ (in_map (fun a => t_state (fst a)) _ _ Ha)). cbn beta in Ef.
      destruct (K3 a Ha) as [[_ W]|(W & _)]; [exact W|]. rewrite W in Ef. discriminate.
    + right. assert (X : exists a, In a l /\ exited_badly (fst a)).
      { clear - Ef K3. induction l as [|a l IH]; [discriminate|]. cbn [map forallb] in Ef. destruct (K3 a (or_introl eq_refl)) as [[W W']|W].
        - rewrite W in Ef. cbn [is_finished andb] in Ef. destruct (IH) as (b & B1 & B2); auto; [intros b Hb; apply K3; right; exact Hb|]. exists b. split; [right; exact B1|exact B2].
        - exists a. split; [left; reflexivity|exact W]. }
      destruct X as (a & Ha & B & rc & Hrc & Hx).
      assert (Eb : existsb is_failed (map (fun a => t_state (fst a)) l) = true).
      { apply existsb_exists. exists (t_state (fst a)). split; [apply (in_map (fun a => t_state (fst a))); exact Ha|]. rewrite B. reflexivity. }
      rewrite Eb in E. split; [unfold TASK_FAILED in E; congruence|]. exists (fst a), rc. split; [apply in_map; exact Ha|]. auto.
Qed.
Print Assumptions C96_status_of_the_batch.

(** An application that cannot be launched makes the simulation raise: there is no status
    for it. *)
Theorem C96_launch_failure_raises :
  forall six j js n, j_attempts j = repeat LRaise n -> (j_tries j < n)%nat ->
  exists e, multi_points six false (j :: js) = Some (Err e).
Proof.
  intros six j js n Ha Hn. unfold multi_points. cbn [all_points]. unfold one_point, submit. rewrite Ha.
  assert (K : forall left n t, (left < n)%nat -> t_dry t = false -> t_proc t = None -> exists t', launch (S left) false (j_fail_time j) (repeat LRaise n) t = Some t' /\ t_dry t' = false /\ t_proc t' = None).
  { clear. induction left as [|left IH]; intros n t Hn Hd Hp; (destruct n as [|n]; [lia|]).
    - cbn. eexists. split; [reflexivity|]. auto.
    - change (repeat LRaise (S n)) with (LRaise :: repeat LRaise n). remember (S left) as sl. cbn [launch try_launch wants_retry andb].
      replace (0 <? sl)%nat with true by (symmetry; apply Nat.ltb_lt; lia). subst sl. apply IH; [lia|exact Hd|reflexivity]. }
  destruct (K (j_tries j) n (new_task false (j_gpus j)) Hn eq_refl eq_refl) as (t' & -> & Hd & Hp).
  assert (W : forall t, t_dry t = false -> t_proc t = None -> wait (j_wnow j) false (j_code j) t = Some (t, Some (EOther 0))).
  { intros t D P. unfold wait. rewrite D, P. reflexivity. }
  cbv iota. rewrite W; [eauto| |]; destruct (negb (tm_on (t_timer t')) && negb (t_finished t')); auto.
Qed.
Print Assumptions C96_launch_failure_raises.

(** In a dry run, where nothing is launched, the status is WORKER_DONE. *)
Theorem C96_dry_run :
  forall six js fs st ts, multi_points six true js = Some (Ok (fs, st, ts)) -> st = 35%nat /\ forall t, In t ts -> t_proc t = None.
Proof.
  intros six js fs st ts E. unfold multi_points in E. destruct (all_points six true js) as [[l|e]|] eqn:El; try discriminate.
  assert (K : forall a, In a l -> t_state (fst a) = Finished /\ t_proc (fst a) = None).
  { clear E. revert l El. induction js as [|j js IH]; intros l El; cbn [all_points] in El; [injection El as <-; intros a []|].
    destruct (one_point six true j) as [[[t q]|e]|] eqn:E1; try discriminate. destruct (all_points six true js) as [[l'|e]|]; try discriminate.
    injection El as <-. intros a [<-|Ha]; [|apply (IH _ eq_refl); exact Ha]. apply (one_point_ok _ _ _ _ _ E1). }
  cbn zeta in E. assert (Ef : forallb is_finished (map (fun a => t_state (fst a)) l) = true).
  { apply forallb_forall. intros s Hs. apply in_map_iff in Hs as (a & <- & Ha). rewrite (proj1 (K a Ha)). reflexivity. }
  rewrite Ef in E. split; [unfold WORKER_DONE in E; congruence|]. assert (ts = map fst l) by congruence. subst ts.
  intros t Ht. apply in_map_iff in Ht as (a & <- & Ha). apply K. exact Ha.
Qed.
Print Assumptions C96_dry_run.

Definition start_at (z : Z) : attempt := LStart z z z [] z None.
Definition job_of (code : Z) : job := mkJob 0 4 1000 [start_at 5] 6 20 (Some code) (Some 1%Q) 2.
Example C96_runs :
  map (fun js => match multi_points false false js with Some (Ok (fs, st, ts)) => Some (fs, st, map exit_code ts) | _ => None end)
    [[job_of 0; job_of 0]; [job_of 0; job_of 3]; []; [mkJob 0 1 1000 [LRaise; LRaise] 6 20 None None 2]] =
  [Some ([2; 2]%Q, 35%nat, [Some 0; Some 0]); Some ([2; 2]%Q, 33%nat, [Some 0; Some 3]); Some ([], 35%nat, []); None].
Proof. vm_compute. reflexivity. Qed.
(** A failed application leaves the value of the function in its row. *)
Theorem C96_value_of_a_failed_run_refuted :
  exists j t, multi_points false false [j] = Some (Ok ([j_value j], 33%nat, [t])) /\ exit_code t = Some 3.
Proof. exists (job_of 3). eexists. split; [vm_compute; reflexivity|reflexivity]. Qed.
Print Assumptions C96_value_of_a_failed_run_refuted.
