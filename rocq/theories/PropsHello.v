(** Property theorem C91: the example of a user's own polling loop. *)
From Verif Require Import Base ExecutorModel ExecutorSpec ExecutorProofs HelloModel PropsExecutor.
Local Open Scope Z_scope.

Lemma proc_there t : clocked t -> t_finished t = false -> t_dry t = false -> t_proc t <> None.
Proof. intros Hc Hf Hd. now destruct (Hc Hd Hf). Qed.

Lemma poll_open now obs t t1 e : good t -> clocked t -> t_finished t = false -> poll now obs t = (t1, e) ->
  e = None /\ good t1 /\ clocked t1 /\ signals t1 = signals t /\
  ((t_finished t1 = true /\ (t_state t1 = Finished \/ t_state t1 = Failed)) \/
   (t_finished t1 = false /\ obs = None /\ t_submit t1 = t_submit t /\ exists start, t_submit t = Some start /\ t_runtime t1 = now - start)).
Proof.
  intros Hg Hc Hf E. pose proof (poll_clocked now obs t Hg Hc) as Hc1. rewrite E in Hc1. cbn in Hc1.
  destruct (poll_good _ _ _ _ _ Hg E) as (G1 & _ & _ & S1 & _).
  destruct (poll_cases _ _ _ _ _ Hg E) as [(Hd & -> & ->)|[(Hd & Hp & -> & ->)|[(p & Hd & Hp & Hf' & -> & ->)|[(p & Hd & Hp & _ & -> & -> & ->)|(p & rc & Hd & Hp & _ & -> & -> & ->)]]]].
  - split; [reflexivity|]. split; [exact G1|]. split; [exact Hc1|]. split; [exact S1|]. left. rewrite complete_dry by exact Hd. cbn. auto.
  - exfalso. now apply (proc_there t Hc Hf Hd).
  - congruence.
  - split; [reflexivity|]. split; [exact G1|]. split; [exact Hc1|]. split; [exact S1|]. right. cbn. repeat split; auto. destruct (Hc Hd Hf) as (_ & B & C). exists (tm_start (t_timer t)). split; [exact C|].
    unfold tm_elapsed. now rewrite B.
  - split; [reflexivity|]. split; [exact G1|]. split; [exact Hc1|]. split; [exact S1|]. left.
    edestruct (complete_spec now (set_proc (Some (mkProc (Some rc) (p_sig p))) t)) as (A1 & A2 & _); [reflexivity|reflexivity|exact Hd|].
    split; [exact A1|]. rewrite A2. unfold ends_with. destruct rc; auto.
Qed.

Lemma close_done fin st t : t_finished t = true -> st <> 0%nat -> hello_close fin st t = Some (Ok st, t).
Proof. intros Hf Hs. unfold hello_close. rewrite Hf. apply Nat.eqb_neq in Hs. unfold UNSET_TAG. now rewrite Hs. Qed.

Lemma hello_spec timeout fin : forall l t r t', good t -> clocked t -> t_finished t = false -> custom_polling_loop timeout l fin t = Some (r, t') ->
  good t' /\ t_finished t' = true /\ exists s, r = Ok s /\
  ((s = 35%nat /\ t_state t' = Finished /\ signals t' = signals t) \/ (s = 33%nat /\ t_state t' = Failed /\ signals t' = signals t) \/
   (s = 20%nat /\ exists x b n, In (x, b) l /\ ps_sig x = Some n /\ kill_signal n = true) \/
   (s = 31%nat /\ exists x, In (x, true) l) \/
   (s = 32%nat /\ (timeout <= t_runtime t \/ exists x b start, In (x, b) l /\ t_submit t = Some start /\ timeout <= ps_now x - start))).
Proof.
  assert (Hfin : forall t r t', good t -> clocked t -> t_finished t = false -> hello_close fin UNSET_TAG t = Some (r, t') ->
    good t' /\ t_finished t' = true /\ r = Ok 32%nat).
  { intros t r t' Hg Hc Hf E. unfold hello_close in E. rewrite Hf in E. destruct (kill_in fin t) as [[t1 e]|] eqn:Ek; [|discriminate].
    destruct (kill_no_raise _ _ _ _ Hg (proc_there t Hc Hf) Ek) as (-> & F & G). inversion E; subst. auto. }
  induction l as [|[x b] l IH]; intros t r t' Hg Hc Hf E; cbn [custom_polling_loop] in E.
  - destruct (t_runtime t <? timeout) eqn:Et; [discriminate|]. apply Z.ltb_ge in Et.
    destruct (Hfin t r t' Hg Hc Hf E) as (A & B & ->). split; [auto|]. split; [auto|]. eexists. split; [reflexivity|]. do 4 right. auto.
  - destruct (t_runtime t <? timeout) eqn:Et.
    2:{ apply Z.ltb_ge in Et. destruct (Hfin t r t' Hg Hc Hf E) as (A & B & ->). split; [auto|]. split; [auto|]. eexists. split; [reflexivity|]. do 4 right. auto. }
    destruct (manager_kill_received x) eqn:Em.
    + destruct (kill_in x t) as [[t1 e]|] eqn:Ek; [|discriminate]. destruct (kill_no_raise _ _ _ _ Hg (proc_there t Hc Hf) Ek) as (-> & F & G).
      rewrite (close_done fin MAN_SIGNAL_FINISH t1 F) in E by discriminate. inversion E; subst. split; [auto|]. split; [auto|]. eexists. split; [reflexivity|].
      do 2 right. left. split; [reflexivity|]. unfold manager_kill_received in Em. destruct (ps_sig x) as [n|] eqn:En; [|discriminate].
      exists x, b, n. cbn. auto.
    + destruct (poll (ps_now x) (ps_obs x) t) as [t1 e] eqn:Ep.
      destruct (poll_open _ _ _ _ _ Hg Hc Hf Ep) as (-> & G1 & C1 & S1 & [(F1 & Hst)|(F1 & Ho & Hsu & start & Hs1 & Hs2)]).
      * rewrite F1 in E. unfold hello_close in E. rewrite F1 in E. cbn [Nat.eqb UNSET_TAG] in E. inversion E; subst.
        split; [auto|]. split; [auto|]. eexists. split; [reflexivity|]. destruct Hst as [Hst|Hst]; rewrite Hst; auto.
      * rewrite F1 in E. destruct b.
        { destruct (kill_in x t1) as [[t2 e2]|] eqn:Ek; [|discriminate]. destruct (kill_no_raise _ _ _ _ G1 (proc_there t1 C1 F1) Ek) as (-> & F & G).
          rewrite (close_done fin WORKER_KILL_ON_ERR t2 F) in E by discriminate. inversion E; subst. split; [auto|]. split; [auto|]. eexists. split; [reflexivity|].
          do 3 right. left. split; [reflexivity|]. exists x. cbn. auto. }
        destruct (IH t1 r t' G1 C1 F1 E) as (A & B & s & -> & Cs). split; [auto|]. split; [auto|]. exists s. split; [reflexivity|].
        rewrite S1 in Cs. destruct Cs as [Cs|[Cs|[(-> & y & b & n & I1 & I2)|[(-> & y & I1)|(-> & [I1|(y & b & st & I1 & I2 & I3)])]]]]; auto.
        { do 2 right. left. split; [reflexivity|]. exists y, b, n. cbn. auto. }
        { do 3 right. left. split; [reflexivity|]. exists y. cbn. auto. }
        { do 4 right. split; [reflexivity|]. right. exists x, false, start. cbn. repeat split; auto. lia. }
        { do 4 right. split; [reflexivity|]. right. exists y, b, st. cbn. repeat split; auto. congruence. }
Qed.

(** ** C91 *)

(** Whatever happens to a running task: the loop raises nothing, the task has
    ended when it returns, and the status is WORKER_DONE for a task that is
    FINISHED and TASK_FAILED for one that is FAILED, neither of which was sent a
    signal; or MAN_SIGNAL_FINISH after a kill signal from the manager; or
    WORKER_KILL_ON_ERR after an error in the output; or WORKER_KILL_ON_TIMEOUT
    once the timeout has passed since the submission (or had, when the task was
    last looked at before). *)
Theorem C91_status_tells_how_it_ended :
  forall t0 cs t timeout l fin r t', submitted t0 -> calls t0 cs t -> t_finished t = false ->
  custom_polling_loop timeout l fin t = Some (r, t') ->
  t_finished t' = true /\ final_state t' /\ exists s, r = Ok s /\
  ((s = 35%nat /\ t_state t' = Finished /\ signals t' = signals t) \/ (s = 33%nat /\ t_state t' = Failed /\ signals t' = signals t) \/
   (s = 20%nat /\ exists x b n, In (x, b) l /\ ps_sig x = Some n /\ man_kill n) \/
   (s = 31%nat /\ exists x, In (x, true) l) \/
   (s = 32%nat /\ (timeout <= t_runtime t \/ exists x b start, In (x, b) l /\ t_submit t = Some start /\ timeout <= ps_now x - start))).
Proof.
  intros t0 cs t timeout l fin r t' Hs Hc Hf E. destruct (calls_ok t0 cs t (submitted_ok _ Hs) Hc) as (Hg & Hk).
  destruct (hello_spec timeout fin l t r t' Hg Hk Hf E) as (G & F & s & -> & C). split; [exact F|]. split; [exact (good_fin _ G F)|].
  exists s. split; [reflexivity|]. destruct C as [C|[C|[(-> & x & b & n & I1 & I2 & I3)|[C|C]]]]; auto 6.
  do 2 right. left. split; [reflexivity|]. exists x, b, n. repeat split; auto.
  unfold kill_signal in I3. apply orb_true_iff in I3 as [H|H]; apply Nat.eqb_eq in H; [left|right]; exact H.
Qed.
Print Assumptions C91_status_tells_how_it_ended.

(** The loop ends as soon as a pass sees the process gone, a kill signal, an
    error in the output, or that the timeout has passed (provided hard-killed
    processes end). *)
Theorem C91_the_loop_ends :
  forall t0 cs t timeout l fin, submitted t0 -> calls t0 cs t -> t_finished t = false ->
  ps_kfinal fin <> None -> (forall x b, In (x, b) l -> ps_kfinal x <> None) ->
  (exists x b, In (x, b) l /\ (ps_obs x <> None \/ b = true \/ (exists n, ps_sig x = Some n /\ man_kill n) \/
     exists start, t_submit t = Some start /\ timeout <= ps_now x - start)) ->
  exists r t', custom_polling_loop timeout l fin t = Some (r, t').
Proof.
  intros t0 cs t timeout l fin Hs Hc Hf Hkf Hkl Hx. destruct (calls_ok t0 cs t (submitted_ok _ Hs) Hc) as (Hg & Hk). clear t0 cs Hs Hc.
  assert (Hfin : forall st u, good u -> clocked u -> exists r t', hello_close fin st u = Some (r, t')).
  { intros st u Gu Cu. unfold hello_close. destruct (t_finished u) eqn:Fu; [eauto|].
    destruct (kill_in fin u) as [[t1 [e|]]|] eqn:Ek; eauto. exfalso. eapply kill_returns; [exact Gu|exact (proc_there u Cu Fu)|exact Hkf|exact Ek]. }
  assert (Hend : forall st u, t_finished u = true -> exists r t', hello_close fin st u = Some (r, t')) by (intros st u Fu; unfold hello_close; rewrite Fu; eauto).
  revert t Hg Hk Hf Hx. induction l as [|[x b] l IH]; intros t Hg Hc Hf (y & c & Hin & Hy); [destruct Hin|]. cbn [custom_polling_loop].
  destruct (t_runtime t <? timeout) eqn:Et; [|now apply Hfin].
  assert (Hkx : ps_kfinal x <> None) by (apply (Hkl x b); now left).
  assert (Hkill : forall st u, good u -> clocked u -> t_finished u = false -> exists r t',
    match kill_in x u with None => None | Some (t1, None) => hello_close fin st t1 | Some (t1, Some e) => Some (Err e, t1) end = Some (r, t')).
  { intros st u Gu Cu Fu. destruct (kill_in x u) as [[t1 [e|]]|] eqn:Ek; eauto.
    - destruct (kill_no_raise _ _ _ _ Gu (proc_there u Cu Fu) Ek) as (_ & F & _). now apply Hend.
    - exfalso. eapply kill_returns; [exact Gu|exact (proc_there u Cu Fu)|exact Hkx|exact Ek]. }
  destruct (manager_kill_received x) eqn:Em; [now apply Hkill|].
  destruct (poll (ps_now x) (ps_obs x) t) as [t1 e] eqn:Ep.
  destruct (poll_open _ _ _ _ _ Hg Hc Hf Ep) as (-> & G1 & C1 & S1 & [(F1 & Hst)|(F1 & Ho & Hsu & start & Hs1 & Hs2)]); rewrite F1; [now apply Hend|].
  destruct b; [now apply Hkill|]. destruct Hin as [Hin|Hin].
  - inversion Hin; subst y c. destruct Hy as [Hy|[Hy|[(n & Hn & Hm)|(st & H1 & H2)]]]; try congruence.
    + exfalso. unfold manager_kill_received in Em. rewrite Hn in Em. destruct Hm as [-> | ->]; discriminate.
    + assert (Eq : t_runtime t1 <? timeout = false) by (apply Z.ltb_ge; rewrite Hs2; congruence).
      destruct l as [|[z d] l]; cbn [custom_polling_loop]; rewrite Eq; now apply Hfin.
  - apply IH; auto; [intros z d Hz; apply (Hkl z d); now right|]. exists y, c. split; auto. rewrite Hsu. exact Hy.
Qed.
Print Assumptions C91_the_loop_ends.

(** Ways to end: success, failure, a signal, an error in the output, a timeout. *)
Definition quiet : pass := mkPass 20 None None 0 None 0 None None.
Definition last_kill : pass := mkPass 0 None None 200 None 201 None (Some (-9)).
Example C91_runs :
  map (fun l => option_map (fun p => (fst p, t_state (snd p), signals (snd p))) (custom_polling_loop 100 ((quiet, false) :: l) last_kill started_once))
    [[(mkPass 50 (Some 0) None 0 None 0 None None, false)]; [(mkPass 50 (Some 3) None 0 None 0 None None, true)];
     [(mkPass 50 None (Some 20%nat) 51 None 52 (Some (-15)) None, false)]; [(mkPass 50 None None 51 None 52 (Some (-15)) None, true)];
     [(mkPass 120 None None 0 None 0 None None, false)]; []] =
  [Some (Ok 35%nat, Finished, []); Some (Ok 33%nat, Failed, []); Some (Ok 20%nat, UserKilled, [SigTerm]); Some (Ok 31%nat, UserKilled, [SigTerm]);
   Some (Ok 32%nat, UserKilled, [SigTerm; SigKill]); None].
Proof. vm_compute. reflexivity. Qed.
Example C91_hypotheses_met : submitted started_once /\ calls started_once [] started_once /\ t_finished started_once = false.
Proof. split; [apply C29_submitted|]. split; [constructor|apply C29_submitted]. Qed.

(** The status is not always the signal that was received: MAN_SIGNAL_KILL (21),
    by which the manager stops one simulation that was cancelled, is reported as
    MAN_SIGNAL_FINISH (20). A worker whose function returns that leaves without an
    answer, and the manager waits for it. Executor.polling_loop reports 21. *)
Theorem C91_kill_signal_reported_as_finish_refuted :
  exists t x t', submitted t /\ t_finished t = false /\ ps_sig x = Some 21%nat /\
    custom_polling_loop 100 [(x, false)] last_kill t = Some (Ok 20%nat, t') /\
    exists t2, polling_loop (Some 100) true [x] t = Some (Some 21%nat, t2).
Proof.
  exists started_once, (mkPass 50 None (Some 21%nat) 51 None 52 (Some (-15)) None). eexists.
  split; [apply C29_submitted|]. split; [apply C29_submitted|]. split; [reflexivity|]. split; [vm_compute; reflexivity|]. eexists. vm_compute. reflexivity.
Qed.
Print Assumptions C91_kill_signal_reported_as_finish_refuted.

(** A task that could not be launched makes the loop raise. *)
Theorem C91_failed_launch_raises_refuted :
  exists t e t', submitted t /\ t_state t = FailedToStart /\ custom_polling_loop 100 [(quiet, false)] last_kill t = Some (Err e, t').
Proof.
  destruct (submit false 0 1 false 1000 [LRaise] 0) as [t|] eqn:E; [|vm_compute in E; discriminate].
  exists t. assert (Hs : submitted t) by (left; exists false, 0%nat, 0%nat, false, 1000, [LRaise], 0; exact E).
  vm_compute in E. inversion E; subst t. eexists. eexists. split; [exact Hs|]. split; [reflexivity|]. vm_compute. reflexivity.
Qed.
Print Assumptions C91_failed_launch_raises_refuted.
