(** Property theorem C94: a simulation that can be killed reports what happened to it. *)
From Coq Require Import QArith.
From Verif Require Import Base ExecutorModel ExecutorSpec ExecutorProofs BoreholeModel PropsExecutor.
Local Open Scope Z_scope.

(** Vocabulary: the value is refused by the simulation's failure model. *)
Definition refused (sim_id num_obs : nat) (q true_f : Q) : Prop := (num_obs < sim_id)%nat /\ ((19 # 1000) < q / true_f)%Q.

Lemma too_big_num q true_f : too_big (FNum q) true_f = true <-> ((19 # 1000) < q / true_f)%Q.
Proof.
  cbn [too_big]. destruct (Qle_bool (q / true_f) (19 # 1000)) eqn:E; cbn; split; try discriminate; auto.
  - intros H. apply Qle_bool_iff in E. exfalso. apply (Qlt_not_le _ _ H E).
  - intros _. apply Qnot_le_lt. intros H. apply Qle_bool_iff in H. congruence.
Qed.

(** ** C94 *)

(** Whatever happens to the running task of a simulation that returns:
    - it was the manager that killed it, the simulation says so and has no finite
      value (this needs the field "sim_killed");
    - or it failed, or its value is refused: TASK_FAILED and no finite value;
    - or it finished, and the value is the one in its output. *)
Theorem C94_the_simulation_tells_what_happened :
  forall t0 cs t pm sim_id num_obs true_f l out b, submitted t0 -> calls t0 cs t -> t_finished t = false ->
  borehole true pm sim_id num_obs true_f l out t = Some (Ok b) ->
  exists t', t_finished t' = true /\ (exists s, polling_loop None pm l t = Some (Some s, t')) /\
  ((b_killed b = true /\ b_f b = FInf /\ man_kill (b_status b) /\ pm = true /\ exists x, In x l /\ ps_sig x = Some (b_status b)) \/
   (b_killed b = false /\ b_f b = FInf /\ b_status b = 33%nat /\
      (t_state t' = Failed \/ t_state t' = Finished /\ exists q, out = Some q /\ refused sim_id num_obs q true_f)) \/
   (b_killed b = false /\ b_status b = 35%nat /\ t_state t' = Finished /\ exists q, b_f b = FNum q /\ out = Some q /\ ~ refused sim_id num_obs q true_f)).
Proof.
  intros t0 cs t pm sim_id num_obs true_f l out b Hs Hc Hf E. unfold borehole, subproc_borehole in E.
  destruct (polling_loop None pm l t) as [[r t']|] eqn:El; [|discriminate].
  destruct (C30_status_tells_how_it_ended t0 cs t None pm l r t' Hs Hc ltac:(discriminate) El) as (F & _ & s & -> & C).
  exists t'. split; [exact F|]. split; [eauto|].
  assert (Ok_inj : forall u w : bore_out, Some (Ok u) = Some (Ok w) -> u = w) by congruence.
  destruct C as [(Hst & ->)|[(Hst & ->)|[(_ & _ & ->)|[(_ & _ & ->)|[(_ & Hpm & Hk & Hx)|(_ & _ & x & tmo & _ & _ & Hn & _)]]]]].
  - change (killed_or_failed 35) with false in E. change (kill_signal 35 && true) with false in E. cbv iota in E. destruct out as [q|]; [|discriminate].
    destruct ((num_obs <? sim_id)%nat && too_big (FNum q) true_f) eqn:Eb; apply Ok_inj in E; subst b; cbn [b_f b_killed b_status].
    + right. left. apply andb_true_iff in Eb as [E1 E2]. apply Nat.ltb_lt in E1. apply too_big_num in E2. repeat split; auto. right. split; auto. exists q. repeat split; auto.
    + right. right. repeat split; auto. exists q. repeat split; auto. intros [R1 R2]. apply Nat.ltb_lt in R1. apply too_big_num in R2. rewrite R1, R2 in Eb. discriminate.
  - change (killed_or_failed 33) with true in E. change (kill_signal 33 && true) with false in E. cbv iota in E. cbn [too_big] in E. rewrite andb_true_r in E.
    right. left. destruct (num_obs <? sim_id)%nat; apply Ok_inj in E; subst b; cbn [b_f b_killed b_status]; auto 6.
  - subst. exfalso. congruence.
  - subst. exfalso. congruence.
  - assert (Hks : kill_signal s = true) by (destruct Hk as [-> | ->]; reflexivity).
    unfold killed_or_failed in E. rewrite Hks in E. cbn [orb andb] in E. rewrite Hks in E. cbn [andb] in E. apply Ok_inj in E. subst b. cbn [b_f b_killed b_status]. left. auto 6.
  - discriminate.
Qed.
Print Assumptions C94_the_simulation_tells_what_happened.

(** It raises only if the task finished and there is no number in its output. *)
Theorem C94_raises_only_without_output :
  forall t0 cs t kf pm sim_id num_obs true_f l out e, submitted t0 -> calls t0 cs t -> t_finished t = false ->
  borehole kf pm sim_id num_obs true_f l out t = Some (Err e) ->
  out = None /\ exists t', polling_loop None pm l t = Some (Some 35%nat, t') /\ t_state t' = Finished.
Proof.
  intros t0 cs t kf pm sim_id num_obs true_f l out e Hs Hc Hf E. unfold borehole, subproc_borehole in E.
  destruct (polling_loop None pm l t) as [[r t']|] eqn:El; [|discriminate].
  destruct (C30_status_tells_how_it_ended t0 cs t None pm l r t' Hs Hc ltac:(discriminate) El) as (F & _ & s & -> & C).
  destruct (killed_or_failed s) eqn:Ek.
  { destruct (kill_signal s && kf); [discriminate|]. destruct ((num_obs <? sim_id)%nat && too_big FInf true_f); discriminate. }
  destruct out as [q|].
  { destruct (kill_signal s && kf); [discriminate|]. destruct ((num_obs <? sim_id)%nat && too_big (FNum q) true_f); discriminate. }
  split; [reflexivity|].
  destruct C as [(Hst & ->)|[(Hst & ->)|[(_ & _ & ->)|[(_ & _ & ->)|[(_ & Hpm & Hk & Hx)|(_ & _ & x & tmo & _ & _ & Hn & _)]]]]].
  - eauto.
  - discriminate.
  - subst. congruence.
  - subst. congruence.
  - destruct Hk as [-> | ->]; discriminate.
  - discriminate.
Qed.
Print Assumptions C94_raises_only_without_output.

(** Ways to end: done, refused, failed, killed, still running. *)
Definition bore_runs : list (list pass) :=
  [[mkPass 50 (Some 0) None 0 None 0 None None]; [mkPass 50 (Some 3) None 0 None 0 None None];
   [mkPass 50 None None 0 None 0 None None; mkPass 60 None (Some 21%nat) 61 None 62 (Some (-15)) None]; [mkPass 50 None None 0 None 0 None None]].
Example C94_runs :
  map (fun l => borehole true true 10 5 100 l (Some 1%Q) started_once) bore_runs =
  [Some (Ok (mkBore (FNum 1) false 35)); Some (Ok (mkBore FInf false 33)); Some (Ok (mkBore FInf true 21)); None] /\
  borehole true true 10 5 1 [mkPass 50 (Some 0) None 0 None 0 None None] (Some 1%Q) started_once = Some (Ok (mkBore FInf false 33)) /\
  borehole true true 5 5 1 [mkPass 50 (Some 0) None 0 None 0 None None] (Some 1%Q) started_once = Some (Ok (mkBore (FNum 1) false 35)) /\
  submitted started_once /\ t_finished started_once = false.
Proof. split; [vm_compute; reflexivity|]. split; [vm_compute; reflexivity|]. split; [vm_compute; reflexivity|]. apply C29_submitted. Qed.

(** Without the field "sim_killed" a simulation that the manager killed is reported
    as failed, though its task did not fail. *)
Theorem C94_killed_reported_as_failed_refuted :
  exists t l t', submitted t /\ polling_loop None true l t = Some (Some 21%nat, t') /\ t_state t' = UserKilled /\
    borehole false true 10 5 100 l None t = Some (Ok (mkBore FInf false 33)).
Proof.
  exists started_once, [mkPass 60 None (Some 21%nat) 61 None 62 (Some (-15)) None]. eexists. split; [apply C29_submitted|].
  split; [vm_compute; reflexivity|]. split; [reflexivity|vm_compute; reflexivity].
Qed.
Print Assumptions C94_killed_reported_as_failed_refuted.
