(** * C68: a local optimizer in its own process gets the value of the point it asked for

    The object through which APOSMM talks to an optimizer that runs in a process of its
    own (gen_funcs/aposmm_localopt_support.py; model in LocalOptModel, vocabulary in
    LocalOptSpec). The two processes and the threads that write to the queue may take
    their steps in any order. *)
From Verif Require Import Base BaseLemmas LocalOptModel LocalOptSpec LocalOptProofs.
Local Open Scope nat_scope.

(** ** An example: an optimizer that asks for 5, then 6, and is done *)
Definition ex_act (l : list (nat * nat)) : @request nat :=
  match l with [] => Ask 5 | [_] => Ask 6 | _ => Finish 6 true end.
Definition ex_same (a : nat) (v : nat * nat) : bool := a =? fst v.
Definition ex_starts (a : nat) : bool := a =? 5.
(** Take the first step that is possible. *)
Definition any (s : @sys nat (nat * nat)) : option sys :=
  match child_step ex_act ex_same s with Some s' => Some s' | None =>
  match parent_step ex_starts s with Some s' => Some s' | None =>
  match child_flush s with Some s' => Some s' | None => parent_flush s end end end.
Fixpoint many (n : nat) (s : @sys nat (nat * nat)) : sys :=
  match n with 0 => s | S m => match any s with Some s' => many m s' | None => s end end.
Lemma any_step s s' : any s = Some s' -> step ex_act ex_same ex_starts s s'.
Proof.
  unfold any. destruct (child_step ex_act ex_same s) eqn:E1; [intros [= <-]; apply step_child; exact E1|].
  destruct (parent_step ex_starts s) eqn:E2; [intros [= <-]; apply step_parent; exact E2|].
  destruct (child_flush s) eqn:E3; [intros [= <-]; apply step_cflush; exact E3|].
  intros E4. apply step_pflush; exact E4.
Qed.
Lemma many_Run n : forall s, Run ex_act ex_same ex_starts s -> Run ex_act ex_same ex_starts (many n s).
Proof.
  induction n as [|n IH]; intros s R; cbn [many]; [exact R|]. destruct (any s) as [s'|] eqn:E; [|exact R].
  apply IH. eapply Run_step; [exact R | apply any_step; exact E].
Qed.
Definition told (v : nat * nat) (s : @sys nat (nat * nat)) : sys :=
  match call_iterate v s with Some s' => s' | None => s end.
Lemma told_Run v s : Run ex_act ex_same ex_starts s -> Run ex_act ex_same ex_starts (told v s).
Proof. intros R. unfold told. destruct (call_iterate v s) eqn:E; [eapply Run_iterate; eassumption | exact R]. Qed.
Definition ex0 := many 30 launch.
Definition ex1 := many 30 (told (5, 50) ex0).
Definition ex2 := many 30 (told (6, 60) ex1).
Lemma ex0_Run : Run ex_act ex_same ex_starts ex0.
Proof. apply many_Run, Run_launch. Qed.
Lemma ex1_Run : Run ex_act ex_same ex_starts ex1.
Proof. apply many_Run, told_Run, ex0_Run. Qed.
Lemma ex2_Run : Run ex_act ex_same ex_starts ex2.
Proof. apply many_Run, told_Run, ex1_Run. Qed.

Lemma firstn_next {A} n : forall (l : list A) a, nth_error l n = Some a -> firstn (S n) l = firstn n l ++ [a].
Proof.
  induction n as [|n IH]; intros [|b l] a E; try discriminate; [injection E as <-; reflexivity|].
  cbn [firstn app]. f_equal. apply IH. exact E.
Qed.

(** Each call of iterate gives back what the optimizer does with all the values given so
    far, and an exception if one of them was for another point. *)
Theorem C68_replies {X V} (act : list V -> @request X) same starts s k y :
  Run act same starts s -> nth_error (replies s) k = Some y -> y = hears act same [] (firstn (S k) (given s)).
Proof.
  intros R E. destruct (Run_Phase act same starts s R); cbn [replies given] in *; eauto;
    (eapply log_app; [| |exact E]; [lia | assumption]).
Qed.
Print Assumptions C68_replies.

(** If every value is for the point that was asked for, as APOSMM makes sure, the reply
    is the optimizer's: the next point, or the optimum. *)
Theorem C68_replies_of_the_optimizer {X V} (act : list V -> @request X) same starts s k y :
  Run act same starts s -> in_step act same (given s) -> nth_error (replies s) k = Some y ->
  y = says (act (firstn (S k) (given s))).
Proof.
  intros R I E. rewrite (C68_replies act same starts s k y R E).
  assert (C : forall n, conv act same (firstn n (given s))).
  { induction n as [|n IH]; [apply conv_nil|]. destruct (nth_error (given s) n) as [v|] eqn:Ev.
    - destruct (I n v Ev) as (a & Ha & Hs). rewrite (firstn_next n (given s) v Ev). eapply conv_snoc; eassumption.
    - apply nth_error_None in Ev. rewrite firstn_all2 in IH by exact Ev. rewrite firstn_all2 by lia. exact IH. }
  apply conv_says, C.
Qed.
Print Assumptions C68_replies_of_the_optimizer.
Example C68_replies_nonvacuous :
  replies ex2 = [RPoint 6; RDone 6 true] /\ in_step ex_act ex_same (given ex2).
Proof.
  split; [vm_compute; reflexivity|]. change (given ex2) with [(5, 50); (6, 60)].
  intros [|[|k]] v E; cbn in E; [injection E as <- .. | destruct k; discriminate]; eexists; split; reflexivity.
Qed.

(** The optimizer is given the values of the calls in order, each once: it has them all,
    or all but the one of the call that is running. *)
Theorem C68_values_arrive_once {X V} (act : list V -> @request X) same starts s :
  Run act same starts s -> exists l, given s = fed s ++ l /\ length l <= 1 /\ (~ busy s -> l = []).
Proof.
  intros R. destruct (Run_Phase act same starts s R); cbn [given fed];
    try (exists []; rewrite app_nil_r; cbn; split; [reflexivity | split; [lia | auto]]; fail).
  - destruct H1 as (_ & -> & _). exists []. rewrite app_nil_r. cbn. auto.
  - destruct H1 as (_ & -> & _). exists []. rewrite app_nil_r. cbn. auto.
  - exists [v]. cbn. split; [reflexivity|]. split; [lia|]. intros B. exfalso. apply B.
    destruct H3 as [[-> ->]|[-> ->]]; exact Logic.I.
  - exists [v]. cbn. split; [reflexivity|]. split; [lia|]. intros B. exfalso. apply B. exact Logic.I.
  - exists [v]. cbn. split; [reflexivity|]. split; [lia|]. intros B. exfalso. apply B. exact Logic.I.
  - exists [v]. cbn. split; [reflexivity|]. split; [lia|]. intros B. exfalso. apply B. exact Logic.I.
Qed.
Print Assumptions C68_values_arrive_once.
Example C68_values_arrive_once_nonvacuous : fed ex2 = [(5, 50); (6, 60)] /\ given ex2 = [(5, 50); (6, 60)].
Proof. vm_compute. split; reflexivity. Qed.

(** Although both processes read from one queue, neither ever reads what it put itself. *)
Theorem C68_nobody_reads_their_own {X V} (act : list V -> @request X) same starts s :
  Run act same starts s -> ch s <> CMixed /\ ~ In ROwn (replies s).
Proof.
  intros R. split.
  - destruct (Run_Phase act same starts s R); cbn [ch]; try discriminate.
    + destruct n; [subst c; discriminate | destruct H3 as [->|[-> _]]; discriminate].
    + destruct H4 as [->| ->]; discriminate.
    + intros ->. destruct q as [| | | | | | | | |[|]]; try contradiction; try discriminate; try (destruct H1; discriminate).
      destruct H1 as (_ & [h|[h|(a & h & _)]]); discriminate.
  - intros h. apply In_nth_error in h as [k E]. pose proof (C68_replies act same starts s k _ R E) as F.
    clear E. revert F. generalize (firstn (S k) (given s)) as l. generalize (@nil V) as t.
    intros t l. revert t. induction l as [|v l IH]; intros t; cbn [hears]; destruct (act t); try discriminate.
    destruct (same a v); [apply IH | discriminate].
Qed.
Print Assumptions C68_nobody_reads_their_own.
Example C68_nobody_reads_their_own_nonvacuous : Run ex_act ex_same ex_starts (many 3 (told (5, 50) ex0)) /\ pbuf (many 3 (told (5, 50) ex0)) = [IValues (5, 50)].
Proof. split; [apply many_Run, told_Run, ex0_Run | vm_compute; reflexivity]. Qed.

(** Every call returns: whatever the order, after at most 19 steps nothing moves any
    more, and then no call is running. *)
Theorem C68_every_call_returns {X V} (act : list V -> @request X) same starts s n s' :
  Run act same starts s -> steps act same starts n s s' ->
  n <= 19 /\ (stuck act same starts s' -> ~ busy s').
Proof.
  intros R St. pose proof (Run_Phase act same starts s R) as P. split.
  - pose proof (steps_todo act same starts n s s' St P). pose proof (todo_bound act same starts s P). lia.
  - intros K B. destruct (busy_moves act same starts s' (steps_Phase act same starts n s s' St P) B) as [s2 E]. exact (K s2 E).
Qed.
Print Assumptions C68_every_call_returns.
(** When no call is running, every call of iterate was answered. *)
Theorem C68_every_call_is_answered {X V} (act : list V -> @request X) same starts s :
  Run act same starts s -> ~ busy s -> length (replies s) = length (given s).
Proof.
  intros R B. destruct (Run_Phase act same starts s R); cbn [replies given]; auto;
    try (exfalso; apply B; exact Logic.I).
  - exfalso. apply B. destruct H4 as [->| ->]; exact Logic.I.
  - exfalso. apply B. destruct H3 as [[_ ->]|[_ ->]]; exact Logic.I.
Qed.
Print Assumptions C68_every_call_is_answered.
Example C68_every_call_returns_nonvacuous : busy (told (5, 50) ex0) /\ ~ busy ex1 /\ length (replies ex1) = 1.
Proof. vm_compute. repeat split; auto. Qed.

(** A closed object has no process left; one whose optimizer has returned is closed when
    the call ends. *)
Theorem C68_closed_means_gone {X V} (act : list V -> @request X) same starts s :
  Run act same starts s ->
  (pa s = PClosed -> ch s = CDead) /\
  (forall a b, In (RDone a b) (replies s) -> ~ busy s -> pa s = PClosed).
Proof.
  intros R. split.
  - intros E. destruct (Run_Phase act same starts s R); cbn [pa] in E; try discriminate.
    + destruct H4 as [->| ->]; discriminate.
    + destruct H3 as [[_ ->]|[_ ->]]; discriminate.
    + subst q. cbn [ch]. exact H1.
  - (* only a call on an idle object can follow a reply *)
    assert (K : Run act same starts s -> (exists a b, In (RDone a b) (replies s)) ->
                match pa s with PJoin | PDrain | PClosed => True | _ => False end).
    { clear R. induction 1.
      - cbn. intros (a & b & []).
      - intros h. pose proof (Run_Phase act same starts s H) as P. destruct H0 as [s' E|s' E|s' E|s' E].
        + assert (pa s' = pa s /\ replies s' = replies s) as [-> Er].
          { unfold child_step in E. destruct (ch s); try discriminate.
            - injection E as <-. destruct (act (fed s)); split; reflexivity.
            - injection E as <-. split; reflexivity.
            - destruct (ccr s); [|discriminate]. injection E as <-. split; reflexivity.
            - destruct (pipe s); [discriminate|]. injection E as <-. split; reflexivity.
            - injection E as <-. destruct (same a v); split; reflexivity.
            - injection E as <-. split; reflexivity.
            - destruct (cbuf s); [|discriminate]. injection E as <-. split; reflexivity. }
          rewrite Er in h. exact (IHRun h).
        + unfold parent_step in E. destruct (pa s) as [i|i| |v|v| | | | |] eqn:Ep; try discriminate.
          * destruct (pcr s); [|discriminate]. injection E as <-. destruct (IHRun h).
          * destruct (pipe s) as [|m l]; [discriminate|]. injection E as <-. cbn [replies pa] in *.
            destruct i; [destruct (IHRun h)|]. destruct h as (a & b & h). apply in_app_or in h as [h|[h|[]]].
            -- destruct IHRun. eauto.
            -- destruct m; try discriminate. cbn. exact Logic.I.
          * injection E as <-. destruct (IHRun h).
          * injection E as <-. destruct (IHRun h).
          * injection E as <-. destruct (IHRun h).
          * destruct (ch s); try discriminate. injection E as <-. exact Logic.I.
          * destruct (pbuf s); try discriminate. injection E as <-. exact Logic.I.
        + unfold child_flush in E. destruct (cbuf s); [discriminate|]. injection E as <-. exact (IHRun h).
        + unfold parent_flush in E. destruct (pbuf s); [discriminate|]. injection E as <-. exact (IHRun h).
      - unfold call_iterate in H0. destruct (pa s) eqn:Ep; try discriminate. injection H0 as <-. intros h. destruct (IHRun h).
      - unfold call_destroy in H0. intros h. destruct (pa s) as [| | | | | | | | |[|]]; try discriminate; injection H0 as <-; exact Logic.I. }
    intros a b h B. specialize (K R). destruct (pa s) eqn:Ep; try reflexivity; try (destruct K; eauto; fail);
      exfalso; apply B; unfold busy; rewrite Ep; exact Logic.I.
Qed.
Print Assumptions C68_closed_means_gone.
Example C68_closed_means_gone_nonvacuous : pa ex2 = PClosed /\ ch ex2 = CDead.
Proof. vm_compute. split; reflexivity. Qed.

(** destroy can be called whenever no call is running (unless the object could not be
    made), and when it returns the process is gone. *)
Theorem C68_destroy {X V} (act : list V -> @request X) same starts s :
  Run act same starts s -> ~ busy s -> pa s <> PRaised true ->
  exists s1, call_destroy s = Some s1 /\
    forall n s2, steps act same starts n s1 s2 -> stuck act same starts s2 -> pa s2 = PClosed /\ ch s2 = CDead.
Proof.
  intros R B N.
  assert (E : exists s1, call_destroy s = Some s1 /\ pa s1 = PJoin).
  { unfold busy in B. unfold call_destroy. destruct (pa s) as [| | | | | | | | |[|]]; try (exfalso; apply B; exact Logic.I); try congruence; eauto. }
  destruct E as (s1 & E & Ep). exists s1. split; [exact E|]. intros n s2 St K.
  pose proof (Run_destroy act same starts s s1 R E) as R1.
  assert (G : match pa s2 with PJoin | PDrain | PClosed => True | _ => False end).
  { clear K. assert (G1 : match pa s1 with PJoin | PDrain | PClosed => True | _ => False end) by (rewrite Ep; exact Logic.I).
    clear - St G1. induction St as [|n s s1 s2 S1 _ IH]; [exact G1|]. apply IH.
    destruct S1 as [s' E|s' E|s' E|s' E].
    - assert (pa s' = pa s) as ->; [|exact G1].
      unfold child_step in E. destruct (ch s); try discriminate.
      + injection E as <-. destruct (act (fed s)); reflexivity.
      + injection E as <-. reflexivity.
      + destruct (ccr s); [|discriminate]. injection E as <-. reflexivity.
      + destruct (pipe s); [discriminate|]. injection E as <-. reflexivity.
      + injection E as <-. destruct (same a v); reflexivity.
      + injection E as <-. reflexivity.
      + destruct (cbuf s); [|discriminate]. injection E as <-. reflexivity.
    - unfold parent_step in E. destruct (pa s); try discriminate; try contradiction.
      + destruct (ch s); try discriminate. injection E as <-. exact Logic.I.
      + destruct (pbuf s); try discriminate. injection E as <-. exact Logic.I.
    - unfold child_flush in E. destruct (cbuf s); [discriminate|]. injection E as <-. exact G1.
    - unfold parent_flush in E. destruct (pbuf s); [discriminate|]. injection E as <-. exact G1. }
  assert (R2 : Run act same starts s2).
  { clear - R1 St. induction St as [|n s s1 s2 S1 _ IH]; [exact R1|]. apply IH. eapply Run_step; eassumption. }
  assert (C : pa s2 = PClosed).
  { pose proof (proj2 (C68_every_call_returns act same starts s1 n s2 R1 St) K) as B2. unfold busy in B2.
    destruct (pa s2); try contradiction; try reflexivity; exfalso; apply B2; exact Logic.I. }
  split; [exact C | exact (proj1 (C68_closed_means_gone act same starts s2 R2) C)].
Qed.
Print Assumptions C68_destroy.
Example C68_destroy_nonvacuous : ~ busy ex1 /\ pa ex1 = PIdle /\ ch ex1 = CWait 6.
Proof. vm_compute. repeat split; auto. Qed.

(** For every method that APOSMM accepts there is a routine, and its callback unpacks
    exactly the values it is passed, the gradient in its place; other methods are
    refused at both places. *)
Theorem C68_values_fit_the_method (m : method) :
  match fields_to_pass m, routine_of m with
  | Ok l, Ok r => passed l = l /\ fst (unpacks r m) = length l /\ snd (unpacks r m) = existsb (field_eqb Fgrad) l /\
                  (snd (unpacks r m) = true -> nth_error l 2 = Some Fgrad)
  | Err _, Err _ => m = Unknown
  | _, _ => False
  end.
Proof. destruct m; cbn; repeat split; auto; discriminate. Qed.
Print Assumptions C68_values_fit_the_method.

(** ** What does not hold *)
(** If the optimizer's process is killed or crashes, the call that waits for it waits for
    ever. *)
Theorem C68_crash_is_noticed_refuted :
  ~ (forall s n s', Run ex_act ex_same ex_starts s -> steps ex_act ex_same ex_starts n (crash s) s' ->
       stuck ex_act ex_same ex_starts s' -> ~ busy s').
Proof.
  intros h. set (s := many 8 (told (5, 50) ex0)).
  assert (R : Run ex_act ex_same ex_starts s) by (apply many_Run, told_Run, ex0_Run).
  refine (h s 0 (crash s) R (steps_0 _ _ _ _) _ Logic.I).
  intros s' [s2 E|s2 E|s2 E|s2 E]; vm_compute in E; discriminate.
Qed.
Print Assumptions C68_crash_is_noticed_refuted.
(** If the first point that the optimizer asks for is not the starting point, making the
    object raises, nobody can call destroy, and the process waits for ever. *)
Theorem C68_no_process_left_refuted :
  ~ (forall starts s, Run ex_act ex_same starts s -> stuck ex_act ex_same starts s -> ~ busy s ->
       (exists s1, call_destroy s = Some s1) \/ ch s = CDead).
Proof.
  intros h. pose (st := fun _ : nat => false).
  assert (R : exists s, Run ex_act ex_same st s /\ pa s = PRaised true /\ s = mksys [] [] [] true false (CWait 5) (PRaised true) [] [] []).
  { eexists. split; [|split; [|reflexivity]]; [|reflexivity].
    eapply Run_step; [eapply Run_step; [eapply Run_step; [eapply Run_step; [eapply Run_step; [apply Run_launch|]|]|]|]|];
      [apply step_child; reflexivity | apply step_child; reflexivity | apply step_cflush; reflexivity
      | apply step_parent; reflexivity | apply step_parent; reflexivity]. }
  destruct R as (s & R & _ & ->). destruct (h st _ R) as [[s1 E]|E]; [| |discriminate|discriminate].
  - intros s' [s2 E|s2 E|s2 E|s2 E]; discriminate.
  - intros B. exact B.
Qed.
Print Assumptions C68_no_process_left_refuted.
