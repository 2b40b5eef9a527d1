(** C66: how a worker relays between the manager and a generator function that runs
    in a process of its own. *)
From Verif Require Import Base BaseLemmas MapModel MapSpec MapProofs ProcGenModel ProcGenSpec ProcGenProofs ProcGenSample ProcGenRun ProcGenFinal
  PropsProcGen ThreadGenModel ThreadGenSpec ThreadGenProofs.
Local Open Scope nat_scope.

(** 1. Every message with points is sent to the manager once, in order, without its
    minima; every minimum is sent as an update, in order, and once a second message
    has been sent none is outstanding. *)
Theorem C66_points_relayed_once : forall gen N wanted mp H0 first turns o out r,
  steady gen -> relay gen N wanted mp H0 first turns = (o, out, r) -> r = Running \/ (exists v, r = Returned v) ->
  let k := length (points_sent out) in
  Forall2 (relayed_as mp) (firstn k (outbox gen o)) (points_sent out) /\
  exists pending, filter minimum (rows_of (firstn k (outbox gen o))) = flat_map a_rows (updates_sent out) ++ pending /\ (1 < k -> pending = []).
Proof.
  intros gen N wanted mp H0 first turns o out r ST H E. destruct (relay_settled gen N wanted mp ST _ _ _ _ _ _ H E) as [A B]. auto.
Qed.
Print Assumptions C66_points_relayed_once.
Definition res (l : list dict) : mail := Rows false (mkArr rdt l).
Definition prog66 : list (nat * list mail) := [(3, []); (1, [res [rw 2 7; rw 3 8]]); (0, []); (1, [])].
Example relay_points : let '(o, out, r) := relay toy 2 want [] None (Some (res [rw 0 5; rw 1 6])) prog66 in
  r = Running /\ map a_rows (points_sent out) = [[pt 0 0; pt 1 0]; [pt 2 0; pt 3 0]; [pt 4 0; pt 5 0]] /\ map a_rows (updates_sent out) = [[pt 3 1]] /\
  length (outbox toy o) = 3.
Proof. vm_compute. auto. Qed.

(** 2. What reaches the function: nothing until the results that have come make up
    the sample, then the sample, once and numbered from 0, then each batch at once
    under its own numbers. *)
Theorem C66_results_reach_the_function : forall gen N wanted mp dt H0 first turns b0 bs o out,
  relay gen N wanted mp H0 first turns = (o, out, Running) ->
  started_with mp H0 b0 -> Forall2 (arrives mp) (mails first turns) bs ->
  results wanted dt (map Ingest (b0 ++ bs)) ->
  (length (flat_map a_rows (b0 ++ bs)) < N -> o_in o = []) /\
  (forall pre a post, b0 ++ bs = pre ++ a :: post -> In SIM_ID (names dt) ->
     length (flat_map a_rows pre) < N -> length (flat_map a_rows (pre ++ [a])) = N ->
     exists sample rest, o_in o = sample ++ concat rest /\
       carries wanted (numbers N) (flat_map a_rows (pre ++ [a])) sample /\
       Forall2 (fun b ms => carries wanted (map (id_under SIM_ID) (a_rows b)) (a_rows b) ms) post rest).
Proof.
  intros gen N wanted mp dt H0 first turns b0 bs o out H S0 F R.
  destruct (tr_relay gen N wanted mp _ _ _ _ _ _ _ H S0 F) as (cs&rs&E&FF&NE&B).
  assert (R' : results wanted dt cs) by (destruct R as [R1 R2 R3 R4]; split; auto; intros a Ha; apply R4; rewrite batches_map, <- B; exact Ha).
  split.
  - intros L. eapply C65_sample_kept_back; eauto. now rewrite taken_batches, B.
  - intros pre a post E0 HI L1 L2. rewrite E0 in B. destruct (batches_split _ _ _ _ B) as (c1&c2&->&B1&B2).
    destruct (C65_sample_handed_over gen N wanted dt c1 a c2 o rs R' HI E FF NE) as (_&sample&rest&C1&C2&C3).
    + now rewrite taken_batches, B1.
    + rewrite taken_batches, batches_app, B1. exact L2.
    + exists sample, rest. split; auto. split; [|now rewrite <- B2]. rewrite taken_batches, batches_app, B1 in C2. exact C2.
Qed.
Print Assumptions C66_results_reach_the_function.
Example relay_results : let '(o, out, r) := relay toy 2 want [] None (Some (res [rw 0 5])) [(1, [res [rw 1 6]]); (1, [res [rw 3 8; rw 2 7]])] in
  r = Running /\ match o_in o with [PWork _ i; PRows _ a; PWork _ j; PRows _ b] => i = numbers 2 /\ j = [Sc (SI 3); Sc (SI 2)] /\
     map (get F) (a_rows a ++ a_rows b) = map (fun z => Some (Sc (SF z))) [5; 6; 8; 7]%Z | _ => False end.
Proof. vm_compute. repeat constructor. Qed.
Example relay_partial : let '(o, out, r) := relay toy 2 want [] None (Some (res [rw 0 5])) [(1, [])] in r = Running /\ o_in o = [].
Proof. vm_compute. auto. Qed.
Example relay_results_shape : results want rdt (map Ingest ([] ++ [mkArr rdt [rw 0 5]; mkArr rdt [rw 1 6]; mkArr rdt [rw 3 8; rw 2 7]])).
Proof.
  split; apply given_results.
Qed.

(** 3. With a function that puts out one message at the start and one per batch, and a
    manager that answers each message before it sends more and lets the sample end
    with a batch, the relay neither raises nor gets stuck. *)
Theorem C66_in_step_never_fails : forall gen N wanted mp dt m turns bs,
  answering gen N -> one_each gen -> 0 < N -> In SIM_ID (names dt) ->
  (forall l a p, In (MPoints a) (gen true l) -> a_dt p = a_dt a -> incl (a_rows p) (a_rows a) -> exists s, unmap_np p mp = Ok s) ->
  in_step turns -> Forall2 (arrives mp) (mails (Some m) turns) bs -> results wanted dt (map Ingest bs) -> fits N bs ->
  exists o out, relay gen N wanted mp None (Some m) turns = (o, out, Running).
Proof.
  intros gen N wanted mp dt m turns bs AG OE NP HI UN IS F [[R1 R2] R3 R4 R5] FT.
  destruct (lock_relay gen N wanted dt mp AG OE NP R4 R3 R1 R2 HI UN m turns bs IS F) as (o&out&E&_); eauto.
  intros b Hb. apply R5. now rewrite batches_map.
Qed.
Print Assumptions C66_in_step_never_fails.
Lemma toy_one_each : one_each toy.
Proof. intros l H. destruct (outs_answers l 0 H) as [_ B]. unfold toy. cbn [app length]. lia. Qed.
Example in_step_toy : exists o out, relay toy 2 want [] None (Some (res [rw 0 5])) [(0, []); (1, [res [rw 1 6]]); (4, [res [rw 3 8; rw 2 7]]); (1, [])] = (o, out, Running).
Proof.
  apply C66_in_step_never_fails with (dt := rdt) (bs := [mkArr rdt [rw 0 5]; mkArr rdt [rw 1 6]; mkArr rdt [rw 3 8; rw 2 7]]).
  - apply toy_answering.
  - apply toy_one_each.
  - auto.
  - now left.
  - intros l a p _ _ _. now exists p.
  - intros k ms. cbn. intros [E|[E|[E|[E|[]]]]]; injection E as <- <-; cbn; split; auto; lia || congruence.
  - repeat constructor; eexists; split; reflexivity.
  - exact relay_results_shape.
  - intros [|[|[|[|i]]]]; cbn; lia.
Qed.

(** 4. A stop signal ends the run: the function gets the stop, and what it returns is
    returned. finalize then sends it a second stop. *)
Theorem C66_stop_ends_the_run : forall gen N wanted mp H0 m turns o out,
  steady gen -> obedient gen -> relay gen N wanted mp H0 (Some m) turns = (o, out, Running) ->
  exists o' v, relay gen N wanted mp H0 (Some m) (turns ++ [(0, [Signal])]) = (o', out, Returned v) /\
    o_in o' = o_in o ++ [PNone true; PNone true] /\ export o' = Some v /\ ended_with (outbox gen o') (MResult v).
Proof.
  intros gen N wanted mp H0 m turns o out ST OB H. destruct (relay_running gen N wanted mp ST _ _ _ _ _ H) as (RL&(p&r&EO)&AP).
  assert (TK : 0 < o_taken o).
  { assert (Q := rl_points _ _ _ _ RL). apply Forall2_len in Q. rewrite EO in Q. cbn in Q. rewrite firstn_length in Q. lia. }
  assert (RN : exists b, o_running o = Some b).
  { assert (Q := rl_taken _ _ _ _ RL). unfold outbox in Q. destruct (o_running o); [eauto|cbn in Q; lia]. }
  destruct RN as [b RN]. assert (MD : o_made o = true) by (destruct (o_made o) eqn:M; auto; apply (rl_sane _ _ _ _ RL) in M; congruence).
  destruct (stop_obedient gen N wanted mp ST o out b OB RL MD RN) as (o'&v&E&IN&EW).
  assert (EE : relay gen N wanted mp H0 (Some m) (turns ++ [(0, [Signal])]) = (o', out, Returned v)) by (rewrite AP; cbn [loop forward]; now rewrite E).
  exists o', v. split; auto. split; auto. destruct (relay_returned gen N wanted mp ST _ _ _ _ _ _ EE). auto.
Qed.
Print Assumptions C66_stop_ends_the_run.
Example stop_toy : let '(o, out, r) := relay toy 2 want [] None (Some (res [rw 0 5])) [(0, []); (1, [res [rw 1 6]]); (0, [Signal])] in
  r = Returned 7 /\ export o = Some 7 /\ length (o_in o) = 4.
Proof. vm_compute. auto. Qed.

(** 5. Whatever came before, a value that is returned is the one the function
    returned, after points only. *)
Theorem C66_result_is_the_functions : forall gen N wanted mp H0 first turns o out v,
  steady gen -> relay gen N wanted mp H0 first turns = (o, out, Returned v) -> export o = Some v /\ ended_with (outbox gen o) (MResult v).
Proof.
  intros gen N wanted mp H0 first turns o out v ST H. destruct (relay_returned gen N wanted mp ST _ _ _ _ _ _ H). auto.
Qed.
Print Assumptions C66_result_is_the_functions.

(** 6. Findings. Two batches that come before the worker has looked at the outbox
    again: the function's two answers are asked for with two calls of suggest() in a
    row, which ends the function and raises. *)
Theorem C66_two_batches_at_once_refuted : exists turns bs,
  Forall2 (arrives []) (mails (Some (res [rw 0 5; rw 1 6])) turns) bs /\ results want rdt (map Ingest bs) /\ fits 2 bs /\
  answering toy 2 /\ one_each toy /\
  exists o out, relay toy 2 want [] None (Some (res [rw 0 5; rw 1 6])) turns = (o, out, Raised ERuntime) /\ In (PNone true) (o_in o).
Proof.
  exists [(1, [res [rw 2 7]; res [rw 3 8]]); (2, [])], [mkArr rdt [rw 0 5; rw 1 6]; mkArr rdt [rw 2 7]; mkArr rdt [rw 3 8]].
  split; [repeat constructor; eexists; split; reflexivity|]. split.
  { split; try apply given_results. intros a [<- | [<- | [<- | []]]]; (split; [|reflexivity]); apply rw_ok; cbn; intros row; intuition (subst; eauto). }
  split; [intros [|[|[|i]]]; cbn; lia|]. split; [apply toy_answering|]. split; [apply toy_one_each|].
  eexists _, _. split; [vm_compute; reflexivity|]. vm_compute. intuition.
Qed.
Print Assumptions C66_two_batches_at_once_refuted.

(** A stop that comes with the answer to the first points is not noticed. *)
Theorem C66_early_stop_unnoticed_refuted :
  (forall gen N wanted mp H0 a turns, relay gen N wanted mp H0 (Some (Rows true a)) turns = relay gen N wanted mp H0 (Some (Rows false a)) turns) /\
  forall ks, exists o out, relay toy 2 want [] None (Some (Rows true (mkArr rdt [rw 0 5; rw 1 6]))) (map (fun k => (k, [])) ks) = (o, out, Running).
Proof.
  assert (A : forall gen N wanted mp H0 a turns, relay gen N wanted mp H0 (Some (Rows true a)) turns = relay gen N wanted mp H0 (Some (Rows false a)) turns) by reflexivity.
  split; [exact A|]. intros ks. rewrite A.
  apply C66_in_step_never_fails with (dt := rdt) (bs := [mkArr rdt [rw 0 5; rw 1 6]]).
  - apply toy_answering.
  - apply toy_one_each.
  - auto.
  - now left.
  - intros l a p _ _ _. now exists p.
  - intros k ms Hk. apply in_map_iff in Hk as (x&E&_). injection E as <- <-. cbn. split; [auto|congruence].
  - cbn [mails]. assert (E : flat_map snd (map (fun k : nat => (k, @nil mail)) ks) = []) by (induction ks; auto). rewrite E.
    repeat constructor. eexists. split; reflexivity.
  - split; try apply given_results. intros a [<- | []]; (split; [|reflexivity]); apply rw_ok; cbn; intros row; intuition (subst; eauto).
  - intros [|[|i]]; cbn; lia.
Qed.
Print Assumptions C66_early_stop_unnoticed_refuted.

(** A stop signal instead of the first results raises AttributeError. *)
Theorem C66_stop_before_results_refuted : forall gen N wanted mp turns o out,
  steady gen -> relay gen N wanted mp None None [] = (o, out, Running) ->
  exists o', relay gen N wanted mp None (Some Signal) turns = (o', out, Raised EAttr) /\ o_in o' = [].
Proof.
  intros gen N wanted mp turns o out ST H. unfold relay, begin in *. destruct (suggest gen wanted 0 new_obj) as [o1 [a|e|]] eqn:ES; try discriminate.
  destruct (unmap_np a mp); [|discriminate]. injection H as <- <-.
  destruct (suggest0 gen wanted ST new_obj o1 a ltac:(intros _; reflexivity) eq_refl ES) as [l FE].
  unfold first_results. cbn [rows_in map_in]. unfold ingest. destruct (first_same MIngest o1) as (F1&F2&_&_&_&F6&_).
  rewrite F1, F6, (fe_told _ _ _ _ _ FE), (fe_n _ _ _ _ _ FE). cbn. eexists. split; [reflexivity|]. now rewrite F2, (fe_in _ _ _ _ _ FE).
Qed.
Print Assumptions C66_stop_before_results_refuted.
Example stop_first_toy : let '(o, out, r) := relay toy 2 want [] None (Some Signal) [(1, [])] in r = Raised EAttr.
Proof. vm_compute. auto. Qed.

(** The last results, sent together with the stop (final_gen_send), while the sample
    is incomplete: they are kept back and the stop with them. The worker waits for a
    function that was never told to stop. *)
Theorem C66_stop_lost_in_the_sample_refuted : exists o out,
  steady toy /\ obedient toy /\
  relay toy 2 want [] None (Some (res [rw 0 5])) [] = (o, out, Running) /\
  exists o', relay toy 2 want [] None (Some (res [rw 0 5])) [(1, [Rows true (mkArr rdt [])])] = (o', out, Waits) /\ o_in o' = [].
Proof.
  eexists _, _. split; [apply toy_steady|]. split; [apply toy_obedient|]. split; [vm_compute; reflexivity|].
  eexists. split; [vm_compute; reflexivity|reflexivity].
Qed.
Print Assumptions C66_stop_lost_in_the_sample_refuted.

(** The last results, sent together with the stop after the sample, are put in the
    function's inbox, but its next call of recv gives it the stop and no rows, and so
    does every later one. *)
Fixpoint outs2 (k : nat) (l : list pin) : list pout :=
  match l with
  | [] => []
  | PRows false _ :: l' => MPoints (batch k) :: outs2 (S k) l'
  | PRows true _ :: _ | PNone true :: _ => [MResult 7]
  | _ :: l' => outs2 k l'
  end.
Definition toy2 : gfun := fun b l => (if b then [MPoints (mkArr pdt [pt 0 0; pt 1 0])] else []) ++ outs2 0 l.
Theorem C66_last_results_unread_refuted :
  (exists o out ids a rest, relay toy2 2 want [] None (Some (res [rw 0 5; rw 1 6])) [(1, [Rows true (mkArr rdt [rw 2 7])])] = (o, out, Returned 7) /\
     skipn 2 (o_in o) = PWork true ids :: PRows true a :: rest /\ map (get F) (a_rows a) = [Some (Sc (SF 7))]) /\
  forall s ids a rest, exists left, ps_recv (PWork s ids :: PRows true a :: rest) = Some (true, None, left) /\
    forall more, ps_recv (left ++ more) = Some (true, None, left ++ more).
Proof.
  split.
  - eexists _, _, _, _, _. split; [vm_compute; reflexivity|]. split; [vm_compute; reflexivity|]. vm_compute. reflexivity.
  - intros s ids a rest. eexists. split; [reflexivity|]. reflexivity.
Qed.
Print Assumptions C66_last_results_unread_refuted.

(** A function that ends by itself: the worker raises instead of returning its result. *)
Definition quitter : gfun := fun b l => [MPoints (mkArr pdt [pt 0 0; pt 1 0])] ++ match l with [] => [] | _ => [MResult 9] end.
Theorem C66_own_end_refuted : steady quitter /\
  exists o out, relay quitter 2 want [] None (Some (res [rw 0 5; rw 1 6])) [(1, [])] = (o, out, Raised EFinished) /\ ended_with (outbox quitter o) (MResult 9).
Proof.
  split; [intros b l m; unfold quitter; destruct l as [|x l]; [destruct m; eexists; [|reflexivity]; now rewrite app_nil_r|exists []; now rewrite app_nil_r]|].
  eexists _, _. split; [vm_compute; reflexivity|]. exists [MPoints (mkArr pdt [pt 0 0; pt 1 0])], []. split; [vm_compute; reflexivity|]. split; [repeat constructor|intros []].
Qed.
Print Assumptions C66_own_end_refuted.

(** The function's result reaches the manager inside a pair, so its rows are not used,
    whatever libE_specs["use_persis_return_gen"] says. *)
Theorem C66_result_rows_unused_refuted : forall gen N wanted mp H0 first turns o out v use,
  relay gen N wanted mp H0 first turns = (o, out, Returned v) -> final_rows use (returned v) = None.
Proof. reflexivity. Qed.
Print Assumptions C66_result_rows_unused_refuted.

(** Started with fewer rows than the sample, the worker waits for ever. *)
Theorem C66_few_rows_at_the_start_refuted : answering toy 2 /\ forall first turns,
  exists o, relay toy 2 want [] (Some (mkArr rdt [rw 0 5])) first turns = (o, [], Waits).
Proof. split; [apply toy_answering|]. intros first turns. eexists. vm_compute. reflexivity. Qed.
Print Assumptions C66_few_rows_at_the_start_refuted.
