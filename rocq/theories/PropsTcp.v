(** C77: over TCP every worker has its own channel. *)
From Coq Require Import String Permutation.
From Verif Require Import Base BaseLemmas TextModel TextProofs TcpModel TcpProofs.
Local Open Scope nat_scope.
Local Notation length := List.length.

(** no two worker processes that signed up have the same workerID *)
Definition own_ids {A} (ids : nat -> nat) (s : tcp A) : Prop :=
  forall p q, In p (connected (t_log s)) -> In q (connected (t_log s)) -> ids p = ids q -> p = q.
(** [l] begins with [k] *)
Definition prefix {A} (k l : list A) : Prop := exists r, l = k ++ r.

Lemma connected_conn {A} ids n (acts : list (act A)) : forall s s', connected (t_log s) = t_conn s -> play ids n acts s = Some s' -> connected (t_log s') = t_conn s'.
Proof.
  induction acts as [|a acts IH]; intros s s' H E; cbn in E; [now injection E as <-|]. destruct (step ids n a s) as [s1|] eqn:E1; [|discriminate].
  apply (IH s1 s'); auto. destruct a as [q| |i x|i|q x|q]; cbn [step] in E1; repeat (let F := fresh in match type of E1 with context [match ?z with _ => _ end] => destruct z eqn:F; try discriminate end);
    injection E1 as <-; cbn [t_conn t_log]; logs; congruence.
Qed.
Lemma reached {A} ids n (acts : list (act A)) s : play ids n acts start = Some s -> own_ids ids s -> connected (t_log s) = t_conn s /\ inv ids n (fun p => In p (t_conn s)) s.
Proof.
  intros E H. pose proof (connected_conn ids n acts start s eq_refl E) as EC. split; auto. unfold own_ids in H. rewrite EC in H.
  refine (play_inv ids n (fun p => In p (t_conn s)) H acts start s (inv_start _ _ _ H) _ E). intros p Hp. exact (proj2 (play_conn ids n acts start s E p) (or_intror Hp)).
Qed.

(** Whatever the order in which the workers sign up, send and receive: the manager's
    communicators belong to different worker processes, in the order of sign-up.
    What a worker has received is the beginning of what the manager sent on its
    communicator, in order, and what the manager has received there is the
    beginning of what this worker sent, including what it sent before it had joined. *)
Theorem C77_own_channel : forall A ids n (acts : list (act A)) s, play ids n acts start = Some s -> own_ids ids s ->
  joined (t_log s) = firstn (length (joined (t_log s))) (map ids (connected (t_log s))) /\ NoDup (joined (t_log s)) /\ length (joined (t_log s)) <= n /\
  forall i w, nth_error (joined (t_log s)) i = Some w ->
  exists p, nth_error (connected (t_log s)) i = Some p /\ ids p = w /\
    prefix (w_got p (t_log s)) (m_sent i (t_log s)) /\ prefix (m_got i (t_log s)) (w_sent p (t_log s)).
Proof.
  intros A ids n acts s E H. destruct (reached ids n acts s E H) as [EC ((_ & T2 & TD & k & K1 & K2 & K3 & K4 & K5 & K6) & C1 & C2 & C3 & C4)]. rewrite EC.
  assert (L : length (joined (t_log s)) = k) by (rewrite K3, map_length, firstn_length; lia). rewrite L. split; [now rewrite firstn_map|]. split.
  { rewrite K3. assert (ND : NoDup (map ids (t_conn s))).
    { unfold own_ids in H. rewrite EC in H. clear - T2 H. induction (t_conn s) as [|x l IH]; cbn; [constructor|]. inversion_clear T2 as [|? ? N1 N2]. constructor.
      - intros Hx. apply in_map_iff in Hx as (y & Ey & Hy). apply N1. rewrite <- (H y x (or_intror Hy) (or_introl eq_refl) Ey). exact Hy.
      - apply IH; auto. intros p q Hp Hq. apply H; now right. }
    rewrite <- firstn_map. clear - ND. revert k. induction (map ids (t_conn s)) as [|x l IH]; intros [|k]; cbn; try constructor.
    - inversion_clear ND as [|? ? N1 N2]. intros Hx. apply N1. rewrite <- (firstn_skipn k l). apply in_app_iff. auto.
    - inversion_clear ND. auto. }
  split; [lia|]. intros i w Hw. rewrite K3, nth_error_map in Hw. destruct (nth_error (firstn k (t_conn s)) i) as [p|] eqn:Ep; [|discriminate]. injection Hw as <-.
  assert (Hp : nth_error (t_conn s) i = Some p).
  { rewrite <- (firstn_skipn k (t_conn s)). rewrite nth_error_app1; auto. apply nth_error_Some. congruence. }
  exists p. split; auto. split; auto. destruct (C1 i p Hp) as [(u & _ & U) (v & _ & V)]. split; [exists u|exists v]; auto.
Qed.
Print Assumptions C77_own_channel.

(** Nothing is lost: as long as a worker has not received all that was sent to it,
    it can receive, and gets the next message; likewise the manager. *)
Theorem C77_next_message : forall A ids n (acts : list (act A)) s i p, play ids n acts start = Some s -> own_ids ids s ->
  nth_error (joined (t_log s)) i = Some (ids p) -> In p (connected (t_log s)) ->
  (forall x, nth_error (m_sent i (t_log s)) (length (w_got p (t_log s))) = Some x ->
     exists s', step ids n (WRecv p) s = Some s' /\ w_got p (t_log s') = w_got p (t_log s) ++ [x]) /\
  (length (joined (t_log s)) = n -> forall x, nth_error (w_sent p (t_log s)) (length (m_got i (t_log s))) = Some x ->
     exists s', step ids n (MRecv i) s = Some s' /\ m_got i (t_log s') = m_got i (t_log s) ++ [x]).
Proof.
  intros A ids n acts s i p E H Hi Hp. destruct (C77_own_channel A ids n acts s E H) as (_ & _ & _ & P). destruct (P i (ids p) Hi) as (p' & Hp' & Eid & _).
  assert (p' = p) as -> by (apply H; auto; eapply nth_error_In; eauto).
  destruct (reached ids n acts s E H) as [EC [HT (C1 & C2 & C3 & C4)]]. rewrite EC in *. destruct (C1 i p Hp') as [(u & U1 & U2) (v & V1 & V2)].
  assert (Hm : memb p (t_conn s) = true) by (now apply memb_In).
  split.
  - intros x Hx. rewrite U2, nth_error_app2, Nat.sub_diag in Hx by auto. destruct u as [|y u]; [discriminate|]. injection Hx as ->. cbn [step]. rewrite Hm. unfold take. rewrite U1. cbn [map].
    eexists. split; [reflexivity|]. cbn [t_log]. logs. now rewrite Nat.eqb_refl.
  - intros Hn x Hx. rewrite V2, nth_error_app2, Nat.sub_diag in Hx by auto. destruct v as [|y v]; [discriminate|]. injection Hx as ->.
    destruct HT as (T1 & T2 & TD & k & K1 & K2 & K3 & K4 & K5 & K6). cbn [step]. assert (Ec : nth_error (t_comms s) i = Some (outbox (ids p), inbox (ids p))) by (rewrite K5, nth_error_map, Hi; reflexivity).
    rewrite Ec. assert (Ln : length (t_comms s) = n) by (rewrite K5, map_length; exact Hn). rewrite Ln, Nat.eqb_refl. unfold take. rewrite V1. cbn [map].
    eexists. split; [reflexivity|]. cbn [t_log]. logs. now rewrite Nat.eqb_refl.
Qed.
Print Assumptions C77_next_message.

(** The manager does not wait in vain for its team: as long as fewer than n workers
    have joined and another one has signed up, it takes the sign-up. Once the n
    workers have signed up and joined, each of them has a communicator. *)
Theorem C77_team_complete : forall A ids n (acts : list (act A)) s, play ids n acts start = Some s -> own_ids ids s ->
  (length (joined (t_log s)) < n -> forall p, nth_error (connected (t_log s)) (length (joined (t_log s))) = Some p ->
     exists s', step ids n Await s = Some s' /\ joined (t_log s') = joined (t_log s) ++ [ids p]) /\
  (length (joined (t_log s)) = n -> length (connected (t_log s)) = n -> joined (t_log s) = map ids (connected (t_log s))).
Proof.
  intros A ids n acts s E H. destruct (reached ids n acts s E H) as [EC [(T1 & T2 & TD & k & K1 & K2 & K3 & K4 & K5 & K6) _]]. rewrite EC.
  assert (L : length (joined (t_log s)) = k) by (rewrite K3, map_length, firstn_length; lia). rewrite L. split.
  - intros Hk p Hp. cbn [step]. rewrite K5, map_length, L. destruct (Nat.ltb_spec k n); [|lia]. unfold take. rewrite K4.
    assert (Es : exists r, skipn k (t_conn s) = p :: r).
    { clear - Hp. revert k Hp. induction (t_conn s) as [|x l IH]; intros [|k] Hp; cbn in *; try discriminate; [injection Hp as ->; eauto|auto]. }
    destruct Es as (r & ->). cbn [map]. eexists. split; [reflexivity|]. cbn [t_log]. logs. reflexivity.
  - intros Hn Hc. rewrite K3. rewrite firstn_all2 by lia. reflexivity.
Qed.
Print Assumptions C77_team_complete.

(** ** Cases *)
Definition two_ids (p : nat) : nat := p.
(** Worker 2 signs up first and sends a record before the manager has taken its
    sign-up; the orders go to different workers and the answers come back. *)
Definition late_first : list (act nat) :=
  [Connect 2; WSend 2 50; Await; Connect 1; Await; MSend 0 7; MSend 1 8; MSend 0 9; WRecv 2; WRecv 1; WSend 1 81; MRecv 0; MRecv 1; WSend 2 71; MRecv 0].
Example C77_case : exists s, play two_ids 2 late_first start = Some s /\ own_ids two_ids s /\
  joined (t_log s) = [2; 1] /\ m_sent 0 (t_log s) = [7; 9] /\ w_got 2 (t_log s) = [7] /\ w_got 1 (t_log s) = [8] /\ m_got 0 (t_log s) = [50; 71] /\ m_got 1 (t_log s) = [81].
Proof. eexists. split; [vm_compute; reflexivity|]. split; [intros p q _ _ H; exact H|]. vm_compute. auto 10. Qed.

(** ** What does not hold *)
(** The numbers that the manager uses for its workers (in H["sim_worker"], H["gen_worker"]
    and persis_info) are the places in the order of sign-up, counted from 1. They
    need not be the workerIDs that the manager itself gave to the processes and
    that user functions and directory names show. *)
Theorem C77_worker_numbers_refuted : exists (acts : list (act nat)) s, play two_ids 2 acts start = Some s /\ own_ids two_ids s /\
  connected (t_log s) = [2; 1] /\ length (joined (t_log s)) = 2 /\ ~ (forall i w, nth_error (joined (t_log s)) i = Some w -> w = i + 1).
Proof.
  exists late_first. eexists. split; [vm_compute; reflexivity|]. split; [intros p q _ _ H; exact H|]. split; [reflexivity|]. split; [reflexivity|].
  intros H. specialize (H 0 2 eq_refl). discriminate.
Qed.
Print Assumptions C77_worker_numbers_refuted.

(** Two workers started by hand with the same workerID share both queues: the
    second one gets the order meant for the first. *)
Theorem C77_same_id_refuted : exists (ids : nat -> nat) (acts : list (act nat)) s, play ids 2 acts start = Some s /\ connected (t_log s) = [1; 2] /\
  m_sent 0 (t_log s) = [7] /\ m_sent 1 (t_log s) = [8] /\ w_got 2 (t_log s) = [7] /\ ~ prefix (w_got 2 (t_log s)) (m_sent 1 (t_log s)).
Proof.
  exists (fun _ => 1), [Connect 1; Connect 2; Await; Await; MSend 0 7; MSend 1 8; WRecv 2]. eexists. split; [vm_compute; reflexivity|].
  split; [reflexivity|]. split; [reflexivity|]. split; [reflexivity|]. split; [reflexivity|]. vm_compute. intros [r Hr]. discriminate.
Qed.
Print Assumptions C77_same_id_refuted.

(** A worker beyond the number asked for never joins: it waits for good. *)
Theorem C77_extra_worker : forall A ids n (acts : list (act A)) s p i, play ids n acts start = Some s -> own_ids ids s ->
  nth_error (connected (t_log s)) i = Some p -> n <= i -> w_got p (t_log s) = [] /\ step ids n (WRecv p) s = None.
Proof.
  intros A ids n acts s p i E H Hp Hi. destruct (reached ids n acts s E H) as [EC [(T1 & T2 & TD & k & K1 & K2 & K3 & K4 & K5 & K6) (C1 & C2 & C3 & C4)]]. rewrite EC in Hp.
  assert (M : m_sent i (t_log s) = []).
  { clear - E Hi. assert (G : forall (acts : list (act A)) (s s' : tcp A), m_sent i (t_log s) = [] -> play ids n acts s = Some s' -> m_sent i (t_log s') = []).
    { clear - Hi. induction acts as [|a acts IH]; intros s s' H E; cbn in E; [now injection E as <-|]. destruct (step ids n a s) as [s1|] eqn:E1; [|discriminate]. apply (IH s1 s'); auto.
      destruct a as [q| |j x|j|q x|q]; cbn [step] in E1.
      3: { destruct (nth_error (t_comms s) j) as [[a b]|] eqn:En; [|discriminate]. destruct (Nat.eqb_spec (length (t_comms s)) n) as [Hn|]; [|discriminate]. injection E1 as <-. cbn [t_log]. logs.
           destruct (Nat.eqb_spec j i) as [->|]; [|now rewrite H, ?app_nil_r]. assert (i < length (t_comms s)) by (apply nth_error_Some; congruence). lia. }
      all: repeat (let F := fresh in match type of E1 with context [match ?z with _ => _ end] => destruct z eqn:F; try discriminate end); injection E1 as <-; cbn [t_log]; logs; auto. }
    apply (G acts start s eq_refl E). }
  destruct (C1 i p Hp) as [(u & U1 & U2) _]. rewrite M in U2. symmetry in U2. apply app_eq_nil in U2 as [U2 ->]. split; auto.
  cbn [step]. destruct (memb p (t_conn s)); auto. unfold take. now rewrite U1.
Qed.
Print Assumptions C77_extra_worker.
Example C77_extra_case : exists s, play two_ids 1 [Connect 1; Connect 2; Await; MSend 0 7] (@start nat) = Some s /\ own_ids two_ids s /\
  nth_error (connected (t_log s)) 1 = Some 2.
Proof. eexists. split; [vm_compute; reflexivity|]. split; [intros p q _ _ H; exact H|reflexivity]. Qed.
