(** Property theorems about queues, workers and the whole ensemble: C09,
    C25, C26, C27, C28. User functions are arbitrary state machines
    ([ustart], [ustep] over any state type [U]). *)
From Coq Require Import String.
From Verif Require Import Base HistoryModel HistorySpec HistoryExamples RsetModel WorkModel ManagerModel ManagerSpec ManagerExamples CommsModel WorkerModel WorkerSpec WorkerProofs WorkerFrames
  SystemModel SystemSpec SystemProofs SystemExamples.
Local Notation length := List.length.
Local Open Scope string_scope.
Local Open Scope list_scope.
Local Open Scope nat_scope.

(** ** C25: queues *)

(** The local communicator is a first-in first-out queue as long as a message
    is not pushed back while an earlier one is still pushed back. *)
Theorem C25_local_queue_order :
  forall (A B : Type) (q q' : comm A B) t, comm_hist Local q t q' ->
  single_back (match q_buf q with Some _ => true | None => false end) t -> fifo (waiting q) t (waiting q').
Proof. intros A B q q' t H Hs. eapply comm_fifo; eauto. Qed.
Print Assumptions C25_local_queue_order.

(** The MPI communicator is one without that condition. *)
Theorem C25_mpi_queue_order :
  forall (A B : Type) (q q' : comm A B) t, comm_hist Mpi q t q' -> fifo (waiting q) t (waiting q').
Proof. intros A B q q' t H. eapply comm_fifo; eauto. Qed.
Print Assumptions C25_mpi_queue_order.

(** In such a history without push-backs, what was received, followed by what
    still waits, is what was waiting, followed by what arrived. *)
Theorem C25_exactly_once_in_order :
  forall (A B : Type) kd (q q' : comm A B) t, comm_hist kd q t q' -> no_back t ->
  receipts t ++ waiting q' = waiting q ++ arrivals t.
Proof.
  intros A B kd q q' t H Hn. apply fifo_exact; auto. eapply comm_fifo; eauto. right. clear H.
  revert Hn. generalize (match q_buf q with Some _ => true | None => false end).
  induction t as [|[x|x|x] t IH]; intros b Hn; cbn; auto.
  - apply IH. intros y Hy. apply (Hn y). now right.
  - apply IH. intros y Hy. apply (Hn y). now right.
  - exfalso. apply (Hn x). now left.
Qed.
Print Assumptions C25_exactly_once_in_order.

(** A pushed-back message is the next one received. *)
Theorem C25_pushed_back_is_next :
  forall (A B : Type) kd (q q1 : comm A B) x, comm_push kd x q = (q1, None) ->
  exists q2, comm_recv q1 = Some (x, q2) /\ q_in q2 = q_in q.
Proof.
  intros A B kd q q1 x H. unfold comm_push in H.
  assert (E : q1 = mkComm (q_in q) (Some x) (q_out q)) by (destruct kd, (q_buf q); congruence). subst q1.
  eexists. split; reflexivity.
Qed.
Print Assumptions C25_pushed_back_is_next.

(** The creator's end of a thread receives the thread's messages, in order, and
    from then on is told that it has finished; result() ends and re-raises
    exactly if the thread raised. *)
Theorem C25_thread_messages :
  forall (A : Type) (msgs : list A) raised j,
  reads (length msgs + j) (mkLoc (thread_output msgs raised) false false) = map GMsg msgs ++ repeat GFinished j /\
  local_result (thread_output msgs raised) false false = Some raised.
Proof. intros. split; [apply local_messages|apply local_result_thread]. Qed.
Print Assumptions C25_thread_messages.

Example C25_history : comm_hist Local (mkComm (B := nat) [] None []) [TArrive 1; TArrive 2; TReceive 1; TBack 1; TArrive 3; TReceive 1; TReceive 2]
                        (mkComm [3] None []).
Proof.
  apply ch_arrive, ch_arrive. eapply ch_receive; [reflexivity|]. eapply ch_back; [reflexivity|]. apply ch_arrive.
  eapply ch_receive; [reflexivity|]. eapply ch_receive; [reflexivity|]. apply ch_nil.
Qed.

(** Without the condition the local communicator loses the message that was
    pushed back first. *)
Theorem C25_second_push_back_loses_first_refuted :
  exists t (q' : comm nat nat), comm_hist Local new_comm t q' /\ In 1 (arrivals t) /\ ~ fifo [] t (waiting q') /\
    waiting q' = [2] /\ t = [TArrive 1; TArrive 2; TReceive 1; TReceive 2; TBack 1; TBack 2].
Proof.
  eexists [TArrive 1; TArrive 2; TReceive 1; TReceive 2; TBack 1; TBack 2], (mkComm [] (Some 2) []).
  split; [|split; [cbn; auto|split; [|split; reflexivity]]].
  - apply ch_arrive, ch_arrive. eapply ch_receive; [reflexivity|]. eapply ch_receive; [reflexivity|].
    eapply ch_back; [reflexivity|]. eapply ch_back; [reflexivity|]. apply ch_nil.
  - intros H. repeat (inversion H as [| ? ? ? ? H1|? ? ? ? H1|? ? ? ? H1]; subst; clear H; rename H1 into H; cbn in H).
Qed.
Print Assumptions C25_second_push_back_loses_first_refuted.

(** The local communicator's mail check says "no message" although one is
    waiting; the MPI communicator's does not. *)
Theorem C25_mail_check_refuted :
  exists (q : comm nat nat), comm_mail Local q = false /\ waiting q <> [] /\
  forall q : comm nat nat, comm_mail Mpi q = true <-> waiting q <> [].
Proof.
  exists (mkComm [] (Some 1) []). split; [reflexivity|]. split; [discriminate|].
  intros q. unfold comm_mail, waiting. destruct (q_buf q); [split; [discriminate|reflexivity]|]. destruct (q_in q); split; congruence.
Qed.
Print Assumptions C25_mail_check_refuted.

(** ** C26, C27: orders and row data *)

(** A worker whose functions do not receive messages themselves: for any
    orders and signals sent to it, whatever it has done so far, its functions
    have been called with the first orders sent, each with its own row data. *)
Theorem C26_orders_paired_with_data :
  forall U ustart (ustep : U -> uact U) kd items s, silent ustep -> Forall sendable items ->
  wsteps ustart ustep kd (worker_with U (flat_map wire items)) s ->
  exists rest, orders_in items = orders_reached (s_log s) ++ rest.
Proof.
  intros U ustart ustep kd items s Hs Hi H.
  assert (Hn : no_poll ustep) by (intros u; specialize (Hs u); destruct (ustep u); auto).
  destruct (framed_run U ustart ustep kd items s Hn (or_introl Hs) Hi H) as (dn & rest & -> & E & _).
  exists (orders_in rest). now rewrite orders_app, E.
Qed.
Print Assumptions C26_orders_paired_with_data.

(** When such a worker waits for its next order and nothing is in transit,
    every order sent has been handed to a function. *)
Theorem C26_every_order_reaches_a_function :
  forall U ustart (ustep : U -> uact U) kd items s, silent ustep -> Forall sendable items ->
  wsteps ustart ustep kd (worker_with U (flat_map wire items)) s ->
  s_place s = AtTop -> waiting (s_comm s) = [] -> orders_reached (s_log s) = orders_in items.
Proof.
  intros U ustart ustep kd items s Hs Hi H Ht Hw.
  assert (Hn : no_poll ustep) by (intros u; specialize (Hs u); destruct (ustep u); auto).
  destruct (framed_run U ustart ustep kd items s Hn (or_introl Hs) Hi H) as (dn & rest & -> & E & _ & E2).
  rewrite Ht in E2. destruct E2 as (E2 & _). rewrite Hw in E2. rewrite E, orders_app.
  assert (rest = []); [|subst; cbn; now rewrite app_nil_r].
  destruct rest as [|[k fs d|x|x] rest]; [reflexivity| | |]; cbn in E2; try discriminate. destruct (k_rows k); discriminate.
Qed.
Print Assumptions C26_every_order_reaches_a_function.

(** In the ensemble: the messages sent to each worker are orders and signals as
    above, and the orders that have not reached its function yet are at most
    the last one. *)
Theorem C26_in_the_ensemble :
  forall U ustart (ustep : U -> uact U) kd c h n zeros gens rm pin y r, plain ustep -> honest_status ustep ->
  yreach U ustart ustep kd c one_shot (init_manager c h n zeros gens rm pin) y -> In r (m_W (y_m y)) ->
  exists items last, sent_to (w_id r) (m_log (y_m y)) = flat_map wire items /\
    orders_in items = orders_reached (s_log (y_w y (w_id r))) ++ last /\ not_started (y_w y (w_id r)) last.
Proof.
  intros U ustart ustep kd c h n zeros gens rm pin y r Hp Hs Hy Hr.
  destruct (J_reach U ustart ustep kd c Hp Hs one_shot h n zeros gens rm pin y (fun _ _ H => H) Hy) as (_ & _ & _ & HJ).
  destruct (HJ r Hr) as (_ & _ & o & p & items & L1 & L2 & L3 & L4 & L5).
  exists items, p. split; [exact L4|]. split; [exact L5|]. now apply link_standing in L1.
Qed.
Print Assumptions C26_in_the_ensemble.

(** A worker running persistent functions: if every order lists rows, then
    whatever has been called, or received by a persistent function, are the
    first orders sent, each with its own row data; and a persistent function is
    never handed anything but an order with its rows, a signal, or nothing. *)
Theorem C27_persistent_receive_paired :
  forall U ustart (ustep : U -> uact U) kd items s, no_poll ustep ->
  (forall k fs d, In (XOrder k fs d) items -> k_rows k <> []) -> Forall sendable items ->
  wsteps ustart ustep kd (worker_with U (flat_map wire items)) s ->
  (exists rest, orders_in items = orders_reached (s_log s) ++ rest) /\
  forall g, In (VHand g) (s_log s) -> match g with RMixed _ _ | RFinal _ => False | _ => True end.
Proof.
  intros U ustart ustep kd items s Hn Hr Hi H.
  assert (Hw : Forall with_rows items) by (rewrite Forall_forall; intros [k fs d|x|x] Hx; cbn; eauto).
  destruct (framed_run U ustart ustep kd items s Hn (or_intror Hw) Hi H) as (dn & rest & -> & E & Hu & _). split.
  - exists (orders_in rest). now rewrite orders_app, E.
  - intros g Hg. exact (Hu _ Hg).
Qed.
Print Assumptions C27_persistent_receive_paired.

(** A signal that a persistent function has received is still the next message
    of the worker, and an order with its rows is not. *)
Theorem C27_signal_stays_next :
  forall U ustart (ustep : U -> uact U) kd b (s s' : wst U) k rows u c tag sig,
  s_place s = InCalc k rows u -> ustep u = ARecv true c -> wstep ustart ustep kd b s = Some s' ->
  last (s_log s') VEnd = VHand (RSignal tag sig) ->
  exists o rest, (o = OStop sig \/ o = OPStop sig) /\ waiting (s_comm s) = o :: rest /\ waiting (s_comm s') = o :: rest.
Proof.
  intros U ustart ustep kd b s s' k rows u c tag sig Ep Eu E Hl. unfold WorkerModel.wstep in E. rewrite Ep, Eu in E. cbn [negb andb] in E.
  destruct (comm_recv (s_comm s)) as [[o q]|] eqn:Er; [|discriminate]. injection E as <-.
  destruct (recv_waiting _ _ _ Er) as (Ew & Eb & Eo).
  destruct o as [k2|gs d2|x|x].
  - cbn in Hl. rewrite last_last in Hl. discriminate.
  - cbn in Hl. rewrite last_last in Hl. discriminate.
  - rewrite push_ok in * by exact Eb. cbn in Hl. rewrite last_last in Hl. injection Hl as <- <-.
    exists (OStop x), (waiting q). repeat split; auto. unfold waiting. cbn. now rewrite Eb.
  - rewrite push_ok in * by exact Eb. cbn in Hl. rewrite last_last in Hl. injection Hl as <- <-.
    exists (OPStop x), (waiting q). repeat split; auto. unfold waiting. cbn. now rewrite Eb.
Qed.
Print Assumptions C27_signal_stays_next.

(** A generator that sends points, receives, and stops on a signal. *)
Definition persis_user (k : work) (fs : list field) (d : list (list val)) : prog :=
  QSend (PArr (pts [10; 20; 30]%Z)) 0 false
    (QRecv true (QReturn (RTuple [PNone; PDict; PInt FIN_PERSIS_GEN]))
                (QRecv true (QReturn (RTuple [PNone; PDict; PInt FIN_PERSIS_GEN])) QRaise QRaise) QRaise).

Fixpoint steps (us : work -> list field -> list (list val) -> prog) (n : nat) (s : wst prog) : wst prog :=
  match n with
  | 0 => s
  | S n' => match wstep us pstep Local true s with Some s' => steps us n' s' | None => s end
  end.
Lemma steps_ok us n s0 s : wsteps us pstep Local s0 s -> wsteps us pstep Local s0 (steps us n s).
Proof.
  revert s. induction n as [|n IH]; intros s H; [exact H|]. cbn. destruct (wstep us pstep Local true s) eqn:E; [|exact H].
  apply IH. eapply ws_step; eauto.
Qed.

Local Ltac sendables := repeat (apply Forall_cons; [first [exact I | intros HS; first [reflexivity | discriminate HS]]|]); apply Forall_nil.

Local Ltac finds := vm_compute; repeat (first [left; reflexivity | right]).

Definition persis_parcels : list parcel :=
  [XOrder (to_persis [7]) [X] [[vint 7]]; XOrder (to_persis [0; 1]) [FF] [[vint 100]; [vint 101]]; XPStop SIG_KILL; XStop SIG_FINISH].
Example C27_run : map show_wev (s_log (steps persis_user 20 (worker_with prog (flat_map wire persis_parcels)))) =
  [("call", [2; 7]); ("send", [7]); ("take", [0; 1]); ("work", [0; 1]); ("signal", [4; 21]); ("drop", []); ("answer", [12; 0; 1]); ("end", [])].
Proof. vm_compute. reflexivity. Qed.

(** An order without rows breaks the pairing: the manager sends one message and
    the function takes two, so it is handed the next order where the rows
    should be. *)
Theorem C27_order_without_rows_refuted :
  exists items s k k2, Forall sendable items /\ wsteps persis_user pstep Local (worker_with prog (flat_map wire items)) s /\
    In (VHand (RMixed k k2)) (s_log s) /\ k_rows k = [] /\ k_rows k2 = [0].
Proof.
  exists [XOrder (to_persis [7]) [X] [[vint 7]]; XOrder (to_persis []) [] []; XOrder (to_persis [0]) [FF] [[vint 100]]].
  eexists (steps _ 20 _), (to_persis []), (to_persis [0]). split; [|split; [apply steps_ok, ws_refl|split]].
  - sendables.
  - finds.
  - split; reflexivity.
Qed.
Print Assumptions C27_order_without_rows_refuted.

(** If that order is the last one sent, the function waits for ever. *)
Theorem C27_order_without_rows_hangs_refuted :
  exists items s, Forall sendable items /\ wsteps persis_user pstep Local (worker_with prog (flat_map wire items)) s /\
    (exists k r k2 c, s_place s = InRecv k r k2 c) /\ waiting (s_comm s) = [] /\ forall b, wstep persis_user pstep Local b s = None.
Proof.
  exists [XOrder (to_persis [7]) [X] [[vint 7]]; XOrder (to_persis []) [] []].
  eexists (steps _ 20 _). split; [|split; [apply steps_ok, ws_refl|split; [|split]]].
  - sendables.
  - do 4 eexists. vm_compute. reflexivity.
  - vm_compute. reflexivity.
  - intros b. vm_compute. reflexivity.
Qed.
Print Assumptions C27_order_without_rows_hangs_refuted.

(** A user function that polls the manager through the executor throws away an
    order that has arrived meanwhile (its rows are then taken for an order and
    the worker fails). *)
Theorem C27_poll_throws_order_away_refuted :
  exists us items s k, Forall sendable items /\ (forall k fs d, In (XOrder k fs d) items -> k_rows k <> []) /\
    wsteps us pstep Local (worker_with prog (flat_map wire items)) s /\ In (VDrop (OWork k)) (s_log s) /\ In VFail (s_log s).
Proof.
  exists (fun _ _ _ => QPoll (QRecv true QRaise QRaise QRaise) QRaise),
    [XOrder (to_persis [7]) [X] [[vint 7]]; XOrder (to_persis [0]) [FF] [[vint 100]]].
  eexists (steps _ 20 _), (to_persis [0]). split; [|split; [|split; [apply steps_ok, ws_refl|split]]].
  - sendables.
  - intros k fs d [H|[H|[]]]; injection H as <- <- <-; discriminate.
  - finds.
  - finds.
Qed.
Print Assumptions C27_poll_throws_order_away_refuted.

(** ** C28: the worker loop *)

(** For every sequence of messages and every behaviour of the user functions:
    what the worker has sent is what its functions sent and answered, in order,
    and every call of a user function is followed by exactly one answer - with
    the type of its order, the rows it last worked on and its persistence - or
    it is the last one, still running, or cut short by the end of the worker. *)
Theorem C28_one_answer_per_order :
  forall U ustart (ustep : U -> uact U) kd inbox s, wsteps ustart ustep kd (worker_with U inbox) s ->
  q_out (s_comm s) = worker_sent (s_log s) /\
  (settled (s_log s) \/ (exists k, busy_with k (s_log s)) \/
   exists l e, s_log s = l ++ [e] /\ (e = VEnd \/ e = VFail) /\ s_place s = Left /\ (settled l \/ exists k, busy_with k l)).
Proof.
  intros U ustart ustep kd inbox s H. destruct (shape_run U ustart ustep kd inbox s H) as (H1 & H2). split; [now symmetry|].
  destruct (s_place s); auto.
  - right. left. destruct H2 as (l0 & fs & d & m & E & A & B & _). exists k, l0, fs, d, m. auto.
  - right. left. destruct H2 as (l0 & fs & d & m & E & A & B & _). exists k, l0, fs, d, m. auto.
  - right. right. destruct H2 as (l0 & [E|E] & A); exists l0; eexists; split; try exact E; auto.
Qed.
Print Assumptions C28_one_answer_per_order.

(** A failure is reported: the error message is sent, and it is the last. *)
Theorem C28_failure_reported :
  forall U ustart (ustep : U -> uact U) kd inbox s b k rows u, wsteps ustart ustep kd (worker_with U inbox) s ->
  s_place s = InCalc k rows u -> ustep u = ARaised ->
  exists s', wstep ustart ustep kd b s = Some s' /\ s_place s' = Left /\ q_out (s_comm s') = q_out (s_comm s) ++ [IErr].
Proof.
  intros U ustart ustep kd inbox s b k rows u H Ep Eu. unfold WorkerModel.wstep. rewrite Ep, Eu. eexists. split; [reflexivity|]. auto.
Qed.
Print Assumptions C28_failure_reported.

(** The loop ends normally only when told to finish, or when the user function
    gives the finish signal as its own status. *)
Theorem C28_ends_only_when_told :
  forall U ustart (ustep : U -> uact U) kd b s s', wstep ustart ustep kd b s = Some s' -> last (s_log s') VFail = VEnd -> s_place s' = Left ->
  (exists o rest, waiting (s_comm s) = o :: rest /\ tells_finish o) \/
  (exists k rows u r, s_place s = InCalc k rows u /\ ustep u = AReturn r /\ own_status r SIG_FINISH).
Proof.
  intros U ustart ustep kd b s s' E Hv Hl. destruct (end_cause U ustart ustep kd b s s' E Hl Hv) as [(_ & o & l & Hw & Ho)|(k & rows & u & r & v & st & Ep & Eu & Epar & Es)].
  - left. eauto.
  - subst st. destruct (parse_status _ _ _ _ Epar) as [Hst|[Hst|Hst]].
    + destruct (q_buf (s_comm s)) as [o|] eqn:Eb; [|discriminate]. destruct (is_finish_msg o) eqn:Ef; [|discriminate].
      left. exists o, (q_in (s_comm s)). split; [unfold waiting; now rewrite Eb|].
      unfold is_finish_msg in Ef. destruct o; try discriminate; apply Nat.eqb_eq in Ef; subst; [now left|now right].
    + right. exists k, rows, u, r. auto.
    + unfold SIG_FINISH in Hst. lia.
Qed.
Print Assumptions C28_ends_only_when_told.

(** The worker never gets stuck: it stops stepping only after leaving its loop,
    or while it waits for a message and there is none. *)
Theorem C28_waits_only_for_messages :
  forall U ustart (ustep : U -> uact U) kd b s, wstep ustart ustep kd b s = None -> s_place s = Left \/ waiting (s_comm s) = [].
Proof. intros U ustart ustep kd b s H. apply step_none in H as [H|[H _]]; auto. Qed.
Print Assumptions C28_waits_only_for_messages.

(** The documented return values are understood: output and status reach the
    manager in an answer to the order. *)
Theorem C28_return_value_understood :
  forall U ustart (ustep : U -> uact U) kd b s k rows u r v st,
  s_place s = InCalc k rows u -> ustep u = AReturn r -> returns r v st -> ~ bare_pair r -> st <> Some SIG_FINISH ->
  q_buf (s_comm s) = None ->
  exists s', wstep ustart ustep kd b s = Some s' /\ s_place s' = AtTop /\
    q_out (s_comm s') = q_out (s_comm s) ++
      [IData (mkAns (k_tag k) (match st with Some n => n | None => 0 end) (out_of v) rows false (k_persistent k))].
Proof. exact answer_step. Qed.
Print Assumptions C28_return_value_understood.

(** A generator call and a failing simulation, with kill signals in between. *)
Definition two_orders : list parcel :=
  [XStop SIG_KILL; XOrder gen_order [] []; XOrder (sim_order [4; 5]) [X] [[vint 1]; [vint 2]]; XStop SIG_KILL; XOrder (sim_order [6]) [X] [[vint 3]]].
Definition failing_user (k : work) (fs : list field) (d : list (list val)) : prog :=
  if memb 6 (k_rows k) then QRaise else plain_user k fs d.
Example C28_run :
  let s := steps failing_user 20 (worker_with prog (flat_map wire two_orders)) in
  (map show_wev (s_log s), length (q_out (s_comm s))) =
  ([("drop", []); ("call", [2]); ("answer", [0]); ("call", [1; 4; 5]); ("drop", []); ("answer", [0; 4; 5]);
    ("call", [1; 6]); ("fail", [])], 3).
Proof. vm_compute. reflexivity. Qed.

(** An array with exactly two records returned on its own is taken apart: the
    manager gets the first record instead of the array. *)
Theorem C28_two_record_array_refuted :
  exists us inbox s A k, wsteps us pstep Local (worker_with prog inbox) s /\ us k [X] [] = QReturn (ROne (PArr A)) /\ length (a_rows A) = 2 /\
    inbox = [OWork k; ORows [X] []] /\ returns (ROne (PArr A)) (PArr A) None /\
    exists a, q_out (s_comm s) = [IData a] /\ n_out a <> UArr A /\ n_out a = UOther.
Proof.
  exists (fun _ _ _ => QReturn (ROne (PArr (pts [10; 20]%Z)))), [OWork (sim_order [4; 5]); ORows [X] []].
  eexists (steps _ 20 _), (pts [10; 20]%Z), (sim_order [4; 5]). split; [apply steps_ok, ws_refl|]. repeat (split; [reflexivity|]).
  split; [constructor|]. eexists. split; [vm_compute; reflexivity|]. split; [discriminate|reflexivity].
Qed.
Print Assumptions C28_two_record_array_refuted.

(** A persistent function that has received the finish signal and returns a
    status of its own: the signal is used up, and the worker goes on waiting. *)
Theorem C28_finish_signal_used_up_refuted :
  exists items s, wsteps persis_user pstep Local (worker_with prog (flat_map wire items)) s /\
    In (XStop SIG_FINISH) items /\ waiting (s_comm s) = [] /\ s_place s = AtTop.
Proof.
  exists [XOrder (to_persis [7]) [X] [[vint 7]]; XStop SIG_FINISH]. eexists (steps _ 20 _).
  split; [apply steps_ok, ws_refl|]. vm_compute. auto.
Qed.
Print Assumptions C28_finish_signal_used_up_refuted.

(** ** C09: the manager's table and the workers *)

(** In every reachable state of the ensemble, each worker has at most one order
    that is not answered; it is marked busy, with the type of that order,
    exactly if there is one; and there is one exactly if the order is on its way
    to the worker, being computed, or the answer is on its way back. Nothing
    else is in transit but kill signals and log records. *)
Theorem C09_busy_exactly_while_an_order_is_out :
  forall U ustart (ustep : U -> uact U) kd c h n zeros gens rm pin y r, plain ustep -> honest_status ustep ->
  yreach U ustart ustep kd c one_shot (init_manager c h n zeros gens rm pin) y -> In r (m_W (y_m y)) ->
  exists o, standing o (y_w y (w_id r)) /\ (w_active r <> 0 <-> o <> None) /\ (forall k, o = Some k -> w_active r = k_tag k).
Proof.
  intros U ustart ustep kd c h n zeros gens rm pin y r Hp Hs Hy Hr.
  destruct (J_reach U ustart ustep kd c Hp Hs one_shot h n zeros gens rm pin y (fun _ _ H => H) Hy) as (_ & _ & _ & HJ).
  destruct (HJ r Hr) as (_ & _ & o & p & items & L1 & L2 & L3 & L4 & L5).
  exists o. split; [now apply link_standing in L1|]. split.
  - rewrite L2. destruct o as [k|]; [|split; congruence]. split; [discriminate|]. intros _.
    inversion L1; subst; match goal with Hk : shot k |- _ => destruct Hk as (_ & _ & [Hk | Hk]); rewrite Hk; discriminate end.
  - intros k ->. exact L2.
Qed.
Print Assumptions C09_busy_exactly_while_an_order_is_out.

(** The answers taken from a worker are answers to the orders sent to it, one
    for each, in order, with the type and the rows of the order; at most the last
    order has no answer yet, and then the worker is marked busy. *)
Theorem C09_each_order_answered_once :
  forall U ustart (ustep : U -> uact U) kd c h n zeros gens rm pin y r, plain ustep -> honest_status ustep ->
  yreach U ustart ustep kd c one_shot (init_manager c h n zeros gens rm pin) y -> In r (m_W (y_m y)) ->
  orders_to (w_id r) (m_log (y_m y)) = answers_from (w_id r) (m_log (y_m y)) /\ w_active r = 0 \/
  exists last, orders_to (w_id r) (m_log (y_m y)) = answers_from (w_id r) (m_log (y_m y)) ++ [last] /\ w_active r = fst last.
Proof.
  intros U ustart ustep kd c h n zeros gens rm pin y r Hp Hs Hy Hr.
  destruct (J_reach U ustart ustep kd c Hp Hs one_shot h n zeros gens rm pin y (fun _ _ H => H) Hy) as (_ & _ & _ & HJ).
  destruct (HJ r Hr) as (_ & _ & o & p & items & L1 & L2 & L3 & L4 & L5). destruct o as [k|]; cbn in L3.
  - right. exists (k_tag k, k_rows k). auto.
  - left. rewrite app_nil_r in L3. auto.
Qed.
Print Assumptions C09_each_order_answered_once.

(** The schedule of [plain_schedule]: a generator call, two simulations, one of
    them cancelled and told so while it runs. *)
Example C09_run :
  option_map (fun y => (map show_event (m_log (y_m y)), map (fun w => map show_wev (s_log (y_w y w))) [1; 2], map w_active (m_W (y_m y)))) plain_end =
  Some ([("work", 1, []); ("other", 1, []); ("answer", 1, []); ("work", 1, [0]); ("rows", 1, [1]); ("work", 2, [1]); ("rows", 2, [1]);
         ("stop", 2, [21]); ("answer", 2, [1])],
        [[("call", [2]); ("answer", [0])]; [("call", [1; 1]); ("drop", []); ("answer", [0; 1])]], [1; 0; 0]).
Proof. vm_compute. reflexivity. Qed.

Example C09_schedule_ok : gives_ok one_shot plain_schedule.
Proof.
  intros t w k Hin. unfold plain_schedule in Hin. cbn [In] in Hin.
  repeat (destruct Hin as [Hin|Hin]; [first [discriminate Hin | inversion Hin; subst t w k; split; [reflexivity|cbn; auto]]|]). destruct Hin.
Qed.
Example C09_run_reachable : forall y, exec plain_user Local c2 plain_schedule (start_sys (m3 c2)) = Some y -> yreach prog plain_user pstep Local c2 one_shot (m3 c2) y.
Proof.
  intros y E. exact (exec_reach plain_user Local c2 one_shot (m3 c2) plain_schedule (start_sys (m3 c2)) y C09_schedule_ok (yr_start _ _ _ _ _ _ _) E).
Qed.
