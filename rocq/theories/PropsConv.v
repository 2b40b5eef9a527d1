(** Property theorems about persistent functions and the end of a run: C47, C48,
    C49. The user functions are arbitrary state machines with the manners of
    ConvSpec; the allocation function hands out any orders that [order_ok]
    allows; the options kill_canceled_sims and final_gen_send are off (their
    default). The order in which workers and manager move is arbitrary. *)
From Coq Require Import String.
From Verif Require Import Base HistoryModel HistorySpec HistoryRun HistoryExamples RsetModel WorkModel ManagerModel ManagerSpec ManagerProofs ManagerMsg ManagerExamples
  CommsModel WorkerModel WorkerSpec WorkerProofs WorkerFrames SystemModel SystemSpec SystemProofs SystemExamples
  ConvModel ConvSpec ConvProofs ConvInv ConvExamples.
Local Notation length := List.length.
Local Open Scope list_scope.
Local Open Scope nat_scope.

Section Conv.
Variable U : Type.
Variable ustart : work -> list field -> list (list val) -> U.
Variable ustep : U -> uact U.
Variable kd : kind.
Variable c : mcfg.
Variables single owing ready ending : U -> Prop.
Hypothesis MN : manners ustart ustep single owing ready ending.
Hypothesis NK : c_kill c = false.
Hypothesis NF : c_final_send c = false.
(** any state the ensemble can reach, started from any history on any machine *)
Notation reachable h n zeros gens rm pin z := (zreach U ustart ustep kd c order_ok (init_manager c h n zeros gens rm pin) z).

(** ** C47: the conversation with a persistent function *)

(** As long as no error has been reported, the worker table, taken together with
    the messages on their way to the manager, says where each worker is: idle;
    on its way to or inside a single call; or a persistent function that owes an
    answer, is ready for its next order, or has been told to stop. *)
Theorem C47_table_tells_truth :
  forall h n zeros gens rm pin ph y r, reachable h n zeros gens rm pin (ph, y) -> ph <> Finished -> In r (m_W (y_m y)) ->
  let s := y_w y (w_id r) in
  reports_error s \/
  exists m m' unanswered unreached,
    marked m r (memb (w_id r) (m_pending (y_m y))) /\ flow m (q_out (s_comm s)) m' /\
    situated single owing ready ending (match ph with Giving => false | _ => true end) m' s unanswered unreached.
Proof.
  intros h n zeros gens rm pin ph y r H Hp Hr. apply (JJ_reach U ustart ustep kd c single owing ready ending MN NK NF) in H; [|auto].
  unfold JJ in H. cbn [fst snd] in H.
  assert (G : good U single owing ready ending (is_late ph) (is_late ph) (y_m y) (y_w y) r).
  { destruct ph; [| |congruence]; destruct H as (_ & _ & _ & _ & H); now apply H. }
  destruct G as (_ & [G|(mo & mo' & owed & p & items & extra & A1 & A2 & A3 & _)]); [now left|right].
  exists mo, mo', owed, p. destruct ph; auto.
Qed.

Lemma giving h n zeros gens rm pin y r : reachable h n zeros gens rm pin (Giving, y) -> In r (m_W (y_m y)) ->
  good U single owing ready ending false false (y_m y) (y_w y) r /\ m_pending (y_m y) = [].
Proof.
  intros H Hr. apply (JJ_reach U ustart ustep kd c single owing ready ending MN NK NF) in H; [|auto].
  destruct H as (_ & _ & _ & Hp & H). auto.
Qed.

(** A worker marked persistent and free runs a persistent function of that type
    which has received and answered every order so far, so that the next order
    goes to the very call that is running. *)
Theorem C47_next_order_finds_the_function :
  forall h n zeros gens rm pin y r, reachable h n zeros gens rm pin (Giving, y) -> In r (m_W (y_m y)) ->
  w_persis r <> 0 -> w_active r = 0 ->
  let s := y_w y (w_id r) in
  reports_error s \/
  (exists k rows u, s_place s = InCalc k rows u /\ k_persistent k = true /\ k_tag k = w_persis r /\ ready u) /\
  waiting (s_comm s) = [] /\ orders_to (w_id r) (m_log (y_m y)) = replies_from (w_id r) (m_log (y_m y)).
Proof.
  intros h n zeros gens rm pin y r H Hr Hp Ha s. destruct (giving _ _ _ _ _ _ _ _ H Hr) as (G & Hn). subst s.
  destruct G as (_ & [G|(mo & mo' & owed & p & items & extra & A1 & A2 & A3 & A4 & A5 & A6 & A7 & _)]); [now left|right].
  assert (Ee : extra = []) by (destruct extra; [reflexivity|destruct (A7 ltac:(discriminate)); discriminate]).
  rewrite Hn in A1. cbn in A1. destruct mo as [|t|t|t|t]; cbn in A1; try (destruct A1 as (B1 & B2 & B3 & B4); congruence).
  { destruct A1; tauto. }
  destruct A1 as (B1 & B2 & B3 & B4). destruct (flow_ready _ _ _ A2) as (-> & Eo & _).
  apply at_ready in A3 as (k & rows & u & C1 & C2 & C3 & C4 & C5 & -> & ->). rewrite Eo, Ee, !app_nil_r in A6.
  split; [|auto]. exists k, rows, u. repeat split; auto; congruence.
Qed.

(** ... and when the order has been given, the same call is still running, with
    the order and its data next in its queue. *)
Theorem C47_next_order_is_next_in_queue :
  forall h n zeros gens rm pin y r t k2 m', reachable h n zeros gens rm pin (Giving, y) -> In r (m_W (y_m y)) ->
  w_persis r <> 0 -> w_active r = 0 -> ~ reports_error (y_w y (w_id r)) ->
  order_ok (y_m y) (w_id r) k2 -> give_order c t (w_id r) k2 (y_m y) = (m', None) ->
  let s := y_w (manager_moves y m' (y_w y)) (w_id r) in
  s_place s = s_place (y_w y (w_id r)) /\
  exists k2' fs d, waiting (s_comm s) = [OWork k2'; ORows fs d] /\ k_tag k2' = k_tag k2 /\ k_rows k2' = k_rows k2 /\
    k_rows k2 <> [].
Proof.
  intros h n zeros gens rm pin y r t k2 m' H Hr Hp Ha He (Hw & _ & _ & Hfol) E.
  destruct (Hfol r Hr eq_refl Hp) as (_ & _ & Kr). clear Hfol.
  destruct (C47_next_order_finds_the_function _ _ _ _ _ _ _ _ H Hr Hp Ha) as [Hx|(_ & Hq & _)]; [contradiction|].
  apply (JJ_reach U ustart ustep kd c single owing ready ending MN NK NF) in H; [|auto]. destruct H as (H1 & _). cbn [snd] in H1.
  destruct (give_order_spec _ _ _ _ _ _ _ H1 E) as (G1 & G2 & G3 & G4 & G5 & _ & _ & G6).
  destruct (G6 eq_refl) as (r0 & k' & R1 & R2 & R3 & R4 & R5 & R6 & R7 & R8 & R9 & R10 & R11 & R12). clear G6.
  destruct (as_sent_same _ _ R2) as (S1 & S2 & S3 & S4 & S5). destruct R12 as (_ & _ & d & _ & Ed); [exact Kr|].
  assert (Eid : w_id r0 = w_id r). { destruct (wget_id c _ _ H1 Hw) as (r1 & A & B & _). congruence. }
  unfold manager_moves. rewrite (new_events_app _ _ _ Ed). cbn [y_w]. unfold deliver. rewrite Eid. cbn [sent_to flat_map]. rewrite Nat.eqb_refl. cbn [app].
  rewrite arrive_waiting, Hq. split; [reflexivity|]. exists k', (k_fields k2), d. repeat split; auto.
Qed.

(** As long as the run lasts, every order is answered exactly once and in order,
    with its own type and rows: to a worker that is not marked active all the
    orders have been answered, and otherwise all but the last. *)
Theorem C47_each_order_answered_once :
  forall h n zeros gens rm pin y r, reachable h n zeros gens rm pin (Giving, y) -> In r (m_W (y_m y)) ->
  let orders := orders_to (w_id r) (m_log (y_m y)) in
  let answers := replies_from (w_id r) (m_log (y_m y)) in
  reports_error (y_w y (w_id r)) \/
  (w_active r = 0 /\ orders = answers) \/
  (w_active r <> 0 /\ exists rows, orders = answers ++ [(w_active r, rows)]).
Proof.
  intros h n zeros gens rm pin y r H Hr orders answers. destruct (giving _ _ _ _ _ _ _ _ H Hr) as (G & Hn). subst orders answers.
  destruct G as (_ & [G|(mo & mo' & owed & p & items & extra & A1 & A2 & A3 & A4 & A5 & A6 & A7 & _)]); [now left|right].
  assert (Ee : extra = []) by (destruct extra; [reflexivity|destruct (A7 ltac:(discriminate)); discriminate]).
  rewrite Hn in A1. cbn in A1. subst extra. rewrite app_nil_r in A6.
  assert (Hc : forall t, (mo = MOwing t \/ mo = MShot t) -> mo' <> MClosing t).
  { intros t Hm ->. destruct (flow_to_closing _ _ _ A2) as (t' & ->). destruct Hm; discriminate. }
  destruct mo as [|t|t|t|t]; cbn in A1.
  - left. split; [tauto|]. destruct (flow_idle _ _ A2) as (-> & Eo & _). apply at_idle in A3 as (_ & _ & -> & _). now rewrite A6, Eo, app_nil_r.
  - right. destruct A1 as (-> & _ & _ & Ht). split; [auto|]. rewrite A6.
    destruct (one_owed U single owing ready ending _ t _ _ _ _ _ _ A2 (or_intror eq_refl) A3 (Hc t (or_intror eq_refl))) as (rows & ->). eauto.
  - right. destruct A1 as (-> & _ & _ & Ht). split; [auto|]. rewrite A6.
    destruct (one_owed U single owing ready ending _ t _ _ _ _ _ _ A2 (or_introl eq_refl) A3 (Hc t (or_introl eq_refl))) as (rows & ->). eauto.
  - left. split; [tauto|]. destruct (flow_ready _ _ _ A2) as (-> & Eo & _). apply at_ready in A3 as (k & rows & u & _ & _ & _ & _ & _ & -> & _).
    now rewrite A6, Eo, app_nil_r.
  - destruct A1 as (_ & _ & Hx & _). discriminate.
Qed.

(** The orders that reached the user functions of a worker are the orders the
    manager sent it, with their rows and data, in the same order, but for at most
    the last one, which is still on its way. *)
Theorem C47_orders_reach_functions :
  forall h n zeros gens rm pin ph y r, reachable h n zeros gens rm pin (ph, y) -> In r (m_W (y_m y)) ->
  let s := y_w y (w_id r) in
  reports_error s \/
  exists parcels under_way, sent_to (w_id r) (m_log (y_m y)) = wires parcels /\
    orders_in parcels = orders_reached (s_log s) ++ under_way /\ length under_way <= 1.
Proof.
  intros h n zeros gens rm pin ph y r H Hr s. subst s. apply (JJ_reach U ustart ustep kd c single owing ready ending MN NK NF) in H; [|auto].
  unfold JJ in H. cbn [fst snd] in H.
  assert (Hx : forall late strict, J U c single owing ready ending late strict y -> reports_error (y_w y (w_id r)) \/
    exists parcels under_way, sent_to (w_id r) (m_log (y_m y)) = wires parcels /\
      orders_in parcels = orders_reached (s_log (y_w y (w_id r))) ++ under_way /\ length under_way <= 1).
  { intros late strict (_ & _ & _ & _ & G). specialize (G r Hr).
    destruct G as (_ & [G|(mo & mo' & owed & p & items & extra & A1 & A2 & A3 & A4 & A5 & _)]); [now left|right].
    exists items, p. split; [exact A4|]. split; [exact A5|]. destruct A3; cbn [order_of]; try destruct (k_rows _); cbn; auto. }
  destruct ph; eauto. destruct H as (_ & G). destruct (G r Hr) as (_ & _ & [H|(_ & _ & (items & I1 & I2) & _)]); [now left|right].
  exists items, []. rewrite app_nil_r. cbn. auto.
Qed.

(** ** C48: nobody is waited for in vain *)

(** While the run lasts, a worker marked active has a message on its way to the
    manager or can take a step; in the final phase so has every worker that is
    marked active or persistent. *)
Theorem C48_no_deadlock :
  forall h n zeros gens rm pin ph y r, reachable h n zeros gens rm pin (ph, y) -> ph <> Finished -> In r (m_W (y_m y)) ->
  w_active r <> 0 \/ (ph = Stopping /\ w_persis r <> 0) ->
  let s := y_w y (w_id r) in
  q_out (s_comm s) <> [] \/ exists s', wstep ustart ustep kd true s = Some s'.
Proof.
  intros h n zeros gens rm pin ph y r H Hp Hr Ha s. subst s. apply (JJ_reach U ustart ustep kd c single owing ready ending MN NK NF) in H; [|auto].
  unfold JJ in H. cbn [fst snd] in H.
  assert (G : good U single owing ready ending (is_late ph) (is_late ph) (y_m y) (y_w y) r).
  { destruct ph; [| |congruence]; destruct H as (_ & _ & _ & _ & H); now apply H. }
  destruct G as (_ & [G|(mo & mo' & owed & p & items & extra & A1 & A2 & A3 & A4 & A5 & A6 & A7 & A8)]).
  { left. intros E. unfold reports_error in G. rewrite E in G. destruct G. }
  destruct (q_out (s_comm (y_w y (w_id r)))) as [|i l] eqn:Eq; [right|left; discriminate].
  assert (mo' = mo) by (inversion A2; reflexivity). subst mo'.
  eapply situated_moves; eauto.
  - intros ->. cbn in A1. destruct A1 as (B1 & B2 & _). destruct Ha as [Ha|(_ & Ha)]; congruence.
  - intros t ->. cbn in A1. destruct A1 as (B1 & B2 & B3 & B4). destruct Ha as [Ha|(-> & _)]; [congruence|].
    destruct (A8 eq_refl t) as (_ & Hx). congruence.
Qed.

(** So the loop that ends a run can always go on until it ends: a message waits
    for the manager, a worker can take a step, or nobody is active or persistent
    any more. *)
Theorem C48_final_phase_goes_on :
  forall h n zeros gens rm pin y, reachable h n zeros gens rm pin (Stopping, y) ->
  (forall r, In r (m_W (y_m y)) -> w_active r = 0 /\ w_persis r = 0) \/
  exists r, In r (m_W (y_m y)) /\
    (q_out (s_comm (y_w y (w_id r))) <> [] \/ exists s', wstep ustart ustep kd true (y_w y (w_id r)) = Some s').
Proof.
  intros h n zeros gens rm pin y H.
  assert (D : forall l, (forall r, In r l -> w_active r = 0 /\ w_persis r = 0) \/ exists r, In r l /\ (w_active r <> 0 \/ w_persis r <> 0)).
  { induction l as [|x l [IH|(r & R1 & R2)]]; [left; intros r []| |right; exists r; split; [now right|auto]].
    destruct (Nat.eq_dec (w_active x) 0) as [Ea|Ea]; [|right; exists x; split; [now left|auto]].
    destruct (Nat.eq_dec (w_persis x) 0) as [Ep|Ep]; [|right; exists x; split; [now left|auto]].
    left. intros r [<-|R]; auto. }
  destruct (D (m_W (y_m y))) as [D1|(r & R1 & R2)]; [now left|right]. exists r. split; [exact R1|].
  eapply C48_no_deadlock; eauto; [discriminate|]. destruct R2; auto.
Qed.

(** ** C49: the end of a run *)

(** When the manager has sent the FINISH messages every worker is at rest: it is
    marked free and not persistent, no function runs, nothing but log records is
    on its way to the manager, everything it was sent but stop signals has been
    read, all the orders reached their functions, each was answered, and all that
    is left for it to read ends with FINISH. *)
Theorem C49_at_rest_at_end :
  forall h n zeros gens rm pin y r, reachable h n zeros gens rm pin (Finished, y) -> In r (m_W (y_m y)) ->
  let s := y_w y (w_id r) in
  w_active r = 0 /\ w_persis r = 0 /\
  (reports_error s \/
   (forall i, In i (q_out (s_comm s)) -> i = ILog) /\
   (s_place s = Left \/
    s_place s = AtTop /\ exists l, waiting (s_comm s) = l ++ [OStop SIG_FINISH] /\ forall o, In o l -> o = OPStop SIG_KILL) /\
   (exists parcels, sent_to (w_id r) (m_log (y_m y)) = wires parcels /\ orders_in parcels = orders_reached (s_log s)) /\
   exists more, replies_from (w_id r) (m_log (y_m y)) = orders_to (w_id r) (m_log (y_m y)) ++ more).
Proof.
  intros h n zeros gens rm pin y r H Hr s. subst s. apply (JJ_reach U ustart ustep kd c single owing ready ending MN NK NF) in H; [|auto].
  destruct H as (_ & G). destruct (G r Hr) as (G1 & G2 & [G3|(G3 & G4 & G5 & extra & G6)]); split; auto; split; auto.
  right. split; [exact G3|]. split; [exact G4|]. split; [exact G5|]. exists extra. now symmetry.
Qed.

End Conv.
Print Assumptions C47_table_tells_truth.
Print Assumptions C47_next_order_finds_the_function.
Print Assumptions C47_next_order_is_next_in_queue.
Print Assumptions C47_each_order_answered_once.
Print Assumptions C47_orders_reach_functions.
Print Assumptions C48_no_deadlock.
Print Assumptions C48_final_phase_goes_on.
Print Assumptions C49_at_rest_at_end.

(** ** The theorems apply to real runs, and what fails without their conditions *)

(** The generator and simulations of ConvExamples have the manners asked for. *)
Example conv_manners : manners conv_user gstep g_single g_owing g_ready g_ending.
Proof. exact g_manners. Qed.

(** With the manager still giving orders: the generator (worker 1) owes its
    answer to the second order, the simulations are done. *)
Example C47_case : option_map show_z (conv_after 22) =
  Some (Giving, [(2, 2); (0, 0); (0, 0)],
   [("calc"%string, 0, 0, [("call"%string, [2]); ("send"%string, []); ("take"%string, [0; 1]); ("work"%string, [0; 1])]);
    ("top"%string, 0, 0, [("call"%string, [1; 0]); ("answer"%string, [35; 0])]);
    ("top"%string, 0, 0, [("call"%string, [1; 1]); ("answer"%string, [35; 1])])]).
Proof. vm_compute. reflexivity. Qed.

(** A persistent worker that is free: the hypotheses of C47_next_order_finds_the_function. *)
Example C47_free_case : option_map (fun z => map (fun r => (w_active r, w_persis r)) (m_W (y_m (snd z)))) (conv_after 19) = Some [(0, 2); (0, 0); (0, 0)].
Proof. vm_compute. reflexivity. Qed.

(** In the final phase: told to stop while it owes an answer. *)
Example C48_case : option_map (summary conv_user gstep) (conv_after 23) = Some (Stopping, false, [(2, 2); (0, 0); (0, 0)]).
Proof. vm_compute. reflexivity. Qed.

(** The run ends. The signal that reached the generator is pushed back and
    dropped when it has ended; the generator's answer to the signal carries the
    rows of its last order. *)
Example C49_case : option_map show_z (conv_after 32) =
  Some (Finished, [(0, 0); (0, 0); (0, 0)],
   [("left"%string, 0, 0, [("call"%string, [2]); ("send"%string, []); ("take"%string, [0; 1]); ("work"%string, [0; 1]); ("send"%string, [0; 1]);
       ("signal"%string, [4; 21]); ("drop"%string, []); ("answer"%string, [12; 0; 1]); ("end"%string, [])]);
    ("left"%string, 0, 0, [("call"%string, [1; 0]); ("answer"%string, [35; 0]); ("end"%string, [])]);
    ("left"%string, 0, 0, [("call"%string, [1; 1]); ("answer"%string, [35; 1]); ("end"%string, [])])]).
Proof. vm_compute. reflexivity. Qed.

Example conv_reaches : forall n z, conv_after n = Some z -> zreach gstate conv_user gstep Local (cd false) order_ok (m3 (cd false)) z.
Proof. intros n z E. eapply zexec_reach; [apply zr_start|exact E]. Qed.

(** A generator that ends right after it has sent its points is called a second
    time with the order meant for its first call, while the manager marks its
    worker free and not persistent: the table no longer tells the truth. *)
Theorem C47_function_that_does_not_wait_refuted :
  exists y r k rows u, zreach prog hasty_user pstep Local (cd false) order_ok (m3 (cd false)) (Giving, y) /\
    In r (m_W (y_m y)) /\ w_active r = 0 /\ w_persis r = 0 /\ q_out (s_comm (y_w y (w_id r))) = [] /\
    s_place (y_w y (w_id r)) = InCalc k rows u.
Proof.
  destruct (zexec hasty_user pstep Local (cd false) hasty_run (Giving, start_sys (m3 (cd false)))) as [[ph y]|] eqn:E.
  2:{ apply (f_equal (option_map show_z)) in E. vm_compute in E. discriminate. }
  assert (S : option_map (fun z => (fst z, map (fun r => (w_id r, w_active r, w_persis r)) (m_W (y_m (snd z))),
     q_out (s_comm (y_w (snd z) 1)), show_place (s_place (y_w (snd z) 1)))) (Some (ph, y)) = Some (Giving, [(1, 0, 0); (2, 0, 0); (3, 0, 0)], [], "calc"%string)).
  { rewrite <- E. vm_compute. reflexivity. }
  apply (zexec_reach hasty_user pstep Local (cd false) (m3 (cd false))) in E; [|apply zr_start].
  cbn [option_map fst snd] in S. assert (S' := f_equal (fun o => match o with Some x => x | None => (Giving, [], [], ""%string) end) S).
  cbv beta iota in S'. injection S' as S1 S2 S3 S4. subst ph.
  destruct (m_W (y_m y)) as [|r l] eqn:Ew; [discriminate|]. cbn in S2. injection S2 as R1 R2 R3 _.
  destruct (s_place (y_w y 1)) as [| |k rows u| |] eqn:Ep; try discriminate.
  exists y, r, k, rows, u. rewrite R1, Ew. repeat split; auto. now left.
Qed.
Print Assumptions C47_function_that_does_not_wait_refuted.

(** With final_gen_send on, a generator that is stopped when no finished point
    is left to return to it waits for rows that never come: the manager and the
    generator wait for each other. The generator has the manners asked for. *)
Theorem C48_final_gen_send_refuted :
  exists y, zreach gstate conv_user gstep Local (cd true) order_ok (m3 (cd true)) (Stopping, y) /\
    (exists r, In r (m_W (y_m y)) /\ w_active r <> 0 /\ w_persis r <> 0) /\
    forall r, In r (m_W (y_m y)) -> q_out (s_comm (y_w y (w_id r))) = [] /\ forall b, wstep conv_user gstep Local b (y_w y (w_id r)) = None.
Proof.
  eapply (deadlock conv_user gstep (cd true) early_run); [vm_compute; reflexivity|]. exists 2, 2. split; [now left|split; discriminate].
Qed.
Print Assumptions C48_final_gen_send_refuted.

(** A persistent simulation that polls the manager while it computes loses the
    signal to stop, and waits for it later. *)
Theorem C48_polling_function_refuted :
  exists y, zreach prog polling_user pstep Local (cd false) order_ok (m3 (cd false)) (Stopping, y) /\
    (exists r, In r (m_W (y_m y)) /\ w_active r <> 0 /\ w_persis r <> 0) /\
    forall r, In r (m_W (y_m y)) -> q_out (s_comm (y_w y (w_id r))) = [] /\ forall b, wstep polling_user pstep Local b (y_w y (w_id r)) = None.
Proof.
  eapply (deadlock polling_user pstep (cd false) polling_run); [vm_compute; reflexivity|]. exists 1, 1. split; [right; now left|split; discriminate].
Qed.
Print Assumptions C48_polling_function_refuted.

(** A generator that ends without FINISHED_PERSISTENT_GEN_TAG keeps the manager
    waiting for ever. *)
Theorem C48_no_final_status_refuted :
  exists y, zreach prog forgetful_user pstep Local (cd false) order_ok (m3 (cd false)) (Stopping, y) /\
    (exists r, In r (m_W (y_m y)) /\ w_active r <> 0 /\ w_persis r <> 0) /\
    forall r, In r (m_W (y_m y)) -> q_out (s_comm (y_w y (w_id r))) = [] /\ forall b, wstep forgetful_user pstep Local b (y_w y (w_id r)) = None.
Proof.
  eapply (deadlock forgetful_user pstep (cd false) forgetful_run); [vm_compute; reflexivity|]. exists 2, 2. split; [now left|split; discriminate].
Qed.
Print Assumptions C48_no_final_status_refuted.
