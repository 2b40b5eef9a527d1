(** Proofs about queues and the worker loop. *)
From Verif Require Import Base HistoryModel WorkModel ManagerModel CommsModel WorkerModel WorkerSpec.

Arguments AtTop {U}. Arguments AtRows {U}. Arguments InCalc {U}. Arguments InRecv {U}. Arguments Left {U}.
Arguments mkWs {U}. Arguments s_comm {U}. Arguments s_place {U}. Arguments s_log {U}.
Arguments inform {U}. Arguments goto {U}. Arguments emit {U}. Arguments with_comm {U}. Arguments fails {U}. Arguments ends {U}.
Arguments call {U}. Arguments returned {U}. Arguments push_back {U}. Arguments wstep {U}. Arguments fresh_worker {U}. Arguments wsteps {U}.

(** ** Queues *)

Lemma recv_waiting {A B} (q : comm A B) x q1 : comm_recv q = Some (x, q1) ->
  waiting q = x :: waiting q1 /\ q_buf q1 = None /\ q_out q1 = q_out q.
Proof.
  unfold comm_recv, waiting. destruct (q_buf q) eqn:E; [intros H; injection H as <- <-; auto|].
  destruct (q_in q) eqn:E2; [discriminate|]. intros H; injection H as <- <-; auto.
Qed.

Lemma recv_none {A B} (q : comm A B) : comm_recv q = None <-> waiting q = [].
Proof.
  unfold comm_recv, waiting. destruct (q_buf q); [split; discriminate|]. destruct (q_in q); split; congruence.
Qed.

Lemma comm_fifo {A B} kd (q : comm A B) t q' : comm_hist kd q t q' ->
  kd = Mpi \/ single_back (match q_buf q with Some _ => true | None => false end) t ->
  fifo (waiting q) t (waiting q').
Proof.
  induction 1 as [q|q x t q' Hh IH|q x q1 t q' Er Hh IH|q x q1 t q' Ep Hh IH]; intros Hc.
  - constructor.
  - constructor. replace (waiting q ++ [x]) with (waiting (comm_arrive x q)); [apply IH; exact Hc|].
    unfold waiting, comm_arrive; cbn. now destruct (q_buf q).
  - destruct (recv_waiting _ _ _ Er) as (E & Eb & _). rewrite E. constructor. apply IH.
    rewrite Eb. destruct Hc as [Hc|Hc]; [now left|now right].
  - constructor. unfold comm_push in Ep. destruct (q_buf q) eqn:Eb.
    + destruct kd; [|discriminate]. destruct Hc as [Hc|[Hc _]]; discriminate.
    + assert (E : q1 = mkComm (q_in q) (Some x) (q_out q)) by (destruct kd; congruence). subst q1.
      unfold waiting in *. rewrite Eb. cbn in *. apply IH. destruct Hc as [Hc|[_ Hc]]; auto.
Qed.

Lemma fifo_exact {A} (p : list A) t p' : fifo p t p' -> no_back t -> receipts t ++ p' = p ++ arrivals t.
Proof.
  unfold receipts, arrivals.
  induction 1 as [p|p x t p' _ IH|p x t p' _ IH|p x t p' _ IH]; intros Hn; cbn [flat_map app].
  - now rewrite app_nil_r.
  - rewrite IH; [|intros y Hy; apply (Hn y); now right]. now rewrite <- app_assoc.
  - f_equal. apply IH. intros y Hy; apply (Hn y); now right.
  - exfalso. apply (Hn x). now left.
Qed.

Lemma done_reads {A} l f n : reads n (mkLoc (A:=A) l true f) = repeat GFinished n.
Proof. induction n as [|n IH]; [reflexivity|]. cbn. now rewrite IH. Qed.

Lemma local_messages {A} (msgs : list A) raised f j :
  reads (length msgs + j) (mkLoc (thread_output msgs raised) false f) = map GMsg msgs ++ repeat GFinished j.
Proof.
  revert f. induction msgs as [|x l IH]; intros f.
  - cbn. destruct j as [|j]; [reflexivity|]. cbn. now rewrite done_reads.
  - cbn. now rewrite IH.
Qed.

Lemma local_result_thread {A} (msgs : list A) raised : local_result (thread_output msgs raised) false false = Some raised.
Proof. unfold thread_output. induction msgs as [|x l IH]; cbn; [reflexivity|exact IH]. Qed.

Section Worker.
Variable U : Type.
Variable ustart : work -> list field -> list (list val) -> U.
Variable ustep : U -> uact U.
Variable kd : kind.

Notation wstep := (wstep ustart ustep kd).
Notation wsteps := (wsteps ustart ustep kd).

(** Pushing back right after a receive never fails. *)
Lemma push_ok o s (ok : wst U -> wst U) : q_buf (s_comm s) = None ->
  push_back kd o s ok = ok (with_comm (mkComm (q_in (s_comm s)) (Some o) (q_out (s_comm s))) s).
Proof. unfold push_back, comm_push. intros ->. now destruct kd. Qed.

(** ** The worker's record *)

Definition shape (s : wst U) : Prop :=
  worker_sent (s_log s) = q_out (s_comm s) /\
  match s_place s with
  | AtTop | AtRows _ _ => settled (s_log s)
  | InCalc k rows _ | InRecv k rows _ _ =>
      exists l0 fs d m, s_log s = l0 ++ VCall k fs d :: m /\ settled l0 /\ during k m /\ rows = current_rows (k_rows k) m
  | Left => exists l0, (s_log s = l0 ++ [VEnd] \/ s_log s = l0 ++ [VFail]) /\ (settled l0 \/ exists k, busy_with k l0)
  end.

Lemma sent_app a b : worker_sent (a ++ b) = worker_sent a ++ worker_sent b.
Proof. unfold worker_sent. apply flat_map_app. Qed.

Lemma rows_app r a b : current_rows r (a ++ b) = current_rows (current_rows r a) b.
Proof. revert r. induction a as [|e a IH]; intros r; [reflexivity|]. destruct e; cbn; apply IH. Qed.

Lemma shape_ends s : worker_sent (s_log s) = q_out (s_comm s) -> settled (s_log s) \/ (exists k, busy_with k (s_log s)) -> shape (ends s).
Proof.
  intros H1 H2. split; cbn.
  - rewrite sent_app, H1. cbn. apply app_nil_r.
  - exists (s_log s). auto.
Qed.

Lemma shape_fails s : worker_sent (s_log s) = q_out (s_comm s) -> settled (s_log s) \/ (exists k, busy_with k (s_log s)) -> shape (fails s).
Proof.
  intros H1 H2. split; cbn.
  - rewrite sent_app, H1. reflexivity.
  - exists (s_log s). auto.
Qed.

Lemma shape_call k fs d s : worker_sent (s_log s) = q_out (s_comm s) -> settled (s_log s) -> shape (call ustart k fs d s).
Proof.
  intros H1 H2. unfold call. destruct ((k_tag k =? EVAL_SIM) || (k_tag k =? EVAL_GEN)); [|apply shape_fails; auto].
  split; cbn.
  - rewrite sent_app, H1. cbn. apply app_nil_r.
  - exists (s_log s), fs, d, []. repeat split; auto. constructor.
Qed.

Lemma busy_intro k l0 fs d m : settled l0 -> during k m -> busy_with k (l0 ++ VCall k fs d :: m).
Proof. intros. exists l0, fs, d, m. auto. Qed.

(** extending the record of a running function *)
Lemma in_calc k rows u l0 fs d m e q :
  worker_sent (l0 ++ VCall k fs d :: m ++ [e]) = q_out q ->
  settled l0 -> during k (m ++ [e]) -> rows = current_rows (k_rows k) (m ++ [e]) ->
  shape (mkWs q (InCalc k rows u) (l0 ++ VCall k fs d :: m ++ [e])).
Proof. intros. split; cbn; [assumption|]. exists l0, fs, d, (m ++ [e]). auto. Qed.

Lemma assoc3 (l0 : list wev) x m e : (l0 ++ x :: m) ++ [e] = l0 ++ x :: m ++ [e].
Proof. now rewrite <- app_assoc. Qed.

Lemma shape_returned k rows r s l0 fs d m :
  worker_sent (s_log s) = q_out (s_comm s) -> s_log s = l0 ++ VCall k fs d :: m -> settled l0 -> during k m ->
  rows = current_rows (k_rows k) m -> shape (returned k rows r s).
Proof.
  intros H1 El Hs Hd Hr. unfold returned.
  assert (Hb : busy_with k (s_log s)) by (rewrite El; now apply busy_intro).
  set (p := match q_buf (s_comm s) with Some o => _ | None => (s, 0) end).
  assert (Hp : worker_sent (s_log (fst p)) = q_out (s_comm (fst p)) /\
               exists m', s_log (fst p) = l0 ++ VCall k fs d :: m' /\ during k m' /\ rows = current_rows (k_rows k) m').
  { subst p. destruct (q_buf (s_comm s)) as [o|] eqn:Eb; cbn; [|split; [assumption|exists m; auto]].
    unfold comm_recv. rewrite Eb. cbn. split.
    - rewrite sent_app, H1. cbn. apply app_nil_r.
    - exists (m ++ [VDrop o]). rewrite El. split; [apply assoc3|]. split; [now constructor|].
      rewrite rows_app. exact Hr. }
  destruct p as [s1 st0]. cbn [fst] in Hp. destruct Hp as (H1' & m' & El' & Hd' & Hr').
  destruct (runner_check r) as [r'|]; [|apply shape_fails; eauto].
  assert (Hb' : busy_with k (s_log s1)) by (rewrite El'; now apply busy_intro).
  destruct (parse_out r' st0) as [[v st]|]; [|apply shape_fails; eauto].
  destruct (st =? SIG_FINISH) eqn:Es; [apply shape_ends; eauto|].
  split; cbn.
  - rewrite sent_app, H1'. reflexivity.
  - rewrite El', assoc3. constructor; auto; cbn; [|now apply Nat.eqb_neq].
    unfold from_order; cbn. auto.
Qed.

Lemma shape_step b s s' : shape s -> wstep b s = Some s' -> shape s'.
Proof.
  intros (H1 & H2) E. unfold WorkerModel.wstep in E.
  destruct (s_place s) as [|k discard|k rows u|k rows k2 c|] eqn:Ep; [| | | |discriminate].
  - destruct (comm_recv (s_comm s)) as [[o q]|] eqn:Er; [|discriminate]. injection E as <-.
    destruct (recv_waiting _ _ _ Er) as (_ & _ & Eo).
    assert (H1' : worker_sent (s_log (with_comm q s)) = q_out (s_comm (with_comm q s))) by (cbn; now rewrite Eo).
    assert (Hd : shape (inform (VDrop o) (with_comm q s))).
    { split; cbn; [rewrite sent_app; cbn; now rewrite app_nil_r, Eo|]. rewrite Ep. now constructor. }
    destruct o as [k|fs d|x|x].
    + destruct (match k_recv k with Some b0 => _ | None => false end).
      * destruct (k_rows k); [exact Hd|]. split; cbn; [rewrite sent_app; cbn; now rewrite app_nil_r, Eo|]. now constructor.
      * destruct (k_rows k); [apply shape_call; auto|]. split; cbn; [now rewrite Eo|assumption].
    + apply shape_fails; auto.
    + destruct (x =? SIG_FINISH); [apply shape_ends; auto|]. destruct (x =? SIG_KILL); [exact Hd|apply shape_fails; auto].
    + destruct (x =? SIG_FINISH); [apply shape_ends; auto|]. destruct (x =? SIG_KILL); [exact Hd|apply shape_fails; auto].
  - destruct (comm_recv (s_comm s)) as [[o q]|] eqn:Er; [|discriminate]. injection E as <-.
    destruct (recv_waiting _ _ _ Er) as (_ & _ & Eo).
    assert (H1' : worker_sent (s_log (with_comm q s)) = q_out (s_comm (with_comm q s))) by (cbn; now rewrite Eo).
    destruct discard.
    + destruct ((k_tag k =? EVAL_SIM) || (k_tag k =? EVAL_GEN)); [|apply shape_fails; auto].
      split; cbn; [rewrite sent_app; cbn; now rewrite app_nil_r, Eo|]. now constructor.
    + destruct o; apply shape_call; auto.
  - destruct H2 as (l0 & fs & d & m & El & Hs & Hd & Hr).
    assert (Hb : busy_with k (s_log s)) by (rewrite El; now apply busy_intro).
    destruct (ustep u) as [u'|v st keep u'|blocking c|c|r|] eqn:Eu.
    + injection E as <-. split; cbn; [assumption|]. exists l0, fs, d, m. auto.
    + injection E as <-. cbn. split; cbn.
      * rewrite sent_app, H1. reflexivity.
      * exists l0, fs, d, (m ++ [VMid k (reply k rows v st keep)]). rewrite El, assoc3.
        repeat split; auto; [|rewrite rows_app; exact Hr].
        constructor; [exact Hd|]. unfold from_order, reply; cbn. auto.
    + destruct (negb blocking && negb (comm_mail kd (s_comm s) && b)).
      * injection E as <-. split; cbn; [rewrite sent_app, H1; cbn; apply app_nil_r|].
        exists l0, fs, d, (m ++ [VHand RNothing]). rewrite El, assoc3, rows_app. repeat split; auto. now constructor.
      * destruct (comm_recv (s_comm s)) as [[o q]|] eqn:Er; [|discriminate]. injection E as <-.
        destruct (recv_waiting _ _ _ Er) as (_ & Eb & Eo).
        destruct o as [k2|gs d2|x|x].
        -- split; cbn; [rewrite sent_app, H1; cbn; now rewrite app_nil_r, Eo|].
           exists l0, fs, d, (m ++ [VTake k2]). rewrite El, assoc3, rows_app. repeat split; auto. now constructor.
        -- apply shape_fails; cbn; [now rewrite Eo|eauto].
        -- rewrite push_ok by exact Eb. split; cbn; [rewrite sent_app, H1; cbn; now rewrite app_nil_r, Eo|].
           exists l0, fs, d, (m ++ [VHand (RSignal STOP_TAG x)]). rewrite El, assoc3, rows_app. repeat split; auto. now constructor.
        -- rewrite push_ok by exact Eb. split; cbn; [rewrite sent_app, H1; cbn; now rewrite app_nil_r, Eo|].
           exists l0, fs, d, (m ++ [VHand (RSignal PERSIS_STOP x)]). rewrite El, assoc3, rows_app. repeat split; auto. now constructor.
    + destruct (comm_mail kd (s_comm s) && b).
      * destruct (comm_recv (s_comm s)) as [[o q]|] eqn:Er; [|discriminate]. injection E as <-.
        destruct (recv_waiting _ _ _ Er) as (_ & Eb & Eo).
        assert (Hdrop : shape (inform (VDrop o) (goto (InCalc k rows (c None)) (with_comm q s)))).
        { split; cbn; [rewrite sent_app, H1; cbn; now rewrite app_nil_r, Eo|].
          exists l0, fs, d, (m ++ [VDrop o]). rewrite El, assoc3, rows_app. repeat split; auto. now constructor. }
        destruct o as [k2|gs d2|x|x]; try exact Hdrop.
        rewrite push_ok by exact Eb. split; cbn; [fold (worker_sent (s_log s)); congruence|]. exists l0, fs, d, m. auto.
      * injection E as <-. split; cbn; [assumption|]. exists l0, fs, d, m. auto.
    + injection E as <-. eapply shape_returned; eauto.
    + injection E as <-. apply shape_fails; eauto.
  - destruct H2 as (l0 & fs & d & m & El & Hs & Hd & Hr).
    destruct (comm_recv (s_comm s)) as [[o q]|] eqn:Er; [|discriminate]. injection E as <-.
    destruct (recv_waiting _ _ _ Er) as (_ & Eb & Eo).
    assert (Hh : forall g q1 v, q_out q1 = q_out (s_comm s) ->
              shape (inform (VHand g) (goto (InCalc k rows v) (with_comm q1 s)))).
    { intros g q1 v Eo1. split; cbn; [rewrite sent_app, H1; cbn; now rewrite app_nil_r, Eo1|].
      exists l0, fs, d, (m ++ [VHand g]). rewrite El, assoc3, rows_app. repeat split; auto. now constructor. }
    destruct o as [k3|gs d2|x|x].
    + destruct ((k_tag k3 =? STOP_TAG) || (k_tag k3 =? PERSIS_STOP)).
      * rewrite push_ok by exact Eb. apply (Hh (RFinal k3) (mkComm _ _ _) (c (RFinal k3))). cbn. exact Eo.
      * apply Hh. exact Eo.
    + apply Hh. exact Eo.
    + rewrite push_ok by exact Eb. apply (Hh (RSignal STOP_TAG x) (mkComm _ _ _) (c _)). cbn. exact Eo.
    + rewrite push_ok by exact Eb. apply (Hh (RSignal PERSIS_STOP x) (mkComm _ _ _) (c _)). cbn. exact Eo.
Qed.

(** A worker at the start of its loop, with [inbox] the messages to come. *)

Lemma shape_begin inbox : shape (worker_with U inbox).
Proof. split; cbn; [reflexivity|constructor]. Qed.

Lemma shape_run inbox s : wsteps (worker_with U inbox) s -> shape s.
Proof.
  intros H. remember (worker_with U inbox) as s0 eqn:E0. induction H as [s|b s s1 s2 Hs IH E].
  - subst. apply shape_begin.
  - eapply shape_step; [apply IH; exact E0|exact E].
Qed.

(** ** When the loop ends, and when it waits *)

Lemma step_none b s : wstep b s = None <->
  s_place s = Left \/
  (waiting (s_comm s) = [] /\
   (s_place s = AtTop \/ (exists k d, s_place s = AtRows k d) \/ (exists k r k2 c, s_place s = InRecv k r k2 c) \/
    exists k r u c, s_place s = InCalc k r u /\ ustep u = ARecv true c)).
Proof.
  rewrite <- recv_none. unfold WorkerModel.wstep.
  destruct (s_place s) as [|k discard|k rows u|k rows k2 c|] eqn:Ep.
  - destruct (comm_recv (s_comm s)) as [[o q]|]; split; try discriminate.
    + intros [H|[H _]]; discriminate.
    + intros _. right. auto.
    + auto.
  - destruct (comm_recv (s_comm s)) as [[o q]|]; split; try discriminate.
    + intros [H|[H _]]; discriminate.
    + intros _. right. split; [reflexivity|]. right. left. eauto.
    + auto.
  - assert (Hm : forall k1, comm_mail k1 (s_comm s) = true -> comm_recv (s_comm s) <> None).
    { intros k1. unfold comm_mail, comm_recv. destruct k1, (q_buf (s_comm s)), (q_in (s_comm s)); discriminate. }
    destruct (ustep u) as [u'|v st keep u'|blocking c|c|r|] eqn:Eu; split; try discriminate;
      try (intros [H|[_ [H|[(x1 & x2 & H)|[(x1 & x2 & x3 & x4 & H)|(x1 & x2 & x3 & x4 & H & H')]]]]]; try discriminate; congruence).
    + destruct blocking; cbn [negb andb].
      * destruct (comm_recv (s_comm s)) as [[o q]|] eqn:Er; [discriminate|]. intros _. right. split; [reflexivity|].
        right. right. right. exists k, rows, u, c. auto.
      * destruct (comm_mail kd (s_comm s)) eqn:Em; cbn; [|discriminate]. destruct b; cbn; [|discriminate].
        destruct (comm_recv (s_comm s)) as [[o q]|] eqn:Er; [discriminate|]. exfalso. exact (Hm _ Em eq_refl).
    + intros [H|[Hn [H|[(x1 & x2 & H)|[(x1 & x2 & x3 & x4 & H)|(x1 & x2 & x3 & x4 & H & H')]]]]]; try discriminate.
      injection H as <- <- <-. rewrite Eu in H'. injection H' as -> ->. cbn. now rewrite Hn.
    + destruct (comm_mail kd (s_comm s)) eqn:Em; cbn; [|discriminate]. destruct b; cbn; [|discriminate].
      destruct (comm_recv (s_comm s)) as [[o q]|] eqn:Er; [discriminate|]. exfalso. exact (Hm _ Em eq_refl).
  - destruct (comm_recv (s_comm s)) as [[o q]|]; split; try discriminate.
    + intros [H|[H _]]; discriminate.
    + intros _. right. split; [reflexivity|]. right. right. left. eauto 6.
    + auto.
  - split; auto.
Qed.

(** A normal end was asked for: by a finish signal at the top of the loop, by
    one that the user function left in the push-back slot, or by the user
    function's own status. *)
Lemma end_cause b s s' : wstep b s = Some s' -> s_place s' = Left -> last (s_log s') VFail = VEnd ->
  (s_place s = AtTop /\ exists o l, waiting (s_comm s) = o :: l /\ tells_finish o) \/
  (exists k rows u r v st, s_place s = InCalc k rows u /\ ustep u = AReturn r /\
     parse_out r (match q_buf (s_comm s) with Some o => if is_finish_msg o then SIG_FINISH else 0 | None => 0 end) = Some (v, st) /\
     st = SIG_FINISH).
Proof.
  intros E Hl Hv. unfold WorkerModel.wstep in E.
  assert (Hno : forall s0 : wst U, last (s_log (fails s0)) VFail = VEnd -> False).
  { intros s0 H0. cbn in H0. rewrite last_last in H0. discriminate. }
  assert (Hcall : forall k fs d s0, s_place (call ustart k fs d s0) = Left -> last (s_log (call ustart k fs d s0)) VFail = VEnd -> False).
  { intros k fs d s0. unfold call. destruct (_ || _); [discriminate|]. intros _. apply Hno. }
  destruct (s_place s) as [|k discard|k rows u|k rows k2 c|] eqn:Ep; [| | | |discriminate].
  - left. split; [reflexivity|]. destruct (comm_recv (s_comm s)) as [[o q]|] eqn:Er; [|discriminate]. injection E as <-.
    destruct (recv_waiting _ _ _ Er) as (Ew & _ & _). exists o, (waiting q). split; [exact Ew|].
    destruct o as [k|fs d|x|x].
    + exfalso. destruct (match k_recv k with Some b0 => _ | None => false end).
      * destruct (k_rows k); cbn in Hl; congruence.
      * destruct (k_rows k); [eapply Hcall; eauto|cbn in Hl; congruence].
    + exfalso. eapply Hno; eauto.
    + destruct (x =? SIG_FINISH) eqn:Ex; [apply Nat.eqb_eq in Ex; subst; now left|].
      exfalso. destruct (x =? SIG_KILL); [cbn in Hl; congruence|eapply Hno; eauto].
    + destruct (x =? SIG_FINISH) eqn:Ex; [apply Nat.eqb_eq in Ex; subst; now right|].
      exfalso. destruct (x =? SIG_KILL); [cbn in Hl; congruence|eapply Hno; eauto].
  - exfalso. destruct (comm_recv (s_comm s)) as [[o q]|] eqn:Er; [|discriminate]. injection E as <-.
    destruct discard.
    + destruct (_ || _); [cbn in Hl; congruence|eapply Hno; eauto].
    + destruct o; eapply Hcall; eauto.
  - right. destruct (ustep u) as [u'|v st keep u'|blocking c|c|r|] eqn:Eu.
    + injection E as <-. discriminate.
    + injection E as <-. discriminate.
    + exfalso. destruct (negb blocking && _); [injection E as <-; discriminate|].
      destruct (comm_recv (s_comm s)) as [[o q]|] eqn:Er; [|discriminate]. injection E as <-.
      destruct (recv_waiting _ _ _ Er) as (_ & Eb & _).
      destruct o as [k2|gs d2|x|x]; try discriminate; [eapply Hno; eauto| |]; rewrite push_ok in Hl by exact Eb; discriminate.
    + exfalso. destruct (comm_mail kd (s_comm s) && b); [|injection E as <-; discriminate].
      destruct (comm_recv (s_comm s)) as [[o q]|] eqn:Er; [|discriminate]. injection E as <-.
      destruct (recv_waiting _ _ _ Er) as (_ & Eb & _).
      destruct o as [k2|gs d2|x|x]; try discriminate; rewrite push_ok in Hl by exact Eb; discriminate.
    + injection E as <-. unfold returned in Hl, Hv.
      set (st0 := match q_buf (s_comm s) with Some o => _ | None => 0 end).
      assert (Hst : snd (match q_buf (s_comm s) with
               | Some o => match comm_recv (s_comm s) with
                | Some (_, q) => (inform (VDrop o) (with_comm q s), if is_finish_msg o then SIG_FINISH else 0)
                | None => (s, 0) end
               | None => (s, 0) end) = st0).
      { subst st0. unfold comm_recv. destruct (q_buf (s_comm s)); reflexivity. }
      destruct (match q_buf (s_comm s) with Some o => _ | None => (s, 0) end) as [s1 st1]. cbn in Hst. subst st1.
      destruct (runner_check r) as [r'|] eqn:Ec; [|exfalso; eapply Hno; eauto].
      assert (r' = r) by (unfold runner_check in Ec; destruct r as [[]|[|[] ?]]; congruence). subst r'.
      destruct (parse_out r st0) as [[v st]|] eqn:Epar; [|exfalso; eapply Hno; eauto].
      destruct (st =? SIG_FINISH) eqn:Es; [|discriminate]. apply Nat.eqb_eq in Es.
      exists k, rows, u, r, v, st. auto.
    + exfalso. injection E as <-. eapply Hno; eauto.
  - exfalso. destruct (comm_recv (s_comm s)) as [[o q]|] eqn:Er; [|discriminate]. injection E as <-.
    destruct (recv_waiting _ _ _ Er) as (_ & Eb & _).
    destruct o as [k3|gs d2|x|x]; try discriminate.
    + destruct ((k_tag k3 =? STOP_TAG) || _); [rewrite push_ok in Hl by exact Eb|]; discriminate.
    + rewrite push_ok in Hl by exact Eb; discriminate.
    + rewrite push_ok in Hl by exact Eb; discriminate.
Qed.

End Worker.
