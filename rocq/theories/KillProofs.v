(** Invariants about kill signals in the ensemble of one-shot calculations. *)
From Coq Require Import String.
From Verif Require Import Base BaseLemmas HistoryModel HistorySpec HistoryProofs HistoryXIn HistoryInv HistoryInv2 HistoryRun HistoryRun2 HistoryKill HistoryFacts HistoryBack
  RsetModel WorkModel ManagerModel ManagerSpec ManagerProofs ManagerMsg ManagerRun ManagerInv
  CommsModel WorkerModel WorkerSpec WorkerProofs WorkerFrames SystemModel SystemSpec SystemProofs KillSpec.
Local Notation length := List.length.
Local Open Scope list_scope.
Local Open Scope nat_scope.

Lemma signals_app w a b : signals_to w (a ++ b) = signals_to w a ++ signals_to w b.
Proof. unfold signals_to. now rewrite sent_to_app, filter_app. Qed.

Lemma last_order_more w k l s x : last_order w k l s -> orders_to w x = [] -> answers_from w x = [] -> last_order w k (l ++ x) (s ++ x).
Proof.
  intros ((before & ->) & H2 & H3) Hx Hy. split; [|split].
  - exists before. now rewrite <- app_assoc.
  - now rewrite orders_to_app, H2, Hx.
  - now rewrite answers_app, H3, Hy.
Qed.

Lemma kill_traffic w l : (forall e, In e l -> exists v, e = Sent v (OStop SIG_KILL)) ->
  orders_to w l = [] /\ answers_from w l = [] /\ signals_to w l = sent_to w l /\ kills (sent_to w l).
Proof.
  induction l as [|e l IH]; intros H; [repeat split; apply kills_nil|].
  destruct (H e (or_introl eq_refl)) as (v & ->). destruct IH as (I1 & I2 & I3 & I4); [intros x Hx; apply H; now right|].
  unfold signals_to in *. cbn. fold (sent_to w l). destruct (v =? w); cbn [app filter]; [|auto].
  repeat split; auto; [now rewrite I3|]. intros o [<-|Ho]; auto.
Qed.

Section K.
Variable U : Type.
Variable ustart : work -> list field -> list (list val) -> U.
Variable ustep : U -> uact U.
Variable kd : kind.
Variable c : mcfg.
Hypothesis Hplain : plain ustep.
Hypothesis Hstatus : honest_status ustep.
Notation wstep := (WorkerModel.wstep ustart ustep kd).
Notation J := (SystemProofs.J U c).

(** ** Where a worker's messages come from *)

Inductive timed (l : list event) (w : nat) (s : wst U) : Prop :=
| tm_free : s_place s = AtTop -> kills (waiting (s_comm s)) -> timed l w s
| tm_sent k fs d b1 x : shot k -> s_place s = AtTop -> last_order w k l x ->
    waiting (s_comm s) = b1 ++ wire (XOrder k fs d) ++ signals_to w x -> kills b1 -> kills (signals_to w x) -> timed l w s
| tm_rows k fs d x : shot k -> s_place s = AtRows k false -> last_order w k l x ->
    waiting (s_comm s) = ORows fs d :: signals_to w x -> kills (signals_to w x) -> timed l w s
| tm_calc k u x : shot k -> s_place s = InCalc k (k_rows k) u -> last_order w k l x ->
    waiting (s_comm s) = signals_to w x -> kills (signals_to w x) -> timed l w s
| tm_left : s_place s = Left -> timed l w s.

(** the worker receives kill signals, and traffic of others goes on *)
Lemma timed_more l w s x : timed l w s -> orders_to w x = [] -> answers_from w x = [] -> signals_to w x = sent_to w x ->
  kills (sent_to w x) -> timed (l ++ x) w (arrive_all (sent_to w x) s).
Proof.
  intros H H1 H2 H3 H4.
  destruct H as [Q1 Q2|k fs d b1 x0 Q0 Q1 Q2 Q3 Q4 Q5|k fs d x0 Q0 Q1 Q2 Q3 Q4|k u x0 Q0 Q1 Q2 Q3 Q4|Q1].
  - apply tm_free; auto. rewrite (arrive_waiting U). now apply kills_app.
  - apply (tm_sent _ _ _ k fs d b1 (x0 ++ x)); auto; [now apply last_order_more| |rewrite signals_app, H3; now apply kills_app].
    rewrite (arrive_waiting U), Q3, signals_app, H3. now rewrite <- !app_assoc.
  - apply (tm_rows _ _ _ k fs d (x0 ++ x)); auto; [now apply last_order_more| |rewrite signals_app, H3; now apply kills_app].
    rewrite (arrive_waiting U), Q3, signals_app, H3. reflexivity.
  - apply (tm_calc _ _ _ k u (x0 ++ x)); auto; [now apply last_order_more| |rewrite signals_app, H3; now apply kills_app].
    rewrite (arrive_waiting U), Q3, signals_app, H3. reflexivity.
  - now apply tm_left.
Qed.

Lemma timed_out l w s q : timed l w s -> timed l w (set_out q s).
Proof.
  intros [Q1 Q2|k fs d b1 x0 Q0 Q1 Q2 Q3 Q4 Q5|k fs d x0 Q0 Q1 Q2 Q3 Q4|k u x0 Q0 Q1 Q2 Q3 Q4|Q1].
  - now apply tm_free.
  - now apply (tm_sent _ _ _ k fs d b1 x0).
  - now apply (tm_rows _ _ _ k fs d x0).
  - now apply (tm_calc _ _ _ k u x0).
  - now apply tm_left.
Qed.

Lemma timed_call l w k fs d s x : shot k -> last_order w k l x -> waiting (s_comm s) = signals_to w x -> kills (signals_to w x) ->
  timed l w (call ustart k fs d s).
Proof.
  intros H0 H1 H2 H3. unfold call. rewrite shot_tag by exact H0. now apply (tm_calc _ _ _ k (ustart k fs d) x).
Qed.

Lemma timed_step l w b s s' : timed l w s -> wstep b s = Some s' -> timed l w s'.
Proof.
  intros H E. unfold WorkerModel.wstep in E.
  destruct H as [Q1 Q2|k fs d b1 x0 Q0 Q1 Q2 Q3 Q4 Q5|k fs d x0 Q0 Q1 Q2 Q3 Q4|k u x0 Q0 Q1 Q2 Q3 Q4|Q1]; rewrite Q1 in E.
  - destruct (comm_recv (s_comm s)) as [[o q]|] eqn:Er; [|discriminate]. injection E as <-.
    destruct (recv_waiting _ _ _ Er) as (Ew & Eb & Eo). rewrite Ew in Q2. destruct (kills_cons _ _ Q2) as (-> & Hk). cbn. now apply tm_free.
  - destruct (comm_recv (s_comm s)) as [[o q]|] eqn:Er; [|discriminate]. injection E as <-.
    destruct (recv_waiting _ _ _ Er) as (Ew & Eb & Eo). rewrite Q3 in Ew. destruct b1 as [|z b1]; cbn [app] in Ew.
    + pose proof Q0 as (Hp & Hr & Ht). cbn [wire] in Ew. destruct (k_rows k) as [|i rows] eqn:Ek; cbn in Ew; injection Ew as <- Ew.
      * rewrite Hr, Ek. now apply (timed_call _ _ _ _ _ _ x0).
      * rewrite Hr, Ek. now apply (tm_rows _ _ _ k fs d x0).
    + injection Ew as <- Ew. destruct (kills_cons _ _ Q4) as (-> & Hk). cbn. now apply (tm_sent _ _ _ k fs d b1 x0).
  - destruct (comm_recv (s_comm s)) as [[o q]|] eqn:Er; [|discriminate]. injection E as <-.
    destruct (recv_waiting _ _ _ Er) as (Ew & Eb & Eo). rewrite Q3 in Ew. injection Ew as <- Ew.
    now apply (timed_call _ _ _ _ _ _ x0).
  - specialize (Hplain u). destruct (ustep u) as [u'|v st keep u'|blocking g|g|r|] eqn:Eu; try contradiction.
    + injection E as <-. now apply (tm_calc _ _ _ k u' x0).
    + destruct (comm_mail kd (s_comm s) && b).
      * destruct (comm_recv (s_comm s)) as [[o q]|] eqn:Er; [|discriminate]. injection E as <-.
        destruct (recv_waiting _ _ _ Er) as (Ew & Eb & Eo). assert (Hk := Q4). rewrite <- Q3, Ew in Hk.
        destruct (kills_cons _ _ Hk) as (-> & Hk'). rewrite push_ok by exact Eb.
        eapply (tm_calc _ _ _ k _ x0); cbn; auto. rewrite <- Q3, Ew. unfold waiting. cbn. now rewrite Eb.
      * injection E as <-. now eapply (tm_calc _ _ _ k _ x0).
    + injection E as <-. unfold returned.
      set (q := match q_buf (s_comm s) with Some o => _ | None => (s, 0) end).
      assert (Hq : kills (waiting (s_comm (fst q)))).
      { subst q. rewrite <- Q3 in Q4. unfold comm_recv, waiting in *. destruct (q_buf (s_comm s)) as [o|] eqn:Eb; cbn [fst snd]; [|rewrite Eb; auto].
        destruct (kills_cons _ _ Q4) as (-> & Hk). exact Hk. }
      destruct q as [s1 st0]. cbn [fst] in Hq.
      destruct (runner_check r) as [r'|]; [|now apply tm_left].
      destruct (parse_out r' st0) as [[v st]|]; [|now apply tm_left].
      destruct (st =? SIG_FINISH); [now apply tm_left|]. now apply tm_free.
    + injection E as <-. now apply tm_left.
  - discriminate.
Qed.

Definition T (y : sys U) : Prop := forall r, In r (m_W (y_m y)) -> timed (m_log (y_m y)) (w_id r) (y_w y (w_id r)).

Lemma T_start h n zeros gens rm pin : T (start_sys (init_manager c h n zeros gens rm pin)).
Proof. intros r Hr. apply tm_free; [reflexivity|apply kills_nil]. Qed.

Lemma T_ids y y' : T y -> (forall r, In r (m_W (y_m y')) -> exists r0, In r0 (m_W (y_m y)) /\ w_id r0 = w_id r) ->
  (forall r0, In r0 (m_W (y_m y)) -> timed (m_log (y_m y)) (w_id r0) (y_w y (w_id r0)) -> timed (m_log (y_m y')) (w_id r0) (y_w y' (w_id r0))) -> T y'.
Proof. intros H1 H2 H3 r Hr. destruct (H2 _ Hr) as (r0 & A & <-). auto. Qed.

Lemma ids_rows m m' : map w_id (m_W m') = map w_id (m_W m) -> forall r, In r (m_W m') -> exists r0, In r0 (m_W m) /\ w_id r0 = w_id r.
Proof.
  intros E r Hr. assert (H : In (w_id r) (map w_id (m_W m))) by (rewrite <- E; now apply in_map).
  apply in_map_iff in H as (r0 & A & B). eauto.
Qed.

(** the open order of a free worker *)
Lemma link_idle (o : option work) s p : link U o s p -> match o with Some k => k_tag k | None => 0 end = 0 -> o = None.
Proof.
  intros L E. destruct o as [k1|]; [|reflexivity]. inversion L; subst;
    match goal with Hs : shot k1 |- _ => destruct Hs as (_ & _ & [Hs | Hs]); rewrite Hs in E; discriminate end.
Qed.

Lemma give_log y t w k m' : J y -> one_shot w k -> give_order c t w k (y_m y) = (m', None) ->
  exists r0 k' fs d, In r0 (m_W (y_m y)) /\ wget (c_gom c) (m_W (y_m y)) w = Some r0 /\ as_sent k k' /\ shot k' /\
    m_log m' = m_log (y_m y) ++ map (Sent (w_id r0)) (wire (XOrder k' fs d)) /\
    map w_id (m_W m') = map w_id (m_W (y_m y)) /\
    orders_to (w_id r0) (m_log (y_m y)) = answers_from (w_id r0) (m_log (y_m y)) /\
    s_place (y_w y (w_id r0)) = AtTop /\ kills (waiting (s_comm (y_w y (w_id r0)))) /\
    m_h m' = fst (hist_given c t w k (m_h (y_m y))) /\ snd (hist_given c t w k (m_h (y_m y))) = None.
Proof.
  intros (H1 & H2 & H3 & H4) (Hp & Ht) E.
  destruct (give_order_spec _ _ _ _ _ _ _ H1 E) as (G1 & G2 & G3 & G4 & G5 & _ & _ & G6).
  destruct (G6 eq_refl) as (r0 & k' & R1 & R2 & R3 & R4 & R5 & R6 & R7 & R8 & R9 & R10 & R11 & R12). clear G6.
  assert (In0 : In r0 (m_W (y_m y))) by (eapply wget_In; eauto).
  destruct (as_sent_same _ _ R2) as (S1 & S2 & S3 & S4 & S5).
  assert (Hl : exists fs d, m_log m' = m_log (y_m y) ++ map (Sent (w_id r0)) (wire (XOrder k' fs d))).
  { cbn. rewrite S3. destruct (k_rows k) eqn:Ek.
    - exists [], []. rewrite R11 by reflexivity. reflexivity.
    - destruct R12 as (_ & _ & d & _ & Ed); [discriminate|]. exists (k_fields k), d. exact Ed. }
  destruct Hl as (fs & d & El). destruct (H4 _ In0) as (P1 & P2 & o & p & items & L1 & L2 & L3 & _).
  assert (Ha : w_active r0 = 0) by auto. rewrite Ha in L2. symmetry in L2.
  apply (link_idle _ _ _ L1) in L2. subst o. inversion L1 as [s0 Q1 Q2 Q3 E1 E2 E3| | | | |]. cbn [as_pair] in L3. rewrite app_nil_r in L3.
  exists r0, k', fs, d. repeat (split; [assumption|]).
  split. { split; [congruence|]. split; [rewrite S5; auto|]. now rewrite S1. }
  repeat (split; [assumption|]). assumption.
Qed.

Lemma wire_to v w k fs d : sent_to w (map (Sent v) (wire (XOrder k fs d))) = (if v =? w then wire (XOrder k fs d) else []) /\
  orders_to w (map (Sent v) (wire (XOrder k fs d))) = (if v =? w then [(k_tag k, k_rows k)] else []) /\
  answers_from w (map (Sent v) (wire (XOrder k fs d))) = [].
Proof. cbn. destruct (k_rows k) eqn:Ek; cbn; destruct (v =? w); cbn; rewrite ?Ek; auto. Qed.

Lemma T_step y y' : J y -> T y -> ystep U ustart ustep kd c one_shot y y' -> T y'.
Proof.
  intros HJ HT E. destruct E as [t w k m' Hk E|t w i rest m' Hw Eq E|m' E|ed|w b s' E|w].
  - destruct (give_log _ _ _ _ _ HJ Hk E) as (r0 & k' & fs & d & In0 & _ & _ & Hsh & El & Ei & _ & Ep & Ek & _).
    unfold manager_moves. rewrite (new_events_app _ _ _ El). eapply T_ids; [exact HT|cbn; now apply ids_rows|].
    intros r Hr Ht. cbn [y_m y_w]. rewrite El. unfold deliver.
    destruct (wire_to (w_id r0) (w_id r) k' fs d) as (W1 & W2 & W3).
    destruct (Nat.eqb_spec (w_id r0) (w_id r)) as [Hid|Hid].
    + rewrite W1. rewrite <- Hid in *. eapply (tm_sent _ _ _ k' fs d (waiting (s_comm (y_w y (w_id r0)))) (match k_rows k' with [] => [] | _ => [Sent (w_id r0) (ORows fs d)] end)); auto.
      * split; [exists (m_log (y_m y)); cbn; destruct (k_rows k'); reflexivity|]. destruct (k_rows k'); auto.
      * rewrite (arrive_waiting U). f_equal. unfold signals_to. destruct (k_rows k'); cbn; rewrite ?Nat.eqb_refl; cbn; now rewrite app_nil_r.
      * unfold signals_to. destruct (k_rows k'); cbn; rewrite ?Nat.eqb_refl; cbn; apply kills_nil.
    + apply timed_more; [exact Ht|exact W2|exact W3|unfold signals_to; now rewrite W1|rewrite W1; apply kills_nil].
  - destruct HJ as (H1 & H2 & H3 & H4).
    destruct (poll_spec _ _ _ _ _ _ _ H1 E) as [(Hn & _)|(r0 & In0 & Ew & G1 & G2 & _ & G4 & G5)]; [contradiction|].
    destruct G4 as [(El & Ee & Herr)|(Bad & _)]; [|discriminate].
    unfold manager_moves. rewrite (new_events_app _ _ _ El). eapply T_ids; [exact HT|cbn; now apply ids_rows|].
    intros r Hr Ht. cbn [y_m y_w]. rewrite El. unfold deliver.
    assert (Hz : orders_to (w_id r) [Got w i] = []) by reflexivity.
    assert (Hs : sent_to (w_id r) [Got w i] = []) by reflexivity.
    unfold set_worker. destruct (Nat.eqb_spec (w_id r) w) as [Hid|Hid].
    + destruct (match i with IData _ => true | _ => false end) eqn:Ei.
      * (* the answer is taken: the worker is at the top *)
        destruct (H4 _ Hr) as (P1 & P2 & o & p & items & L1 & _). rewrite Hid in L1.
        assert (Hq : s_place (y_w y w) = AtTop /\ kills (waiting (s_comm (y_w y w))) \/ s_place (y_w y w) = Left).
        { destruct i as [a| | |]; try discriminate.
          destruct (link_tail U _ _ _ _ _ L1 Eq) as [(Bad & _)|[(k & a' & _ & _ & _ & _ & _ & _ & L2)|(k & Bad & _)]]; try discriminate.
          inversion L2 as [s0 Q1 Q2 Q3 E1 E2 E3| | | | |]. left. cbn in Q1, Q2. split; auto. }
        rewrite Hs, (arrive_nil U). destruct Hq as [(Q1 & Q2)|Q1]; [now apply tm_free|now apply tm_left].
      * assert (Ha : answers_from (w_id r) [Got w i] = []) by (destruct i; try reflexivity; discriminate).
        apply timed_more; [apply timed_out; now rewrite <- Hid|exact Hz|exact Ha|unfold signals_to; now rewrite Hs|rewrite Hs; apply kills_nil].
    + assert (Ha : answers_from (w_id r) [Got w i] = []).
      { cbn. destruct i; try reflexivity. rewrite (proj2 (Nat.eqb_neq w (w_id r))) by congruence. reflexivity. }
      apply timed_more; [exact Ht|exact Hz|exact Ha|unfold signals_to; now rewrite Hs|rewrite Hs; apply kills_nil].
  - destruct (kill_cancelled_spec _ _ _ _ E) as ((S1 & S2 & S3 & S4) & (l & El & Fl) & _).
    unfold manager_moves. rewrite (new_events_app _ _ _ El). eapply T_ids; [exact HT|cbn; rewrite S1; eauto|].
    intros r Hr Ht. cbn [y_m y_w]. rewrite El. unfold deliver.
    assert (Hl : forall e, In e l -> exists v, e = Sent v (OStop SIG_KILL)).
    { intros e He. rewrite Forall_forall in Fl. destruct (Fl e He) as (v & _ & ->). eauto. }
    destruct (kill_traffic (w_id r) l Hl) as (K1 & K2 & K3 & K4). now apply timed_more.
  - exact HT.
  - intros r Hr. cbn [y_m y_w] in *. unfold set_worker. destruct (Nat.eqb_spec (w_id r) w) as [Hid|Hid]; [|now apply HT].
    eapply timed_step; [|exact E]. rewrite <- Hid. now apply HT.
  - intros r Hr. cbn [y_m y_w] in *. unfold set_worker. destruct (Nat.eqb_spec (w_id r) w) as [Hid|Hid]; [|now apply HT].
    apply timed_out. rewrite <- Hid. now apply HT.
Qed.

Lemma T_reach h n zeros gens rm pin y : yreach U ustart ustep kd c one_shot (init_manager c h n zeros gens rm pin) y -> J y /\ T y.
Proof.
  intros H. induction H as [|y y' H (I1 & I2) E]; [split; [apply J_start|apply T_start]|].
  split; [eapply J_step; eauto|eapply T_step; eauto].
Qed.


(** ** Which point a signal is sent for *)

Hypothesis Hown : own_business ustep.
Notation kstep := (KillSpec.kstep U ustart ustep kd c one_shot).
Notation ksteps := (KillSpec.ksteps U ustart ustep kd c one_shot).

Lemma kstep_ystep y y' : kstep y y' -> ystep U ustart ustep kd c one_shot y y'.
Proof.
  intros [t w k m' H E|t w i rest m' H1 H2 E|m' E|ed H|w b s' E|w].
  - eapply y_give; eauto.
  - eapply y_take; eauto.
  - now apply y_kill.
  - apply y_edit.
  - eapply y_work; eauto.
  - apply y_note.
Qed.

(** no answer has the status of the end of a persistent function *)
Definition S1 (y : sys U) : Prop := forall w a, In (IData a) (q_out (s_comm (y_w y w))) -> fin_status a = false.

Definition plain_out (s : wst U) : Prop := forall a, In (IData a) (q_out (s_comm s)) -> fin_status a = false.

Lemma out_step b s s' : plain_out s -> wstep b s = Some s' -> plain_out s'.
Proof.
  intros H E. assert (Hsame : forall s2, q_out (s_comm s2) = q_out (s_comm s) -> plain_out s2) by (intros s2 Es a Ha; apply H; now rewrite <- Es).
  assert (Hfail : forall s2, q_out (s_comm s2) = q_out (s_comm s) -> plain_out (fails s2)).
  { intros s2 Es a Ha. cbn in Ha. rewrite Es in Ha. apply in_app_or in Ha as [Ha|[Ha|[]]]; [auto|discriminate]. }
  assert (Hcall : forall k fs d s2, q_out (s_comm s2) = q_out (s_comm s) -> plain_out (call ustart k fs d s2)).
  { intros k fs d s2 Es. unfold call. destruct (_ || _); [apply Hsame; exact Es|now apply Hfail]. }
  assert (Hpush : forall o s2 ok, q_out (s_comm s2) = q_out (s_comm s) -> (forall s3, q_out (s_comm s3) = q_out (s_comm s) -> plain_out (ok s3)) -> plain_out (push_back kd o s2 ok)).
  { intros o s2 ok Es Hok. unfold push_back, comm_push. destruct kd, (q_buf (s_comm s2)); cbn; try (apply Hok; exact Es). now apply Hfail. }
  unfold WorkerModel.wstep in E. destruct (s_place s) as [|k dc|k rows u|k rows k2 g|].
  - destruct (comm_recv (s_comm s)) as [[o q]|] eqn:Er; [|discriminate]. injection E as <-. destruct (recv_waiting _ _ _ Er) as (_ & _ & Eo).
    destruct o as [k|fs d|x|x].
    + destruct (match k_recv k with Some b0 => _ | None => false end); destruct (k_rows k); auto; apply Hsame; exact Eo.
    + now apply Hfail.
    + destruct (x =? SIG_FINISH); [now apply Hsame|]. destruct (x =? SIG_KILL); [now apply Hsame|now apply Hfail].
    + destruct (x =? SIG_FINISH); [now apply Hsame|]. destruct (x =? SIG_KILL); [now apply Hsame|now apply Hfail].
  - destruct (comm_recv (s_comm s)) as [[o q]|] eqn:Er; [|discriminate]. injection E as <-. destruct (recv_waiting _ _ _ Er) as (_ & _ & Eo).
    destruct dc; [destruct (_ || _); [now apply Hsame|now apply Hfail]|]. destruct o; now apply Hcall.
  - specialize (Hplain u). destruct (ustep u) as [u'|v st keep u'|blocking g|g|r|] eqn:Eu; try contradiction.
    + injection E as <-. now apply Hsame.
    + destruct (comm_mail kd (s_comm s) && b); [|injection E as <-; now apply Hsame].
      destruct (comm_recv (s_comm s)) as [[o q]|] eqn:Er; [|discriminate]. injection E as <-. destruct (recv_waiting _ _ _ Er) as (_ & _ & Eo).
      destruct o; try (now apply Hsame). apply Hpush; [exact Eo|]. intros s3 Es. now apply Hsame.
    + injection E as <-. unfold returned.
      set (q := match q_buf (s_comm s) with Some o => _ | None => (s, 0) end).
      assert (Hq : q_out (s_comm (fst q)) = q_out (s_comm s) /\ (snd q = 0 \/ snd q = SIG_FINISH)).
      { subst q. unfold comm_recv. destruct (q_buf (s_comm s)) as [o|] eqn:Eb; cbn; [|auto]. destruct (is_finish_msg o); auto. }
      destruct q as [s1 st0]. cbn [fst snd] in Hq. destruct Hq as (Hq & H0).
      destruct (runner_check r) as [r'|] eqn:Ec; [|now apply Hfail].
      assert (r' = r) by (unfold runner_check in Ec; destruct r as [[]|[|[] ?]]; congruence). subst r'.
      destruct (parse_out r st0) as [[v st]|] eqn:Epar; [|now apply Hfail].
      destruct (st =? SIG_FINISH) eqn:Es; [now apply Hsame|].
      intros a Ha. cbn in Ha. rewrite Hq in Ha. apply in_app_or in Ha as [Ha|[Ha|[]]]; [auto|]. injection Ha as <-.
      assert (Hn : st <> FIN_PERSIS_SIM /\ st <> FIN_PERSIS_GEN).
      { destruct (parse_status _ _ _ _ Epar) as [Hs|[Hs|Hs]].
        - destruct H0 as [H0|H0]; rewrite H0 in Hs; subst st; split; discriminate.
        - destruct (Hown u r st Eu Hs) as (_ & X). exact X.
        - unfold FIN_PERSIS_SIM, FIN_PERSIS_GEN. lia. }
      unfold fin_status, reply. cbn. destruct Hn as (N1 & N2). apply Nat.eqb_neq in N1, N2. now rewrite N1, N2.
    + injection E as <-. now apply Hfail.
  - destruct (comm_recv (s_comm s)) as [[o q]|] eqn:Er; [|discriminate]. injection E as <-. destruct (recv_waiting _ _ _ Er) as (_ & _ & Eo).
    destruct o as [k3|fs d|x|x]; try (apply Hpush; [exact Eo|intros s3 Es; now apply Hsame]).
    + destruct (_ || _); [apply Hpush; [exact Eo|intros s3 Es; now apply Hsame]|now apply Hsame].
    + now apply Hsame.
  - discriminate.
Qed.

Lemma S1_step y y' : S1 y -> kstep y y' -> S1 y'.
Proof.
  intros H E. assert (D : forall l w s, q_out (s_comm (arrive_all (sent_to w l) s)) = q_out (s_comm (U := U) s)) by reflexivity.
  destruct E as [t w k m' Hk E|t w i rest m' H1 H2 E|m' E|ed He|w b s' E|w]; intros v a Ha; cbn [manager_moves y_w] in Ha; unfold deliver in Ha; rewrite ?D in Ha.
  - eapply H; eauto.
  - unfold set_worker in Ha. destruct (v =? w) eqn:Ev; [|eapply H; eauto]. cbn in Ha. apply (H w). rewrite H2. now right.
  - eapply H; eauto.
  - eapply H; eauto.
  - unfold set_worker in Ha. destruct (v =? w) eqn:Ev; [|eapply H; eauto]. eapply out_step; eauto. intros a' Ha'. eapply H; eauto.
  - unfold set_worker in Ha. destruct (v =? w) eqn:Ev; [|eapply H; eauto]. cbn in Ha. apply in_app_or in Ha as [Ha|[Ha|[]]]; [|discriminate].
    eapply H; eauto.
Qed.

Definition open (l : list event) (w : nat) (rows : list nat) : Prop := orders_to w l = answers_from w l ++ [(EVAL_SIM, rows)].

(** a point that is started and not ended belongs to the unanswered order of the worker noted in the history *)
Definition held (h : hist) (m : mgr) : Prop :=
  forall i, is_set h i F_sim_started -> ~ is_set h i F_sim_ended ->
  exists w r rows, cell (h_rows h) i F_sim_worker = Some (vint (Z.of_nat w)) /\ wget (c_gom c) (m_W m) w = Some r /\
    open (m_log m) (w_id r) rows /\ In i rows.

Definition hist_ok (h : hist) : Prop :=
  h_safe h = true /\ h_index h <= length (h_rows h) /\ scalar h F_sim_started /\ column h F_sim_ended /\ column h F_sim_worker.

Definition K (y : sys U) : Prop := hist_ok (m_h (y_m y)) /\ held (m_h (y_m y)) (y_m y).

Lemma hist_ok_op o h h' : hist_ok h -> hstep o h = (h', None) -> hist_ok h'.
Proof.
  intros (H1 & H2 & H3 & H4 & H5) E.
  pose proof (hstep_safe o h) as A. pose proof (hstep_index o h H2) as B. pose proof (hstep_scalar o h _ H3) as D.
  pose proof (hstep_column o h _ H4) as F. pose proof (hstep_column o h _ H5) as G. rewrite E in *. cbn [fst snd] in *.
  repeat split; try apply D; auto; [congruence|]. apply B. reflexivity.
Qed.

Lemma wget_ids W W' w r : map w_id W' = map w_id W -> wget (c_gom c) W w = Some r ->
  exists r', wget (c_gom c) W' w = Some r' /\ w_id r' = w_id r.
Proof.
  clear. intros E H. unfold wget in *. assert (El : length W' = length W) by (rewrite <- (map_length w_id W'), E; apply map_length). rewrite El.
  destruct (wpos (c_gom c) (length W) w) as [i|]; [|discriminate].
  pose proof (map_nth_error w_id i W H) as M. rewrite <- E in M.
  destruct (nth_error W' i) as [r'|] eqn:Er; rewrite nth_error_map, Er in M; [|discriminate].
  exists r'. split; [reflexivity|]. now injection M.
Qed.

Lemma open_app l x w rows : open l w rows -> orders_to w x = [] -> answers_from w x = [] -> open (l ++ x) w rows.
Proof. unfold open. intros H H1 H2. now rewrite orders_to_app, answers_app, H1, H2, !app_nil_r. Qed.

Lemma not_open l w rows : orders_to w l = answers_from w l -> ~ open l w rows.
Proof.
  unfold open. intros E H. rewrite E in H. apply (f_equal (@length _)) in H. rewrite app_length in H. cbn in H. lia.
Qed.

(** the history changes in ways that keep or end the points under way *)
Lemma held_keep h m h' m' l : held h m -> map w_id (m_W m') = map w_id (m_W m) -> m_log m' = m_log m ++ l ->
  (forall i, is_set h' i F_sim_started -> ~ is_set h' i F_sim_ended ->
     is_set h i F_sim_started /\ ~ is_set h i F_sim_ended /\ cell (h_rows h') i F_sim_worker = cell (h_rows h) i F_sim_worker /\
     forall w rows, open (m_log m) w rows -> In i rows -> orders_to w l = [] /\ answers_from w l = []) ->
  held h' m'.
Proof.
  intros H Ei El Hc i H1 H2. destruct (Hc i H1 H2) as (C1 & C2 & C3 & C4). destruct (H i C1 C2) as (w & r & rows & E1 & E2 & E3 & E4).
  destruct (wget_ids _ _ _ _ Ei E2) as (r' & F1 & F2). destruct (C4 _ _ E3 E4) as (D1 & D2).
  exists w, r', rows. rewrite F2, C3, El. split; [exact E1|]. split; [exact F1|]. split; [now apply open_app|exact E4].
Qed.

Lemma skip_nth {A} (l : list A) : forall n k, nth_error (skipn n l) k = nth_error l (n + k).
Proof. clear. induction l; intros [|n] k; cbn; auto. now destruct k. Qed.

Lemma set_of_cell h h' i f : cell (h_rows h') i f = cell (h_rows h) i f -> (is_set h' i f <-> is_set h i f).
Proof. unfold is_set. intros ->. reflexivity. Qed.

Lemma set_lt h i f : is_set h i f -> i < length (h_rows h).
Proof. intros (v & Hv & _). eapply cell_Some_lt; eauto. Qed.

(** new points from a generator *)
Lemma x_in_under_way w D gs t h h' i : hist_ok h -> update_history_x_in w D gs t h = (h', None) ->
  is_set h' i F_sim_started -> ~ is_set h' i F_sim_ended ->
  is_set h i F_sim_started /\ ~ is_set h i F_sim_ended /\ cell (h_rows h') i F_sim_worker = cell (h_rows h) i F_sim_worker.
Proof.
  intros (H1 & H2 & H3 & H4 & H5) E A B.
  assert (S0 : is_set h i F_sim_started).
  { eapply x_in_back; eauto; [left; reflexivity|left; auto]. }
  pose proof (x_in_protected w D gs t h) as F. cbn zeta in F. rewrite E in F. cbn [fst snd] in F. destruct F as (F & _).
  pose proof (set_lt _ _ _ S0) as L.
  assert (E1 : cell (h_rows h') i F_sim_ended = cell (h_rows h) i F_sim_ended) by (apply F; auto).
  split; [exact S0|]. split; [|apply F; auto]. now rewrite <- (set_of_cell h h' i F_sim_ended E1).
Qed.

(** a result *)
Lemma f_under_way rows ret kl t h h' i : hist_ok h -> update_history_f rows ret kl t h = (h', None) ->
  is_set h' i F_sim_started -> ~ is_set h' i F_sim_ended ->
  is_set h i F_sim_started /\ ~ is_set h i F_sim_ended /\ cell (h_rows h') i F_sim_worker = cell (h_rows h) i F_sim_worker /\ ~ In i rows.
Proof.
  intros (H1 & H2 & H3 & H4 & H5) E A B. pose proof (hf_frame rows ret kl t h) as F. cbn zeta in F. rewrite E in F. cbn [fst snd] in F.
  destruct F as (F1&F2&F3&F4&F5&F6&F7&F8&F9&F10&F11&F12&F13&F14&F15&F16&F17).
  assert (N : ~ In i rows).
  { intros Hi. apply B. exists (vbool true). split; [|reflexivity]. apply F13; auto. }
  assert (E1 : cell (h_rows h') i F_sim_ended = cell (h_rows h) i F_sim_ended) by (apply F14; auto).
  assert (E2 : cell (h_rows h') i F_sim_started = cell (h_rows h) i F_sim_started) by (apply F14; auto; apply H3).
  split; [now rewrite <- (set_of_cell h h' i _ E2)|]. split; [now rewrite <- (set_of_cell h h' i _ E1)|]. split; [apply F14; auto|exact N].
Qed.

Lemma hist_ok_edit ed h : hist_ok h -> hist_ok (alloc_edit ed h).
Proof.
  intros (H1 & H2 & H3 & H4 & H5). unfold hist_ok, alloc_edit. cbn. repeat split; auto; try apply H3.
  rewrite app_length, mapi_length, skipn_length. unfold trim_H. rewrite firstn_length. lia.
Qed.

Lemma edit_cell ed h i f : h_index h <= length (h_rows h) -> gentle ed -> given_columns f -> cell (h_rows (alloc_edit ed h)) i f = cell (h_rows h) i f.
Proof.
  intros Hi Hg Hf. unfold alloc_edit, cell, trim_H. cbn.
  assert (L : length (mapi 0 ed (firstn (h_index h) (h_rows h))) = h_index h) by (rewrite mapi_length, firstn_length; lia).
  destruct (Nat.lt_ge_cases i (h_index h)) as [Hl|Hl].
  - rewrite nth_error_app1 by lia. rewrite mapi_nth, nth_error_firstn, (proj2 (Nat.ltb_lt _ _) Hl).
    destruct (nth_error (h_rows h) i); cbn; [|reflexivity]. f_equal. now apply Hg.
  - rewrite nth_error_app2 by lia. rewrite L, skip_nth. replace (h_index h + (i - h_index h)) with i by lia. reflexivity.
Qed.

Lemma K_step y y' : J y -> S1 y -> K y -> kstep y y' -> K y'.
Proof.
  intros HJ HS (HK1 & HK2) E. destruct E as [t w k m' Hk E|t w i rest m' Hw Eq E|m' E|ed He|w b s' E|w].
  - destruct (give_log _ _ _ _ _ HJ Hk E) as (r0 & k' & fs & d & In0 & Wg & Ha & Hsh & El & Ei & Eo & Ep & Ek & Eh & Ee).
    destruct (as_sent_same _ _ Ha) as (A1 & A2 & A3 & A4 & A5).
    assert (Hop : forall w1 rows1, open (m_log (y_m y)) w1 rows1 -> w_id r0 <> w1) by (intros w1 rows1 Ho <-; exact (not_open _ _ _ Eo Ho)).
    assert (Htr : forall w1, w_id r0 <> w1 -> orders_to w1 (map (Sent (w_id r0)) (wire (XOrder k' fs d))) = [] /\
                 answers_from w1 (map (Sent (w_id r0)) (wire (XOrder k' fs d))) = []).
    { intros w1 Hw1. destruct (wire_to (w_id r0) w1 k' fs d) as (_ & W2 & W3). rewrite (proj2 (Nat.eqb_neq _ _) Hw1) in W2. auto. }
    unfold K, manager_moves. cbn [y_m]. unfold hist_given in Eh, Ee. destruct Hk as (_ & [Ht | Ht]).
    + rewrite Ht in Eh, Ee. cbn [Nat.eqb EVAL_SIM] in Eh, Ee.
      destruct (update_history_x_out (k_rows k) w (c_kill c) t (m_h (y_m y))) as [h' e] eqn:Ex. cbn [fst snd] in Eh, Ee. subst e. rewrite Eh.
      split; [apply (hist_ok_op (HXOut (k_rows k) w (c_kill c) t) _ _ HK1 Ex)|].
      pose proof (x_out_frame (k_rows k) w (c_kill c) t (m_h (y_m y))) as F. cbn zeta in F. rewrite Ex in F. cbn [fst snd] in F.
      destruct F as (_&_&_&_&_&_&_&_&_&_&_&F12&F13&_). destruct (F12 eq_refl) as (_ & _ & F14 & _).
      intros i Hi1 Hi2. destruct (in_dec Nat.eq_dec i (k_rows k)) as [Hin|Hin].
      * destruct (F14 i Hin) as (_ & Fw & _). destruct (wget_ids _ _ _ _ Ei Wg) as (r' & G1 & G2).
        exists w, r', (k_rows k). rewrite G2. split; [exact Fw|]. split; [exact G1|]. split; [|exact Hin].
        unfold open. destruct (wire_to (w_id r0) (w_id r0) k' fs d) as (_ & W2 & W3). rewrite Nat.eqb_refl in W2.
        rewrite El, orders_to_app, answers_app, W2, W3, Eo, app_nil_r, A1, A3, Ht. reflexivity.
      * revert i Hi1 Hi2 Hin. assert (HX : forall i, ~ In i (k_rows k) -> is_set h' i F_sim_started -> ~ is_set h' i F_sim_ended -> 
          exists w1 r rows, cell (h_rows h') i F_sim_worker = Some (vint (Z.of_nat w1)) /\ wget (c_gom c) (m_W m') w1 = Some r /\ open (m_log m') (w_id r) rows /\ In i rows).
        { intros i Hin Hi1 Hi2. rewrite (set_of_cell (m_h (y_m y)) h' i) in Hi1, Hi2 by (apply F13; auto).
          destruct (HK2 i Hi1 Hi2) as (w1 & r & rows & E1 & E2 & E3 & E4).
          destruct (wget_ids _ _ _ _ Ei E2) as (r' & G1 & G2). destruct (Htr _ (Hop _ _ E3)) as (D1 & D2).
          exists w1, r', rows. rewrite G2, F13 by auto. rewrite El. split; [exact E1|]. split; [exact G1|]. split; [now apply open_app|exact E4]. }
        auto.
    + rewrite Ht in Eh, Ee. cbn [Nat.eqb EVAL_SIM EVAL_GEN] in Eh, Ee.
      destruct (update_history_to_gen (k_rows k) t (m_h (y_m y))) as [h' e] eqn:Ex. cbn [fst snd] in Eh, Ee. subst e. rewrite Eh.
      split; [apply (hist_ok_op (HToGen (k_rows k) t) _ _ HK1 Ex)|].
      pose proof (to_gen_frame (k_rows k) t (m_h (y_m y))) as F. cbn zeta in F. rewrite Ex in F. cbn [fst snd] in F.
      destruct F as (_&_&_&_&_&_&_&_&_&_&_&_&_&_&_&F16&_).
      eapply held_keep; [exact HK2|exact Ei|exact El|]. intros i Hi1 Hi2.
      assert (X : forall f, f <> F_gen_informed -> f <> F_gen_informed_time -> cell (h_rows h') i f = cell (h_rows (m_h (y_m y))) i f) by (intros f N1 N2; apply F16; auto).
      rewrite (set_of_cell (m_h (y_m y)) h' i) in Hi1, Hi2 by (apply X; discriminate).
      split; [exact Hi1|]. split; [exact Hi2|]. split; [apply X; discriminate|]. intros w1 rows1 Ho _. apply Htr. eauto.
  - pose proof HJ as (H1 & H2 & H3 & H4).
    destruct (poll_spec _ _ _ _ _ _ _ H1 E) as [(Hn & _)|(r0 & In0 & Ew & G1 & G2 & Gh & G4 & G5)]; [contradiction|].
    specialize (G5 eq_refl). destruct G4 as [(El & Ee & Herr)|(Bad & _)]; [|discriminate].
    destruct (H4 _ In0) as (P1 & P2 & o & p & items & L1 & L2 & L3 & L4 & L5). rewrite Ew in L1, L3.
    assert (Hord : forall w1, orders_to w1 [Got w i] = []) by reflexivity.
    unfold K, manager_moves. cbn [y_m].
    assert (Hlog : m_h m' = m_h (y_m y) -> (forall w1, answers_from w1 [Got w i] = []) -> K (mkSys m' (y_w y))).
    { intros Eh Ha. unfold K. cbn [y_m]. rewrite Eh. split; [exact HK1|]. eapply held_keep; [exact HK2|exact G2|exact El|]. auto. }
    destruct (link_tail U _ _ _ _ _ L1 Eq) as [(-> & _)|[(k & a & -> & -> & -> & Hf & Hke & Hkp & _)|(k & -> & ->)]].
    + apply Hlog; auto.
    + assert (Hfs : fin_status a = false) by (apply (HS w); rewrite Eq; now left).
      destruct G5 as (_ & _ & _ & Gs & Gg & _). specialize (Gs Hfs). specialize (Gg Hfs). destruct Hf as (F1 & F2 & F3).
      assert (Hq : orders_to w (m_log (y_m y)) = answers_from w (m_log (y_m y)) ++ [(n_type a, n_rows a)]) by (rewrite L3; cbn [as_pair]; now rewrite F1, F2).
      assert (Hoth : forall w1, w1 <> w -> answers_from w1 [Got w (IData a)] = []).
      { intros w1 Hw1. cbn. rewrite (proj2 (Nat.eqb_neq w w1)) by congruence. reflexivity. }
      assert (Ht : n_type a = EVAL_SIM \/ n_type a = EVAL_GEN).
      { rewrite F1. inversion L1; subst; match goal with Hs : shot k |- _ => apply Hs end. }
      destruct Ht as [Ht | Ht].
      * destruct (Gs Ht) as [(_ & Bad & _)|(_ & Eh & Er)]; [congruence|].
        destruct (update_history_f (n_rows a) (out_arr (n_out a)) (c_kill c) t (m_h (y_m y))) as [h' e] eqn:Ef. cbn [fst snd] in Eh, Er. subst e. rewrite Eh.
        split; [apply (hist_ok_op (HF (n_rows a) (out_arr (n_out a)) (c_kill c) t) _ _ HK1 Ef)|].
        eapply held_keep; [exact HK2|exact G2|exact El|]. intros i Hi1 Hi2.
        destruct (f_under_way _ _ _ _ _ _ _ HK1 Ef Hi1 Hi2) as (U1 & U2 & U3 & U4). repeat (split; [assumption|]).
        intros w1 rows1 Ho Hi. split; [reflexivity|]. apply Hoth. intros ->. unfold open in Ho. rewrite Hq in Ho. apply app_inj_tail in Ho as (_ & Ho). injection Ho as _ Ho. subst rows1. auto.
      * destruct (Gg Ht) as (D & _ & Eh & Er).
        destruct (update_history_x_in w D (w_gstart r0) t (m_h (y_m y))) as [h' e] eqn:Ef. cbn [fst snd] in Eh, Er. subst e. rewrite Eh.
        split; [apply (hist_ok_op (HXIn w D (w_gstart r0) t) _ _ HK1 Ef)|].
        eapply held_keep; [exact HK2|exact G2|exact El|]. intros i Hi1 Hi2.
        destruct (x_in_under_way _ _ _ _ _ _ _ HK1 Ef Hi1 Hi2) as (U1 & U2 & U3). repeat (split; [assumption|]).
        intros w1 rows1 Ho Hi. split; [reflexivity|]. apply Hoth. intros ->. unfold open in Ho. rewrite Hq in Ho. apply app_inj_tail in Ho as (_ & Ho). injection Ho as Ho _. rewrite Ht in Ho. discriminate.
    + exfalso. destruct G5 as (G5 & _). congruence.
  - destruct (kill_cancelled_spec _ _ _ _ E) as ((T1 & T2 & T3 & T4) & (l & El & Fl) & _ & Hh). specialize (Hh eq_refl).
    assert (Hl : forall e, In e l -> exists v, e = Sent v (OStop SIG_KILL)).
    { intros e He. rewrite Forall_forall in Fl. destruct (Fl e He) as (v & _ & ->). eauto. }
    assert (Htr : forall w1, orders_to w1 l = [] /\ answers_from w1 l = []).
    { intros w1. destruct (kill_traffic w1 l Hl) as (K1 & K2 & _). auto. }
    pose proof (kill_frame (m_h (y_m y))) as F. cbn zeta in F. destruct F as (_&_&_&_&_&_&_&_&_&_&_&_&_&F14&_).
    unfold K, manager_moves. cbn [y_m].
    assert (Hx : (forall i f, f <> F_kill_sent -> cell (h_rows (m_h m')) i f = cell (h_rows (m_h (y_m y))) i f) /\ hist_ok (m_h m')).
    { destruct Hh as [Hh|(Hh & Hn)]; rewrite Hh; [auto|]. split; [exact F14|]. apply (hist_ok_op HKill (m_h (y_m y)) _ HK1). cbn [hstep]. rewrite <- Hn. apply surjective_pairing. }
    destruct Hx as (Hx & Hx2). split; [exact Hx2|]. eapply held_keep; [exact HK2|now rewrite T1|exact El|]. intros i Hi1 Hi2.
    rewrite (set_of_cell (m_h (y_m y)) (m_h m') i) in Hi1, Hi2 by (apply Hx; discriminate).
    split; [exact Hi1|]. split; [exact Hi2|]. split; [apply Hx; discriminate|]. auto.
  - unfold K. cbn [y_m set_h m_h]. split; [now apply hist_ok_edit|]. destruct HK1 as (_ & Hi & _).
    eapply held_keep; [exact HK2|reflexivity|cbn; symmetry; apply app_nil_r|]. intros i Hi1 Hi2.
    assert (X : forall f, given_columns f -> cell (h_rows (alloc_edit ed (m_h (y_m y)))) i f = cell (h_rows (m_h (y_m y))) i f) by (intros f Hf; now apply edit_cell).
    rewrite (set_of_cell (m_h (y_m y)) _ i _ (X _ (or_introl eq_refl))) in Hi1.
    rewrite (set_of_cell (m_h (y_m y)) _ i _ (X _ (or_intror (or_intror eq_refl)))) in Hi2.
    split; [exact Hi1|]. split; [exact Hi2|]. split; [apply X; right; left; reflexivity|]. auto.
  - split; assumption.
  - split; assumption.
Qed.

Lemma K_start m outs H0 n zeros gens rm pin : 0 < m -> H0_scalar H0 -> H0_finished H0 ->
  K (start_sys (init_manager c (init_history m outs H0 true) n zeros gens rm pin)).
Proof.
  intros Hm Hs Hf. unfold K. cbn [y_m start_sys init_manager m_h]. split.
  - unfold hist_ok. repeat split; try (apply init_column; cbn; tauto); try (apply init_shape; cbn; tauto).
    rewrite init_length. cbn. lia.
  - intros i Hi1 Hi2. exfalso. apply Hi2.
    destruct (Nat.lt_ge_cases i (length (a_rows H0))) as [L|L].
    2:{ exfalso. revert Hi1. apply init_back; auto. left. reflexivity. }
    destruct (nth_error (a_rows H0) i) as [r0|] eqn:E; [|apply nth_error_None in E; lia].
    destruct (has F_sim_started (names (a_dtype H0))) eqn:Es.
    2:{ apply has_false in Es. now apply (init_H0_done m outs H0 true i Hm L Es). }
    destruct Hi1 as (v & Hv & Ht). unfold cell in Hv. rewrite (init_nth _ _ _ _ _ _ Hm E) in Hv. cbn in Hv. injection Hv as <-.
    unfold is_set, cell. rewrite (init_nth _ _ _ _ _ _ Hm E). cbn. eexists. split; [reflexivity|].
    assert (Hin : In r0 (a_rows H0)) by (eapply nth_error_In; eauto).
    destruct (row_from_cells (a_dtype H0) (init_dtype outs H0) i r0) as (R1 & _ & R3 & _).
    rewrite (R1 _ Es) in Ht by discriminate. cbn in Ht.
    destruct (has F_sim_ended (names (a_dtype H0))) eqn:Ee.
    + rewrite (R1 _ Ee) by auto. cbn. rewrite Hf; auto. destruct (truthy (r0 F_sim_started)); [reflexivity|discriminate].
    + rewrite (R3 Es eq_refl). exact Ht.
Qed.

(** ** One pass of the kill step *)

Lemma kill_pass_rows h h' e ws z : kill_pass h = ((h', e), ws) -> In z ws ->
  exists i, In i (kill_rows h) /\ cell (h_rows h) i F_sim_worker = Some (match cell (h_rows h) i F_sim_worker with Some v => v | None => vint 0 end) /\
    z = match cell (h_rows h) i F_sim_worker with Some v => as_int v | None => 0%Z end.
Proof.
  unfold kill_pass. destruct (negb _); [intros [= <- <- <-] []|].
  set (ks := kill_rows h). intros H Hz.
  assert (G : In z (map (fun r => as_int (r F_sim_worker)) (rows_at h ks))).
  { destruct ks as [|k0 ks0]; [injection H as <- <- <-; destruct Hz|].
    destruct (norm_idxs _ _); injection H as <- <- <-; [exact Hz|].
    destruct (map _ _) eqn:Em; [destruct Hz|]. cbn in Hz. destruct Hz as [<-|[]]. now left. }
  apply in_map_iff in G as (r & <- & Hr). unfold rows_at in Hr. apply in_flat_map in Hr as (i & Hi & Hr).
  exists i. split; [exact Hi|]. unfold cell. destruct (nth_error (h_rows h) i); [|destruct Hr]. destruct Hr as [<-|[]]. auto.
Qed.

Lemma kill_sends y m' v o : J y -> K y -> kill_cancelled c (y_m y) = (m', None) -> In (Sent v o) (new_events (y_m y) m') ->
  o = OStop SIG_KILL /\ c_kill c = true /\
  exists i rows, cancelled (m_h (y_m y)) i /\ open (m_log (y_m y)) v rows /\ In i rows.
Proof.
  intros HJ (HK1 & HK2) E Hin. unfold kill_cancelled in E. destruct (c_kill c) eqn:Ec.
  2:{ injection E as <-. rewrite (new_events_app _ _ []) in Hin by (now rewrite app_nil_r). destruct Hin. }
  destruct (kill_pass (m_h (y_m y))) as [[h' e0] ws] eqn:EK.
  assert (G : forall ws m m1 e1, foldx (fun z => send c (Z.to_nat z) (OStop SIG_KILL)) ws m = (m1, e1) ->
     m_W m1 = m_W m /\ exists l, m_log m1 = m_log m ++ l /\ forall x, In x l -> exists z r, In z ws /\ wget (c_gom c) (m_W m) (Z.to_nat z) = Some r /\ x = Sent (w_id r) (OStop SIG_KILL)).
  { induction ws0 as [|z zs IH]; intros a b e1; cbn [foldx].
    - intros [= <- <-]. split; [reflexivity|]. exists []. rewrite app_nil_r. split; [reflexivity|]. intros x [].
    - destruct (send c (Z.to_nat z) (OStop SIG_KILL) a) as [a1 [e2|]] eqn:ES; cbn [bindx];
        apply send_spec in ES as [[ES1 ES2]|[ES1 (r&ES2&ES3&ES4)]]; try discriminate.
      + intros [= <- <-]. subst. split; [reflexivity|]. exists []. rewrite app_nil_r. split; [reflexivity|]. intros x [].
      + intros H. apply IH in H as (I1 & l & I2 & I3). subst a1. cbn [m_W m_log logev] in *. split; [exact I1|].
        exists (Sent (w_id r) (OStop SIG_KILL) :: l). split; [rewrite I2, <- app_assoc; reflexivity|].
        intros x [<-|Hx]; [exists z, r; auto using in_eq|]. destruct (I3 x Hx) as (z' & r' & A & B & D). exists z', r'. auto using in_cons. }
  destruct (foldx _ ws (y_m y)) as [m1 e1] eqn:EF. apply G in EF as (G1 & l & G2 & G3).
  destruct e1 as [e1|]; cbn [bindx] in E; [discriminate|]. injection E as <- ->.
  rewrite (new_events_app _ _ l) in Hin by exact G2. destruct (G3 _ Hin) as (z & r & Hz & Hg & Hx). injection Hx as -> ->.
  split; [reflexivity|]. split; [reflexivity|].
  destruct (kill_pass_rows _ _ _ _ _ EK Hz) as (i & Hi & _ & Ez). apply kill_rows_In in Hi as (_ & Q1 & Q2 & Q3 & _ & Q4).
  destruct (HK2 i Q1 Q3) as (w & r' & rows & E1 & E2 & E3 & E4). rewrite E1 in Ez. cbn in Ez. subst z. rewrite Nat2Z.id in Hg.
  assert (r' = r) by congruence. subst r'. exists i, rows. repeat split; auto.
Qed.

(** ** Every signal in the record *)

Definition Past (m0 : mgr) (y : sys U) : Prop :=
  forall before v after, m_log (y_m y) = before ++ Sent v (OStop SIG_KILL) :: after ->
  exists y1 l i rows, ksteps (start_sys m0) y1 /\ ksteps y1 y /\ before = m_log (y_m y1) ++ l /\
    (forall e, In e l -> exists u, e = Sent u (OStop SIG_KILL)) /\
    open (m_log (y_m y1)) v rows /\ In i rows /\ cancelled (m_h (y_m y1)) i.

Lemma split_at {A} (a b before after : list A) x : a ++ b = before ++ x :: after ->
  (exists r, a = before ++ x :: r /\ after = r ++ b) \/ (exists p, before = a ++ p /\ b = p ++ x :: after).
Proof.
  revert before. induction a as [|y a IH]; intros before E; cbn in E.
  - right. exists before. auto.
  - destruct before as [|z before]; cbn in E; injection E as <- E.
    + left. exists a. auto.
    + destruct (IH _ E) as [(r & -> & ->)|(p & -> & ->)]; [left; exists r; auto|right; exists p; auto].
Qed.

Lemma Past_more m0 y y' l : Past m0 y -> ksteps (start_sys m0) y -> kstep y y' -> m_log (y_m y') = m_log (y_m y) ++ l ->
  (forall v, ~ In (Sent v (OStop SIG_KILL)) l) -> Past m0 y'.
Proof.
  intros H Hy Hs El Hl before v after E. rewrite El in E. apply split_at in E as [(r & E & _)|(p & _ & E)].
  - destruct (H _ _ _ E) as (y1 & l1 & i & rows & A1 & A2 & A3). exists y1, l1, i, rows. split; [exact A1|]. split; [eapply kt_step; eauto|exact A3].
  - exfalso. apply (Hl v). rewrite E. apply in_or_app. right. now left.
Qed.

Lemma Past_step m0 y y' : ksteps (start_sys m0) y -> J y -> K y -> Past m0 y -> kstep y y' -> Past m0 y'.
Proof.
  intros Hy HJ HK HP E. pose proof E as E0. destruct E as [t w k m' Hk E|t w i rest m' Hw Eq E|m' E|ed He|w b s' E|w].
  - destruct (give_log _ _ _ _ _ HJ Hk E) as (r0 & k' & fs & d & _ & _ & _ & _ & El & _).
    refine (Past_more _ _ _ _ HP Hy E0 El _). intros v Hv. apply in_map_iff in Hv as (o & Ho & Hin). injection Ho as <- ->. cbn in Hin.
    destruct (k_rows k'); cbn in Hin; repeat destruct Hin as [Hin|Hin]; try discriminate; contradiction.
  - destruct HJ as (H1 & _). destruct (poll_spec _ _ _ _ _ _ _ H1 E) as [(Hn & _)|(r0 & _ & _ & _ & _ & _ & G4 & _)]; [contradiction|].
    destruct G4 as [(El & _)|(Bad & _)]; [|discriminate].
    refine (Past_more _ _ _ _ HP Hy E0 El _). intros v [Hv|[]]. discriminate.
  - destruct (kill_cancelled_spec _ _ _ _ E) as (_ & (l & El & Fl) & _).
    intros before v after Eb. cbn [manager_moves y_m] in Eb. rewrite El in Eb. apply split_at in Eb as [(r & Eb & _)|(p & Eb & Ep)].
    + destruct (HP _ _ _ Eb) as (y1 & l1 & i & rows & A1 & A2 & A3). exists y1, l1, i, rows. split; [exact A1|]. split; [eapply kt_step; eauto|exact A3].
    + assert (Hin : In (Sent v (OStop SIG_KILL)) (new_events (y_m y) m')).
      { rewrite (new_events_app _ _ _ El), Ep. apply in_or_app. right. now left. }
      destruct (kill_sends _ _ _ _ HJ HK E Hin) as (_ & _ & i & rows & Q1 & Q2 & Q3).
      exists y, p, i, rows. split; [exact Hy|]. split; [eapply kt_step; [apply kt_refl|exact E0]|]. split; [exact Eb|].
      split. { intros e He. rewrite Forall_forall in Fl. destruct (Fl e) as (u & _ & ->); [rewrite Ep; apply in_or_app; now left|]. eauto. }
      auto.
  - refine (Past_more _ _ _ [] HP Hy E0 _ _); [symmetry; apply app_nil_r|]. intros v [].
  - refine (Past_more _ _ _ [] HP Hy E0 _ _); [symmetry; apply app_nil_r|]. intros v [].
  - refine (Past_more _ _ _ [] HP Hy E0 _ _); [symmetry; apply app_nil_r|]. intros v [].
Qed.

Lemma K_reach m outs H0 n zeros gens rm pin y : 0 < m -> H0_scalar H0 -> H0_finished H0 ->
  let m0 := init_manager c (init_history m outs H0 true) n zeros gens rm pin in
  ksteps (start_sys m0) y -> J y /\ T y /\ S1 y /\ K y /\ Past m0 y /\ yreach U ustart ustep kd c one_shot m0 y.
Proof.
  intros Hm Hs Hf m0 H. induction H as [|y y' H (I1 & I2 & I3 & I4 & I5 & I6) E].
  - split; [apply J_start|]. split; [apply T_start|]. split; [intros w a []|]. split; [now apply K_start|].
    split; [|constructor]. intros before v after Eb. destruct before; discriminate.
  - pose proof (kstep_ystep _ _ E) as Ey. split; [eapply J_step; eauto|]. split; [eapply T_step; eauto|]. split; [eapply S1_step; eauto|].
    split; [eapply K_step; eauto|]. split; [eapply Past_step; eauto|]. eapply yr_step; eauto.
Qed.

End K.
