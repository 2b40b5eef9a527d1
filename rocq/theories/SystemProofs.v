(** Invariants of the whole ensemble with one-shot calculations. *)
From Verif Require Import Base BaseLemmas HistoryModel HistorySpec RsetModel WorkModel ManagerModel ManagerSpec ManagerProofs ManagerMsg ManagerRun ManagerInv
  CommsModel WorkerModel WorkerSpec WorkerProofs WorkerFrames SystemModel SystemSpec.

Arguments y_m {U}. Arguments y_w {U}. Arguments mkSys {U}. Arguments arrive_all {U}. Arguments deliver {U}.
Arguments set_worker {U}. Arguments set_out {U}. Arguments manager_moves {U}. Arguments start_sys {U}.

Lemma parse_status r st0 v st : parse_out r st0 = Some (v, st) -> st = st0 \/ own_status r st \/ 999 <= st.
Proof.
  unfold parse_out. destruct r as [[|A|A i|n|n| |]|l]; try discriminate.
  1-3: try (destruct (length (a_rows A) =? 2)); intros H; injection H as <- <-; auto.
  destruct l as [|a [|b [|d [|e l]]]]; try discriminate.
  - intros H; injection H as <- <-; auto.
  - intros H; injection H as <- <-; auto.
  - destruct b as [|A|A i|n|n| |]; intros H; injection H as <- <-; auto.
    + right. left. constructor.
    + right. right. cbn. lia.
  - destruct d as [|A|A i|n|n| |]; intros H; injection H as <- <-; cbn; auto; try (right; right; lia).
    right. left. constructor.
Qed.

Lemma kills_cons o l : kills (o :: l) -> o = OStop SIG_KILL /\ kills l.
Proof. intros H. split; [apply H; now left|]. intros x Hx. apply H. now right. Qed.
Lemma kills_app a b : kills a -> kills b -> kills (a ++ b).
Proof. intros Ha Hb o Ho. apply in_app_or in Ho as [Ho|Ho]; auto. Qed.
Lemma quiet_snoc l : quiet l -> quiet (l ++ [ILog]).
Proof. intros H i Hi. apply in_app_or in Hi as [Hi|[<-|[]]]; auto. Qed.
Lemma kills_nil : kills [].
Proof. intros o []. Qed.
Lemma quiet_nil : quiet [].
Proof. intros o []. Qed.

Section Sys.
Variable U : Type.
Variable ustart : work -> list field -> list (list val) -> U.
Variable ustep : U -> uact U.
Variable kd : kind.
Variable c : mcfg.
Hypothesis Hplain : plain ustep.
Hypothesis Hstatus : honest_status ustep.
Notation wstep := (WorkerModel.wstep ustart ustep kd).
Notation ystep := (ystep U ustart ustep kd c).
Notation yreach := (yreach U ustart ustep kd c).

Definition shot (k : work) : Prop := k_persistent k = false /\ k_recv k = None /\ (k_tag k = EVAL_SIM \/ k_tag k = EVAL_GEN).

(** [standing] with the order that has not reached the user function *)
Inductive link : option work -> wst U -> list (work * list field * list (list val)) -> Prop :=
| lk_idle s : s_place s = AtTop -> kills (waiting (s_comm s)) -> quiet (q_out (s_comm s)) -> link None s []
| lk_sent k fs d b1 b2 s : shot k -> s_place s = AtTop ->
    waiting (s_comm s) = b1 ++ wire (XOrder k fs d) ++ b2 -> kills b1 -> kills b2 ->
    quiet (q_out (s_comm s)) -> link (Some k) s (order_of (XOrder k fs d))
| lk_rows k fs d b2 s : shot k -> s_place s = AtRows k false -> k_rows k <> [] ->
    waiting (s_comm s) = ORows fs d :: b2 -> kills b2 -> quiet (q_out (s_comm s)) -> link (Some k) s [(k, fs, d)]
| lk_calc k u s : shot k -> s_place s = InCalc k (k_rows k) u -> kills (waiting (s_comm s)) -> quiet (q_out (s_comm s)) ->
    link (Some k) s []
| lk_answer k a o1 o2 s : s_place s = AtTop -> kills (waiting (s_comm s)) ->
    q_out (s_comm s) = o1 ++ IData a :: o2 -> quiet o1 -> quiet o2 -> from_order k (k_rows k) a -> n_keep a = false -> shot k -> link (Some k) s []
| lk_failed k o1 o2 s : s_place s = Left -> kills (waiting (s_comm s)) ->
    q_out (s_comm s) = o1 ++ IErr :: o2 -> quiet o1 -> quiet o2 -> shot k -> link (Some k) s [].

Lemma link_standing o s p : link o s p -> standing o s /\ not_started s p.
Proof.
  intros H. destruct H as [s H1 H2 H3|k fs d b1 b2 s H0 H1 H2 H3 H4 H5|k fs d b2 s H0 H1 H2 H3 H4 H5|k u s H0 H1 H2 H3
    |k a o1 o2 s H1 H2 H3 H4 H5 H6 H7|k o1 o2 s H1 H2 H3 H4 H5]; (split; [|unfold not_started; rewrite H1]).
  - now apply st_idle.
  - cbn. lia.
  - now apply (st_on_its_way k fs d b1 b2).
  - cbn. destruct (k_rows k); cbn; lia.
  - now apply (st_rows_coming k fs d b2).
  - cbn. lia.
  - now apply (st_computing k u).
  - reflexivity.
  - now apply (st_answered k a o1 o2).
  - cbn. lia.
  - now apply (st_failed k o1 o2).
  - reflexivity.
Qed.

(** ** Messages arriving, log records *)

Lemma arrive_waiting l (s : wst U) : waiting (s_comm (arrive_all l s)) = waiting (s_comm s) ++ l.
Proof. unfold waiting, arrive_all. cbn. now destruct (q_buf (s_comm s)). Qed.

Lemma link_kills l o s p : link o s p -> kills l -> link o (arrive_all l s) p.
Proof.
  intros H Hl. destruct H as [s H1 H2 H3|k fs d b1 b2 s H0 H1 H2 H3 H4 H5|k fs d b2 s H0 H1 H2 H3 H4 H5|k u s H0 H1 H2 H3
    |k a o1 o2 s H1 H2 H3 H4 H5 H6 H7 H8|k o1 o2 s H1 H2 H3 H4 H5 H8].
  - apply lk_idle; auto. rewrite arrive_waiting. now apply kills_app.
  - apply (lk_sent k fs d b1 (b2 ++ l)); auto; [|now apply kills_app]. rewrite arrive_waiting, H2. now rewrite <- !app_assoc.
  - apply (lk_rows k fs d (b2 ++ l)); auto; [|now apply kills_app]. rewrite arrive_waiting, H3. reflexivity.
  - apply (lk_calc k u); auto. rewrite arrive_waiting. now apply kills_app.
  - apply (lk_answer k a o1 o2); auto. rewrite arrive_waiting. now apply kills_app.
  - apply (lk_failed k o1 o2); auto. rewrite arrive_waiting. now apply kills_app.
Qed.

Lemma link_note o s p : link o s p -> link o (set_out (q_out (s_comm s) ++ [ILog]) s) p.
Proof.
  intros H. destruct H as [s H1 H2 H3|k fs d b1 b2 s H0 H1 H2 H3 H4 H5|k fs d b2 s H0 H1 H2 H3 H4 H5|k u s H0 H1 H2 H3
    |k a o1 o2 s H1 H2 H3 H4 H5 H6 H7 H8|k o1 o2 s H1 H2 H3 H4 H5 H8].
  - apply lk_idle; auto. now apply quiet_snoc.
  - apply (lk_sent k fs d b1 b2); auto. now apply quiet_snoc.
  - apply (lk_rows k fs d b2); auto. now apply quiet_snoc.
  - apply (lk_calc k u); auto. now apply quiet_snoc.
  - apply (lk_answer k a o1 (o2 ++ [ILog])); auto; [|now apply quiet_snoc]. cbn. rewrite H3. now rewrite <- app_assoc.
  - apply (lk_failed k o1 (o2 ++ [ILog])); auto; [|now apply quiet_snoc]. cbn. rewrite H3. now rewrite <- app_assoc.
Qed.

(** the manager takes a log record *)
Lemma link_tail i rest o s p : link o s p -> q_out (s_comm s) = i :: rest ->
  (i = ILog /\ link o (set_out rest s) p) \/
  (exists k a, i = IData a /\ o = Some k /\ p = [] /\ from_order k (k_rows k) a /\ n_keep a = false /\ k_persistent k = false /\
     link None (set_out rest s) []) \/
  (exists k, i = IErr /\ o = Some k).
Proof.
  intros H Eq. assert (Htl : forall l, quiet (i :: l) -> i = ILog /\ quiet l).
  { intros l Hl. split; [apply Hl; now left|]. intros x Hx. apply Hl. now right. }
  destruct H as [s H1 H2 H3|k fs d b1 b2 s H0 H1 H2 H3 H4 H5|k fs d b2 s H0 H1 H2 H3 H4 H5|k u s H0 H1 H2 H3
    |k a o1 o2 s H1 H2 H3 H4 H5 H6 H7 H8|k o1 o2 s H1 H2 H3 H4 H5 H8].
  - rewrite Eq in H3. destruct (Htl _ H3). left. split; [assumption|]. now apply lk_idle.
  - rewrite Eq in H5. destruct (Htl _ H5). left. split; [assumption|]. now apply (lk_sent k fs d b1 b2).
  - rewrite Eq in H5. destruct (Htl _ H5). left. split; [assumption|]. now apply (lk_rows k fs d b2).
  - rewrite Eq in H3. destruct (Htl _ H3). left. split; [assumption|]. now apply (lk_calc k u).
  - rewrite Eq in H3. destruct o1 as [|x o1]; cbn in H3; injection H3 as -> ->.
    + right. left. exists k, a. destruct H8 as (H8 & _). repeat split; auto; try apply H6. now apply lk_idle.
    + left. destruct (Htl _ H4) as (-> & H4'). split; [reflexivity|]. now apply (lk_answer k a o1 o2).
  - rewrite Eq in H3. destruct o1 as [|x o1]; cbn in H3; injection H3 as -> ->.
    + right. right. eauto.
    + left. destruct (Htl _ H4) as (-> & H4'). split; [reflexivity|]. now apply (lk_failed k o1 o2).
Qed.

(** ** Worker steps *)

Lemma shot_tag k : shot k -> (k_tag k =? EVAL_SIM) || (k_tag k =? EVAL_GEN) = true.
Proof. intros (_ & _ & [-> | ->]); reflexivity. Qed.

Lemma link_call k fs d s : shot k -> kills (waiting (s_comm s)) -> quiet (q_out (s_comm s)) ->
  link (Some k) (call ustart k fs d s) [].
Proof.
  intros H1 H2 H3. unfold call. rewrite (shot_tag k H1). apply (lk_calc k (ustart k fs d)); auto.
Qed.

Lemma link_fails k s : shot k -> kills (waiting (s_comm s)) -> quiet (q_out (s_comm s)) -> link (Some k) (fails s) [].
Proof.
  intros H1 H2 H3. apply (lk_failed k (q_out (s_comm s)) []); auto. intros i [].
Qed.

Definition log_grows (s s' : wst U) (p p' : list (work * list field * list (list val))) : Prop :=
  orders_reached (s_log s') ++ p' = orders_reached (s_log s) ++ p.

Lemma grow_drop (s s' : wst U) e p : s_log s' = s_log s ++ [e] -> reached e = [] -> log_grows s s' p p.
Proof. intros E H. unfold log_grows. rewrite E, reached_app. cbn. now rewrite H, !app_nil_r. Qed.

Lemma link_step b o s s' p : link o s p -> wstep b s = Some s' -> exists p', link o s' p' /\ log_grows s s' p p'.
Proof.
  intros H E. unfold WorkerModel.wstep in E. destruct H as [s H1 H2 H3|k fs d b1 b2 s H0 H1 H2 H3 H4 H5|k fs d b2 s H0 H1 H2 H3 H4 H5|k u s H0 H1 H2 H3
    |k a o1 o2 s H1 H2 H3 H4 H5 H6 H7 H8|k o1 o2 s H1 H2 H3 H4 H5 H8]; rewrite H1 in E.
  - destruct (comm_recv (s_comm s)) as [[o q]|] eqn:Er; [|discriminate]. injection E as <-.
    destruct (recv_waiting _ _ _ Er) as (Ew & Eb & Eo). rewrite Ew in H2. destruct (kills_cons _ _ H2) as (-> & Hk). cbn.
    eexists. split; [apply lk_idle; cbn; auto; now rewrite Eo|]. now apply (grow_drop _ _ (VDrop (OStop SIG_KILL))).
  - destruct (comm_recv (s_comm s)) as [[o q]|] eqn:Er; [|discriminate]. injection E as <-.
    destruct (recv_waiting _ _ _ Er) as (Ew & Eb & Eo). rewrite H2 in Ew.
    destruct b1 as [|x b1]; cbn [app] in Ew.
    + destruct H0 as (Hp & Hr & Ht). cbn [wire] in Ew. destruct (k_rows k) as [|i rows] eqn:Ek; cbn in Ew; injection Ew as <- Ew.
      * rewrite Hr, Ek. exists []. split; [apply link_call; cbn; [split; auto|now rewrite <- Ew|now rewrite Eo]|].
        unfold log_grows, call. rewrite shot_tag by (split; auto). cbn [s_log inform goto with_comm order_of]. rewrite reached_app, Ek. cbn.
        now rewrite app_nil_r.
      * rewrite Hr, Ek. exists [(k, fs, d)]. split.
        -- apply (lk_rows k fs d b2); cbn; auto; [split; auto|rewrite Ek; discriminate|now rewrite Eo].
        -- unfold log_grows. cbn [s_log goto with_comm order_of]. now rewrite Ek.
    + injection Ew as <- Ew. destruct (kills_cons _ _ H3) as (-> & Hk). cbn.
      eexists. split; [apply (lk_sent k fs d b1 b2); cbn; auto; now rewrite Eo|].
      now apply (grow_drop _ _ (VDrop (OStop SIG_KILL))).
  - destruct (comm_recv (s_comm s)) as [[o q]|] eqn:Er; [|discriminate]. injection E as <-.
    destruct (recv_waiting _ _ _ Er) as (Ew & Eb & Eo). rewrite H3 in Ew. injection Ew as <- Ew.
    exists []. split; [apply link_call; cbn; auto; [now rewrite <- Ew|now rewrite Eo]|].
    unfold log_grows, call. rewrite shot_tag by auto. cbn [s_log inform goto with_comm]. rewrite reached_app. cbn. now rewrite app_nil_r.
  - specialize (Hplain u). destruct (ustep u) as [u'|v st keep u'|blocking g|g|r|] eqn:Eu; try contradiction.
    + injection E as <-. exists []. split; [now apply (lk_calc k u')|reflexivity].
    + destruct (comm_mail kd (s_comm s) && b).
      * destruct (comm_recv (s_comm s)) as [[o q]|] eqn:Er; [|discriminate]. injection E as <-.
        destruct (recv_waiting _ _ _ Er) as (Ew & Eb & Eo). assert (Hw := H2). rewrite Ew in H2. destruct (kills_cons _ _ H2) as (-> & Hk).
        rewrite push_ok by exact Eb. exists []. split; [|reflexivity].
        eapply (lk_calc k); cbn; auto; [|now rewrite Eo].
        unfold waiting in *. cbn. rewrite Eb in Ew. now rewrite <- Ew.
      * injection E as <-. exists []. split; [now eapply (lk_calc k)|reflexivity].
    + injection E as <-. unfold returned.
      set (q := match q_buf (s_comm s) with Some o => _ | None => (s, 0) end).
      assert (Hq : kills (waiting (s_comm (fst q))) /\ q_out (s_comm (fst q)) = q_out (s_comm s) /\ snd q = 0 /\
                   orders_reached (s_log (fst q)) = orders_reached (s_log s)).
      { subst q. unfold comm_recv, waiting in *. destruct (q_buf (s_comm s)) as [o|] eqn:Eb; cbn [fst snd]; [|rewrite Eb; auto].
        destruct (kills_cons _ _ H2) as (-> & Hk). cbn [s_comm s_log with_comm inform q_buf q_in q_out]. repeat split; auto.
        rewrite reached_app. cbn. apply app_nil_r. }
      destruct q as [s1 st0]. cbn [fst snd] in Hq. destruct Hq as (Hk & Eo & -> & Er).
      destruct (runner_check r) as [r'|] eqn:Ec.
      2:{ exists []. split; [now apply link_fails|]. now apply (grow_drop _ _ VFail). }
      assert (r' = r) by (unfold runner_check in Ec; destruct r as [[]|[|[] ?]]; congruence). subst r'.
      destruct (parse_out r 0) as [[v st]|] eqn:Epar.
      2:{ exists []. split; [apply link_fails; auto; now rewrite Eo|]. unfold log_grows. cbn [s_log fails inform goto emit].
          rewrite reached_app, Er. cbn. now rewrite app_nil_r. }
      destruct (st =? SIG_FINISH) eqn:Es.
      { exfalso. apply Nat.eqb_eq in Es. subst st. destruct (parse_status _ _ _ _ Epar) as [H|[H|H]]; [discriminate| |unfold SIG_FINISH in H; lia].
        exact (Hstatus u r Eu H). }
      exists []. split.
      * eapply (lk_answer k (reply k (k_rows k) v st false) (q_out (s_comm s)) []); cbn; auto.
        -- now rewrite Eo.
        -- apply quiet_nil.
        -- unfold from_order, reply; cbn; auto.
      * unfold log_grows. cbn [s_log inform goto emit]. rewrite reached_app, Er. cbn. now rewrite !app_nil_r.
    + injection E as <-. exists []. split; [now apply link_fails|]. now apply (grow_drop _ _ VFail).
  - destruct (comm_recv (s_comm s)) as [[o q]|] eqn:Er; [|discriminate]. injection E as <-.
    destruct (recv_waiting _ _ _ Er) as (Ew & Eb & Eo). rewrite Ew in H2. destruct (kills_cons _ _ H2) as (-> & Hk). cbn.
    eexists. split; [apply (lk_answer k a o1 o2); cbn; auto; now rewrite Eo|]. now apply (grow_drop _ _ (VDrop (OStop SIG_KILL))).
  - discriminate.
Qed.

(** ** The invariant *)

Definition as_pair (o : option work) : list (nat * list nat) := match o with Some k => [(k_tag k, k_rows k)] | None => [] end.

Definition good_row (m : mgr) (f : nat -> wst U) (r : wrow) : Prop :=
  w_persis r = 0 /\ w_recv r = false /\
  exists o p items, link o (f (w_id r)) p /\
    w_active r = match o with Some k => k_tag k | None => 0 end /\
    orders_to (w_id r) (m_log m) = answers_from (w_id r) (m_log m) ++ as_pair o /\
    sent_to (w_id r) (m_log m) = wires items /\
    orders_in items = orders_reached (s_log (f (w_id r))) ++ p.

Definition J (y : sys U) : Prop :=
  table_ok c (y_m y) /\ m_exc (y_m y) = false /\ m_pending (y_m y) = [] /\
  forall r, In r (m_W (y_m y)) -> good_row (y_m y) (y_w y) r.

Lemma new_events_app m m' l : m_log m' = m_log m ++ l -> new_events m m' = l.
Proof. unfold new_events. intros ->. rewrite skipn_app, skipn_all, Nat.sub_diag. reflexivity. Qed.

Lemma sent_to_app w a b : sent_to w (a ++ b) = sent_to w a ++ sent_to w b.
Proof. apply flat_map_app. Qed.
Lemma orders_to_app w a b : orders_to w (a ++ b) = orders_to w a ++ orders_to w b.
Proof. apply flat_map_app. Qed.
Lemma answers_app w a b : answers_from w (a ++ b) = answers_from w a ++ answers_from w b.
Proof. apply flat_map_app. Qed.
Lemma wires_app a b : wires (a ++ b) = wires a ++ wires b.
Proof. apply flat_map_app. Qed.

Lemma arrive_nil (s : wst U) : arrive_all [] s = s.
Proof. destruct s as [[qi qb qo] pl lg]. unfold arrive_all. cbn. now rewrite app_nil_r. Qed.

(** traffic that does not concern worker w *)
Lemma good_other m m' l f f' r : good_row m f r -> m_log m' = m_log m ++ l ->
  sent_to (w_id r) l = [] -> answers_from (w_id r) l = [] -> f' (w_id r) = f (w_id r) -> good_row m' f' r.
Proof.
  intros (H1 & H2 & o & p & items & H3 & H4 & H5 & H6 & H7) El Hs Ha Ef.
  assert (Ho : orders_to (w_id r) l = []).
  { clear - Hs. induction l as [|e l IH]; [reflexivity|]. change (e :: l) with ([e] ++ l) in *. rewrite sent_to_app in Hs.
    apply app_eq_nil in Hs as (Hs1 & Hs2). rewrite orders_to_app, (IH Hs2), app_nil_r. cbn in *. rewrite app_nil_r in *. destruct e as [v [k|fs d|x|x]|v i]; try reflexivity. destruct (v =? w_id r); [discriminate|reflexivity]. }
  split; [exact H1|]. split; [exact H2|]. exists o, p, items. rewrite Ef, El, orders_to_app, answers_app, sent_to_app, Ho, Hs, Ha, !app_nil_r. auto.
Qed.

(** kill signals *)
Lemma good_kills m m' l f r : good_row m f r -> m_log m' = m_log m ++ l ->
  (forall e, In e l -> exists v, e = Sent v (OStop SIG_KILL)) -> good_row m' (deliver l f) r.
Proof.
  intros (H1 & H2 & o & p & items & H3 & H4 & H5 & H6 & H7) El Hl.
  assert (Hz : orders_to (w_id r) l = [] /\ answers_from (w_id r) l = [] /\
               exists xs, sent_to (w_id r) l = wires xs /\ orders_in xs = [] /\ kills (wires xs)).
  { clear - Hl. induction l as [|e l IH].
    - repeat split; auto. exists []. repeat split. apply kills_nil.
    - destruct (Hl e) as (v & ->); [now left|]. destruct IH as (I1 & I2 & xs & I3 & I4 & I5); [intros e He; apply Hl; now right|].
      split; [exact I1|]. split; [exact I2|]. cbn. destruct (v =? w_id r); [|exists xs; auto].
      exists (XStop SIG_KILL :: xs). cbn. fold (sent_to (w_id r) l). fold (wires xs). rewrite I3. repeat split; auto.
      intros x [<-|Hx]; [reflexivity|now apply I5]. }
  destruct Hz as (Z1 & Z2 & xs & Z3 & Z4 & Z5).
  split; [exact H1|]. split; [exact H2|]. exists o, p, (items ++ xs).
  rewrite El, orders_to_app, answers_app, sent_to_app, Z1, Z2, !app_nil_r, wires_app, Z3, H6, orders_app, Z4, app_nil_r.
  cbn [deliver s_log]. unfold deliver. split; [apply link_kills; [exact H3|now rewrite Z3]|]. auto.
Qed.

Lemma J_give (P : nat -> work -> Prop) t w k m' y : (forall w k, P w k -> one_shot w k) -> P w k -> J y -> give_order c t w k (y_m y) = (m', None) ->
  J (manager_moves y m' (y_w y)).
Proof.
  intros HP Hk (H1 & H2 & H3 & H4) E. destruct (HP _ _ Hk) as (Hp & Ht).
  destruct (give_order_spec _ _ _ _ _ _ _ H1 E) as (G1 & G2 & G3 & G4 & G5 & _ & _ & G6).
  destruct (G6 eq_refl) as (r0 & k' & R1 & R2 & R3 & R4 & R5 & R6 & R7 & R8 & R9 & R10 & R11 & R12). clear G6.
  assert (In0 : In r0 (m_W (y_m y))) by (eapply wget_In; eauto).
  destruct (as_sent_same _ _ R2) as (S1 & S2 & S3 & S4 & S5).
  assert (Hl : exists fs d, m_log m' = m_log (y_m y) ++ map (Sent (w_id r0)) (wire (XOrder k' fs d))).
  { cbn. rewrite S3. destruct (k_rows k) eqn:Ek.
    - exists [], []. rewrite R11 by reflexivity. reflexivity.
    - destruct R12 as (_ & _ & d & _ & Ed); [discriminate|]. exists (k_fields k), d. exact Ed. }
  destruct Hl as (fs & d & El). clear R11 R12.
  unfold manager_moves. rewrite (new_events_app _ _ _ El).
  unfold J. cbn [y_m y_w]. split; [exact G4|]. split; [congruence|]. split; [congruence|].
  intros r Hr. destruct R6 as (T1 & T2 & T3 & T4 & T5). apply T5 in Hr as [-> | [Hr Hne]].
  - destruct (H4 _ In0) as (P1 & P2 & o & p & items & L1 & L2 & L3 & L4 & L5).
    assert (Ha : w_active r0 = 0) by auto. rewrite Ha in L2.
    assert (o = None) by (destruct o as [k1|]; [|reflexivity]; inversion L1; subst;
       match goal with Hs : shot k1 |- _ => destruct Hs as (_ & _ & [Hs | Hs]); rewrite Hs in L2; discriminate end). subst o.
    unfold good_row, given. cbn [w_persis w_recv w_id w_active]. rewrite Hp. cbn [andb]. split; [exact P1|]. split; [now rewrite P2|].
    inversion L1 as [s Q1 Q2 Q3 E1 E2 E3| | | | |]. subst s p.
    exists (Some k'), (order_of (XOrder k' fs d)), (items ++ [XOrder k' fs d]).
    assert (Es : sent_to (w_id r0) (map (Sent (w_id r0)) (wire (XOrder k' fs d))) = wire (XOrder k' fs d)).
    { cbn. destruct (k_rows k'); cbn; rewrite Nat.eqb_refl; reflexivity. }
    split; [|split; [now rewrite S1|split; [|split]]].
    + unfold deliver. rewrite Es. eapply (lk_sent k' fs d (waiting (s_comm (y_w y (w_id r0)))) []); auto.
      * split; [congruence|]. split; [rewrite S5; auto|]. rewrite S1. exact Ht.
      * rewrite arrive_waiting, app_nil_r. reflexivity.
      * apply kills_nil.
    + rewrite El, orders_to_app, answers_app, L3. cbn [as_pair]. rewrite app_nil_r.
      replace (orders_to (w_id r0) (map (Sent (w_id r0)) (wire (XOrder k' fs d)))) with [(k_tag k', k_rows k')].
      * replace (answers_from (w_id r0) (map (Sent (w_id r0)) (wire (XOrder k' fs d)))) with (@nil (nat * list nat)); [now rewrite app_nil_r|].
        cbn. destruct (k_rows k'); reflexivity.
      * cbn. destruct (k_rows k') eqn:Ek'; cbn; rewrite Nat.eqb_refl, ?Ek'; reflexivity.
    + rewrite El, sent_to_app, Es, L4, wires_app. cbn [wires flat_map]. now rewrite app_nil_r.
    + rewrite orders_app, L5. cbn [orders_in flat_map]. rewrite !app_nil_r. reflexivity.
  - eapply good_other; [apply H4; exact Hr|exact El| | |].
    + cbn. assert (En : w_id r0 =? w_id r = false) by (apply Nat.eqb_neq; congruence).
      destruct (k_rows k'); cbn; rewrite En; reflexivity.
    + cbn. destruct (k_rows k'); reflexivity.
    + unfold deliver. replace (sent_to (w_id r) (map (Sent (w_id r0)) (wire (XOrder k' fs d)))) with (@nil omsg); [apply arrive_nil|].
      cbn. assert (En : w_id r0 =? w_id r = false) by (apply Nat.eqb_neq; congruence).
      destruct (k_rows k'); cbn; rewrite En; reflexivity.
Qed.

Lemma J_take t w i rest m' y : J y -> In w (map w_id (m_W (y_m y))) -> q_out (s_comm (y_w y w)) = i :: rest ->
  poll c (w, i, t) (y_m y) = (m', None) -> J (manager_moves y m' (set_worker w (set_out rest (y_w y w)) (y_w y))).
Proof.
  intros (H1 & H2 & H3 & H4) Hw Eq E.
  destruct (poll_spec _ _ _ _ _ _ _ H1 E) as [(Hn & _)|(r0 & In0 & Ew & G1 & G2 & _ & G4 & G5)]; [contradiction|].
  specialize (G5 eq_refl).
  destruct G4 as [(El & Ee & Herr)|(Bad & _)]; [|discriminate].
  destruct (H4 _ In0) as (P1 & P2 & o & p & items & L1 & L2 & L3 & L4 & L5). rewrite Ew in L1, L3, L4, L5.
  unfold manager_moves. rewrite (new_events_app _ _ _ El).
  assert (Hsame : forall v, deliver [Got w i] (set_worker w (set_out rest (y_w y w)) (y_w y)) v = set_worker w (set_out rest (y_w y w)) (y_w y) v).
  { intros v. unfold deliver. cbn. apply arrive_nil. }
  assert (Hoth : forall r, In r (m_W (y_m y)) -> w_id r <> w -> good_row m' (deliver [Got w i] (set_worker w (set_out rest (y_w y w)) (y_w y))) r).
  { intros r Hr Hne. eapply good_other; [apply H4; exact Hr|exact El|reflexivity| |].
    - cbn. destruct i; try reflexivity. rewrite (proj2 (Nat.eqb_neq w (w_id r))) by congruence. reflexivity.
    - rewrite Hsame. unfold set_worker. rewrite (proj2 (Nat.eqb_neq (w_id r) w)) by congruence. reflexivity. }
  assert (Hrow : forall r, In r (m_W (y_m y)) -> w_id r = w -> r = r0).
  { intros r Hr Hid. assert (A := wget_in _ _ _ H1 Hr). assert (B := wget_in _ _ _ H1 In0). rewrite Hid in A. rewrite Ew in B. congruence. }
  destruct (link_tail _ _ _ _ _ L1 Eq) as [(-> & L1')|[(k & a & -> & -> & -> & Hf & Hke & Hkp & L1')|(k & -> & ->)]].
  - subst m'. unfold J. cbn [y_m y_w]. split; [exact G1|]. split; [exact H2|]. split; [exact H3|].
    intros r Hr. cbn [m_W logev] in Hr. destruct (Nat.eq_dec (w_id r) w) as [Hid|Hne]; [|now apply Hoth].
    rewrite (Hrow _ Hr Hid) in *. split; [exact P1|]. split; [exact P2|]. exists o, p, items.
    rewrite Hsame. unfold set_worker. rewrite Ew, Nat.eqb_refl. cbn [set_out s_log]. rewrite El, orders_to_app, answers_app, sent_to_app.
    change (orders_to w [Got w ILog]) with (@nil (nat * list nat)). change (answers_from w [Got w ILog]) with (@nil (nat * list nat)).
    change (sent_to w [Got w ILog]) with (@nil omsg). rewrite !app_nil_r. auto 8.
  - destruct G5 as (T & Gp & _). unfold J. cbn [y_m y_w]. split; [exact G1|]. split; [congruence|].
    split. { rewrite Gp, H3. destruct (fin_status a); reflexivity. }
    intros r Hr. destruct T as (T1 & T2 & T3 & T4 & T5). apply T5 in Hr as [-> | [Hr Hne]]; [|apply Hoth; [exact Hr|congruence]].
    assert (Ea : after_msg (m_exc (y_m y)) (memb w (m_pending (y_m y))) a r0 =
                 mkW (w_id r0) (w_gen r0) 0 0 false (w_gstart r0) (w_zero r0)).
    { unfold after_msg, act_after. rewrite H2, H3, P2, Hke, P1. destruct Hf as (_ & _ & ->). rewrite Hkp. cbn. destruct (fin_status a); reflexivity. }
    rewrite Ea. split; [reflexivity|]. split; [reflexivity|]. exists None, [], items. cbn [w_id w_active].
    rewrite Hsame. unfold set_worker. rewrite Ew, Nat.eqb_refl. cbn [set_out s_log]. split; [exact L1'|]. split; [reflexivity|].
    rewrite El, orders_to_app, answers_app, sent_to_app.
    change (orders_to w [Got w (IData a)]) with (@nil (nat * list nat)). change (sent_to w [Got w (IData a)]) with (@nil omsg).
    replace (answers_from w [Got w (IData a)]) with (as_pair (Some k)); [rewrite !app_nil_r in *; auto 8|].
    cbn. rewrite Nat.eqb_refl. destruct Hf as (-> & -> & _). reflexivity.
  - exfalso. destruct G5 as (G5 & _). congruence.
Qed.

Lemma J_kill m' y : J y -> kill_cancelled c (y_m y) = (m', None) -> J (manager_moves y m' (y_w y)).
Proof.
  intros (H1 & H2 & H3 & H4) E. destruct (kill_cancelled_spec _ _ _ _ E) as ((S1 & S2 & S3 & S4) & (l & El & Fl) & _).
  unfold manager_moves. rewrite (new_events_app _ _ _ El). unfold J. cbn [y_m y_w].
  split; [unfold table_ok; now rewrite S1|]. split; [congruence|]. split; [congruence|].
  intros r Hr. rewrite S1 in Hr. eapply good_kills; [now apply H4|exact El|].
  intros e He. rewrite Forall_forall in Fl. destruct (Fl e He) as (v & _ & ->). eauto.
Qed.

Lemma J_work w b s' y : J y -> wstep b (y_w y w) = Some s' -> J (mkSys (y_m y) (set_worker w s' (y_w y))).
Proof.
  intros (H1 & H2 & H3 & H4) E. unfold J. cbn [y_m y_w]. repeat (split; [assumption|]).
  intros r Hr. destruct (H4 _ Hr) as (P1 & P2 & o & p & items & L1 & L2 & L3 & L4 & L5).
  split; [exact P1|]. split; [exact P2|]. unfold set_worker. destruct (w_id r =? w) eqn:Ew.
  - apply Nat.eqb_eq in Ew. rewrite Ew in *. destruct (link_step _ _ _ _ _ L1 E) as (p' & L1' & Hg).
    exists o, p', items. unfold log_grows in Hg. rewrite Hg. auto.
  - exists o, p, items. auto.
Qed.

Lemma J_note w y : J y -> J (mkSys (y_m y) (set_worker w (set_out (q_out (s_comm (y_w y w)) ++ [ILog]) (y_w y w)) (y_w y))).
Proof.
  intros (H1 & H2 & H3 & H4). unfold J. cbn [y_m y_w]. repeat (split; [assumption|]).
  intros r Hr. destruct (H4 _ Hr) as (P1 & P2 & o & p & items & L1 & L2 & L3 & L4 & L5).
  split; [exact P1|]. split; [exact P2|]. unfold set_worker. destruct (w_id r =? w) eqn:Ew.
  - apply Nat.eqb_eq in Ew. rewrite Ew in *. exists o, p, items. split; [now apply link_note|]. auto.
  - exists o, p, items. auto.
Qed.

Lemma J_step (P : nat -> work -> Prop) y y' : (forall w k, P w k -> one_shot w k) -> J y -> ystep P y y' -> J y'.
Proof.
  intros HP HJ E. destruct E as [t w k m' Hk E|t w i rest m' Hw Eq E|m' E|ed|w b s' E|w].
  - eapply J_give; eauto.
  - eapply J_take; eauto.
  - now apply J_kill.
  - destruct HJ as (H1 & H2 & H3 & H4). unfold J. cbn [y_m y_w]. repeat (split; [assumption|]). exact H4.
  - eapply J_work; eauto.
  - now apply J_note.
Qed.

Lemma J_start h n zeros gens rm pin : J (start_sys (init_manager c h n zeros gens rm pin)).
Proof.
  unfold J. cbn [y_m y_w start_sys]. split; [apply init_table|]. split; [reflexivity|]. split; [reflexivity|].
  intros r Hr. destruct (init_workers_idle _ _ _ _ _ Hr) as (A & B & D). split; [exact B|]. split; [exact D|].
  exists None, [], []. split; [|auto].
  apply lk_idle; [reflexivity|apply kills_nil|apply quiet_nil].
Qed.

Lemma J_reach (P : nat -> work -> Prop) h n zeros gens rm pin y : (forall w k, P w k -> one_shot w k) ->
  yreach P (init_manager c h n zeros gens rm pin) y -> J y.
Proof.
  intros HP H. induction H as [|y y' H IH E]; [apply J_start|]. eapply J_step; eauto.
Qed.

End Sys.
