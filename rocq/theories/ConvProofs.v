(** Invariant of the ensemble with persistent functions. *)
From Verif Require Import Base BaseLemmas HistoryModel HistorySpec RsetModel WorkModel ManagerModel ManagerSpec ManagerProofs ManagerMsg ManagerRun ManagerInv
  CommsModel WorkerModel WorkerSpec WorkerProofs WorkerFrames SystemModel SystemSpec SystemProofs ConvModel ConvSpec.

(** ** Modes and messages *)

Lemma flow_snoc m1 l m2 i m3 : flow m1 l m2 -> tells m2 i m3 -> flow m1 (l ++ [i]) m3.
Proof. induction 1 as [m|m a m' l m'' H1 H2 IH]; intros H; cbn; econstructor; eauto. constructor. Qed.
Lemma flow_app m1 l m2 l2 m3 : flow m1 l m2 -> flow m2 l2 m3 -> flow m1 (l ++ l2) m3.
Proof. induction 1 as [m|m a m' l m'' H1 H2 IH]; intros H; cbn; [exact H|]. econstructor; eauto. Qed.

Definition outreplies (l : list imsg) : list (nat * list nat) := flat_map reply_of l.
Lemma outreplies_app a b : outreplies (a ++ b) = outreplies a ++ outreplies b.
Proof. apply flat_map_app. Qed.

Lemma flow_idle l m' : flow MIdle l m' -> m' = MIdle /\ outreplies l = [] /\ quiet l /\ forall m, flow m l m.
Proof.
  intros H. remember MIdle as m0 eqn:E. induction H as [m|m i m2 l m3 H1 H2 IH].
  - subst m. repeat split; auto using quiet_nil. intros m. constructor.
  - subst m. inversion H1 as [|m t a Hp| | | m t a Hp| ]; subst.
    + destruct (IH eq_refl) as (-> & H3 & H5 & H4). repeat split; auto.
      * intros i [<-|Hi]; auto.
      * intros m. econstructor; [constructor|apply H4].
    + destruct Hp as [?|[?|?]]; discriminate.
    + destruct Hp as [?|?]; discriminate.
Qed.

Lemma flow_ready t l m' : flow (MReady t) l m' -> m' = MReady t /\ outreplies l = [] /\ flow (MOwing t) l (MOwing t).
Proof.
  intros H. remember (MReady t) as m0 eqn:E. induction H as [m|m i m2 l m3 H1 H2 IH].
  - subst m. repeat split; auto. constructor.
  - subst m. inversion H1 as [|m t' a Hp Ht Hb Hk Hf| | | m t' a Hp| ]; subst.
    + destruct (IH eq_refl) as (-> & H3 & H4). repeat split; auto. econstructor; [constructor|exact H4].
    + destruct (IH eq_refl) as (-> & H3 & H4). repeat split; auto.
      * cbn. rewrite Hk. exact H3.
      * assert (Et : n_type a = t) by (destruct Hp as [Hp|[Hp|Hp]]; congruence).
        econstructor; [|exact H4]. eapply te_keep; eauto. left. congruence.
    + destruct Hp as [?|?]; discriminate.
Qed.

Definition closed (m : mode) : mode := match m with MOwing t | MReady t => MClosing t | _ => m end.

Lemma flow_shot t l m' : flow (MShot t) l m' -> m' = MShot t \/ m' = MIdle.
Proof.
  intros H. remember (MShot t) as m0 eqn:E. induction H as [m|m i m2 l m3 H1 H2 IH]; subst; auto.
  inversion H1 as [|m t' a Hp| | | m t' a Hp| ]; subst; auto.
  - destruct Hp as [?|?]; discriminate.
  - right. now destruct (flow_idle _ _ H2).
Qed.

Lemma flow_close m l m' t : m = MOwing t \/ m = MReady t -> flow m l m' -> flow (MClosing t) l (closed m') /\
  (m' = MIdle \/ m' = MOwing t \/ m' = MReady t).
Proof.
  intros Hm H. induction H as [m|m i m2 l m3 H1 H2 IH].
  - destruct Hm as [-> | ->]; cbn; split; auto; constructor.
  - inversion H1 as [|m0 t' a Hp Ht Hb Hk Hf|t' a Ht Hb Hk Hf|t' a Ht Hb Hk Hf| m0 t' a Hp Ht Hk Hf|t' a ]; subst; cbn [closed].
    + destruct (IH Hm) as (H3 & H4). split; auto. econstructor; [constructor|exact H3].
    + destruct (IH Hm) as (H3 & H4). split; auto. econstructor; [|exact H3].
      assert (n_type a = t) by (destruct Hp as [Hp|[Hp|Hp]], Hm as [Hm|Hm]; congruence).
      eapply te_keep; eauto. right. right. congruence.
    + destruct Hm as [Hm|Hm]; [injection Hm as Hm|discriminate].
      destruct IH as (H3 & H4); [right; now f_equal|]. split; auto. econstructor; [|exact H3]. now constructor.
    + destruct Hm; discriminate.
    + destruct (flow_idle _ _ H2) as (-> & _ & _ & H3). split; [|now left].
      assert (n_type a = t) by (destruct Hp as [Hp|Hp], Hm as [Hm|Hm]; congruence).
      econstructor; [|apply H3]. eapply te_final; eauto. right. congruence.
    + destruct Hm; discriminate.
Qed.

Lemma flow_closing t l m' : flow (MClosing t) l m' -> m' = MClosing t \/ m' = MIdle.
Proof.
  intros H. remember (MClosing t) as m0 eqn:E. induction H as [m|m i m2 l m3 H1 H2 IH]; subst; auto.
  inversion H1 as [|m0 t' a Hp Ht Hb Hk Hf|t' a Ht Hb Hk Hf|t' a Ht Hb Hk Hf| m0 t' a Hp Ht Hk Hf|t' a ]; subst; auto.
  right. now destruct (flow_idle _ _ H2).
Qed.

Lemma recv_some {A B} (q : comm A B) : waiting q <> [] -> exists x q1, comm_recv q = Some (x, q1).
Proof. unfold waiting, comm_recv. destruct (q_buf q); [eauto|]. destruct (q_in q); [congruence|eauto]. Qed.

Section Conv.
Variable U : Type.
Variable ustart : work -> list field -> list (list val) -> U.
Variable ustep : U -> uact U.
Variable kd : kind.
Variables single owing ready ending : U -> Prop.
Hypothesis MN : manners ustart ustep single owing ready ending.
Notation wstep := (WorkerModel.wstep ustart ustep kd).
Notation situated := (ConvSpec.situated single owing ready ending).

(** ** Worker steps *)

Lemma own_parse r n st : own_status r n -> exists a, parse_out r st = Some (a, n).
Proof. intros [a m|a b m]; cbn; eauto. Qed.

(** what one step of the worker adds: messages, their effect, what is settled *)
Definition moved (late : bool) (m : mode) (s s' : wst U) (owed : list (nat * list nat)) (p : list (work * list field * list (list val))) : Prop :=
  reports_error s' \/
  exists l m' owed' p', q_out (s_comm s') = q_out (s_comm s) ++ l /\ flow m l m' /\ situated late m' s' owed' p' /\
    orders_reached (s_log s') ++ p' = orders_reached (s_log s) ++ p /\
    exists extra, outreplies l ++ owed' = owed ++ extra /\ (extra <> [] -> owed' = [] /\ exists t, m = MClosing t).

Lemma moved_quiet late m (s s' : wst U) owed p p' : q_out (s_comm s') = q_out (s_comm s) -> situated late m s' owed p' ->
  orders_reached (s_log s') ++ p' = orders_reached (s_log s) ++ p -> moved late m s s' owed p.
Proof.
  intros H1 H2 H3. right. exists [], m, owed, p'. rewrite app_nil_r. split; [exact H1|]. split; [constructor|].
  split; [exact H2|]. split; [exact H3|]. exists []. rewrite app_nil_r. split; [reflexivity|congruence].
Qed.

Lemma fails_reports (s : wst U) : reports_error (fails s).
Proof. unfold reports_error, fails. cbn. apply in_or_app. right. now left. Qed.

Lemma ordinary_tag k : ordinary k -> (k_tag k =? EVAL_SIM) || (k_tag k =? EVAL_GEN) = true.
Proof. intros (_ & [-> | ->]); reflexivity. Qed.

Lemma situated_call late m k fs d (s : wst U) : ordinary k -> out_mode k m -> waiting (s_comm s) = stop_signal m ->
  situated late m (call ustart k fs d s) [(k_tag k, k_rows k)] [].
Proof.
  intros H1 H2 H3. unfold call. rewrite (ordinary_tag k H1). unfold out_mode in H2. destruct (k_persistent k) eqn:Ep.
  - eapply si_owing; cbn; eauto. now apply (mn_owing _ _ _ _ _ _ MN).
  - subst m. eapply si_single; cbn; eauto. now apply (mn_single _ _ _ _ _ _ MN).
Qed.

Lemma call_out k fs d (s : wst U) : ordinary k -> q_out (s_comm (call ustart k fs d s)) = q_out (s_comm s) /\
  s_log (call ustart k fs d s) = s_log s ++ [VCall k fs d].
Proof. intros H. unfold call. rewrite (ordinary_tag k H). now split. Qed.

Lemma pushed (o : omsg) (q q1 : comm omsg imsg) : comm_recv q = Some (o, q1) -> waiting (mkComm (q_in q1) (Some o) (q_out q1)) = waiting q.
Proof. intros E. destruct (recv_waiting _ _ _ E) as (E1 & E2 & E3). rewrite E1. unfold waiting. cbn. now rewrite E2. Qed.

(** the end of a user function *)
Lemma returned_out k rows r (s : wst U) : (forall n, own_status r n -> n <> SIG_FINISH) ->
  (forall o, In o (waiting (s_comm s)) -> o = OPStop SIG_KILL) ->
  reports_error (returned k rows r s) \/
  exists v st, (parse_out r 0 = Some (v, st)) /\
    s_place (returned k rows r s) = AtTop /\ q_out (s_comm (returned k rows r s)) = q_out (s_comm s) ++ [IData (reply k rows v st false)] /\
    orders_reached (s_log (returned k rows r s)) = orders_reached (s_log s) /\
    (forall o, In o (waiting (s_comm (returned k rows r s))) -> In o (waiting (s_comm s))).
Proof.
  intros Hs Hw. unfold returned.
  set (q := match q_buf (s_comm s) with Some o => _ | None => (s, 0) end).
  assert (Hq : q_out (s_comm (fst q)) = q_out (s_comm s) /\ snd q = 0 /\ orders_reached (s_log (fst q)) = orders_reached (s_log s) /\
               forall o, In o (waiting (s_comm (fst q))) -> In o (waiting (s_comm s))).
  { subst q. unfold comm_recv, waiting in *. destruct (q_buf (s_comm s)) as [o|] eqn:Eb; cbn [fst snd]; [|rewrite Eb; auto].
    rewrite (Hw o) by now left. cbn. repeat split; auto. rewrite reached_app. cbn. apply app_nil_r. }
  destruct q as [s1 st0]. cbn [fst snd] in Hq. destruct Hq as (Eo & -> & Er & Ew).
  destruct (runner_check r) as [r'|] eqn:Ec; [|left; apply fails_reports].
  assert (r' = r) by (unfold runner_check in Ec; destruct r as [[]|[|[] ?]]; congruence). subst r'.
  destruct (parse_out r 0) as [[v st]|] eqn:Epar; [|left; apply fails_reports].
  destruct (st =? SIG_FINISH) eqn:Es.
  { exfalso. apply Nat.eqb_eq in Es. subst st. destruct (parse_status _ _ _ _ Epar) as [H|[H|H]]; [discriminate| |unfold SIG_FINISH in H; lia].
    now apply (Hs _ H). }
  right. exists v, st. split; [reflexivity|]. cbn. rewrite Eo, reached_app, Er. cbn. rewrite app_nil_r. auto.
Qed.

Lemma final_returns k rows r late m (s : wst U) owed : says_final r -> k_persistent k = true -> owes m (k_tag k) ->
  waiting (s_comm s) = stop_signal m -> (late = false -> forall t, m <> MClosing t) ->
  owed = [(k_tag k, rows)] \/ owed = [] /\ m = MClosing (k_tag k) -> moved late m s (returned k rows r s) owed [].
Proof.
  intros (n & Hn & Hf) Hk Hm Hw Hl Ho.
  assert (Hw' : forall o, In o (waiting (s_comm s)) -> o = OPStop SIG_KILL).
  { rewrite Hw. destruct Hm as [-> | ->]; cbn; [intros o []|intros o [<-|[]]; reflexivity]. }
  destruct (returned_out k rows r s) as [H|(v & st & E & H1 & H2 & H3 & H4)].
  - intros n' Hn' ->. destruct Hn; inversion Hn'; subst; destruct Hf; discriminate.
  - exact Hw'.
  - now left.
  - destruct (own_parse _ _ 0 Hn) as (a & Ea). rewrite Ea in E. injection E as <- <-.
    right. exists [IData (reply k rows a n false)], MIdle, [], []. split; [exact H2|]. split.
    { econstructor; [|constructor]. eapply te_final; eauto. }
    split. { apply si_idle; auto. intros Hlate. destruct (waiting (s_comm (returned k rows r s))) as [|o l] eqn:Ew; [reflexivity|exfalso].
      assert (Hi : In o (waiting (s_comm s))) by (apply H4; now left). rewrite Hw in Hi. specialize (Hl Hlate).
      destruct m; cbn in Hi; try contradiction. now apply (Hl t). }
    split; [now rewrite H3|]. destruct Ho as [->|(-> & ->)]; [exists []; split; [reflexivity|congruence]|].
    exists [(k_tag k, rows)]. split; [reflexivity|]. intros _. split; [reflexivity|eauto].
Qed.

Lemma situated_step b late m (s s' : wst U) owed p : (late = false -> forall t, m <> MClosing t) ->
  situated late m s owed p -> wstep b s = Some s' -> moved late m s s' owed p.
Proof.
  intros Hl H E. unfold WorkerModel.wstep in E.
  destruct H as [s H1 H2 H3|m k fs d s H1 H2 H3 H4|m k fs d s H1 H0 H2 H3 H4|k u s H1 H2 H3 H4|m k rows u s H1 H2 H3 H4 H5
    |m k rows u s H1 H2 H3 H4 H5|m k rows u k2 fs d s H1 H2 H3 H4 H5 H6 H7|m k k2 g fs d s H1 H2 H3 H4 H5 H6 H7|k rows u s H1 H2 H3 H4]; rewrite H1 in E.
  - destruct (comm_recv (s_comm s)) as [[o q]|] eqn:Er; [|discriminate]. injection E as <-.
    destruct (recv_waiting _ _ _ Er) as (Ew & Eb & Eo). rewrite Ew in H2, H3. rewrite (H3 o) by now left. cbn.
    apply (moved_quiet _ _ _ _ _ _ []); cbn; auto.
    + apply si_idle; cbn; auto. { intros Hlate. now specialize (H2 Hlate). } intros x Hx. apply H3. now right.
    + rewrite reached_app. cbn. now rewrite !app_nil_r.
  - destruct (comm_recv (s_comm s)) as [[o q]|] eqn:Er; [|discriminate]. injection E as <-.
    destruct (recv_waiting _ _ _ Er) as (Ew & Eb & Eo). rewrite H4 in Ew. cbn [wire order_of] in *.
    assert (Hr : k_recv k = None) by apply H2.
    destruct (k_rows k) as [|i rows] eqn:Ek; cbn in Ew; injection Ew as <- Ew; rewrite Hr, Ek.
    + destruct (call_out k [] [] (with_comm q s) H2) as (C1 & C2). apply (moved_quiet _ _ _ _ _ _ []).
      * rewrite C1. exact Eo.
      * rewrite <- Ek. apply situated_call; auto.
      * rewrite C2, reached_app. cbn. now rewrite app_nil_r.
    + apply (moved_quiet _ _ _ _ _ _ [(k, fs, d)]); cbn; auto.
      rewrite <- Ek. eapply si_rows; cbn; eauto. now rewrite Ek.
  - destruct (comm_recv (s_comm s)) as [[o q]|] eqn:Er; [|discriminate]. injection E as <-.
    destruct (recv_waiting _ _ _ Er) as (Ew & Eb & Eo). rewrite H4 in Ew. injection Ew as <- Ew.
    destruct (call_out k fs d (with_comm q s) H2) as (C1 & C2). apply (moved_quiet _ _ _ _ _ _ []).
    + rewrite C1. exact Eo.
    + apply situated_call; auto.
    + rewrite C2, reached_app. cbn. now rewrite app_nil_r.
  - pose proof (mn_single_step _ _ _ _ _ _ MN u H3) as Hu. destruct (ustep u) as [u'|v st keep u'|bl g|g|r|] eqn:Eu; try contradiction.
    + injection E as <-. apply (moved_quiet _ _ _ _ _ _ []); auto. eapply si_single; cbn; eauto.
    + destruct (comm_mail kd (s_comm s) && b).
      * destruct (comm_recv (s_comm s)) as [[o q]|] eqn:Er; [|discriminate].
        destruct (recv_waiting _ _ _ Er) as (Ew & _). rewrite H4 in Ew. discriminate.
      * injection E as <-. apply (moved_quiet _ _ _ _ _ _ []); auto. eapply si_single; cbn; eauto.
    + injection E as <-. destruct (returned_out k (k_rows k) r s) as [Hx|(v & st & Ep & R1 & R2 & R3 & R4)].
      * intros n Hn. apply (Hu n Hn).
      * rewrite H4. intros o [].
      * now left.
      * right. exists [IData (reply k (k_rows k) v st false)], MIdle, [], []. split; [exact R2|]. split.
        { econstructor; [|constructor]. apply te_single; cbn; auto.
          intros Hf. destruct (parse_status _ _ _ _ Ep) as [->|[Ho|Ho]].
          - destruct Hf; discriminate.
          - destruct (Hu st Ho) as (Hx & _). exact (Hx Hf).
          - destruct Hf; subst st; unfold FIN_PERSIS_SIM, FIN_PERSIS_GEN in Ho; lia. }
        split. { apply si_idle; auto; rewrite ?H4 in R4.
          - intros _. destruct (waiting (s_comm (returned k (k_rows k) r s))) as [|o l]; [reflexivity|]. destruct (R4 o). now left.
          - intros o Ho. destruct (R4 o Ho). }
        split; [now rewrite R3|]. exists []; split; [reflexivity|congruence].
    + injection E as <-. left. apply fails_reports.
  - pose proof (mn_owing_step _ _ _ _ _ _ MN u H3) as Hu. destruct (ustep u) as [u'|v st keep u'|bl g|g|r|] eqn:Eu; try contradiction.
    + injection E as <-. apply (moved_quiet _ _ _ _ _ _ []); auto. eapply si_owing; cbn; eauto.
    + injection E as <-. destruct Hu as (Hst & Hu). right. destruct keep.
      * exists [IData (reply k rows v st true)], m, [(k_tag k, rows)], []. split; [reflexivity|]. split.
        { econstructor; [|constructor]. apply (te_keep m (k_tag k)); cbn; auto. unfold persists. destruct H4; auto. }
        split; [eapply si_owing; cbn; eauto|]. cbn. rewrite reached_app. cbn. rewrite !app_nil_r. split; [reflexivity|exists []; split; [reflexivity|congruence]].
      * exists [IData (reply k rows v st false)], (match m with MOwing t => MReady t | _ => m end), [], []. split; [reflexivity|]. split.
        { econstructor; [|constructor]. destruct H4 as [-> | ->]; [now apply te_answer|now apply te_closing]. }
        split. { eapply si_ready; cbn; eauto; destruct H4 as [-> | ->]; auto. }
        cbn. rewrite reached_app. cbn. rewrite !app_nil_r. split; [reflexivity|exists []; split; [reflexivity|congruence]].
    + injection E as <-. apply final_returns; auto.
    + injection E as <-. left. apply fails_reports.
  - pose proof (mn_ready_step _ _ _ _ _ _ MN u H3) as Hu. destruct (ustep u) as [u'|v st keep u'|bl g|g|r|] eqn:Eu; try contradiction.
    + injection E as <-. apply (moved_quiet _ _ _ _ _ _ []); auto. eapply si_ready; cbn; eauto.
    + injection E as <-. destruct Hu as (Hst & -> & Hu). right.
      exists [IData (reply k rows v st true)], m, [], []. split; [reflexivity|]. split.
      { econstructor; [|constructor]. apply (te_keep m (k_tag k)); cbn; auto. unfold persists. destruct H4; auto. }
      split; [eapply si_ready; cbn; eauto|]. cbn. rewrite reached_app. cbn. rewrite !app_nil_r. split; [reflexivity|exists []; split; [reflexivity|congruence]].
    + destruct Hu as (Hu1 & Hu2 & Hu3). destruct (negb bl && negb (comm_mail kd (s_comm s) && b)) eqn:Em.
      * injection E as <-. apply (moved_quiet _ _ _ _ _ _ []); cbn; auto.
        -- eapply si_ready; cbn; eauto. apply Hu3. now destruct bl.
        -- rewrite reached_app. cbn. now rewrite !app_nil_r.
      * destruct (comm_recv (s_comm s)) as [[o q]|] eqn:Er; [|discriminate].
        destruct (recv_waiting _ _ _ Er) as (Ew & Eb & Eo). rewrite H5 in Ew.
        destruct H4 as [-> | ->]; [discriminate|]. cbn in Ew. injection Ew as <- Ew. injection E as <-.
        rewrite push_ok by exact Eb. apply (moved_quiet _ _ _ _ _ _ []); cbn; auto.
        -- eapply si_ending; cbn [s_place s_comm s_log inform goto with_comm]; eauto; rewrite (pushed _ _ _ Er); exact H5.
        -- rewrite reached_app. cbn. now rewrite !app_nil_r.
    + injection E as <-. left. apply fails_reports.
  - pose proof (mn_ready_step _ _ _ _ _ _ MN u H3) as Hu. destruct (ustep u) as [u'|v st keep u'|bl g|g|r|] eqn:Eu; try contradiction.
    + injection E as <-. apply (moved_quiet _ _ _ _ _ _ [(k2, fs, d)]); auto. eapply si_next; cbn; eauto.
    + injection E as <-. destruct Hu as (Hst & -> & Hu). right.
      exists [IData (reply k rows v st true)], m, [(k_tag k, k_rows k2)], [(k2, fs, d)]. split; [reflexivity|]. split.
      { econstructor; [|constructor]. apply (te_keep m (k_tag k)); cbn; auto. unfold persists. destruct H4; auto. }
      split; [eapply si_next; cbn; eauto|]. cbn. rewrite reached_app. cbn. rewrite app_nil_r. split; [reflexivity|exists []; split; [reflexivity|congruence]].
    + destruct Hu as (Hu1 & Hu2 & Hu3). destruct (negb bl && negb (comm_mail kd (s_comm s) && b)) eqn:Em.
      * injection E as <-. apply (moved_quiet _ _ _ _ _ _ [(k2, fs, d)]); cbn; auto.
        -- eapply si_next; cbn; eauto. apply Hu3. now destruct bl.
        -- rewrite reached_app. cbn. now rewrite app_nil_r.
      * destruct (comm_recv (s_comm s)) as [[o q]|] eqn:Er; [|discriminate].
        destruct (recv_waiting _ _ _ Er) as (Ew & Eb & Eo). rewrite H7 in Ew. cbn in Ew. injection Ew as <- Ew. injection E as <-.
        apply (moved_quiet _ _ _ _ _ _ [(k2, fs, d)]); cbn; auto.
        -- eapply si_taking; cbn; eauto.
        -- rewrite reached_app. cbn. now rewrite app_nil_r.
    + injection E as <-. left. apply fails_reports.
  - destruct (comm_recv (s_comm s)) as [[o q]|] eqn:Er; [|discriminate]. injection E as <-.
    destruct (recv_waiting _ _ _ Er) as (Ew & Eb & Eo). rewrite H7 in Ew. injection Ew as <- Ew.
    apply (moved_quiet _ _ _ _ _ _ []); cbn; auto.
    + eapply si_owing; cbn; eauto.
    + rewrite reached_app. cbn. now rewrite !app_nil_r.
  - pose proof (mn_ending_step _ _ _ _ _ _ MN u H3) as Hu. destruct (ustep u) as [u'|v st keep u'|bl g|g|r|] eqn:Eu; try contradiction.
    + injection E as <-. apply (moved_quiet _ _ _ _ _ _ []); auto. eapply si_ending; cbn; eauto.
    + injection E as <-. destruct Hu as (Hst & Hu). right.
      exists [IData (reply k rows v st keep)], (MClosing (k_tag k)), [], []. split; [reflexivity|]. split.
      { econstructor; [|constructor]. destruct keep.
        - apply (te_keep _ (k_tag k)); cbn; auto. unfold persists. auto.
        - apply te_closing; cbn; auto. }
      split; [eapply si_ending; cbn; eauto|]. cbn. rewrite reached_app. cbn. rewrite !app_nil_r. split; [reflexivity|].
      destruct keep; [exists []; split; [reflexivity|congruence]|]. exists [(k_tag k, rows)]. split; [reflexivity|]. intros _. split; [reflexivity|eauto].
    + destruct Hu as (Hu2 & Hu3). destruct (negb bl && negb (comm_mail kd (s_comm s) && b)) eqn:Em.
      * injection E as <-. apply (moved_quiet _ _ _ _ _ _ []); cbn; auto.
        -- eapply si_ending; cbn; eauto. apply Hu3. now destruct bl.
        -- rewrite reached_app. cbn. now rewrite !app_nil_r.
      * destruct (comm_recv (s_comm s)) as [[o q]|] eqn:Er; [|discriminate].
        destruct (recv_waiting _ _ _ Er) as (Ew & Eb & Eo). rewrite H4 in Ew. injection Ew as <- Ew. injection E as <-.
        rewrite push_ok by exact Eb. apply (moved_quiet _ _ _ _ _ _ []); cbn; auto.
        -- eapply si_ending; cbn [s_place s_comm s_log inform goto with_comm]; eauto; rewrite (pushed _ _ _ Er); exact H4.
        -- rewrite reached_app. cbn. now rewrite !app_nil_r.
    + injection E as <-. apply final_returns; auto.
      now right.
    + injection E as <-. left. apply fails_reports.
Qed.

End Conv.
