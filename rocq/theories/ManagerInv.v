(** Invariants of manager runs: who is free, how many points are out, what the
    exit criteria mean. *)
From Verif Require Import Base BaseLemmas HistoryModel HistorySpec HistoryProofs HistoryInv HistoryInv2 HistoryRun RsetModel WorkModel ManagerModel ManagerSpec ManagerProofs ManagerMsg ManagerRun.

(** ** Counters that only an order changes *)

Lemma hist_msg_counts c t w a gs h h' : hist_msg c t w a gs h h' ->
  h_started h' = h_started h /\ h_started_off h' = h_started_off h /\ h_safe h' = h_safe h /\
  h_ended_off h' = h_ended_off h /\ h_informed_off h' = h_informed_off h.
Proof.
  intros [->|[->|(D&_&->)]]; auto 6.
  - pose proof (hf_frame (n_rows a) (out_arr (n_out a)) (c_kill c) t h) as F. cbn zeta in F. tauto.
  - pose proof (x_in_counts w D gs t h) as F. pose proof (x_in_protected w D gs t h) as G. cbn zeta in F, G. tauto.
Qed.

Lemma kill_pass_counts h : let h' := fst (fst (kill_pass h)) in
  h_started h' = h_started h /\ h_started_off h' = h_started_off h /\ h_safe h' = h_safe h.
Proof. pose proof (kill_frame h) as F. cbn zeta in *. tauto. Qed.

Lemma to_gen_counts rows t h : let h' := fst (update_history_to_gen rows t h) in
  h_started h' = h_started h /\ h_started_off h' = h_started_off h /\ h_safe h' = h_safe h.
Proof. pose proof (to_gen_frame rows t h) as F. cbn zeta in *. tauto. Qed.

Lemma points_out_app a b : points_out (a ++ b) = points_out a + points_out b.
Proof.
  induction a as [|e a IH]; auto. cbn. destruct e as [w o|w i]; auto. destruct o; auto. rewrite IH. lia.
Qed.

Lemma points_out_0 l : Forall (fun e => ~ is_order e) l -> points_out l = 0.
Proof.
  induction 1 as [|e l H]; auto. cbn. destruct e as [w o|w i]; auto. destruct o; auto.
  cbn in H. destruct (k_tag k =? EVAL_SIM) eqn:E; auto. apply Nat.eqb_eq in E. destruct H. rewrite E. discriminate.
Qed.

Lemma finishes_quiet ids : Forall (fun e => ~ is_order e) (finishes ids).
Proof. apply Forall_forall. intros e H. apply in_map_iff in H as (w&<-&_). auto. Qed.

Lemma order_points v k l : order_msgs v k l -> points_out l = if k_tag k =? EVAL_SIM then length (k_rows k) else 0.
Proof. intros [->|(d&->)]; cbn; lia. Qed.

Lemma log_ok_order (Q : list event -> event -> Prop) l0 v k l : log_ok Q l0 -> Q l0 (Sent v (OWork k)) ->
  (forall a fs d, Q a (Sent v (ORows fs d))) -> order_msgs v k l -> log_ok Q (l0 ++ l).
Proof.
  intros H1 H2 H3 [->|(d&->)].
  - now apply log_ok_snoc.
  - change [Sent v (OWork k); Sent v (ORows (k_fields k) d)] with ([Sent v (OWork k)] ++ [Sent v (ORows (k_fields k) d)]).
    rewrite app_assoc. apply log_ok_snoc; auto. now apply log_ok_snoc.
Qed.

Lemma log_ok_quiet (Q : list event -> event -> Prop) l l' : log_ok Q l -> (forall a e, ~ is_order e -> Q a e) ->
  Forall (fun e => ~ is_order e) l' -> log_ok Q (l ++ l').
Proof. intros H1 H2 H3. apply log_ok_app; auto. intros a e Hin. apply H2. rewrite Forall_forall in H3. auto. Qed.

(** what the steps other than orders append *)
Lemma kill_quiet c m m' e : kill_cancelled c m = (m', e) -> ext (fun e => ~ is_order e) m m'.
Proof. intros H. apply kill_cancelled_spec in H as (_&H&_). eapply ext_weaken; [|exact H]. cbn. intros x (w&_&->). auto. Qed.

Lemma poll_quiet c p m m' e : table_ok c m -> poll c p m = (m', e) -> ext (fun e => ~ is_order e) m m'.
Proof.
  intros T H. destruct p as [[w i] t]. apply poll_spec in H as [(_&->&_)|(r0&_&_&_&_&_&H&_)]; auto.
  { now apply ext_refl. }
  destruct H as [(H&_)|(_&_&_&H&_)].
  - eapply ext_snoc; [exact H|]. auto.
  - eexists. split; [exact H|]. constructor; auto. apply finishes_quiet.
Qed.

Lemma stop_quiet c t w m m' e : table_ok c m -> stop_persistent c t w m = (m', e) -> ext (fun e => ~ is_order e) m m'.
Proof.
  intros T H. apply stop_persistent_spec in H as (_&_&_&_&H&_); auto. eapply ext_weaken; [|exact H].
  cbn. intros x (v&_&[->|[(k&Hk&->)|(fs&d&->)]]); cbn; auto.
Qed.

Lemma poll_table c p m m' e : table_ok c m -> poll c p m = (m', e) -> table_ok c m' /\ map w_id (m_W m') = map w_id (m_W m).
Proof.
  intros T H. destruct p as [[w i] t]. apply poll_spec in H as [(_&->&_)|(r0&_&_&H1&H2&_)]; auto.
Qed.

Lemma kill_table c m m' e : kill_cancelled c m = (m', e) -> m_W m' = m_W m.
Proof. intros H. apply kill_cancelled_spec in H. apply H. Qed.

Section Trace.
(** A condition on orders alone, in terms of what precedes them. *)
Variable (c : mcfg) (Q : list event -> event -> Prop).
Hypothesis Qquiet : forall a e, ~ is_order e -> Q a e.
Definition LT (m : mgr) : Prop := table_ok c m /\ log_ok Q (m_log m).

Lemma LT_poll p m m' e : LT m -> poll c p m = (m', e) -> LT m'.
Proof.
  intros (T&H) E. split; [eapply poll_table; eauto|]. apply poll_quiet in E as (l&->&Hl); auto. now apply log_ok_quiet.
Qed.
Lemma LT_stop t w m m' e : LT m -> stop_persistent c t w m = (m', e) -> LT m'.
Proof.
  intros (T&H) E. split; [eapply stop_persistent_spec in E; eauto; apply E|].
  apply stop_quiet in E as (l&->&Hl); auto. now apply log_ok_quiet.
Qed.
Lemma LT_finish m : LT m -> LT (kill_workers m).
Proof.
  intros (T&H). pose proof (kill_workers_spec m) as (E1&_&E2&_). split; [unfold table_ok in *; now rewrite E2|].
  rewrite E1. apply log_ok_quiet; auto. apply finishes_quiet.
Qed.
Lemma LT_kill m m' e : LT m -> kill_cancelled c m = (m', e) -> LT m'.
Proof.
  intros (T&H) E. split; [unfold table_ok in *; now rewrite (kill_table _ _ _ _ E)|].
  apply kill_quiet in E as (l&->&Hl). now apply log_ok_quiet.
Qed.

Lemma LT_run (J : mgr -> Prop) (P : nat -> work -> Prop) its t rounds m m' o :
  (forall m, J m -> LT m) ->
  (forall m m' e, J m -> kill_cancelled c m = (m', e) -> LT m' /\ (e = None -> J m')) ->
  (forall w i t m m' e, J m -> True -> poll c (w, i, t) m = (m', e) -> LT m' /\ (e = None -> J m')) ->
  (forall ed m, J m -> let m' := set_h m (alloc_edit ed (m_h m)) in
     LT m' /\ ((h_safe (m_h m) = true -> all_same_protected (trim_H (m_h m)) (trim_H (m_h m')) = true) -> J m')) ->
  (forall t w k m m' e, J m -> P w k -> sim_max_given c m = false -> give_order c t w k m = (m', e) -> LT m' /\ (e = None -> J m')) ->
  J m -> orders_ok P its -> run c its t rounds m = (m', o) -> log_ok Q (m_log m').
Proof.
  intros H1 H2 H3 H4 H5 HJ HP E. apply run_cases in E as (m1&s&E1&E2).
  eapply (main_ind c J LT P (fun _ _ => True)) in E1 as [E1 _]; eauto; [|red; auto].
  destruct E2 as [(_&->&_)|(_&f&E2&_)]; [apply E1|].
  eapply (final_ind c LT LT (fun _ _ => True)) in E2 as [E2 _]; eauto.
  - apply E2.
  - intros a Ha. apply Ha.
  - intros. split; [|intros _]; eapply LT_poll; eauto.
  - intros. split; [|intros _]; eapply LT_stop; eauto.
  - apply LT_finish.
  - red; auto.
Qed.
End Trace.

(** ** The simulation budget *)

Definition Q_budget (N : nat) (l : list event) (e : event) : Prop :=
  match e with Sent _ (OWork k) => k_tag k <> PERSIS_STOP -> points_out l < N | _ => True end.
Definition J_budget c N (m : mgr) : Prop :=
  LT c (Q_budget N) m /\ h_started (m_h m) = h_started_off (m_h m) + points_out (m_log m).

Lemma Q_budget_quiet N a e : ~ is_order e -> Q_budget N a e.
Proof. unfold Q_budget. destruct e as [w o|]; auto. destruct o; auto. cbn. intros H1 H2. tauto. Qed.

Lemma alloc_edit_keep ed h : let h' := alloc_edit ed h in
  h_started h' = h_started h /\ h_started_off h' = h_started_off h /\ h_safe h' = h_safe h.
Proof. cbn. auto. Qed.

Lemma hist_given_counts c t w k h : snd (hist_given c t w k h) = None ->
  let h' := fst (hist_given c t w k h) in
  h_started h' = h_started h + (if k_tag k =? EVAL_SIM then length (k_rows k) else 0) /\ h_started_off h' = h_started_off h.
Proof.
  unfold hist_given. destruct (k_tag k =? EVAL_SIM).
  - intros E. pose proof (x_out_frame (k_rows k) w (c_kill c) t h) as F. cbn zeta in *.
    destruct F as (_&_&_&_&_&_&F1&_&_&_&_&F2&_). split; auto. now apply F2.
  - destruct (k_tag k =? EVAL_GEN); cbn; intros _; [|lia].
    pose proof (to_gen_counts (k_rows k) t h). cbn zeta in *. intuition lia.
Qed.

Lemma budget_run c N its t rounds m m' o : c_sim_max c = Some N -> J_budget c N m ->
  run c its t rounds m = (m', o) -> log_ok (Q_budget N) (m_log m').
Proof.
  intros HN HJ. eapply LT_run with (J := J_budget c N) (P := fun _ _ => True); auto.
  - apply Q_budget_quiet.
  - intros a Ha. apply Ha.
  - intros a a' e (Ha&Hs) E. assert (LT c (Q_budget N) a') by (eapply LT_kill; eauto using Q_budget_quiet). split; auto.
    intros _. split; auto. pose proof E as E'. apply kill_quiet in E' as (l&->&Hl). rewrite points_out_app, (points_out_0 l); auto.
    apply kill_cancelled_spec in E as (_&_&[-> | ->]&_); [lia|]. pose proof (kill_pass_counts (m_h a)). cbn zeta in *. lia.
  - intros w i tt a a' e (Ha&Hs) _ E. assert (LT c (Q_budget N) a') by (eapply LT_poll; eauto using Q_budget_quiet). split; auto.
    intros _. split; auto. pose proof E as E'. apply poll_quiet in E' as (l&->&Hl); [|apply Ha].
    rewrite points_out_app, (points_out_0 l); auto. apply poll_spec in E as [(_&->&_)|(r0&_&_&_&_&E&_)]; [lia| |apply Ha].
    destruct i; try (rewrite E; lia). apply hist_msg_counts in E. lia.
  - intros ed a (Ha&Hs). cbn zeta. split; [apply Ha|]. intros _. split; [apply Ha|exact Hs].
  - intros t0 w k a a' e (Ha&Hs) _ Hg E. apply give_order_spec in E as (_&_&_&E1&_&E2&_&E3); [|apply Ha].
    assert (Hlt : points_out (m_log a) < N).
    { unfold sim_max_given in Hg. rewrite HN in Hg. apply Nat.leb_gt in Hg. lia. }
    assert (HT : LT c (Q_budget N) a').
    { split; auto. destruct E2 as [->|(r0&k'&l&_&_&E2&->&_)]; [apply Ha|].
      eapply log_ok_order; eauto; [apply Ha| |]; cbn; auto. }
    split; auto. intros ->. split; auto. destruct (E3 eq_refl) as (r0&k'&_&Hk&_&_&_&_&Hh&Hn&_&_&Hl1&Hl2).
    apply hist_given_counts in Hn. cbn zeta in Hn. rewrite <- Hh in Hn. apply as_sent_same in Hk as (K1&_&K2&_).
    assert (points_out (m_log a') = points_out (m_log a) + if k_tag k =? EVAL_SIM then length (k_rows k) else 0);
      [|destruct (k_tag k =? EVAL_SIM); lia].
    destruct (k_rows k) as [|i rs] eqn:ER.
    + rewrite Hl1 by auto. rewrite points_out_app. cbn [points_out]. rewrite K1, K2. cbn. destruct (k_tag k =? EVAL_SIM); lia.
    + destruct Hl2 as (_&_&d&_&->); [discriminate|]. rewrite points_out_app. cbn [points_out]. rewrite K1, K2. destruct (k_tag k =? EVAL_SIM); lia.
  - intros it ws w k tt _ _ _. exact I.
Qed.

(** ** Who is free *)

Definition Q_free (l : list event) (e : event) : Prop :=
  match e with
  | Sent w (OWork k) => k_tag k <> PERSIS_STOP -> free_after l w \/ (k_recv k <> None /\ receiving_after l w)
  | _ => True
  end.
Definition J_free c (m : mgr) : Prop :=
  LT c Q_free m /\ m_exc m = false /\ m_pending m = [] /\
  forall r, In r (m_W m) -> (w_active r = 0 -> free_after (m_log m) (w_id r)) /\
                            (w_recv r = true -> receiving_after (m_log m) (w_id r)).

Lemma Q_free_quiet a e : ~ is_order e -> Q_free a e.
Proof. unfold Q_free. destruct e as [w o|]; auto. destruct o; auto. cbn. intros H1 H2. tauto. Qed.

Lemma free_app l l' w : free_after l w -> (forall e, In e l' -> ~ order_to w e) -> free_after (l ++ l') w.
Proof.
  intros [H|(a&e&b&->&H1&H2)] H'; [left|right].
  - intros e He. apply in_app_iff in He as [He|He]; auto.
  - exists a, e, (b ++ l'). rewrite <- app_assoc. cbn. split; auto. split; auto.
    intros x Hx. apply in_app_iff in Hx as [Hx|Hx]; auto.
Qed.
Lemma free_now l w e : released_by w e -> free_after (l ++ [e]) w.
Proof. intros H. right. exists l, e, []. auto. Qed.
Lemma recv_app l l' w : receiving_after l w -> (forall e, In e l' -> ~ finished_by w e) -> receiving_after (l ++ l') w.
Proof.
  intros (a&k&b&->&H1&H2&H3) H'. exists a, k, (b ++ l'). rewrite <- app_assoc. cbn. repeat split; auto.
  intros x Hx. apply in_app_iff in Hx as [Hx|Hx]; auto.
Qed.
Lemma not_order_to w e : ~ is_order e -> ~ order_to w e.
Proof. destruct e as [v o|]; auto. destruct o; cbn; tauto. Qed.

Lemma free_run c its t rounds m m' o : J_free c m -> run c its t rounds m = (m', o) -> log_ok Q_free (m_log m').
Proof.
  intros HJ. eapply LT_run with (J := J_free c) (P := fun _ _ => True); auto.
  - apply Q_free_quiet.
  - intros a Ha. apply Ha.
  - intros a a' e (Ha&Hx&Hp&Hr) E. assert (LT c Q_free a') by (eapply LT_kill; eauto using Q_free_quiet). split; auto.
    intros _. apply kill_cancelled_spec in E as ((E1&_&E2&E3)&(l&E4&E5)&_).
    split; auto. split; [congruence|]. split; [congruence|]. rewrite E1, E4. intros r Hin. apply Hr in Hin as [F1 F2].
    rewrite Forall_forall in E5.
    split; intros; [apply free_app; auto|apply recv_app; auto]; intros x Hx'; apply E5 in Hx' as (v&_&->); cbn; tauto.
  - intros w i tt a a' e (Ha&Hx&Hp&Hr) _ E.
    assert (HL : LT c Q_free a') by (eapply LT_poll; eauto using Q_free_quiet). split; auto.
    intros ->. apply poll_spec in E as [(_&->&_)|(r0&Hin&Hid&E1&E2&E3&E4&E5)]; [| |apply Ha].
    { split; auto. }
    destruct E4 as [(E4&E6&E7)|(E4&_)]; [|discriminate]. specialize (E5 eq_refl).
    assert (Hother : forall r, In r (m_W a) -> w_id r <> w ->
        (w_active r = 0 -> free_after (m_log a') (w_id r)) /\ (w_recv r = true -> receiving_after (m_log a') (w_id r))).
    { intros r Hin' Hne. apply Hr in Hin' as [F1 F2]. rewrite E4. split; intros.
      - apply free_app; auto. intros x [<-|[]]. auto.
      - apply recv_app; auto. intros x [<-|[]]. cbn. destruct i; auto. intros [-> _]. tauto. }
    destruct i as [an| | |].
    + destruct E5 as (T&E5&_). split; auto. split; [congruence|].
      rewrite Hp in *. cbn [memb existsb] in *. rewrite andb_false_r in E5. split; auto.
      intros r Hin'. apply T in Hin' as [->|[Hin' Hne]].
      2:{ apply Hother; auto. congruence. }
      destruct (Hr r0 Hin) as [F1 F2]. rewrite E4. unfold after_msg, act_after. rewrite Hx. cbn [negb andb orb].
      rewrite !orb_false_r.
      destruct (fin_status an) eqn:EF; cbn [w_active w_recv w_id].
      * split; [|discriminate]. intros _. rewrite Hid. apply free_now. cbn. apply fin_status_spec in EF. tauto.
      * split.
        -- rewrite Hid. destruct (negb (w_recv r0) && negb (n_keep an)) eqn:EK.
           ++ intros _. apply free_now. apply andb_true_iff in EK as [_ EK]. apply negb_true_iff in EK. cbn. auto.
           ++ intros Ea. apply free_app; [rewrite <- Hid; auto|]. intros x [<-|[]]. auto.
        -- intros Hrv. apply recv_app; auto. intros x [<-|[]]. cbn. intros [_ Hst].
           apply fin_status_spec in Hst. congruence.
    + rewrite E7 in Hx by auto. discriminate.
    + subst a'. split; auto. split; [exact Hx|]. split; [exact Hp|]. cbn [m_W logev]. cbn [m_log logev].
      intros r Hin'. apply Hr in Hin' as [F1 F2]. split; intros; [apply free_app|apply recv_app]; auto; intros x [<-|[]]; auto.
    + subst a'. split; auto. split; [exact Hx|]. split; [exact Hp|]. cbn [m_W logev]. cbn [m_log logev].
      intros r Hin'. apply Hr in Hin' as [F1 F2]. split; intros; [apply free_app|apply recv_app]; auto; intros x [<-|[]]; auto.
  - intros ed a (Ha&Hs). cbn zeta. split; [apply Ha|]. intros _. split; [apply Ha|exact Hs].
  - intros t0 w k a a' e (Ha&Hx&Hp&Hr) _ _ E. apply give_order_spec in E as (E8&E9&_&E1&_&E2&_&E3); [|apply Ha].
    assert (HT : LT c Q_free a').
    { split; auto. destruct E2 as [->|(r0&k'&l&G&K&E2&->&C1&C2)]; [apply Ha|].
      apply as_sent_same in K as (_&_&_&_&K).
      eapply log_ok_order; eauto; [apply Ha| |]; cbn; auto. intros _. rewrite K. apply wget_In, Hr in G as [F1 F2].
      destruct (w_recv r0); auto. }
    split; auto. intros ->. split; auto. split; [congruence|]. split; [congruence|].
    destruct (E3 eq_refl) as (r0&k'&G&Hk&C1&C2&Ht&Tc&_&_&_&_&Hl1&Hl2).
    apply as_sent_same in Hk as (K1&_&K2&K3&K4).
    assert (HLG : exists l, m_log a' = m_log a ++ Sent (w_id r0) (OWork k') :: l /\ Forall (fun x => exists fs d, x = Sent (w_id r0) (ORows fs d)) l).
    { destruct (k_rows k) as [|i rs] eqn:ER.
      - exists []. rewrite Hl1 by auto. auto.
      - destruct Hl2 as (_&_&d&_&->); [discriminate|]. eexists. split; [reflexivity|]. constructor; eauto. }
    destruct HLG as (l&HLG&HFl). rewrite Forall_forall in HFl. rewrite HLG.
    intros r Hin. apply Tc in Hin as [->|[Hin Hne]].
    + unfold given. cbn [w_active w_recv w_id]. split.
      * intros E0. rewrite E0 in Ht. destruct Ht as [Ht|[Ht|Ht]]; discriminate.
      * intros E0. apply orb_true_iff in E0 as [E0|E0].
        -- apply wget_In, Hr in G as [_ F]. apply recv_app; auto. intros x [<-|Hx']; auto.
           apply HFl in Hx' as (fs&d&->). auto.
        -- apply andb_true_iff in E0 as [E0 E5]. exists (m_log a), k', l. split; auto. rewrite K3, K4. split; auto.
           split; [destruct (k_recv k) as [[|]|]; congruence|]. intros x Hx'. apply HFl in Hx' as (fs&d&->). auto.
    + apply Hr in Hin as [F1 F2]. split; intros.
      * apply free_app; auto. intros x [<-|Hx']; [cbn; intros [? _]; congruence|]. apply HFl in Hx' as (fs&d&->). auto.
      * apply recv_app; auto. intros x [<-|Hx']; auto. apply HFl in Hx' as (fs&d&->). auto.
  - intros it ws w k tt _ _ _. exact I.
Qed.

Lemma init_workers_idle n g zeros gens r : In r (init_workers n g zeros gens) -> w_active r = 0 /\ w_persis r = 0 /\ w_recv r = false.
Proof.
  unfold init_workers. intros H. apply in_map_iff in H as (i&<-&_). auto.
Qed.

Lemma init_free c h n zeros gens rm pin : J_free c (init_manager c h n zeros gens rm pin).
Proof.
  split; [split; [apply init_table|apply log_ok_nil]|]. cbn. split; auto. split; auto.
  intros r Hr. apply init_workers_idle in Hr as (H1&H2&H3). split; [|congruence]. intros _. left. intros e [].
Qed.
