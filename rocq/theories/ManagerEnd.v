(** What holds when a run returns: everyone is idle, all results are recorded,
    all resource sets are free. *)
From Verif Require Import Base BaseLemmas HistoryModel HistorySpec HistoryProofs HistoryInv HistoryInv2 HistoryRun HistoryRun2 RsetModel RsetSpec WorkModel ManagerModel ManagerSpec ManagerProofs ManagerMsg ManagerRun ManagerInv ManagerFinal.

Lemma snoc_split {A} (l : list A) e a x b : l ++ [e] = a ++ x :: b ->
  (b = [] /\ x = e /\ a = l) \/ exists b', b = b' ++ [e] /\ l = a ++ x :: b'.
Proof.
  destruct b as [|y b0] using rev_ind; intros H.
  - left. apply app_inj_tail in H as [-> ->]. auto.
  - right. clear IHb0. rewrite app_comm_cons, app_assoc in H. apply app_inj_tail in H as [-> ->]. eauto.
Qed.

Definition starts_persistent (w : nat) (e : event) : Prop :=
  exists k, e = Sent w (OWork k) /\ k_persistent k = true /\ k_tag k <> PERSIS_STOP.

Lemma ended_snoc l w e : ended_after l w -> ~ starts_persistent w e -> ended_after (l ++ [e]) w.
Proof.
  intros H N a k b E Hp Ht. apply snoc_split in E as [(->&E&->)|(b'&->&E)].
  - destruct N. exists k. rewrite <- E. auto.
  - destruct (H _ _ _ E Hp Ht) as (x&Hx&Hf). exists x. split; auto. apply in_or_app. auto.
Qed.
Lemma ended_app l l' w : ended_after l w -> (forall e, In e l' -> ~ starts_persistent w e) -> ended_after (l ++ l') w.
Proof.
  revert l; induction l' as [|e l' IH]; intros l H N; [now rewrite app_nil_r|].
  change (e :: l') with ([e] ++ l'). rewrite app_assoc. apply IH; [|intros; apply N; now right].
  apply ended_snoc; auto. apply N. now left.
Qed.
Lemma ended_now l w e : finished_by w e -> ended_after (l ++ [e]) w.
Proof.
  intros H a k b E Hp Ht. apply snoc_split in E as [(->&E&->)|(b'&->&E)].
  - subst e. destruct H.
  - exists e. split; auto. apply in_or_app. right. now left.
Qed.

(** ** Everyone is idle *)

Definition J_idle c (m : mgr) : Prop :=
  table_ok c m /\ m_exc m = false /\
  forall r, In r (m_W m) -> (w_active r = 0 -> free_after (m_log m) (w_id r)) /\
                            (w_persis r = 0 -> ended_after (m_log m) (w_id r)).

Definition neutral (w : nat) (e : event) : Prop := ~ order_to w e /\ ~ starts_persistent w e.

Lemma idle_app c m m' r l : J_idle c m -> In r (m_W m) -> m_log m' = m_log m ++ l -> (forall e, In e l -> neutral (w_id r) e) ->
  (w_active r = 0 -> free_after (m_log m') (w_id r)) /\ (w_persis r = 0 -> ended_after (m_log m') (w_id r)).
Proof.
  intros (_&_&H) Hr -> Hl. apply H in Hr as [F1 F2]. split; intros; [apply free_app|apply ended_app]; auto; intros e He; now apply Hl.
Qed.

Lemma got_neutral v w i : neutral w (Got v i).
Proof. split; [auto|]. intros (k&H&_). discriminate. Qed.

Lemma given_log_neutral v w k (l : list event) : order_msgs v k l -> w <> v -> forall e, In e l -> neutral w e.
Proof.
  intros H Hne. assert (forall e, In e l -> e = Sent v (OWork k) \/ exists fs d, e = Sent v (ORows fs d)) as H'.
  { destruct H as [->|(d&->)]; intros e He; cbn in He; intuition eauto. }
  intros e He. apply H' in He as [->|(fs&d&->)]; split; cbn; auto.
  - intros [? _]. congruence.
  - intros (k'&[= <- _]&_). congruence.
  - intros (k'&E&_). discriminate.
Qed.

Lemma give_log c t w k m m' : table_ok c m -> give_order c t w k m = (m', None) ->
  exists r0 k' l, wget (c_gom c) (m_W m) w = Some r0 /\ as_sent k k' /\ touch c w r0 (given t k r0) m m' /\
    (k_tag k = EVAL_SIM \/ k_tag k = EVAL_GEN \/ k_tag k = PERSIS_STOP) /\
    m_exc m' = m_exc m /\ m_pending m' = m_pending m /\
    m_log m' = m_log m ++ l /\ order_msgs (w_id r0) k' l /\
    m_h m' = fst (hist_given c t w k (m_h m)) /\ snd (hist_given c t w k (m_h m)) = None.
Proof.
  intros T E. apply give_order_spec in E as (E8&E9&_&E1&_&E2&_&E3); auto.
  destruct (E3 eq_refl) as (r0&k'&G&Hk&C1&C2&Ht&Tc&Hh1&Hh2&_&_&Hl1&Hl2).
  pose proof Hk as Hk'. apply as_sent_same in Hk' as (_&K1&_).
  destruct (k_rows k) as [|i rs] eqn:ER.
  - specialize (Hl1 eq_refl). exists r0, k', [Sent (w_id r0) (OWork k')]. repeat (split; [assumption|]).
    split; [|auto]. left. auto.
  - destruct Hl2 as (_&_&d&_&Hl2); [discriminate|]. eexists r0, k', _. repeat (split; [eassumption|]).
    split; [|auto]. right. exists d. rewrite K1. reflexivity.
Qed.

Lemma J_idle_kill c m m' : J_idle c m -> kill_cancelled c m = (m', None) -> J_idle c m'.
Proof.
  intros HJ E. pose proof HJ as (T&X&_). apply kill_cancelled_spec in E as ((E1&_&E2&_)&(l&E3&E4)&_).
  split; [unfold table_ok in *; now rewrite E1|]. split; [congruence|]. rewrite E1. intros r Hr.
  eapply idle_app; eauto. rewrite Forall_forall in E4. intros e He. apply E4 in He as (v&_&->). split; cbn; auto.
  intros (k&H&_). discriminate.
Qed.

Lemma J_idle_poll c w i t m m' : J_idle c m -> honest w i -> poll c (w, i, t) m = (m', None) -> J_idle c m'.
Proof.
  intros HJ HM E. pose proof HJ as (T&X&HR). pose proof (poll_table _ _ _ _ _ T E) as (T'&_).
  apply poll_spec in E as [(_&->&_)|(r0&Hin&Hid&E1&E2&E3&E4&E5)]; auto.
  destruct E4 as [(E4&E6&E7)|(E4&_)]; [|discriminate]. specialize (E5 eq_refl).
  split; auto. split; [congruence|].
  assert (Hsame : forall r, In r (m_W m) ->
      (w_active r = 0 -> free_after (m_log m') (w_id r)) /\ (w_persis r = 0 -> ended_after (m_log m') (w_id r))).
  { intros r Hr. eapply idle_app; eauto. intros e [<-|[]]. apply got_neutral. }
  destruct i as [a| | |].
  - destruct E5 as (Tc&_). intros r Hr. apply Tc in Hr as [->|[Hr _]]; [|auto].
    destruct (Hsame r0 Hin) as [F1 F2]. rewrite E4 in *. unfold after_msg, act_after. rewrite X, orb_false_r.
    destruct (fin_status a) eqn:EF; cbn [w_active w_persis w_id].
    + apply fin_status_spec in EF. rewrite Hid. split; intros _; [apply free_now|apply ended_now]; cbn; tauto.
    + split.
      * rewrite Hid in *. destruct (negb (memb w (m_pending m)) && negb (w_recv r0) && negb (n_keep a)) eqn:EK; [|auto].
        intros _. apply free_now. apply andb_true_iff in EK as [_ EK]. apply negb_true_iff in EK. cbn. auto.
      * destruct (n_persistent a) eqn:EP; [|auto]. intros E0. destruct HM; auto.
  - rewrite E7 in X; auto. discriminate.
  - subst m'. exact Hsame.
  - subst m'. exact Hsame.
Qed.

Lemma J_idle_give c t w k m m' : J_idle c m -> give_order c t w k m = (m', None) -> J_idle c m'.
Proof.
  intros HJ E. pose proof HJ as (T&X&HR). apply give_log in E as (r0&k'&l&G&Hk&Tc&Ht&EX&_&EL&EO&_); auto.
  split; [eapply touch_table; eauto|]. split; [congruence|].
  intros r Hr. apply Tc in Hr as [->|[Hr Hne]].
  - unfold given. cbn [w_active w_persis w_id]. split.
    + intros E0. rewrite E0 in Ht. destruct Ht as [Ht|[Ht|Ht]]; discriminate.
    + destruct (k_persistent k) eqn:EP.
      * intros E0. rewrite E0 in Ht. destruct Ht as [Ht|[Ht|Ht]]; discriminate.
      * intros E0. apply wget_In in G. apply HR in G as [_ F]. rewrite EL. apply ended_app; auto.
        apply as_sent_same in Hk as (_&_&_&K&_).
        intros e He (k1&->&P1&_). assert (k1 = k'); [|congruence].
        destruct EO as [->|(d&->)]; cbn in He.
        -- destruct He as [He|[]]. congruence.
        -- destruct He as [He|[He|[]]]; congruence.
  - eapply idle_app; eauto. eapply given_log_neutral; eauto.
Qed.

Lemma J_idle_stop c t w m m' : J_idle c m -> (exists r, In r (m_W m) /\ w_id r = w /\ w_persis r <> 0) ->
  stop_persistent c t w m = (m', None) -> J_idle c m'.
Proof.
  intros HJ (rw&W1&W2&W3) E. pose proof HJ as (T&X&HR).
  apply stop_persistent_spec in E as (T'&_&EX&_&(l&EL&EN)&E); auto.
  destruct (E eq_refl) as (_&r0&r1&Tc&R1&R2&R3&R4&_). split; auto. split; [congruence|].
  assert (r0 = rw). { destruct Tc as (Tc&_). rewrite <- W2 in Tc. rewrite (wget_in c m) in Tc; auto. congruence. } subst rw.
  assert (N : forall v e, In e l -> neutral v e).
  { rewrite Forall_forall in EN. intros v e He. apply EN in He as (u&_&[->|[(k&Hk&->)|(fs&d&->)]]); split; cbn; try tauto.
    - intros (k&H&_). discriminate.
    - intros (k1&[= _ <-]&_&H). auto.
    - intros (k&H&_). discriminate. }
  intros r Hr. apply Tc in Hr as [->|[Hr Hne]].
  - rewrite R1, R4. replace (w_id r1) with (w_id r0) by (symmetry; apply Tc).
    split; [|congruence]. destruct (w_active r0 =? 0) eqn:E0; [congruence|]. apply Nat.eqb_neq in E0. congruence.
  - eapply idle_app; eauto.
Qed.

Lemma init_idle c h n zeros gens rm pin : J_idle c (init_manager c h n zeros gens rm pin).
Proof.
  split; [apply init_table|]. split; [reflexivity|]. intros r Hr. split.
  - intros _. left. intros e [].
  - intros _ a k b E. destruct a; discriminate.
Qed.

(** ** Requests to stop *)

Lemma stops_app a b : stops (a ++ b) = stops a ++ stops b.
Proof. apply flat_map_app. Qed.

Lemma stop_list c t ws : NoDup ws -> forall m m', table_ok c m -> (forall w, In w ws -> In w (map w_id (m_W m))) ->
  foldx (stop_persistent c t) ws m = (m', None) ->
  table_ok c m' /\ exists l, m_log m' = m_log m ++ l /\ stops l = ws.
Proof.
  induction ws as [|w ws IH]; intros HN m m' T Hin; cbn [foldx].
  - intros [= <-]. split; auto. exists []. rewrite app_nil_r. auto.
  - destruct (stop_persistent c t w m) as [m1 [e|]] eqn:E; cbn [bindx]; [discriminate|]. intros H.
    inversion HN as [|? ? HN1 HN2]; subst.
    apply stop_persistent_spec in E as (T1&I1&_&_&_&E); auto. destruct (E eq_refl) as (_&r0&r1&Tc&_&_&_&_&l&EL&x&l'&El&Ex).
    apply IH in H as (T2&l2&E2&E3); auto.
    2:{ intros v Hv. rewrite I1. auto with datatypes. }
    split; auto. exists (l ++ l2). split; [now rewrite E2, EL, app_assoc|]. rewrite stops_app, E3.
    assert (Hw : w_id r0 = w).
    { destruct (wget_id c m w T (Hin w (or_introl eq_refl))) as (r&G&Hr&_). destruct Tc as (Tc&_). congruence. }
    subst l. rewrite Hw in *. destruct Ex as [(->&->)|(k&->&K&Ex)]; cbn; auto.
    rewrite K. cbn. destruct Ex as [->|(fs&d&->)]; reflexivity.
Qed.

Lemma stop_all_log c t m m' : table_ok c m -> stop_all_persistent c t m = (m', None) ->
  exists l, m_log m' = m_log m ++ l /\ stops l = map w_id (filter (fun r => negb (w_persis r =? 0)) (m_W m)).
Proof.
  intros T E. apply stop_list in E; auto; [apply E| |].
  - pose proof (table_nodup c m T) as H. induction (m_W m) as [|r l IH]; cbn in *; [constructor|].
    inversion H as [|? ? H1 H2]; subst. destruct (negb (w_persis r =? 0)); cbn; auto. constructor; auto.
    intros Hin. apply H1. apply in_map_iff in Hin as (x&<-&Hx). apply filter_In in Hx as [Hx _]. now apply in_map.
  - intros w Hin. apply in_map_iff in Hin as (x&<-&Hx). apply filter_In in Hx as [Hx _]. now apply in_map.
Qed.

Lemma stops_finishes ids : stops (finishes ids) = [].
Proof. induction ids; cbn; auto. Qed.

Lemma wait_log c rounds m m' s : table_ok c m -> final_loop c rounds 0 m = (m', s) ->
  exists l, m_log m' = m_log m ++ l /\ stops l = [].
Proof.
  intros T E.
  set (J := fun a => table_ok c a /\ exists l, m_log a = m_log m ++ l /\ stops l = []).
  assert (P : forall w i t a a' e, J a -> poll c (w, i, t) a = (a', e) -> J a').
  { intros w i t a a' e (Ta&l&El&Sl) E0. pose proof (poll_table _ _ _ _ _ Ta E0) as (T'&_). split; auto.
    apply poll_spec in E0 as [(_&->&_)|(r0&_&_&_&_&_&E0&_)]; eauto.
    destruct E0 as [(E0&_)|(_&_&_&E0&_)]; rewrite E0, El, <- app_assoc; eexists; (split; [reflexivity|]).
    - rewrite stops_app, Sl. reflexivity.
    - rewrite stops_app, Sl. cbn. apply stops_finishes. }
  eapply (final_loop_ind c J J (fun _ _ => True)) in E as [E _]; auto.
  - apply E.
  - intros w i t a a' e Ha _ H. split; [|intros _]; eapply P; eauto.
  - red; auto.
  - split; auto. exists []. rewrite app_nil_r. auto.
Qed.

(** ** Everything given out and everything returned is in the history *)

Definition J_rec c (m : mgr) : Prop :=
  table_ok c m /\ m_exc m = false /\ h_safe (m_h m) = true /\
  (forall f, status f = true -> column (m_h m) f) /\ recorded m.

Definition keeps (h h' : hist) : Prop :=
  h_safe h' = h_safe h /\ (forall f, column h f -> column h' f) /\
  (forall k f, column h f -> status f = true -> h_safe h = true -> cell (h_rows h) k f = Some (vbool true) ->
     cell (h_rows h') k f = Some (vbool true)).
Lemma keeps_refl h : keeps h h.
Proof. repeat split; auto. Qed.
Lemma keeps_step o h : keeps h (fst (hstep o h)).
Proof.
  split; [apply hstep_safe|]. split; [intros; now apply hstep_column|].
  intros k f Hc Hs Hsafe Hcell. apply hstep_mono; auto. destruct o; cbn; auto; [now left|]. destruct ret; cbn; auto. now left.
Qed.
Lemma keeps_msg c t w a gs h h' : hist_msg c t w a gs h h' -> keeps h h'.
Proof.
  intros [->|[->|(D&_&->)]]; [apply keeps_refl| |].
  - apply (keeps_step (HF (n_rows a) (out_arr (n_out a)) (c_kill c) t)).
  - apply (keeps_step (HXIn w D gs t)).
Qed.
Lemma keeps_given c t w k h : keeps h (fst (hist_given c t w k h)).
Proof.
  unfold hist_given. destruct (k_tag k =? EVAL_SIM); [apply (keeps_step (HXOut (k_rows k) w (c_kill c) t))|].
  destruct (k_tag k =? EVAL_GEN); [apply (keeps_step (HToGen (k_rows k) t))|apply keeps_refl].
Qed.

Lemma sc_eqb_eq a b : sc_eqb a b = true -> a = b.
Proof. destruct a, b; cbn; try discriminate; auto. intros H. apply Z.eqb_eq in H. congruence. Qed.
Lemma scs_eqb_eq a : forall b, scs_eqb a b = true -> a = b.
Proof.
  induction a as [|x a IH]; intros [|y b]; cbn; try discriminate; auto. intros H. apply andb_true_iff in H as [H1 H2].
  apply sc_eqb_eq in H1. apply IH in H2. congruence.
Qed.
Lemma val_eqb_eq a b : val_eqb a b = true -> a = b.
Proof.
  destruct a, b; cbn; try discriminate; intros H; f_equal; [now apply sc_eqb_eq|now apply scs_eqb_eq].
Qed.
Lemma same_protected_cell a : forall b f k, all_same_protected a b = true -> protected f = true -> cell b k f = cell a k f.
Proof.
  induction a as [|x a IH]; intros [|y b] f k; cbn [all_same_protected]; try discriminate; auto.
  intros H Hf. apply andb_true_iff in H as [H1 H2]. destruct k as [|k]; [|now apply (IH b f k)].
  cbn. f_equal. symmetry. apply val_eqb_eq. unfold same_protected in H1. rewrite forallb_forall in H1. apply H1.
  destruct f; try discriminate; cbn; tauto.
Qed.

Lemma nth_error_skipn {A} (l : list A) : forall n k, nth_error (skipn n l) k = nth_error l (n + k).
Proof. induction l as [|x l IH]; intros [|n] k; cbn; auto. now destruct k. Qed.

Lemma mapi_length {A B} (f : nat -> A -> B) l : forall k, length (mapi k f l) = length l.
Proof. induction l; intros k; cbn; auto. Qed.

Lemma edit_keeps ed h : (h_safe h = true -> all_same_protected (trim_H h) (trim_H (alloc_edit ed h)) = true) -> keeps h (alloc_edit ed h).
Proof.
  intros H. split; auto. split; auto. intros k f Hc Hs Hsafe Hcell. specialize (H Hsafe).
  assert (Hp : protected f = true) by (destruct f; cbn in *; auto; discriminate).
  destruct (Nat.lt_ge_cases k (h_index h)) as [Hk|Hk].
  - pose proof (same_protected_cell _ _ f k H Hp) as E. unfold cell, trim_H in E. cbn [h_index alloc_edit set_rows with_rows] in E.
    rewrite !nth_error_firstn in E. assert ((k <? h_index h) = true) as E0 by (now apply Nat.ltb_lt). rewrite E0 in E.
    unfold cell in *. cbn [h_rows]. rewrite E. exact Hcell.
  - unfold cell in *. cbn [h_rows alloc_edit set_rows with_rows]. pose proof Hcell as HL.
    destruct (nth_error (h_rows h) k) eqn:EN; [|discriminate]. assert (k < length (h_rows h)) by (apply nth_error_Some; congruence).
    assert (Hlen : length (mapi 0 ed (trim_H h)) = h_index h).
    { rewrite mapi_length. unfold trim_H. rewrite firstn_length. lia. }
    rewrite nth_error_app2 by lia. rewrite Hlen, nth_error_skipn.
    replace (h_index h + (k - h_index h)) with k by lia. rewrite EN. exact Hcell.
Qed.

Lemma rec_ext m m' l : recorded m -> keeps (m_h m) (m_h m') -> h_safe (m_h m) = true -> (forall f, status f = true -> column (m_h m) f) ->
  m_log m' = m_log m ++ l ->
  (forall w k i, In (Sent w (OWork k)) l -> k_tag k = EVAL_SIM -> In i (k_rows k) ->
     cell (h_rows (m_h m')) i F_sim_started = Some (vbool true)) ->
  (forall w a i, In (Got w (IData a)) l -> n_type a = EVAL_SIM ->
     n_status a <> FIN_PERSIS_SIM -> n_status a <> FIN_PERSIS_GEN -> In i (n_rows a) ->
     cell (h_rows (m_h m')) i F_sim_ended = Some (vbool true)) -> recorded m'.
Proof.
  intros (R1&R2) (_&_&K) Hs Hc E N1 N2. split.
  - intros w k i Hin Ht Hi. rewrite E in Hin. apply in_app_iff in Hin as [Hin|Hin]; [|eauto]. apply K; eauto.
  - intros w a i Hin Ht H1 H2 Hi. rewrite E in Hin. apply in_app_iff in Hin as [Hin|Hin]; [|eauto]. apply K; eauto.
Qed.

Lemma J_rec_step c m m' l : J_rec c m -> table_ok c m' -> m_exc m' = m_exc m -> keeps (m_h m) (m_h m') ->
  m_log m' = m_log m ++ l ->
  (forall w k i, In (Sent w (OWork k)) l -> k_tag k = EVAL_SIM -> In i (k_rows k) ->
     cell (h_rows (m_h m')) i F_sim_started = Some (vbool true)) ->
  (forall w a i, In (Got w (IData a)) l -> n_type a = EVAL_SIM ->
     n_status a <> FIN_PERSIS_SIM -> n_status a <> FIN_PERSIS_GEN -> In i (n_rows a) ->
     cell (h_rows (m_h m')) i F_sim_ended = Some (vbool true)) -> J_rec c m'.
Proof.
  intros (T&X&S&C&R) T' X' K E N1 N2. split; auto. split; [congruence|]. pose proof K as (K1&K2&_).
  split; [congruence|]. split; [auto|]. eapply rec_ext; eauto.
Qed.

Lemma J_rec_kill c m m' : J_rec c m -> kill_cancelled c m = (m', None) -> J_rec c m'.
Proof.
  intros HJ E. apply kill_cancelled_spec in E as ((E1&_&E2&_)&(l&E3&E4)&[E5|E5]&_); rewrite Forall_forall in E4.
  - eapply J_rec_step; eauto; [unfold table_ok; rewrite E1; apply HJ|rewrite E5; apply keeps_refl| |];
      intros w k i H; apply E4 in H as (v&_&H); discriminate.
  - eapply J_rec_step; eauto; [unfold table_ok; rewrite E1; apply HJ|rewrite E5; apply (keeps_step HKill)| |];
      intros w k i H; apply E4 in H as (v&_&H); discriminate.
Qed.

Lemma J_rec_poll c w i t m m' : J_rec c m -> poll c (w, i, t) m = (m', None) -> J_rec c m'.
Proof.
  intros HJ E. pose proof HJ as (T&X&S&_). pose proof (poll_table _ _ _ _ _ T E) as (T'&_).
  apply poll_spec in E as [(_&->&_)|(r0&Hin&Hid&E1&E2&E3&E4&E5)]; auto.
  destruct E4 as [(E4&E6&E7)|(E4&_)]; [|discriminate]. specialize (E5 eq_refl).
  eapply J_rec_step; eauto.
  - destruct i; try (rewrite E3; apply keeps_refl). eapply keeps_msg; eauto.
  - intros v k j [H|[]]. discriminate.
  - intros v a j [[= -> ->]|[]] Ht Hn1 Hn2 Hj. destruct E5 as (_&_&_&E5&_).
    assert (EF : fin_status a = false).
    { destruct (fin_status a) eqn:EF; auto. apply fin_status_spec in EF as [EF|EF]; congruence. }
    destruct (E5 EF Ht) as [(_&H&_)|(_&H1&H2)]; [congruence|]. rewrite H1.
    pose proof (hf_frame (n_rows a) (out_arr (n_out a)) (c_kill c) t (m_h m)) as F. cbn zeta in F.
    destruct F as (_&_&_&_&_&_&_&_&_&_&_&_&F&_). apply F; auto.
Qed.

Lemma J_rec_edit c ed m : J_rec c m -> let m' := set_h m (alloc_edit ed (m_h m)) in
  (h_safe (m_h m) = true -> all_same_protected (trim_H (m_h m)) (trim_H (m_h m')) = true) -> J_rec c m'.
Proof.
  intros HJ m' H. eapply J_rec_step with (l := []) (m := m); auto.
  - apply HJ.
  - now apply edit_keeps.
  - now rewrite app_nil_r.
  - intros w k i [].
  - intros w a i [].
Qed.

Lemma J_rec_give c t w k m m' : J_rec c m -> give_order c t w k m = (m', None) -> J_rec c m'.
Proof.
  intros HJ E. apply give_log in E as (r0&k'&l&G&Hk&Tc&Ht&EX&_&EL&EO&EH&EN); [|apply HJ].
  apply as_sent_same in Hk as (K1&_&K2&_).
  eapply J_rec_step; eauto.
  - eapply touch_table; eauto. apply HJ.
  - rewrite EH. apply keeps_given.
  - intros v k1 i Hin Ht1 Hi. assert (k1 = k') as ->.
    { destruct EO as [->|(d&->)]; cbn in Hin.
      - destruct Hin as [Hin|[]]. congruence.
      - destruct Hin as [Hin|[Hin|[]]]; congruence. }
    rewrite K1 in Ht1. rewrite EH. unfold hist_given in *. rewrite Ht1 in *. cbn [Nat.eqb EVAL_SIM] in *.
    pose proof (x_out_frame (k_rows k) w (c_kill c) t (m_h m)) as F. cbn zeta in F.
    destruct F as (_&_&_&_&_&_&_&_&_&_&_&F&_). destruct (F EN) as (_&_&F'&_). apply F'. congruence.
  - intros v a i Hin. destruct EO as [->|(d&->)]; cbn in Hin; intuition discriminate.
Qed.

Lemma J_rec_stop c t w m m' : J_rec c m -> stop_persistent c t w m = (m', None) -> J_rec c m'.
Proof.
  intros HJ E. apply stop_persistent_spec in E as (T'&_&EX&EH&(l&EL&EN)&_); [|apply HJ]. rewrite Forall_forall in EN.
  eapply J_rec_step; eauto.
  - destruct EH as [->|(rows&->)]; [apply keeps_refl|apply (keeps_step (HToGen rows t))].
  - intros v k i Hin Ht. apply EN in Hin as (u&_&[Hin|[(k1&Hk&[= _ <-])|(fs&d&Hin)]]); try discriminate.
    rewrite Hk in Ht. discriminate.
  - intros v a i Hin. apply EN in Hin as (u&_&[Hin|[(k1&Hk&Hin)|(fs&d&Hin)]]); discriminate.
Qed.

Lemma init_rec c outs H0 n zeros gens rm pin : J_rec c (init_manager c (fresh_history c outs H0 true) n zeros gens rm pin).
Proof.
  split; [apply init_table|]. split; [reflexivity|]. split; [reflexivity|]. split.
  - intros f Hf. apply init_column. destruct f; cbn in Hf; try discriminate; cbn; tauto.
  - split; intros ? ? ? [].
Qed.
