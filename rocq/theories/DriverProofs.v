(** Proofs about how libE() ends. *)
From Verif Require Import Base BaseLemmas HistoryModel HistorySpec HistoryProofs HistoryInv HistoryInv2 HistoryRun HistoryRun2 RsetModel WorkModel ManagerModel ManagerSpec ManagerProofs ManagerMsg ManagerRun ManagerInv ManagerFinal ManagerEnd ManagerFacts DriverModel DriverSpec.
Local Open Scope nat_scope.

(** ** Runs with polite allocation functions *)
Section Main.
Variables (c : mcfg) (J L : mgr -> Prop) (E : (nat -> row -> row) -> Prop).
Hypothesis HL : forall m, J m -> L m.
Hypothesis Hkill : forall m m' e, J m -> kill_cancelled c m = (m', e) -> L m' /\ (e = None -> J m').
Hypothesis Hpoll : forall w i t m m' e, J m -> poll c (w, i, t) m = (m', e) -> L m' /\ (e = None -> J m').
Hypothesis Hedit : forall ed m, E ed -> J m -> J (set_h m (alloc_edit ed (m_h m))).
Hypothesis Hgive : forall t w k m m' e, J m -> give_order c t w k m = (m', e) -> L m' /\ (e = None -> J m').

Lemma receive_E msgs m m' e : J m -> receive c msgs m = (m', e) -> L m' /\ (e = None -> J m').
Proof. intros HJ H. eapply (receive_ind c J L (fun _ _ => True)); eauto. Qed.
Lemma give_orders_E ws m m' e : J m -> give_orders c ws m = (m', e) -> L m' /\ (e = None -> J m').
Proof. intros HJ H. eapply (give_orders_ind c J L (fun _ _ => True)); eauto. Qed.

Lemma iterate_E it m m' s : E (it_edit it) -> J m -> iterate c it m = (m', s) -> L m' /\ ((forall e, s <> CExc e) -> J m').
Proof.
  intros HE HJ. unfold iterate.
  destruct (term_test c (it_elapsed it) m) as [[|n]|e0].
  2,3: intros [= <- <-]; split; auto.
  destruct (kill_cancelled c m) as [m0 [e0|]] eqn:EK; cbn [bindx].
  { intros [= <- <-]. apply Hkill in EK as [EK _]; auto. split; [auto|]. intros H; destruct (H e0); auto. }
  apply Hkill in EK as [_ EK]; auto. specialize (EK eq_refl).
  destruct (receive c (it_msgs it) m0) as [m1 [e1|]] eqn:ER.
  { intros [= <- <-]. apply receive_E in ER as [ER _]; auto. split; [auto|]. intros H; destruct (H e1); auto. }
  apply receive_E in ER as [_ ER]; auto. specialize (ER eq_refl).
  unfold alloc_work. pose proof (Hedit (it_edit it) m1 HE ER) as J2.
  set (m2 := set_h m1 (alloc_edit (it_edit it) (m_h m1))) in *.
  destruct (it_alloc it) as [ea| |ws] eqn:EA.
  { intros [= <- <-]. split; auto. }
  { destruct (_ && _) eqn:ES; intros [= <- <-]; auto. }
  destruct (_ && _) eqn:ES.
  { intros [= <- <-]. auto. }
  destruct (give_orders c ws m2) as [m3 [e3|]] eqn:EG.
  { intros [= <- <-]. apply give_orders_E in EG as [EG _]; eauto. split; [auto|]. intros H; destruct (H e3); auto. }
  apply give_orders_E in EG as [LG EG]; eauto. specialize (EG eq_refl).
  destruct (term_test c (it_elapsed2 it) m3) as [[|n]|e4].
  - destruct (any_active m3); intros [= <- <-]; auto.
  - intros [= <- <-]; auto.
  - intros [= <- <-]; auto.
Qed.

Lemma main_E its : (forall it, In it its -> E (it_edit it)) -> forall m m' s, J m -> main_loop c its m = (m', s) ->
  L m' /\ ((forall e, s <> CExc e) -> J m').
Proof.
  induction its as [|it its IH]; intros HE m m' s HJ; cbn [main_loop].
  - intros [= <- <-]. auto.
  - destruct (iterate c it m) as [m1 s1] eqn:EI.
    apply iterate_E in EI as [E1 E2]; auto with datatypes.
    destruct s1 as [| |e].
    + apply IH; [|apply E2; discriminate]. intros it' Hin. apply HE. now right.
    + intros [= <- <-]. split; auto.
    + intros [= <- <-]. split; auto.
Qed.
End Main.

(** ** Results received are in the history, except those whose handling raised *)
Definition ended_cell (m : mgr) i := cell (h_rows (m_h m)) i F_sim_ended = Some (vbool true).
Definition R (k : nat) c (m : mgr) : Prop :=
  table_ok c m /\ h_safe (m_h m) = true /\ (forall f, status f = true -> column (m_h m) f) /\
  exists bad : list answer, length bad <= k /\
    forall w a i, In (Got w (IData a)) (m_log m) -> sim_results a -> In i (n_rows a) -> ended_cell m i \/ In a bad.

Lemma R_weaken k c m : R k c m -> R (S k) c m.
Proof. intros (T&S&C&bad&L&H). repeat (split; auto). exists bad. split; auto. Qed.

Lemma R_step k c m m' l : R k c m -> table_ok c m' -> keeps (m_h m) (m_h m') -> m_log m' = m_log m ++ l ->
  (forall w a, ~ In (Got w (IData a)) l) -> R k c m'.
Proof.
  intros (T&S&C&bad&L&H) T' (K1&K2&K3) E N. split; auto. split; [congruence|]. split; [auto|].
  exists bad. split; auto. intros w a i Hin Ha Hi. rewrite E in Hin. apply in_app_iff in Hin as [Hin|Hin]; [|now apply N in Hin].
  destruct (H w a i Hin Ha Hi) as [Hc|Hb]; auto. left. unfold ended_cell. apply K3; auto.
Qed.

Lemma R_kill k c m m' e : R k c m -> kill_cancelled c m = (m', e) -> R k c m'.
Proof.
  intros HR E. apply kill_cancelled_spec in E as ((E1&_&E2&_)&(l&E3&E4)&E5&_). rewrite Forall_forall in E4.
  eapply R_step; eauto.
  - unfold table_ok. rewrite E1. apply HR.
  - destruct E5 as [-> | ->]; [apply keeps_refl|apply (keeps_step HKill)].
  - intros w a H. apply E4 in H as (v&_&H). discriminate.
Qed.

Lemma finishes_got ids w i : ~ In (Got w i) (finishes ids).
Proof. unfold finishes. intros H. apply in_map_iff in H as (v&Hv&_). discriminate. Qed.

Lemma R_poll k c w i t m m' e : R k c m -> poll c (w, i, t) m = (m', e) -> R (S k) c m' /\ (e = None -> R k c m').
Proof.
  intros HR E. pose proof HR as (T&S&C&bad&L&HB). pose proof (poll_table _ _ _ _ _ T E) as (T'&_).
  apply poll_spec in E as [(_&->&->)|(r0&Hin&Hid&E1&E2&E3&E4&E5)]; auto.
  { split; auto. now apply R_weaken. }
  assert (K : keeps (m_h m) (m_h m')).
  { destruct i; try (rewrite E3; apply keeps_refl). eapply keeps_msg; eauto. }
  assert (EL : exists l, m_log m' = m_log m ++ Got w i :: l /\ forall v j, ~ In (Got v j) l).
  { destruct E4 as [(E4&_)|(_&_&_&E4&_)]; eexists; (split; [exact E4|]); [intros ? ? []|apply finishes_got]. }
  destruct EL as (l&EL&NL).
  assert (A : R (Datatypes.S k) c m').
  { destruct K as (K1&K2&K3). split; auto. split; [congruence|]. split; [auto|].
    exists (match i with IData a => a :: bad | _ => bad end). split; [destruct i; cbn; lia|].
    intros v a j Hj Ha Hr. rewrite EL in Hj. apply in_app_iff in Hj as [Hj|[[= -> ->]|Hj]].
    - destruct (HB v a j Hj Ha Hr) as [Hc|Hb]; [left; apply K3; auto|]. right. destruct i; auto. now right.
    - right. now left.
    - now apply NL in Hj. }
  split; auto. intros ->. specialize (E5 eq_refl).
  destruct K as (K1&K2&K3). split; auto. split; [congruence|]. split; [auto|]. exists bad. split; auto.
  intros v a j Hj Ha Hr. rewrite EL in Hj. apply in_app_iff in Hj as [Hj|[[= -> ->]|Hj]].
  - destruct (HB v a j Hj Ha Hr) as [Hc|Hb]; [left; apply K3; auto|auto].
  - left. destruct Ha as (Ht&Hn1&Hn2&Hu). destruct E5 as (_&_&_&E5&_).
    assert (EF : fin_status a = false).
    { destruct (fin_status a) eqn:EF; auto. apply fin_status_spec in EF as [EF|EF]; congruence. }
    destruct (E5 EF Ht) as [(H&_)|(_&H1&H2)]; [congruence|]. unfold ended_cell. rewrite H1.
    pose proof (hf_frame (n_rows a) (out_arr (n_out a)) (c_kill c) t (m_h m)) as F. cbn zeta in F.
    destruct F as (_&_&_&_&_&_&_&_&_&_&_&_&F&_). apply F; auto.
  - now apply NL in Hj.
Qed.

Lemma R_give k c t w o m m' e : R k c m -> give_order c t w o m = (m', e) -> R k c m'.
Proof.
  intros HR E. apply give_order_spec in E as (_&_&_&T'&_&EL&EH&_); [|apply HR].
  assert (exists l, m_log m' = m_log m ++ l /\ forall v a, ~ In (Got v (IData a)) l) as (l&L1&L2).
  { destruct EL as [->|(r0&k'&l&_&_&O&->&_)].
    - exists []. rewrite app_nil_r. split; auto.
    - exists l. split; auto. intros v a. destruct O as [->|(d&->)]; cbn; intuition discriminate. }
  eapply R_step; eauto. destruct EH as [-> | ->]; [apply keeps_refl|apply keeps_given].
Qed.

Lemma R_stop k c t w m m' e : R k c m -> stop_persistent c t w m = (m', e) -> R k c m'.
Proof.
  intros HR E. apply stop_persistent_spec in E as (T'&_&_&EH&(l&EL&EN)&_); [|apply HR]. rewrite Forall_forall in EN.
  eapply R_step; eauto.
  - destruct EH as [->|(rows&->)]; [apply keeps_refl|apply (keeps_step (HToGen rows t))].
  - intros v a Hin. apply EN in Hin as (u&_&[Hin|[(k1&Hk&Hin)|(fs&d&Hin)]]); discriminate.
Qed.

Lemma polite_keeps ed h : (forall i r f, protected f = true -> ed i r f = r f) -> keeps h (alloc_edit ed h).
Proof.
  intros H. split; auto. split; auto. intros k f Hc Hs Hsafe Hcell.
  assert (Hp : protected f = true) by (destruct f; cbn in *; auto; discriminate).
  assert (M : forall l n j r, nth_error l j = Some r -> exists r', nth_error (mapi n ed l) j = Some r' /\ r' f = r f).
  { induction l as [|x l IH]; intros n [|j] r; cbn; try discriminate.
    - intros [= <-]. eexists. split; [reflexivity|]. now apply H.
    - apply IH. }
  unfold cell in *. change (h_rows (alloc_edit ed h)) with (mapi 0 ed (trim_H h) ++ skipn (h_index h) (h_rows h)).
  destruct (nth_error (h_rows h) k) as [r|] eqn:EN; [|discriminate]. assert (Hk : k < length (h_rows h)) by (apply nth_error_Some; congruence).
  assert (Hlen : length (mapi 0 ed (trim_H h)) = Nat.min (h_index h) (length (h_rows h))).
  { rewrite ManagerEnd.mapi_length. unfold trim_H. now rewrite firstn_length. }
  destruct (Nat.lt_ge_cases k (h_index h)) as [Hk2|Hk2].
  - rewrite nth_error_app1 by (rewrite Hlen; lia). destruct (M (trim_H h) 0 k r) as (r'&->&E).
    + unfold trim_H. rewrite nth_error_firstn. assert ((k <? h_index h) = true) as -> by (now apply Nat.ltb_lt). exact EN.
    + cbn in *. congruence.
  - rewrite nth_error_app2 by (rewrite Hlen; lia). rewrite Hlen, nth_error_skipn.
    replace (h_index h + (k - Nat.min (h_index h) (length (h_rows h)))) with k by lia. unfold row in *. rewrite EN. exact Hcell.
Qed.

Lemma R_edit k c ed m : (forall i r f, protected f = true -> ed i r f = r f) -> R k c m -> R k c (set_h m (alloc_edit ed (m_h m))).
Proof.
  intros H HR. eapply R_step with (l := []); eauto.
  - apply HR.
  - now apply polite_keeps.
  - now rewrite app_nil_r.
Qed.

Lemma R_finish k c m : R k c m -> R k c (kill_workers m).
Proof.
  intros HR. pose proof (kill_workers_spec m) as (K1&K2&K3&_). eapply R_step; eauto.
  - unfold table_ok. rewrite K3. apply HR.
  - rewrite K2. apply keeps_refl.
  - intros. apply finishes_got.
Qed.

Lemma run_R c its t rounds m m' o : polite its -> R 0 c m -> run c its t rounds m = (m', o) -> R 2 c m'.
Proof.
  intros HP HR E. apply run_cases in E as (m1&s&E1&E2).
  apply (main_E c (R 0 c) (R 1 c) (fun ed => forall i r f, protected f = true -> ed i r f = r f)) in E1 as [A B]; auto.
  2: apply R_weaken.
  2: { intros a a' e Ha H. eapply R_kill in H; eauto. split; auto. now apply R_weaken. }
  2: { intros w i tt a a' e Ha H. eapply R_poll in H; eauto. }
  2: { intros ed a He Ha. now apply R_edit. }
  2: { intros tt w k a a' e Ha H. eapply R_give in H; eauto. split; auto. now apply R_weaken. }
  assert (Fin : forall k mm mm' f, R k c mm -> final_phase c t rounds mm = (mm', f) -> R (S k) c mm' /\ ((forall e, f <> FExc e) -> R k c mm')).
  { intros k mm mm' f Hk H. eapply (final_ind c (R k c) (R (S k) c) (fun _ _ => True)) in H; auto.
    - intros a Ha. apply Ha.
    - apply R_weaken.
    - intros w i tt a a' e Ha _ HH. eapply R_poll in HH; eauto.
    - intros tt w a a' e Ha _ HH. eapply R_stop in HH; eauto. split; auto. now apply R_weaken.
    - intros a Ha. now apply R_finish.
    - red; auto. }
  destruct E2 as [(->&->&->)|(Hs&f&E2&->)]; [now apply R_weaken|]. eapply Fin in E2 as [E2 _]; eauto.
Qed.

Lemma init_R c outs H0 n zeros gens rm pin : R 0 c (init_manager c (fresh_history c outs H0 true) n zeros gens rm pin).
Proof.
  split; [apply init_table|]. split; [reflexivity|]. split.
  - intros f Hf. apply init_column. destruct f; cbn in Hf; try discriminate; cbn; tauto.
  - exists []. split; [apply le_n|]. intros ? ? ? Hin. cbn in Hin. destruct Hin.
Qed.

(** ** The end of the team *)
Lemma result_healthy t msgs : (forall d, ~ In (d, MError) msgs) -> result_loop t msgs <> RDone true.
Proof.
  revert t. induction msgs as [|[d k] msgs IH]; intros t H.
  - cbn. destruct t as [z|]; [destruct (z <? 0)%Z|]; discriminate.
  - assert (H' : forall d, ~ In (d, MError) msgs) by (intros x Hx; apply (H x); now right).
    cbn. destruct t as [z|].
    + destruct (z <? 0)%Z; [discriminate|]. destruct (d <=? z)%Z; [|discriminate].
      destruct k; try discriminate; [now apply IH|]. destruct (H d). now left.
    + destruct k; try discriminate; [now apply IH|]. destruct (H d). now left.
Qed.
Lemma result_forever t msgs : t <> None \/ (exists z, In (z, MResult) msgs) -> result_loop t msgs <> RForever.
Proof.
  revert t. induction msgs as [|[d k] msgs IH]; intros t H.
  - cbn. destruct t as [z|]; [destruct (z <? 0)%Z; discriminate|]. destruct H as [H|(z&[])]. congruence.
  - cbn. destruct t as [z|].
    + destruct (z <? 0)%Z; [discriminate|]. destruct (d <=? z)%Z; [|discriminate].
      destruct k; try discriminate. apply IH. left. discriminate.
    + destruct k; try discriminate. apply IH. right. destruct H as [H|(z&[H|H])]; [congruence|congruence|eauto].
Qed.

Lemma team_length th t team : length (fst (kill_proc_team th t team)) = length team.
Proof.
  induction team as [|w team IH]; auto. cbn. destruct (result_loop t (wk_msgs w)) as [[]| |]; cbn; auto;
    [|destruct (terminate th w); cbn; auto];
    destruct (kill_proc_team th t team); cbn in *; lia.
Qed.
Lemma team_done th t team team' : kill_proc_team th t team = (team', CDone) -> forall w, In w team' -> wk_alive w = false.
Proof.
  revert team'. induction team as [|w team IH]; intros team'; cbn.
  - intros [= <-] w [].
  - destruct (result_loop t (wk_msgs w)) as [[]| |]; try discriminate.
    + destruct (kill_proc_team th t team) as [l r]. intros [= <- ->]. intros v [<- | Hv]; auto. eapply IH; eauto.
    + destruct (terminate th w) as [w'|] eqn:ET; [|discriminate]. destruct (kill_proc_team th t team) as [l r].
      intros [= <- ->]. intros v [<- | Hv]; [|eapply IH; eauto].
      unfold terminate in ET. destruct (_ && _); [discriminate|]. now injection ET as <-.
Qed.
Lemma team_ok th t team : healthy team -> (t <> None \/ forall w, In w team -> exists z, In (z, MResult) (wk_msgs w)) ->
  (th = true -> forall w, In w team -> wk_stays w = false) -> snd (kill_proc_team th t team) = CDone.
Proof.
  induction team as [|w team IH]; intros HH HT HS; auto. cbn.
  pose proof (result_healthy t (wk_msgs w) (fun d => HH w d (or_introl eq_refl))) as N1.
  assert (N2 : result_loop t (wk_msgs w) <> RForever).
  { apply result_forever. destruct HT as [HT|HT]; auto. right. apply HT. now left. }
  assert (IH' : snd (kill_proc_team th t team) = CDone).
  { apply IH; [intros v d Hv; apply HH; now right| |intros E v Hv; apply HS; auto; now right].
    destruct HT as [HT|HT]; auto. right. intros v Hv. apply HT. now right. }
  destruct (kill_proc_team th t team) as [l r]. cbn in IH'. subst r.
  destruct (result_loop t (wk_msgs w)) as [[]| |]; cbn; auto; try congruence.
  unfold terminate. destruct th; cbn; auto. rewrite (HS eq_refl w (or_introl eq_refl)). reflexivity.
Qed.
Lemma team_raised_healthy th t team : healthy team -> snd (kill_proc_team th t team) <> CRaised.
Proof.
  induction team as [|w team IH]; intros HH; [discriminate|]. cbn.
  pose proof (result_healthy t (wk_msgs w) (fun d => HH w d (or_introl eq_refl))) as N1.
  assert (IH' : snd (kill_proc_team th t team) <> CRaised) by (apply IH; intros v d Hv; apply HH; now right).
  destruct (result_loop t (wk_msgs w)) as [[]| |]; cbn; try congruence.
  - destruct (kill_proc_team th t team); auto.
  - destruct (terminate th w); cbn; [|discriminate]. destruct (kill_proc_team th t team); auto.
Qed.

Lemma cleanup_files d v : v_files (fst (cleanup d v)) = v_files v.
Proof. unfold cleanup. destruct (d_comms d); auto; destruct (kill_proc_team _ _ _); auto. Qed.
Lemma cleanup_ok d v : healthy (v_team v) -> can_end d (v_team v) -> snd (cleanup d v) = CDone.
Proof.
  intros H [C1 C2]. unfold cleanup. destruct (d_comms d) eqn:E; auto.
  - pose proof (team_ok false (d_timeout d) (v_team v) H C1) as T. destruct (kill_proc_team _ _ _). cbn in *. apply T. discriminate.
  - pose proof (team_ok true (d_timeout d) (v_team v) H C1) as T. destruct (kill_proc_team _ _ _). cbn in *. auto.
Qed.
Lemma cleanup_ended d v v' : d_comms d <> Mpi -> cleanup d v = (v', CDone) -> length (v_team v') = length (v_team v) /\ forall w, In w (v_team v') -> wk_alive w = false.
Proof.
  intros H. unfold cleanup. destruct (d_comms d) eqn:E; try congruence.
  - pose proof (team_length false (d_timeout d) (v_team v)) as HL. destruct (kill_proc_team _ _ _) as [l r] eqn:ET. intros [= <- ->]. cbn in *. split; auto. eapply team_done; eauto.
  - pose proof (team_length true (d_timeout d) (v_team v)) as HL. destruct (kill_proc_team _ _ _) as [l r] eqn:ET. intros [= <- ->]. cbn in *. split; auto. eapply team_done; eauto.
  - intros [= <-]. cbn. rewrite map_length. split; auto. intros w Hw. apply in_map_iff in Hw as (x&<-&_). reflexivity.
Qed.
Lemma finally_files d v r : v_files (fst (finally d v r)) = v_files v.
Proof. unfold finally. pose proof (cleanup_files d v) as H. destruct (cleanup d v) as [v1 []]; auto. Qed.
Lemma finally_ok d v r : healthy (v_team v) -> can_end d (v_team v) -> snd (finally d v r) = r.
Proof. intros H1 H2. unfold finally. pose proof (cleanup_ok d v H1 H2) as H. destruct (cleanup d v) as [v1 []]; cbn in *; congruence. Qed.
Lemma finally_raise d v r H f : (forall H f, r <> DReturn H f) -> snd (finally d v r) <> DReturn H f.
Proof. intros N. unfold finally. destruct (cleanup d v) as [v1 []]; cbn; auto; discriminate. Qed.
Lemma finally_ended d v v' r r' : d_comms d <> Mpi -> healthy (v_team v) -> r <> DForever -> finally d v r = (v', r') -> r' <> DForever ->
  length (v_team v') = length (v_team v) /\ forall w, In w (v_team v') -> wk_alive w = false.
Proof.
  intros HM HH _. unfold finally. destruct (cleanup d v) as [v1 []] eqn:E; intros [= <- <-] N; try congruence.
  - eapply cleanup_ended; eauto.
  - exfalso. revert E. unfold cleanup. destruct (d_comms d); try congruence; try discriminate.
    + pose proof (team_raised_healthy false (d_timeout d) _ HH) as T. destruct (kill_proc_team _ _ _) as [l r0]. intros [= _ ->]. now apply T.
    + pose proof (team_raised_healthy true (d_timeout d) _ HH) as T. destruct (kill_proc_team _ _ _) as [l r0]. intros [= _ ->]. now apply T.
Qed.
Lemma dump_team d io h v : v_team (fst (dump d io h v)) = v_team v.
Proof. unfold dump. destruct (d_save d); auto. destruct (fst io); auto. destruct (snd io); auto. Qed.
