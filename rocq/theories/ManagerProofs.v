(** Basic facts about the manager model. *)
From Verif Require Import Base BaseLemmas HistoryModel HistorySpec HistoryProofs HistoryInv HistoryInv2 HistoryRun RsetModel WorkModel ManagerModel ManagerSpec.

Ltac cj := repeat match goal with |- _ /\ _ => split; [solve [assumption | auto | congruence]|] end.

(** ** Logs *)
Definition log_ok (Q : list event -> event -> Prop) (l : list event) : Prop :=
  forall l1 e l2, l = l1 ++ e :: l2 -> Q l1 e.

Lemma log_ok_nil Q : log_ok Q [].
Proof. intros [|] ? ? E; discriminate. Qed.

Lemma log_ok_snoc Q l e : log_ok Q l -> Q l e -> log_ok Q (l ++ [e]).
Proof.
  intros H He l1 x l2 E. destruct l2 as [|y l2] using rev_ind.
  - apply app_inj_tail in E as [-> ->]. exact He.
  - rewrite app_comm_cons, app_assoc in E. apply app_inj_tail in E as [E _]. eapply H, E.
Qed.

Lemma log_ok_app Q l l' : log_ok Q l -> (forall a e, In e l' -> Q a e) -> log_ok Q (l ++ l').
Proof.
  revert l; induction l' as [|e l' IH]; intros l H H'.
  - now rewrite app_nil_r.
  - replace (l ++ e :: l') with ((l ++ [e]) ++ l') by (rewrite <- app_assoc; reflexivity).
    apply IH.
    + apply log_ok_snoc; auto. apply H'. now left.
    + intros a x Hx. apply H'. now right.
Qed.

(** the log of m' extends that of m by events satisfying P *)
Definition ext (P : event -> Prop) (m m' : mgr) : Prop := exists l, m_log m' = m_log m ++ l /\ Forall P l.

Lemma ext_refl (P : event -> Prop) m m' : m_log m' = m_log m -> ext P m m'.
Proof. exists []. rewrite app_nil_r. auto. Qed.
Lemma ext_trans (P : event -> Prop) a b d : ext P a b -> ext P b d -> ext P a d.
Proof.
  intros (l1&E1&F1) (l2&E2&F2). exists (l1 ++ l2). rewrite E2, E1, app_assoc. split; auto. now apply Forall_app.
Qed.
Lemma ext_snoc (P : event -> Prop) m m' e : m_log m' = m_log m ++ [e] -> P e -> ext P m m'.
Proof. exists [e]. auto. Qed.
Lemma ext_weaken (P Q : event -> Prop) m m' : (forall e, P e -> Q e) -> ext P m m' -> ext Q m m'.
Proof. intros H (l&E&F). exists l. split; auto. eapply Forall_impl; eauto. Qed.

Lemma foldx_rel {A} (R : mgr -> mgr -> Prop) (f : A -> mgr -> ex mgr) l :
  (forall m, R m m) -> (forall a b d, R a b -> R b d -> R a d) ->
  (forall a m, In a l -> R m (fst (f a m))) -> forall m, R m (fst (foldx f l m)).
Proof.
  intros Hr Ht. induction l as [|a l IH]; intros Hf m; cbn [foldx]; [apply Hr|].
  pose proof (Hf a m (or_introl eq_refl)) as H1.
  destruct (f a m) as [m1 [e|]]; cbn [bindx fst] in *; auto.
  eapply Ht; [exact H1|]. apply IH. intros; apply Hf. now right.
Qed.

(** ** The worker table *)
Definition table_ok (c : mcfg) (m : mgr) : Prop :=
  map w_id (m_W m) = if c_gom c then seq 0 (length (m_W m)) else seq 1 (length (m_W m)).

Lemma init_table c h n zeros gens rm pin : table_ok c (init_manager c h n zeros gens rm pin).
Proof.
  unfold table_ok, init_manager, init_workers; cbn [m_W]. rewrite map_map, map_length. cbn [w_id]. rewrite map_id.
  destruct (c_gom c); now rewrite seq_length.
Qed.

Lemma upd_map_id (l : list wrow) i f : (forall r, w_id (f r) = w_id r) -> map w_id (upd l i f) = map w_id l.
Proof. intros H. revert i; induction l; intros [|i]; cbn; auto; now rewrite ?H, ?IHl. Qed.

Lemma upd_len {A} (l : list A) i f : length (upd l i f) = length l.
Proof. revert i; induction l; intros [|i]; cbn; auto. Qed.

Lemma on_worker_ids c w f m : (forall r, w_id (f r) = w_id r) -> map w_id (m_W (on_worker c w f m)) = map w_id (m_W m).
Proof. intros H. unfold on_worker. destruct (wpos _ _ _); cbn; auto. now apply upd_map_id. Qed.

Lemma table_nodup c m : table_ok c m -> NoDup (map w_id (m_W m)).
Proof. intros ->. destruct (c_gom c); apply seq_NoDup. Qed.

Lemma map_seq_nth a l i r : map w_id l = seq a (length l) -> nth_error l i = Some r -> w_id r = a + i.
Proof.
  intros E H. apply map_nth_error with (f := w_id) in H. rewrite E in H.
  assert (i < length l). { apply nth_error_Some. intros H'. rewrite nth_error_None in H'.
    assert (nth_error (seq a (length l)) i = None) by (apply nth_error_None; rewrite seq_length; lia). congruence. }
  apply nth_error_nth with (d := 0) in H. rewrite seq_nth in H by lia. auto.
Qed.

(** Every table row is found under its id. *)
Lemma wget_in c m r : table_ok c m -> In r (m_W m) -> wget (c_gom c) (m_W m) (w_id r) = Some r.
Proof.
  intros T H. apply In_nth_error in H as [i Hi]. unfold wget, wpos. red in T.
  assert (i < length (m_W m)) by (apply nth_error_Some; congruence).
  destruct (c_gom c).
  - rewrite (map_seq_nth 0 _ _ _ T Hi). cbn [Nat.add]. destruct (Nat.ltb_spec i (length (m_W m))); [auto|lia].
  - rewrite (map_seq_nth 1 _ _ _ T Hi). cbn [Nat.add]. destruct (Nat.ltb_spec i (length (m_W m))); [auto|lia].
Qed.

Lemma wget_In g W w r : wget g W w = Some r -> In r W.
Proof. unfold wget. destruct (wpos _ _ _); [|discriminate]. apply nth_error_In. Qed.

Lemma wget_id c m w : table_ok c m -> In w (map w_id (m_W m)) ->
  exists r, wget (c_gom c) (m_W m) w = Some r /\ w_id r = w /\ In r (m_W m).
Proof.
  intros T H. apply in_map_iff in H as (r & E & H). exists r. subst w. split; auto. now apply wget_in.
Qed.

(** [touch c w r0 r1 m m']: the table of m' is that of m with the row r0 of
    worker w replaced by r1. *)
Definition touch (c : mcfg) (w : nat) (r0 r1 : wrow) (m m' : mgr) : Prop :=
  wget (c_gom c) (m_W m) w = Some r0 /\ wget (c_gom c) (m_W m') w = Some r1 /\ w_id r1 = w_id r0 /\
  map w_id (m_W m') = map w_id (m_W m) /\
  (forall r, In r (m_W m') <-> r = r1 \/ (In r (m_W m) /\ w_id r <> w_id r0)).

Lemma touch_table c w r0 r1 m m' : touch c w r0 r1 m m' -> table_ok c m -> table_ok c m'.
Proof.
  intros (_&_&_&E&_) T. unfold table_ok in *. rewrite E, T. 
  apply (f_equal (@length _)) in E. rewrite !map_length in E. now rewrite E.
Qed.

Lemma touch_same c w r m m' : table_ok c m -> wget (c_gom c) (m_W m) w = Some r -> m_W m' = m_W m -> touch c w r r m m'.
Proof.
  intros T G E. unfold touch. rewrite E. repeat split; auto.
  - intros H. destruct (Nat.eq_dec (w_id r0) (w_id r)) as [e|]; [left|tauto].
    pose proof (wget_in c m r0 T H) as A. pose proof (wget_in c m r T (wget_In _ _ _ _ G)) as B.
    rewrite e in A. congruence.
  - intros [->|[H _]]; auto. eapply wget_In; eauto.
Qed.

Lemma touch_trans c w r0 r1 r2 m m' m'' : touch c w r0 r1 m m' -> touch c w r1 r2 m' m'' -> touch c w r0 r2 m m''.
Proof.
  intros (A1&A2&A3&A4&A5) (B1&B2&B3&B4&B5). unfold touch. cj.
  intros r. rewrite B5, A5. rewrite A3. split.
  - intros [->|[[->|H] H']]; [auto|congruence|auto].
  - intros [->|[H H']]; auto.
Qed.

Lemma nth_upd_eq {A} (l : list A) i f : nth_error (upd l i f) i = option_map f (nth_error l i).
Proof. revert i; induction l; intros [|i]; cbn; auto. Qed.
Lemma nth_upd_ne {A} (l : list A) i j f : i <> j -> nth_error (upd l i f) j = nth_error l j.
Proof. revert i j; induction l; intros [|i] [|j] H; cbn; auto; try congruence. Qed.

Lemma on_worker_touch c w f m r0 : table_ok c m -> (forall r, w_id (f r) = w_id r) ->
  wget (c_gom c) (m_W m) w = Some r0 -> touch c w r0 (f r0) m (on_worker c w f m).
Proof.
  intros T Hf G. pose proof G as G'. unfold wget in G'. unfold on_worker.
  destruct (wpos (c_gom c) (length (m_W m)) w) as [i|] eqn:P; [|discriminate].
  cbn [m_W set_W]. unfold touch. cbn [m_W set_W].
  split; [auto|]. split.
  { unfold wget. rewrite upd_len, P, nth_upd_eq, G'. reflexivity. }
  split; [auto|]. split; [now apply upd_map_id|].
  intros r. split.
  - intros H. apply In_nth_error in H as [j Hj]. destruct (Nat.eq_dec i j) as [<-|n].
    + rewrite nth_upd_eq, G' in Hj. cbn in Hj. left. congruence.
    + rewrite nth_upd_ne in Hj by auto. right. split; [eapply nth_error_In; eauto|].
      intros E. pose proof (table_nodup c m T) as N. rewrite NoDup_nth_error in N. apply n.
      apply N; [|].
      * rewrite map_length. apply nth_error_Some. congruence.
      * erewrite !map_nth_error by eauto. congruence.
  - intros [->|[H E]].
    + eapply nth_error_In with (n := i). rewrite nth_upd_eq, G'. reflexivity.
    + apply In_nth_error in H as [j Hj]. eapply nth_error_In with (n := j). rewrite nth_upd_ne; auto.
      intros ->. congruence.
Qed.

(** fields of the state left alone by on_worker *)
Lemma on_worker_h c w f m : m_h (on_worker c w f m) = m_h m.
Proof. unfold on_worker. now destruct (wpos _ _ _). Qed.
Lemma on_worker_log c w f m : m_log (on_worker c w f m) = m_log m.
Proof. unfold on_worker. now destruct (wpos _ _ _). Qed.
Lemma on_worker_exc c w f m : m_exc (on_worker c w f m) = m_exc m.
Proof. unfold on_worker. now destruct (wpos _ _ _). Qed.
Lemma on_worker_res c w f m : m_res (on_worker c w f m) = m_res m.
Proof. unfold on_worker. now destruct (wpos _ _ _). Qed.
Lemma on_worker_pending c w f m : m_pending (on_worker c w f m) = m_pending m.
Proof. unfold on_worker. now destruct (wpos _ _ _). Qed.
Lemma on_worker_pin c w f m : m_persis_in (on_worker c w f m) = m_persis_in m.
Proof. unfold on_worker. now destruct (wpos _ _ _). Qed.
Global Hint Rewrite on_worker_h on_worker_log on_worker_exc on_worker_res on_worker_pending on_worker_pin : ow.
Lemma ensure_keep c D m : m_h (ensure_sim_id c D m) = m_h m /\ m_W (ensure_sim_id c D m) = m_W m /\
  m_log (ensure_sim_id c D m) = m_log m /\ m_exc (ensure_sim_id c D m) = m_exc m /\ m_res (ensure_sim_id c D m) = m_res m /\
  m_pending (ensure_sim_id c D m) = m_pending m.
Proof. unfold ensure_sim_id. destruct (_ && _); cbn; auto 7. Qed.
Lemma freeup_keep w m : m_h (freeup w m) = m_h m /\ m_W (freeup w m) = m_W m /\ m_log (freeup w m) = m_log m /\
  m_exc (freeup w m) = m_exc m /\ m_pending (freeup w m) = m_pending m /\ m_persis_in (freeup w m) = m_persis_in m.
Proof. unfold freeup. destruct (m_res m); cbn; auto 7. Qed.

Lemma kill_workers_spec m : m_log (kill_workers m) = m_log m ++ finishes (map w_id (m_W m)) /\
  m_h (kill_workers m) = m_h m /\ m_W (kill_workers m) = m_W m /\ m_exc (kill_workers m) = m_exc m /\
  m_res (kill_workers m) = m_res m /\ m_pending (kill_workers m) = m_pending m.
Proof.
  unfold kill_workers, finishes.
  assert (G : forall W m0, let m' := fold_left (fun m r => logev m (Sent (w_id r) (OStop SIG_FINISH))) W m0 in
    m_log m' = m_log m0 ++ map (fun w => Sent w (OStop SIG_FINISH)) (map w_id W) /\
    m_h m' = m_h m0 /\ m_W m' = m_W m0 /\ m_exc m' = m_exc m0 /\ m_res m' = m_res m0 /\ m_pending m' = m_pending m0).
  { induction W as [|r W IH]; intros m0; cbn zeta; cbn [fold_left map].
    - rewrite app_nil_r. auto 7.
    - destruct (IH (logev m0 (Sent (w_id r) (OStop SIG_FINISH)))) as (A&B&C&D&E&F).
      rewrite A, B, C, D, E, F. cbn. rewrite <- app_assoc. auto 7. }
  apply G.
Qed.

(** ** Orders *)

(** The order as sent: the one given, with its team filled in. *)
Definition as_sent (k k' : work) : Prop := k' = k \/ (k_team k = None /\ exists l, k' = with_team k l).
Lemma as_sent_same k k' : as_sent k k' -> k_tag k' = k_tag k /\ k_fields k' = k_fields k /\ k_rows k' = k_rows k /\
  k_persistent k' = k_persistent k /\ k_recv k' = k_recv k.
Proof. intros [->|(_&l&->)]; cbn; auto. Qed.

(** the table row of a worker that has been given order k at time t *)
Definition given (t : Z) (k : work) (r : wrow) : wrow :=
  mkW (w_id r) (w_gen r) (k_tag k) (if k_persistent k then k_tag k else w_persis r)
      (w_recv r || (k_persistent k && match k_recv k with Some true => true | _ => false end))
      (if k_tag k =? EVAL_GEN then t else w_gstart r) (w_zero r).

(** the two messages that carry an order *)
Definition order_msgs (v : nat) (k : work) (l : list event) : Prop :=
  l = [Sent v (OWork k)] \/ exists d, l = [Sent v (OWork k); Sent v (ORows (k_fields k) d)].

Lemma send_order_msgs_spec c t w k m m' e r0 :
  table_ok c m -> wget (c_gom c) (m_W m) w = Some r0 -> send_order_msgs c t w k m = (m', e) ->
  touch c w r0 (if k_tag k =? EVAL_GEN then set_gstart t r0 else r0) m m' /\
  m_h m' = m_h m /\ m_res m' = m_res m /\ m_exc m' = m_exc m /\ m_pending m' = m_pending m /\
  m_persis_in m' = m_persis_in m /\
  (exists l, m_log m' = m_log m ++ l /\ order_msgs (w_id r0) k l) /\
  (e = None -> (k_tag k = EVAL_SIM \/ k_tag k = EVAL_GEN \/ k_tag k = PERSIS_STOP) /\
     (k_rows k = [] -> m_log m' = m_log m ++ [Sent (w_id r0) (OWork k)]) /\
     (k_rows k <> [] -> distinct_fields (k_fields k) = true /\
        exists d, row_data (k_fields k) (k_rows k) (h_rows (m_h m)) = Some d /\
          m_log m' = m_log m ++ [Sent (w_id r0) (OWork k); Sent (w_id r0) (ORows (k_fields k) d)])).
Proof.
  intros T G. unfold send_order_msgs, send. rewrite G. cbn [bindx].
  set (m1 := logev m (Sent (w_id r0) (OWork k))).
  set (m2 := if k_tag k =? EVAL_GEN then on_worker c w (set_gstart t) m1 else m1).
  assert (T1 : table_ok c m1) by exact T.
  assert (H2 : touch c w r0 (if k_tag k =? EVAL_GEN then set_gstart t r0 else r0) m m2).
  { unfold m2. destruct (_ =? _).
    - eapply touch_trans; [apply (touch_same c w r0 m m1 T G eq_refl)|]. apply on_worker_touch; auto.
    - now apply touch_same. }
  assert (K2 : m_h m2 = m_h m /\ m_res m2 = m_res m /\ m_exc m2 = m_exc m /\ m_pending m2 = m_pending m /\
               m_persis_in m2 = m_persis_in m /\ m_log m2 = m_log m ++ [Sent (w_id r0) (OWork k)]).
  { unfold m2. destruct (_ =? _); autorewrite with ow; cbn; auto 8. }
  destruct K2 as (K1&K2&K3&K4&K5&K6).
  assert (Base : touch c w r0 (if k_tag k =? EVAL_GEN then set_gstart t r0 else r0) m m2 /\
    m_h m2 = m_h m /\ m_res m2 = m_res m /\ m_exc m2 = m_exc m /\ m_pending m2 = m_pending m /\
    m_persis_in m2 = m_persis_in m /\ (exists l, m_log m2 = m_log m ++ l /\ order_msgs (w_id r0) k l)).
  { cj. eexists. split; [exact K6|]. now left. }
  destruct (negb _) eqn:Etag; [|].
  { intros [= <- <-]. decompose [and] Base. cj. discriminate. }
  assert (Tag : k_tag k = EVAL_SIM \/ k_tag k = EVAL_GEN \/ k_tag k = PERSIS_STOP).
  { apply negb_false_iff in Etag. apply orb_true_iff in Etag as [Etag|Etag].
    - apply orb_true_iff in Etag as [Etag|Etag]; apply Nat.eqb_eq in Etag; auto.
    - apply Nat.eqb_eq in Etag; auto. }
  destruct (k_rows k) as [|i rows] eqn:Erows.
  { intros [= <- <-]. decompose [and] Base. cj. intros _.
    split; [assumption|]. split; [auto|congruence]. }
  rewrite <- Erows.
  destruct (distinct_fields (k_fields k)) eqn:Ed.
  2:{ intros [= <- <-]. decompose [and] Base. cj. discriminate. }
  destruct (row_data (k_fields k) (k_rows k) (h_rows (m_h m2))) as [d|] eqn:Er.
  2:{ intros [= <- <-]. decompose [and] Base. cj. discriminate. }
  assert (G2 : exists r2, wget (c_gom c) (m_W m2) w = Some r2 /\ w_id r2 = w_id r0).
  { destruct H2 as (_&H2&H3&_). eauto. }
  destruct G2 as (r2 & G2 & I2). rewrite G2. intros [= <- <-].
  split.
  { eapply touch_trans; [exact H2|]. apply touch_same; auto; [eapply touch_table; eauto|].
    destruct H2 as (_&H2&_). exact H2. }
  cbn [m_h m_res m_exc m_pending m_persis_in m_log logev].
  cj. rewrite K6, I2, <- app_assoc. cbn [app].
  split; [eexists; split; [reflexivity|right; eauto]|].
  intros _. split; [assumption|]. split; [congruence|]. intros _. split; auto.
  exists d. rewrite K1 in Er. auto.
Qed.

Lemma set_resources_as_sent w k rm k' : set_resources w k rm = Ok k' -> as_sent k k' /\ k_team k' <> None.
Proof.
  unfold set_resources. destruct (k_team k) eqn:E.
  - intros [= <-]. split; [now left|congruence].
  - destruct (default_rset rm w); cbn; [|discriminate]. intros [= <-]. split; [right; split; eauto|discriminate].
Qed.

Lemma send_work_order_spec c t w k m m' e r0 :
  table_ok c m -> wget (c_gom c) (m_W m) w = Some r0 -> send_work_order c t w k m = (m', e) ->
  m_h m' = m_h m /\ m_exc m' = m_exc m /\ m_pending m' = m_pending m /\ m_persis_in m' = m_persis_in m /\
  table_ok c m' /\ map w_id (m_W m') = map w_id (m_W m) /\
  (m_log m' = m_log m \/ exists l k', m_log m' = m_log m ++ l /\ as_sent k k' /\ order_msgs (w_id r0) k' l) /\
  (e = None -> touch c w r0 (if k_tag k =? EVAL_GEN then set_gstart t r0 else r0) m m' /\
     (k_tag k = EVAL_SIM \/ k_tag k = EVAL_GEN \/ k_tag k = PERSIS_STOP) /\
     exists k', as_sent k k' /\ (m_res m <> None -> k_team k' <> None) /\
     (match m_res m with
      | None => m_res m' = None
      | Some rm => exists rm' team, k_team k' = Some team /\ assign_rsets team w rm = (rm', None) /\ m_res m' = Some rm'
      end) /\
     (k_rows k = [] -> m_log m' = m_log m ++ [Sent (w_id r0) (OWork k')]) /\
     (k_rows k <> [] -> distinct_fields (k_fields k) = true /\
        exists d, row_data (k_fields k) (k_rows k) (h_rows (m_h m)) = Some d /\
          m_log m' = m_log m ++ [Sent (w_id r0) (OWork k'); Sent (w_id r0) (ORows (k_fields k) d)])).
Proof.
  intros T G. unfold send_work_order. destruct (m_res m) as [rm|] eqn:ER.
  - destruct (set_resources w k rm) as [k'|e'] eqn:ES.
    2:{ intros [= <- <-]. cj. discriminate. }
    apply set_resources_as_sent in ES as [AS NT].
    destruct (assign_rsets _ w rm) as [rm' [e'|]] eqn:EA.
    { intros [= <- <-]. cbn. cj. discriminate. }
    intros H. eapply (send_order_msgs_spec c t w k' (set_res m (Some rm'))) in H; [|exact T|exact G].
    destruct H as (A1&A2&A3&A4&A5&A6&(l&A7&A8)&A9). cbn [m_h m_res m_exc m_pending m_persis_in m_log set_res] in *.
    pose proof (as_sent_same _ _ AS) as (S1&S2&S3&S4&S5).
    assert (A1' : touch c w r0 (if k_tag k =? EVAL_GEN then set_gstart t r0 else r0) m m').
    { rewrite S1 in A1. eapply touch_trans; [|exact A1]. apply touch_same; auto. }
    cj.
    split; [eapply touch_table; eauto|]. split; [apply A1'|].
    split; [right; exists l, k'; auto|].
    intros ->. destruct (A9 eq_refl) as (B1&B2&B3). split; [auto|]. rewrite S1, S2, S3 in *. split; [auto|].
    exists k'. split; [auto|]. split; [auto|]. split.
    { destruct (k_team k') as [team|] eqn:Et; [|congruence]. exists rm', team. auto. }
    split; auto.
  - intros H. eapply send_order_msgs_spec in H; eauto.
    destruct H as (A1&A2&A3&A4&A5&A6&(l&A7&A8)&A9).
    cj. split; [eapply touch_table; eauto|]. split; [apply A1|].
    split; [right; exists l, k; repeat split; auto; now left|].
    intros ->. destruct (A9 eq_refl) as (B1&B2&B3). split; [auto|]. split; [auto|].
    exists k. split; [now left|]. split; [congruence|]. split; [congruence|]. split; auto.
Qed.

Lemma liftx_keep m r m' e : liftx m r = (m', e) -> m_h m' = fst r /\ snd r = e /\ m_W m' = m_W m /\ m_log m' = m_log m /\
  m_res m' = m_res m /\ m_exc m' = m_exc m /\ m_pending m' = m_pending m /\ m_persis_in m' = m_persis_in m.
Proof. unfold liftx. intros [= <- <-]. cbn. auto 9. Qed.

(** the history after order k was given to w *)
Definition hist_given (c : mcfg) (t : Z) (w : nat) (k : work) (h : hist) : ex hist :=
  if k_tag k =? EVAL_SIM then update_history_x_out (k_rows k) w (c_kill c) t h
  else if k_tag k =? EVAL_GEN then update_history_to_gen (k_rows k) t h
  else (h, None).

Lemma update_alloc_spec c t w k m m' e r0 :
  table_ok c m -> wget (c_gom c) (m_W m) w = Some r0 -> update_state_on_alloc c t w k m = (m', e) ->
  m_log m' = m_log m /\ m_exc m' = m_exc m /\ m_pending m' = m_pending m /\ m_persis_in m' = m_persis_in m /\
  m_res m' = m_res m /\
  touch c w r0 (mkW (w_id r0) (w_gen r0) (k_tag k) (if k_persistent k then k_tag k else w_persis r0)
                 (w_recv r0 || (k_persistent k && match k_recv k with Some true => true | _ => false end))
                 (w_gstart r0) (w_zero r0)) m m' /\
  (m_h m' = m_h m \/ m_h m' = fst (hist_given c t w k (m_h m))) /\
  (e = None -> m_h m' = fst (hist_given c t w k (m_h m)) /\ snd (hist_given c t w k (m_h m)) = None /\
     (k_persistent k = false -> k_recv k = None)).
Proof.
  intros T G. unfold update_state_on_alloc.
  set (m1 := on_worker c w (set_active (k_tag k)) m).
  assert (H1 : touch c w r0 (set_active (k_tag k) r0) m m1) by (apply on_worker_touch; auto).
  match goal with |- context[if k_persistent k then ?a else m1] => set (m2 := if k_persistent k then a else m1) end.
  assert (T1 : table_ok c m1) by (eapply touch_table; eauto).
  assert (G1 : wget (c_gom c) (m_W m1) w = Some (set_active (k_tag k) r0)) by apply H1.
  assert (H2 : touch c w r0 (mkW (w_id r0) (w_gen r0) (k_tag k) (if k_persistent k then k_tag k else w_persis r0)
                 (w_recv r0 || (k_persistent k && match k_recv k with Some true => true | _ => false end))
                 (w_gstart r0) (w_zero r0)) m m2).
  { unfold m2. destruct (k_persistent k); cbn [andb].
    - set (mp := on_worker c w (set_persis (k_tag k)) m1).
      assert (H' : touch c w (set_active (k_tag k) r0) (set_persis (k_tag k) (set_active (k_tag k) r0)) m1 mp)
        by (apply on_worker_touch; auto).
      assert (H'' : touch c w r0 (set_persis (k_tag k) (set_active (k_tag k) r0)) m mp) by (eapply touch_trans; eauto).
      destruct (k_recv k) as [[|]|]; rewrite ?orb_true_r, ?orb_false_r; auto.
      eapply touch_trans; [exact H''|]. apply (on_worker_touch c w (set_recv true)); auto.
      + eapply touch_table; eauto.
      + apply H''.
    - rewrite orb_false_r. exact H1. }
  assert (K2 : m_h m2 = m_h m /\ m_log m2 = m_log m /\ m_exc m2 = m_exc m /\ m_pending m2 = m_pending m /\
               m_persis_in m2 = m_persis_in m /\ m_res m2 = m_res m).
  { unfold m2, m1. destruct (k_persistent k); [destruct (k_recv k) as [[|]|]|]; autorewrite with ow; auto 9. }
  destruct K2 as (K1&K2&K3&K4&K5&K6). unfold hist_given.
  destruct (negb (k_persistent k) && _) eqn:EP.
  { intros [= <- <-]. cj. discriminate. }
  assert (NP : k_persistent k = false -> k_recv k = None).
  { intros E. rewrite E in EP. cbn in EP. now destruct (k_recv k). }
  clearbody m2.
  assert (L : forall hx, (liftx m2 hx = (m', e) \/ ((m2, None) = (m', e) /\ hx = (m_h m, None))) ->
     (hx = (if k_tag k =? EVAL_SIM then update_history_x_out (k_rows k) w (c_kill c) t (m_h m2)
  else if k_tag k =? EVAL_GEN then update_history_to_gen (k_rows k) t (m_h m2)
  else (m_h m2, None))) ->
   m_log m' = m_log m /\ m_exc m' = m_exc m /\ m_pending m' = m_pending m /\ m_persis_in m' = m_persis_in m /\
  m_res m' = m_res m /\
  touch c w r0 (mkW (w_id r0) (w_gen r0) (k_tag k) (if k_persistent k then k_tag k else w_persis r0)
                 (w_recv r0 || (k_persistent k && match k_recv k with Some true => true | _ => false end))
                 (w_gstart r0) (w_zero r0)) m m' /\
  (m_h m' = m_h m \/ m_h m' = fst hx) /\
  (e = None -> m_h m' = fst hx /\ snd hx = None /\
     (k_persistent k = false -> k_recv k = None))).
  { intros hx [H|[H ->]] _.
    - apply liftx_keep in H as (L1&L2&L3&L4&L5&L6&L7&L8).
      split; [congruence|]. split; [congruence|]. split; [congruence|]. split; [congruence|]. split; [congruence|].
      split. { eapply touch_trans; [exact H2|]. apply touch_same; auto. eapply touch_table; eauto. apply H2. }
      split; [auto|]. intros ->. auto.
    - injection H as <- <-. split; [congruence|]. split; [congruence|]. split; [congruence|]. split; [congruence|].
      split; [congruence|]. split; [auto|]. split; [auto|]. cbn. auto. }
  rewrite K1 in *.
  intros H. apply L; auto.
  destruct (_ =? _); [left; auto|]. destruct (_ =? _); [left; auto|]. right; auto.
Qed.

Lemma check_spec c force w k m : check_work_order c force w k m = None ->
  exists r0, wget (c_gom c) (m_W m) w = Some r0 /\
    (w_recv r0 = true -> k_recv k <> None) /\
    (force = false -> w_recv r0 = false -> w_active r0 = 0) /\
    (k_rows k <> [] -> k_fields k <> [] /\ forall f, In f (k_fields k) -> In f (names (h_dtype (m_h m)))).
Proof.
  unfold check_work_order. destruct (wget _ _ _) as [r0|] eqn:G; [|discriminate]. intros H. exists r0. split; auto.
  destruct (if w_recv r0 then _ else _) eqn:E; [discriminate|]. split.
  - intros R. rewrite R in E. destruct (k_recv k); congruence.
  - split.
    + intros -> R. rewrite R in E. cbn in E. destruct (Nat.eqb_spec (w_active r0) 0); [auto|discriminate].
    + intros NE. destruct (k_rows k) eqn:Er; [congruence|]. destruct (k_fields k) as [|f0 fs] eqn:Ef; [discriminate|].
      destruct (forallb _ _) eqn:Ea; [|discriminate]. split; [discriminate|].
      intros f Hf. rewrite forallb_forall in Ea. now apply has_In, Ea.
Qed.

(** Everything about one order. *)
Lemma give_order_spec c t w k m m' e :
  table_ok c m -> give_order c t w k m = (m', e) ->
  m_exc m' = m_exc m /\ m_pending m' = m_pending m /\ m_persis_in m' = m_persis_in m /\
  table_ok c m' /\ map w_id (m_W m') = map w_id (m_W m) /\
  (m_log m' = m_log m \/
   exists r0 k' l, wget (c_gom c) (m_W m) w = Some r0 /\ as_sent k k' /\ order_msgs (w_id r0) k' l /\
     m_log m' = m_log m ++ l /\
     (w_recv r0 = true -> k_recv k <> None) /\ (w_recv r0 = false -> w_active r0 = 0)) /\
  (m_h m' = m_h m \/ m_h m' = fst (hist_given c t w k (m_h m))) /\
  (e = None ->
   exists r0 k', wget (c_gom c) (m_W m) w = Some r0 /\ as_sent k k' /\
     (w_recv r0 = true -> k_recv k <> None) /\ (w_recv r0 = false -> w_active r0 = 0) /\
     (k_tag k = EVAL_SIM \/ k_tag k = EVAL_GEN \/ k_tag k = PERSIS_STOP) /\
     touch c w r0 (given t k r0) m m' /\
     m_h m' = fst (hist_given c t w k (m_h m)) /\ snd (hist_given c t w k (m_h m)) = None /\
     (k_persistent k = false -> k_recv k = None) /\
     (match m_res m with
      | None => m_res m' = None
      | Some rm => exists rm' team, k_team k' = Some team /\ assign_rsets team w rm = (rm', None) /\ m_res m' = Some rm'
      end) /\
     (k_rows k = [] -> m_log m' = m_log m ++ [Sent (w_id r0) (OWork k')]) /\
     (k_rows k <> [] -> (forall f, In f (k_fields k) -> In f (names (h_dtype (m_h m)))) /\
        distinct_fields (k_fields k) = true /\
        exists d, row_data (k_fields k) (k_rows k) (h_rows (m_h m)) = Some d /\
          m_log m' = m_log m ++ [Sent (w_id r0) (OWork k'); Sent (w_id r0) (ORows (k_fields k) d)])).
Proof.
  intros T. unfold give_order. destruct (check_work_order c false w k m) as [e0|] eqn:EC.
  { intros [= <- <-]. cj. discriminate. }
  apply check_spec in EC as (r0 & G & C1 & C2 & C3).
  destruct (send_work_order c t w k m) as [m1 e1] eqn:ES.
  pose proof ES as ES'. eapply send_work_order_spec in ES'; eauto.
  destruct ES' as (S1&S2&S3&S4&S5&S6&S7&S8).
  assert (LOG : forall mm, m_log mm = m_log m1 -> m_log mm = m_log m \/
   exists r0 k' l, wget (c_gom c) (m_W m) w = Some r0 /\ as_sent k k' /\ order_msgs (w_id r0) k' l /\
     m_log mm = m_log m ++ l /\
     (w_recv r0 = true -> k_recv k <> None) /\ (w_recv r0 = false -> w_active r0 = 0)).
  { intros mm ->. destruct S7 as [->|(l&k'&L1&L2&L3)]; [auto|]. right. exists r0, k', l. auto 9. }
  destruct e1 as [e1|]; cbn [bindx].
  { intros [= <- <-]. cj. discriminate. }
  destruct (S8 eq_refl) as (U1&U2&k'&U3&U4&U5&U6&U7).
  set (r1 := if k_tag k =? EVAL_GEN then set_gstart t r0 else r0) in *.
  intros H. eapply (update_alloc_spec _ _ _ _ _ _ _ r1) in H; [|auto|apply U1].
  destruct H as (V1&V2&V3&V4&V5&V6&V7&V8).
  assert (TT : touch c w r0 (given t k r0) m m').
  { eapply touch_trans; [exact U1|]. replace (given t k r0) with
      (mkW (w_id r1) (w_gen r1) (k_tag k) (if k_persistent k then k_tag k else w_persis r1)
         (w_recv r1 || k_persistent k && match k_recv k with Some true => true | _ => false end) (w_gstart r1) (w_zero r1)); auto.
    unfold given, r1. destruct (_ =? _); reflexivity. }
  split; [congruence|]. split; [congruence|]. split; [congruence|].
  split; [eapply touch_table; eauto|]. split; [apply TT|]. split; [auto|].
  rewrite S1 in *. split; [auto|].
  intros ->. destruct (V8 eq_refl) as (W1&W2&W3).
  exists r0, k'. rewrite V1, V5. cj. 
  intros NE. destruct (U7 NE) as (X1&X2). split; [apply C3; auto|]. auto.
Qed.
