(** Consequences used by the manager's property theorems. *)
From Verif Require Import Base BaseLemmas HistoryModel HistorySpec HistoryProofs HistoryInv HistoryInv2 HistoryRun HistoryRun2 RsetModel RsetSpec WorkModel ManagerModel ManagerSpec ManagerProofs ManagerMsg ManagerRun ManagerInv ManagerFinal ManagerEnd ManagerRes.

(** ** Budget *)

Lemma init_budget c N outs H0 safe n zeros gens rm pin : J_budget c N (init_manager c (fresh_history c outs H0 safe) n zeros gens rm pin).
Proof.
  split; [split; [apply init_table|apply log_ok_nil]|]. cbn [m_h m_log init_manager points_out].
  unfold fresh_history. destruct (init_counts (match c_sim_max c with Some n => n | None => 100 end) outs H0 safe) as (_&_&_&_&E&_).
  rewrite E. lia.
Qed.

Lemma budget_total N b l : log_ok (Q_budget N) l -> 1 <= b -> units_up_to b l -> points_out l <= N + b - 1.
Proof.
  intros H Hb. revert H. induction l as [|e l IH] using rev_ind; [cbn; lia|]. intros H U.
  assert (H1 : log_ok (Q_budget N) l).
  { intros l1 x l2 E. apply (H l1 x (l2 ++ [e])). rewrite E, <- app_assoc. reflexivity. }
  assert (U1 : units_up_to b l) by (intros w k Hin; apply (U w k); apply in_or_app; auto).
  specialize (IH H1 U1). rewrite points_out_app. destruct e as [w o|w i]; cbn [points_out]; [|lia].
  destruct o as [k| | |]; cbn [points_out]; try lia. destruct (Nat.eqb_spec (k_tag k) EVAL_SIM) as [ek|]; [|lia].
  specialize (H l (Sent w (OWork k)) [] eq_refl). cbn in H. rewrite ek in H.
  assert (length (k_rows k) <= b) by (apply (U w k); auto; apply in_or_app; right; now left).
  assert (points_out l < N) by (apply H; discriminate). lia.
Qed.

(** ** After the stop test *)

Lemma main_loop_app c its1 : forall its2 m m1, main_loop c its1 m = (m1, CGo) ->
  main_loop c (its1 ++ its2) m = main_loop c its2 m1.
Proof.
  induction its1 as [|it its1 IH]; intros its2 m m1; cbn [main_loop app].
  - now intros [= <-].
  - destruct (iterate c it m) as [m0 []]; try discriminate. apply IH.
Qed.

Lemma final_quiet c t rounds m m' s : table_ok c m -> final_phase c t rounds m = (m', s) ->
  exists l, m_log m' = m_log m ++ l /\ forall e, In e l -> ~ is_order e.
Proof.
  intros T E. set (J := fun a => table_ok c a /\ ext (fun e => ~ is_order e) m a).
  assert (A : forall a l, table_ok c a -> table_ok c l -> ext (fun e => ~ is_order e) m a -> ext (fun e => ~ is_order e) a l -> J l).
  { intros a l _ Tl H1 H2. split; auto. eapply ext_trans; eauto. }
  eapply (final_ind c J J (fun _ _ => True)) in E as [(_&(l&E1&E2)) _]; auto.
  - exists l. split; auto. now rewrite Forall_forall in E2.
  - intros a Ha. apply Ha.
  - intros w i tt a a' e (Ta&Ha) _ H. pose proof (poll_table _ _ _ _ _ Ta H) as (T'&_). apply poll_quiet in H; auto.
    assert (J a') by (eapply (A a); eauto). auto.
  - intros tt w a a' e (Ta&Ha) _ H. pose proof H as H2. apply stop_quiet in H; auto. apply stop_persistent_spec in H2 as (T'&_); auto.
    assert (J a') by (eapply (A a); eauto). auto.
  - intros a (Ta&Ha). pose proof (kill_workers_spec a) as (K1&_&K3&_). eapply (A a); eauto.
    + unfold table_ok in *. now rewrite K3.
    + exists (finishes (map w_id (m_W a))). split; auto. apply finishes_quiet.
  - red; auto.
  - split; auto. now apply ext_refl.
Qed.

Lemma stop_here c its1 it its2 t rounds m m1 m' o n :
  table_ok c m1 -> main_loop c its1 m = (m1, CGo) -> term_test c (it_elapsed it) m1 = Ok (S n) ->
  run c (its1 ++ it :: its2) t rounds m = (m', o) ->
  exists l, m_log m' = m_log m1 ++ l /\ forall e, In e l -> ~ is_order e.
Proof.
  intros T E1 E2 E. apply run_cases in E as (m0&s&E3&E). rewrite (main_loop_app _ _ _ _ _ E1) in E3. cbn [main_loop] in E3.
  unfold iterate in E3. rewrite E2 in E3. injection E3 as <- <-. destruct E as [(E&_)|(_&f&E&_)]; [discriminate|].
  eapply final_quiet; eauto.
Qed.

Lemma main_table c its m m' s : table_ok c m -> main_loop c its m = (m', s) ->
  table_ok c m' /\ map w_id (m_W m') = map w_id (m_W m).
Proof.
  intros T E. set (J := fun a => table_ok c a /\ map w_id (m_W a) = map w_id (m_W m)).
  eapply (main_ind c J J (fun _ _ => True) (fun _ _ => True)) in E as [E _]; auto.
  - intros a a' e (H1&H2) H. apply kill_table in H. assert (J a'); [|auto]. split; [unfold table_ok in *; now rewrite H|congruence].
  - intros w i tt a a' e (H1&H2) _ H. apply poll_table in H as (P1&P2); auto. assert (J a'); [|auto]. split; [auto|congruence].
  - intros tt w k a a' e (H1&H2) _ _ H. apply give_order_spec in H as (_&_&_&P1&P2&_); auto. assert (J a'); [|auto]. split; [auto|congruence].
  - red; auto.
  - red; auto.
  - split; auto.
Qed.

(** ** Refused orders *)

Lemma refused c t w k m r : table_ok c m -> In r (m_W m) -> w_id r = w -> sim_max_given c m = false ->
  (w_recv r = false /\ w_active r <> 0 \/ w_recv r = true /\ k_recv k = None) ->
  forall ws, give_orders c ((w, k, t) :: ws) m = (m, Some EAssert).
Proof.
  intros T Hin Hw Hg Hr ws. cbn [give_orders]. rewrite Hg. unfold give_order, check_work_order.
  rewrite <- Hw, (wget_in c m r T Hin). destruct Hr as [[-> Ha]|[-> ->]]; cbn; auto.
  destruct (Nat.eqb_spec (w_active r) 0); [congruence|]. reflexivity.
Qed.

Lemma give_orders_app c ws1 : forall ws2 m m1, sim_max_given c m1 = false -> give_orders c ws1 m = (m1, None) ->
  give_orders c (ws1 ++ ws2) m = give_orders c ws2 m1.
Proof.
  induction ws1 as [|[[w k] t] ws1 IH]; intros ws2 m m1 Hg; cbn [give_orders app].
  - now intros [= <-].
  - destruct (sim_max_given c m) eqn:E. { intros [= <-]. congruence. }
    destruct (give_order c t w k m) as [m0 [e|]]; cbn [bindx]; [discriminate|]. now apply IH.
Qed.

(** ** Shutdown *)

Lemma returned_finish c its t rounds h n zeros gens rm pin m' f :
  run c its t rounds (init_manager c h n zeros gens rm pin) = (m', Returned f) ->
  exists l, m_log m' = l ++ finishes (worker_ids c n) /\ no_finish l /\ no_error l.
Proof.
  intros E. pose proof (init_F c h n zeros gens rm pin) as HF.
  apply (run_trace _ _ _ _ _ _ _ _ HF) in E as [(l&_&_&_&H)|[H|(_&H)]]; auto; destruct (H f); auto.
Qed.

Lemma returned_how c its t rounds h n zeros gens rm pin m' f :
  run c its t rounds (init_manager c h n zeros gens rm pin) = (m', Returned f) ->
  (f = 0 /\ forall r, In r (m_W m') -> w_active r = 0 /\ w_persis r = 0) \/
  (f = 2 /\ (forall r, In r (m_W m') -> w_persis r = 0) /\ exists msgs el, In (msgs, el) rounds /\ wall_passed c el).
Proof.
  intros E. pose proof (init_F c h n zeros gens rm pin) as HF.
  eapply (returned_ind c (F_ok c (worker_ids c n)) (fun _ _ => True) (fun _ _ => True)) in E.
  - destruct E as (m0&m1&m2&_&_&_&_&_&(_&_&HX&_)&->&E). pose proof (kill_workers_spec m2) as (_&_&K&_). rewrite K.
    destruct E as [(->&H1&H2)|[(->&H1&H2)|(->&H1)]].
    + left. split; auto. intros r Hr. split; [eapply any_active_false; eauto|eapply any_persis_false; eauto].
    + right. split; auto. split; auto. intros r Hr. eapply any_persis_false; eauto.
    + congruence.
  - intros a Ha. apply Ha.
  - intros a a' Ha H. eapply F_kill in H as [_ H]; eauto using F_ok_inv.
  - intros w i tt a a' Ha _ H. eapply F_poll in H as [_ H]; eauto using F_ok_inv.
  - intros ed a Ha. cbn zeta. intros _. exact Ha.
  - intros tt w k a a' Ha _ _ H. eapply F_give in H as [_ H]; eauto using F_ok_inv.
  - intros tt w a a' Ha _ H. eapply F_stop in H as [_ H]; eauto using F_ok_inv.
  - red; auto.
  - red; auto.
  - red; auto.
  - exact HF.
Qed.

Lemma finishes_neutral ids w e : In e (finishes ids) -> neutral w e.
Proof. unfold finishes. intros H. apply in_map_iff in H as (x&<-&_). split; [intros H; apply H|intros (k&H&_); discriminate]. Qed.

Lemma returned_idle c its t rounds h n zeros gens rm pin m' : msgs_ok honest its -> rounds_ok honest rounds ->
  run c its t rounds (init_manager c h n zeros gens rm pin) = (m', Returned 0) ->
  forall w, In w (worker_ids c n) -> free_after (m_log m') w /\ ended_after (m_log m') w.
Proof.
  intros HM HR E w Hw. pose proof (returned_how _ _ _ _ _ _ _ _ _ _ _ _ E) as HH.
  destruct HH as [(_&HH)|(HH&_)]; [|discriminate].
  assert (HF : map w_id (m_W m') = worker_ids c n).
  { eapply (returned_ind c (fun a => table_ok c a /\ map w_id (m_W a) = worker_ids c n) (fun _ _ => True) (fun _ _ => True)) in E.
    - destruct E as (m0&m1&m2&_&_&_&_&_&(_&HX)&->&_). pose proof (kill_workers_spec m2) as (_&_&K&_). now rewrite K.
    - intros a Ha. apply Ha.
    - intros a a' (H1&H2) H. apply kill_table in H. split; [unfold table_ok in *; now rewrite H|congruence].
    - intros v i tt a a' (H1&H2) _ H. apply poll_table in H as (P1&P2); auto. split; [auto|congruence].
    - intros ed a Ha. cbn zeta. auto.
    - intros tt v k a a' (H1&H2) _ _ H. apply give_order_spec in H as (_&_&_&P1&P2&_); auto. split; [auto|congruence].
    - intros tt v a a' (H1&H2) _ H. apply stop_persistent_spec in H as (P1&P2&_); auto. split; [auto|congruence].
    - red; auto.
    - red; auto.
    - red; auto.
    - split; [apply init_table|]. apply init_F. }
  eapply (returned_ind c (J_idle c) (fun _ _ => True) honest) in E; auto.
  - destruct E as (m0&m1&m2&_&_&_&_&_&(_&_&HJ)&->&_). pose proof (kill_workers_spec m2) as (K1&_&K&_). rewrite K in *. rewrite K1.
    rewrite <- HF in Hw. apply in_map_iff in Hw as (r&<-&Hr). destruct (HJ r Hr) as (J1&J2). destruct (HH r Hr) as (A1&A2).
    split.
    + apply free_app; auto. intros e He. eapply finishes_neutral; eauto.
    + apply ended_app; auto. intros e He. eapply finishes_neutral; eauto.
  - intros a Ha. apply Ha.
  - intros; eapply J_idle_kill; eauto.
  - intros; eapply J_idle_poll; eauto.
  - intros; eapply J_idle_give; eauto.
  - intros; eapply J_idle_stop; eauto.
  - red; auto.
  - apply init_idle.
Qed.

Lemma returned_recorded c its t rounds outs H0 n zeros gens rm pin m' f :
  run c its t rounds (init_manager c (fresh_history c outs H0 true) n zeros gens rm pin) = (m', Returned f) -> recorded m'.
Proof.
  intros E. eapply (returned_ind c (J_rec c) (fun _ _ => True) (fun _ _ => True)) in E; auto.
  - destruct E as (m0&m1&m2&_&_&_&_&_&(_&_&_&_&HJ)&->&_). pose proof (kill_workers_spec m2) as (K1&K2&_&_).
    unfold recorded in *. rewrite K1, K2. destruct HJ as [J1 J2]. split.
    + intros w k i Hin. apply in_app_iff in Hin as [Hin|Hin]; [eauto|]. apply in_map_iff in Hin as (x&Hx&_). discriminate.
    + intros w a i Hin. apply in_app_iff in Hin as [Hin|Hin]; [eauto|]. apply in_map_iff in Hin as (x&Hx&_). discriminate.
  - intros a Ha. apply Ha.
  - intros; eapply J_rec_kill; eauto.
  - intros; eapply J_rec_poll; eauto.
  - intros ed a Ha. cbn zeta. apply (J_rec_edit c ed a Ha).
  - intros; eapply J_rec_give; eauto.
  - intros; eapply J_rec_stop; eauto.
  - red; auto.
  - red; auto.
  - red; auto.
  - apply init_rec.
Qed.

Lemma returned_stops c its t rounds h n zeros gens rm pin m' f :
  run c its t rounds (init_manager c h n zeros gens rm pin) = (m', Returned f) ->
  exists m0 l1 l2, main_loop c its (init_manager c h n zeros gens rm pin) = (m0, CStop) /\
    m_log m' = m_log m0 ++ l1 ++ l2 ++ finishes (worker_ids c n) /\
    stops l1 = map w_id (filter (fun r => negb (w_persis r =? 0)) (m_W m0)) /\ (forall w i, ~ In (Got w i) l1) /\
    stops l2 = [] /\ no_finish l2.
Proof.
  intros E. pose proof (init_F c h n zeros gens rm pin) as HF.
  eapply (returned_ind c (F_ok c (worker_ids c n)) (fun _ _ => True) (fun _ _ => True)) in E.
  - destruct E as (m0&m1&m2&E0&J0&E1&J1&E2&J2&->&_). pose proof (kill_workers_spec m2) as (K1&_).
    assert (T0 : table_ok c m0) by apply J0. assert (T1 : table_ok c m1) by apply J1.
    destruct (stop_all_log c t m0 m1 T0 E1) as (l1&L1&L2).
    assert (NG : forall w i, ~ In (Got w i) l1).
    { set (J := fun a => table_ok c a /\ exists l, m_log a = m_log m0 ++ l /\ forall w i, ~ In (Got w i) l).
      assert (A : J m1).
      { eapply (stop_all_ind c J J) in E1 as [E1 _]; auto.
        - intros a Ha. apply Ha.
        - intros tt w a a' e (Ta&l&La&Ha) _ H. apply stop_persistent_spec in H as (T'&_&_&_&(l'&L'&L'')&_); auto.
          assert (J a'); [|auto]. split; auto. exists (l ++ l'). split; [now rewrite L', La, app_assoc|].
          intros v i Hin. apply in_app_iff in Hin as [Hin|Hin]; [now apply (Ha v i)|]. rewrite Forall_forall in L''.
          apply L'' in Hin as (x&_&[Hx|[(k&_&Hx)|(fs&d&Hx)]]); discriminate.
        - split; auto. exists []. rewrite app_nil_r. auto. }
      destruct A as (_&l&La&Ha). rewrite L1 in La. apply app_inv_head in La. now subst l. }
    destruct (wait_log c rounds m1 m2 _ T1 E2) as (l2&M1&M2). exists m0, l1, l2.
    split; auto. assert (I2 : map w_id (m_W m2) = worker_ids c n) by apply J2.
    split. { rewrite K1, M1, L1, I2, <- !app_assoc. reflexivity. }
    split; auto. split; auto. split; auto.
    destruct J2 as (_&_&_&(Q&_)). rewrite M1 in Q. apply no_finish_app in Q. apply Q.
  - intros a Ha. apply Ha.
  - intros a a' Ha H. eapply F_kill in H as [_ H]; eauto using F_ok_inv.
  - intros w i tt a a' Ha _ H. eapply F_poll in H as [_ H]; eauto using F_ok_inv.
  - intros ed a Ha. cbn zeta. intros _. exact Ha.
  - intros tt w k a a' Ha _ _ H. eapply F_give in H as [_ H]; eauto using F_ok_inv.
  - intros tt w a a' Ha _ H. eapply F_stop in H as [_ H]; eauto using F_ok_inv.
  - red; auto.
  - red; auto.
  - red; auto.
  - exact HF.
Qed.

(** ** Resources *)

Lemma main_res c its h n zeros gens rm pin m s : (forall r i, rm = Some r -> holder r i = None) ->
  orders_ok (addressed (worker_ids c n)) its -> msgs_ok honest its ->
  main_loop c its (init_manager c h n zeros gens rm pin) = (m, s) -> (forall e, s <> CExc e) ->
  J_res c (worker_ids c n) m.
Proof.
  intros HR HO HM E Hs.
  eapply (main_ok c (J_res c (worker_ids c n)) (addressed (worker_ids c n)) honest); try exact E; try exact Hs; auto.
  - intros; eapply J_res_kill; eauto.
  - intros; eapply J_res_poll; eauto.
  - intros; eapply J_res_give; eauto.
  - now apply init_res.
Qed.

Lemma returned_res c its t rounds h n zeros gens rm pin m' rm' i : (forall r i, rm = Some r -> holder r i = None) ->
  orders_ok (addressed (worker_ids c n)) its -> msgs_ok honest its -> rounds_ok honest rounds ->
  run c its t rounds (init_manager c h n zeros gens rm pin) = (m', Returned 0) -> m_res m' = Some rm' -> holder rm' i = None.
Proof.
  intros HR HO HM HMR E Hrm. pose proof (returned_how _ _ _ _ _ _ _ _ _ _ _ _ E) as HH.
  destruct HH as [(_&HH)|(HH&_)]; [|discriminate].
  eapply (returned_ind c (J_res c (worker_ids c n)) (addressed (worker_ids c n)) honest) in E; auto.
  - destruct E as (m0&m1&m2&_&_&_&_&_&(_&_&_&HJ)&->&_). pose proof (kill_workers_spec m2) as (_&_&K&_&KR&_).
    rewrite K in HH. destruct (holder rm' i) as [w|] eqn:Eh; auto. exfalso. rewrite KR in Hrm.
    destruct (HJ _ _ _ Hrm Eh) as (r&Hr&_&Hb). destruct (HH r Hr). lia.
  - intros a Ha. apply Ha.
  - intros; eapply J_res_kill; eauto.
  - intros; eapply J_res_poll; eauto.
  - intros; eapply J_res_give; eauto.
  - intros; eapply J_res_stop; eauto.
  - now apply init_res.
Qed.

(** ** Errors *)

Lemma error_reported c its t rounds h n zeros gens rm pin m' o w :
  run c its t rounds (init_manager c h n zeros gens rm pin) = (m', o) -> In (Got w IErr) (m_log m') ->
  error_trace (worker_ids c n) (m_log m') /\ forall f, o <> Returned f.
Proof.
  intros E Hin. pose proof (init_F c h n zeros gens rm pin) as HF.
  apply (run_trace _ _ _ _ _ _ _ _ HF) in E as [(l&E1&_&E2&_)|[(l&E1&_&E2)|H]]; auto; exfalso.
  - subst l. now apply (E2 w).
  - rewrite E1 in Hin. apply in_app_iff in Hin as [Hin|Hin]; [now apply (E2 w)|].
    apply in_map_iff in Hin as (x&Hx&_). discriminate.
Qed.
