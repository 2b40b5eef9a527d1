(** The orders of the shipped allocation functions are ones the manager takes. *)
From Coq Require Import Permutation.
From Verif Require Import Base BaseLemmas HistoryModel HistorySpec HistoryProofs HistoryInv HistoryInv2 RsetModel RsetSpec RsetProofs WorkModel SchedModel SchedSpec AllocModel AllocSpec AllocProofs AllocLoops AllocFacts AllocFast AllocPersis ManagerModel ManagerSpec ManagerProofs ManagerMsg ManagerRun ManagerInv ManagerFinal ManagerEnd ManagerRes DrivenModel DrivenSpec DrivenProofs DrivenInv DrivenPoints DrivenRes DrivenSets.

(** ** Orders that are taken *)

Lemma nodup_distinct l : distinct_fields (nodup_fields l) = true.
Proof.
  induction l as [|f l IH]; auto. cbn. destruct (has f l) eqn:E; auto. cbn. rewrite IH, andb_true_r. apply negb_true_iff.
  destruct (has f (nodup_fields l)) eqn:E2; auto. apply has_In in E2. apply (nodup_fields_In f l) in E2. apply (has_In f l) in E2. rewrite E in E2. discriminate.
Qed.

Lemma row_data_ok fs rows rs : (forall i, In i rows -> i < length rs) -> exists d, row_data fs rows rs = Some d.
Proof.
  induction rows as [|i rows IH]; intros H; [now exists []|]. destruct IH as (d & Hd); [intros; apply H; now right|].
  unfold row_data in *. cbn [fold_right]. rewrite Hd. destruct (nth_error rs i) as [r|] eqn:E; [eauto|].
  apply nth_error_None in E. specialize (H i (or_introl eq_refl)). lia.
Qed.

(** what an order must be like; [len] rows, columns [col] *)
Definition order_fit (len : nat) (col : field -> Prop) (kill : bool) (k : work) : Prop :=
  (k_tag k = EVAL_SIM \/ k_tag k = EVAL_GEN) /\ (k_recv k = None \/ k_recv k = Some false /\ k_persistent k = true) /\
  (forall i, In i (k_rows k) -> i < len) /\
  (k_rows k <> [] -> k_fields k <> [] /\ distinct_fields (k_fields k) = true /\ forall f, In f (k_fields k) -> col f) /\
  (kill = true -> k_tag k = EVAL_SIM -> k_rows k <> []).
Definition team_fit (m : mgr) (k : work) : Prop :=
  match m_res m with Some rm => exists t, k_team k = Some t /\ forall i, In i t -> i < length (rm_rsets rm) | None => True end.

Lemma give_order_ok c t w k m r0 : table_ok c m -> In r0 (m_W m) -> w_id r0 = w -> w_active r0 = 0 -> w_recv r0 = false ->
  order_fit (length (h_rows (m_h m))) (column (m_h m)) (c_kill c) k -> team_fit m k -> snd (give_order c t w k m) = None.
Proof.
  intros T R1 R2 R3 R4 (F1 & F2 & F3 & F4 & F5) HT. assert (G : wget (c_gom c) (m_W m) w = Some r0) by (rewrite <- R2; now apply wget_in).
  assert (HC : check_work_order c false w k m = None).
  { unfold check_work_order. rewrite G, R4, R3. cbn [negb andb Nat.eqb]. destruct (k_rows k) as [|i rs]; auto. destruct F4 as (A1 & A2 & A3); [discriminate|].
    assert (HF : forallb (fun f0 => has f0 (names (h_dtype (m_h m)))) (k_fields k) = true) by (apply forallb_forall; intros g Hg; apply has_In, A3, Hg).
    destruct (k_fields k); [congruence|]. now rewrite HF. }
  assert (HM : forall k1 m1, as_sent k k1 -> m_W m1 = m_W m -> m_h m1 = m_h m -> snd (send_order_msgs c t w k1 m1) = None).
  { intros k1 m1 HS E1 E2. apply as_sent_same in HS as (S1 & S2 & S3 & S4 & S5). unfold send_order_msgs, send. rewrite E1, G. cbn [bindx].
    set (m2 := if k_tag k1 =? EVAL_GEN then _ else _).
    assert (Hh : m_h m2 = m_h m). { unfold m2. destruct (_ =? _); [|exact E2]. unfold on_worker. destruct (wpos _ _ _); exact E2. }
    assert (HG : exists r1, wget (c_gom c) (m_W m2) w = Some r1).
    { unfold m2. destruct (k_tag k1 =? EVAL_GEN); [|exists r0; cbn; now rewrite E1]. unfold on_worker. cbn [logev m_W]. rewrite E1. unfold wget in G |- *.
      destruct (wpos (c_gom c) (length (m_W m)) w) as [p|] eqn:Ep; [|discriminate]. cbn [set_W m_W]. rewrite upd_length, Ep.
      rewrite (upd_nth_same _ _ _ _ G). eauto. }
    assert (((k_tag k1 =? EVAL_SIM) || (k_tag k1 =? EVAL_GEN) || (k_tag k1 =? PERSIS_STOP)) = true) as -> by (rewrite S1; destruct F1 as [-> | ->]; reflexivity).
    cbn [negb]. rewrite S3. destruct (k_rows k) as [|i rs] eqn:Er; auto. rewrite <- Er in *. destruct F4 as (A1 & A2 & A3); [congruence|].
    rewrite S2, A2. destruct (row_data_ok (k_fields k) (k_rows k) (h_rows (m_h m2))) as (d & ->); [now rewrite Hh|].
    destruct HG as (r1 & ->). reflexivity. }
  assert (HU : forall m1 r1, wget (c_gom c) (m_W m1) w = Some r1 -> m_h m1 = m_h m -> snd (update_state_on_alloc c t w k m1) = None).
  { intros m1 r1 G1 E1. unfold update_state_on_alloc. set (m2 := if k_persistent k then _ else _).
    assert (Hh : m_h m2 = m_h m).
    { assert (OW : forall f mm, m_h (on_worker c w f mm) = m_h mm) by (intros f mm; unfold on_worker; destruct (wpos _ _ _); reflexivity).
      unfold m2. destruct (k_persistent k); [destruct (k_recv k) as [[|]|]|]; now rewrite ?OW. }
    assert ((negb (k_persistent k) && match k_recv k with Some _ => true | None => false end) = false) as ->.
    { destruct F2 as [-> | [-> ->]]; [apply andb_false_r|reflexivity]. }
    assert (HF : forallb (fun i => i <? length (h_rows (m_h m))) (k_rows k) = true) by (apply forallb_forall; intros i Hi; now apply Nat.ltb_lt, F3).
    rewrite Hh. destruct F1 as [E | E]; rewrite E; cbn [Nat.eqb EVAL_SIM EVAL_GEN]; unfold liftx; cbn [snd].
    - unfold update_history_x_out. rewrite HF. cbn [negb]. destruct (c_kill c); auto. destruct (k_rows k); auto. destruct (F5 eq_refl E); auto.
    - unfold update_history_to_gen. rewrite HF. cbn [negb]. destruct (k_rows k); auto. }
  unfold give_order. rewrite HC. unfold team_fit in HT.
  assert (HS : exists m1, send_work_order c t w k m = (m1, None)).
  { unfold send_work_order. destruct (m_res m) as [rm|] eqn:Er.
    - destruct HT as (tm & Et & Hr). unfold set_resources. rewrite Et. cbn beta iota zeta. rewrite Et. unfold assign_rsets.
      assert (forallb (fun i => i <? length (rm_rsets rm)) tm = true) as -> by (apply forallb_forall; intros i Hi; now apply Nat.ltb_lt, Hr).
      match goal with |- exists m1, send_order_msgs c t w k ?mm = _ => specialize (HM k mm (or_introl eq_refl) eq_refl eq_refl); destruct (send_order_msgs c t w k mm) as [m1 e1] end.
      cbn in HM. subst e1. eauto.
    - specialize (HM k m (or_introl eq_refl) eq_refl eq_refl). destruct (send_order_msgs c t w k m) as [m1 e1]. cbn in HM. subst e1. eauto. }
  destruct HS as (m1 & HS). rewrite HS. cbn [bindx]. eapply send_work_order_spec in HS; eauto.
  destruct HS as (S1 & _ & _ & _ & _ & _ & _ & S8). destruct (S8 eq_refl) as (Tc & _). eapply HU; [apply Tc|]. exact S1.
Qed.

(** ** The loop over the orders *)

Definition fit_all (m : mgr) (kill : bool) (wk : wdict) : Prop :=
  NoDup (map fst wk) /\
  forall w k, In (w, k) wk -> idle (m_W m) w /\ order_fit (length (h_rows (m_h m))) (column (m_h m)) kill k /\ team_fit m k.
Definition no_recv (m : mgr) : Prop := forall r, In r (m_W m) -> w_recv r = false.

Lemma assign_one_len w p m : length (rm_rsets (assign_one w p m)) = length (rm_rsets m).
Proof. unfold assign_one. destruct p as [i o]. destruct o; [reflexivity|]. destruct (nth_error _ _) as [r|]; [|reflexivity]. destruct (rs_gpu r); cbn; apply upd_length. Qed.
Lemma assign_len t w m m' e : assign_rsets t w m = (m', e) -> length (rm_rsets m') = length (rm_rsets m).
Proof.
  unfold assign_rsets. destruct (forallb _ _); intros [= <- _]; auto.
  match goal with |- length (rm_rsets (fold_left _ ?l m)) = _ => generalize l end. intros l. revert m.
  induction l as [|p l IH]; intros m; auto. cbn [fold_left]. rewrite IH. apply assign_one_len.
Qed.

Lemma hist_given_frame c t w k h : length (h_rows h) <= length (h_rows (fst (hist_given c t w k h))) /\
  forall f, column h f -> column (fst (hist_given c t w k h)) f.
Proof.
  unfold hist_given. destruct (k_tag k =? EVAL_SIM).
  - split; [apply (hstep_len (HXOut (k_rows k) w (c_kill c) t) h)|intros f; apply (hstep_column (HXOut (k_rows k) w (c_kill c) t) h f)].
  - destruct (k_tag k =? EVAL_GEN); [|split; auto]. split; [apply (hstep_len (HToGen (k_rows k) t) h)|intros f; apply (hstep_column (HToGen (k_rows k) t) h f)].
Qed.

Lemma orders_taken_all c v wk : forall m m' e, table_ok c m -> no_recv m -> fit_all m (c_kill c) wk -> give_orders c (stamped v wk) m = (m', e) ->
  e = None /\ table_ok c m' /\ no_recv m' /\ (forall f, column (m_h m) f -> column (m_h m') f) /\
  (wk <> [] -> sim_max_given c m = false -> any_active m' = true) /\ (any_active m = true -> any_active m' = true).
Proof.
  induction wk as [|[w k] wk IH]; intros m m' e T NR [N F]; cbn [stamped map give_orders].
  { intros [= <- <-]. split; [reflexivity|]. split; [exact T|]. split; [exact NR|]. split; [auto|]. split; [congruence|auto]. }
  destruct (sim_max_given c m) eqn:Es. { intros [= <- <-]. split; [reflexivity|]. split; [exact T|]. split; [exact NR|]. split; [auto|]. split; [discriminate|auto]. }
  cbn [fst]. destruct (F w k (or_introl eq_refl)) as ((r0 & R1 & R2 & R3) & F1 & F2).
  pose proof (give_order_ok c (v_times v w) w k m r0 T R1 R2 R3 (NR r0 R1) F1 F2) as HG.
  destruct (give_order c (v_times v w) w k m) as [m1 e1] eqn:E. cbn in HG. subst e1. cbn [bindx].
  pose proof (give_res _ _ _ _ _ _ T E) as HR.
  apply give_log in E as (r1 & k' & l & G & _ & Tc & Ht & _ & _ & _ & _ & Hh & _); auto.
  assert (r1 = r0) by (rewrite <- R2, wget_in in G by auto; congruence). subst r1.
  destruct (hist_given_frame c (v_times v w) w k (m_h m)) as [L1 L2]. rewrite <- Hh in L1, L2.
  assert (T1 : table_ok c m1) by (eapply touch_table; eauto).
  assert (NR1 : no_recv m1).
  { intros r Hr. apply Tc in Hr as [->|[Hr _]]; [|now apply NR]. cbn. rewrite (NR r0 R1). cbn. destruct F1 as (_ & [-> | [-> _]] & _); apply andb_false_r. }
  assert (Hact : any_active m1 = true).
  { apply existsb_exists. exists (given (v_times v w) k r0). split; [apply Tc; auto|]. cbn. destruct F1 as ([-> | ->] & _); reflexivity. }
  intros EO. apply IH in EO as (A1 & A2 & A3 & A4 & _ & A5); auto; [repeat split; auto|].
  inversion_clear N as [|? ? N1 N2]. split; auto. intros w1 k1 Hin. destruct (F w1 k1 (or_intror Hin)) as ((r & Q1 & Q2 & Q3) & G1 & G2).
  assert (Hne : w1 <> w) by (intros ->; apply N1; apply (in_map fst) in Hin; exact Hin).
  split; [exists r; split; [apply Tc; right; split; congruence|auto]|]. split.
  - destruct G1 as (B1 & B2 & B3 & B4 & B5). split; auto. split; auto. split; [intros i Hi; specialize (B3 i Hi); lia|]. split; auto.
    intros Hr. destruct (B4 Hr) as (C1 & C2 & C3). auto.
  - unfold team_fit in *. destruct (m_res m) as [rm|]; [|rewrite HR; exact I]. destruct HR as (rm' & kk & team & _ & _ & HA & ->).
    destruct G2 as (t1 & G2 & G3). exists t1. split; auto. intros i Hi. rewrite (assign_len _ _ _ _ _ HA). auto.
Qed.

(** ** The units of the allocation functions *)

Section Fit.
Variables (x : actx) (H : list row) (cols : field -> Prop) (kill : bool) (strict : Prop).
Definition good (fs : list field) : Prop := fs <> [] /\ forall f, In f fs -> cols f.
Definition order_pre (k : work) : Prop :=
  (k_recv k = None \/ k_recv k = Some false /\ k_persistent k = true) /\ (strict -> order_fit (length H) cols kill k).
Definition Oi (work : wdict) : Prop :=
  NoDup (map fst work) /\ forall p, In p work -> idle (ac_W x) (fst p) /\ order_pre (snd p).

Lemma Oi_nil : Oi [].
Proof. split; [constructor|intros p []]. Qed.
Lemma Oi_set work w k : Oi work -> idle (ac_W x) w -> order_pre k -> Oi (dict_set work w k).
Proof. intros [H1 H2] Hi Hk. split; [now apply dict_set_nodup|]. intros p Hp. apply dict_set_In in Hp as [->|Hp]; auto. Qed.
Lemma good_fields fs : good fs -> nodup_fields fs <> [] /\ distinct_fields (nodup_fields fs) = true /\ forall f, In f (nodup_fields fs) -> cols f.
Proof.
  intros [H1 H2]. split; [|split; [apply nodup_distinct|intros f Hf; now apply H2, nodup_fields_In]].
  destruct fs as [|f fs]; [congruence|]. intros E. assert (In f (nodup_fields (f :: fs))) by (apply nodup_fields_In; now left). rewrite E in *. contradiction.
Qed.

Lemma Oi_sim work w d rows pp s k s' : (strict -> good (ac_sim_in x)) -> Oi work -> idle (ac_W x) w -> (forall i, In i rows -> i < length H) -> (strict -> kill = true -> rows <> []) ->
  sim_work x d H w rows pp s = (Ok k, s') -> Oi (dict_set work w k).
Proof.
  intros Hg HO Hi Hr Hk. unfold sim_work. destruct (update_team _ _ _ _) as [[[[t np] ng]|e] s1]; [|discriminate]. intros [= <- _].
  apply Oi_set; auto. split; [auto|]. intros HS. split; [auto|]. split; [auto|]. split; [exact Hr|]. split; [intros _; now apply good_fields, Hg|auto].
Qed.
Lemma Oi_gen work w fs rows pp recv s k s' : (strict -> rows <> [] -> good fs) -> (recv = None \/ recv = Some false /\ pp = true) -> Oi work -> idle (ac_W x) w -> (forall i, In i rows -> i < length H) ->
  gen_work x w fs rows pp recv s = (Ok k, s') -> Oi (dict_set work w k).
Proof.
  intros Hg Hc HO Hi Hr. unfold gen_work. destruct (update_team _ _ _ _) as [[[[t np] ng]|e] s1]; [|discriminate].
  destruct (wget _ _ _); [|discriminate]. destruct (avail_workers _ _ _ _ _); [|discriminate]. intros [= <- _].
  apply Oi_set; auto. split; [exact Hc|]. intros HS. split; [auto|]. split; [exact Hc|]. split; [exact Hr|]. split; [intros Hn; now apply good_fields, Hg|discriminate].
Qed.

Lemma points_incl d pts batch rows : points_by_priority d H pts batch = Ok rows -> (forall i, In i rows -> In i pts) /\ (batch = false -> rows <> []).
Proof.
  unfold points_by_priority. destruct pts as [|i pts]; [discriminate|]. destruct (has F_priority (names d)).
  - destruct batch; intros [= <-].
    + split; [|discriminate]. intros k Hk. change (In k (filter (fun k => sc_eqb (prio H k) (sc_max (prio H i) (map (prio H) pts))) (i :: pts))) in Hk. apply filter_In in Hk. apply Hk.
    + split; [|discriminate]. intros j [<-|[]].
      destruct (argmax_in (map (fun k => (k, prio H k)) pts) (i, prio H i)) as [E|E]; [left; now rewrite E|]. right. rewrite map_map in E. cbn in E. now rewrite map_id in E.
  - intros [= <-]. split; [intros j [<-|[]]; now left|discriminate].
Qed.

Hypothesis Hs : strict -> good (ac_sim_in x).
Lemma Oi_sims d batch pp ws : (strict -> kill = true -> batch = false) -> (forall w, In w ws -> idle (ac_W x) w) -> forall pts work s work' s' pts' e,
  (forall i, In i pts -> i < length H) -> Oi work -> sim_loop x d H batch pp ws pts work s = (work', s', pts', e) -> Oi work'.
Proof.
  intros Hb. induction ws as [|w ws IH]; intros Hw pts work s work' s' pts' e HP HT; cbn [sim_loop]; [intros [= <- _ _ _]; auto|].
  destruct pts as [|i pts]; [intros [= <- _ _ _]; auto|]. destruct (points_by_priority _ _ _ _) as [rows|e0] eqn:EP; [|intros [= <- _ _ _]; auto].
  destruct (sim_work x d H w rows pp s) as [a s1] eqn:E. destruct a as [k|er]; [|destruct er; intros [= <- _ _ _]; auto].
  apply points_incl in EP as [P1 P2]. apply IH; [intros; apply Hw; now right|intros j Hj; apply filter_In in Hj as [Hj _]; auto|].
  exact (Oi_sim work w d rows pp s k s1 Hs HT (Hw w (or_introl eq_refl)) (fun j Hj => HP j (P1 j Hj)) (fun Hx Hk => P2 (Hb Hx Hk)) E).
Qed.
Lemma Oi_fast_sims d ws : (forall w, In w ws -> idle (ac_W x) w) -> forall nx work s work' s' nx' e, Oi work ->
  fast_sims x d H ws nx work s = (work', s', nx', e) -> Oi work'.
Proof.
  induction ws as [|w ws IH]; intros Hw nx work s work' s' nx' e HT; cbn [fast_sims]; [intros [= <- _ _ _]; auto|].
  destruct (Nat.ltb_spec (skip_canceled_points H nx) (length H)) as [L|L]; [|apply IH; auto; intros; apply Hw; now right].
  destruct (sim_work _ _ _ _ _ _ s) as [a s1] eqn:E. destruct a as [k|er]; [|destruct er; intros [= <- _ _ _]; auto].
  apply IH; [intros; apply Hw; now right|]. eapply Oi_sim; eauto; [apply Hw; now left|intros i [<-|[]]; auto|intros; discriminate].
Qed.
Hypothesis Hg : strict -> ac_gen_in x = [] \/ good (ac_gen_in x).
Lemma in_rows : forall i, In i (match ac_gen_in x with [] => [] | _ => seq 0 (length H) end) -> i < length H.
Proof. intros i. destruct (ac_gen_in x); [intros []|]. rewrite in_seq. lia. Qed.
Lemma in_good : strict -> (match ac_gen_in x with [] => [] | _ => seq 0 (length H) end) <> [] -> good (ac_gen_in x).
Proof. intros HS. destruct (Hg HS) as [-> |Hx]; auto. congruence. Qed.
Lemma Oi_gens u ws : (forall w, In w ws -> idle (ac_W x) w) -> forall gc work s work' s' e, Oi work -> gen_loop x H u ws gc work s = (work', s', e) -> Oi work'.
Proof.
  induction ws as [|w ws IH]; intros Hw gc work s work' s' e HT; cbn [gen_loop]; [intros [= <- _ _]; auto|].
  destruct (match u_num_active_gens u with Some _ => _ | None => _ end); [intros [= <- _ _]; auto|]. destruct (_ && _); [intros [= <- _ _]; auto|].
  destruct (gen_work _ _ _ _ _ _ s) as [a s1] eqn:E. destruct a as [k|er]; [|destruct er; intros [= <- _ _]; auto].
  apply IH; [intros; apply Hw; now right|]. eapply Oi_gen in E; eauto; [exact in_good|apply Hw; now left|exact in_rows].
Qed.
Lemma Oi_fast_gens num ws : (forall w, In w ws -> idle (ac_W x) w) -> forall gc calls work s work' s' calls' e, Oi work ->
  fast_gens x H num ws gc calls work s = (work', s', calls', e) -> Oi work'.
Proof.
  induction ws as [|w ws IH]; intros Hw gc calls work s work' s' calls' e HT; cbn [fast_gens]; [intros [= <- _ _ _]; auto|].
  destruct (_ && _); [|apply IH; auto; intros; apply Hw; now right].
  destruct (gen_work _ _ _ _ _ _ s) as [a s1] eqn:E. destruct a as [k|er]; [|destruct er; intros [= <- _ _ _]; auto].
  apply IH; [intros; apply Hw; now right|]. eapply Oi_gen in E; eauto; [exact in_good|apply Hw; now left|exact in_rows].
Qed.

Lemma to_eval_lt i : In i (to_evaluate H) -> i < length H.
Proof. intros Hi. apply to_evaluate_spec in Hi as (r & E & _). apply nth_error_Some. congruence. Qed.
Lemma Oi_default d u now stop g H0 : H = cancel_slow u now H0 -> (strict -> kill = true -> u_batch_give u = false) -> Oi (o_work (give_sim_work_first x d u now stop g H0)).
Proof.
  intros EH Hb. unfold give_sim_work_first. cbn zeta. rewrite <- EH. destruct stop; [apply Oi_nil|]. destruct (to_evaluate _) as [|i pts] eqn:Et.
  - destruct (avail_workers _ _ _ _ _) as [ws|] eqn:Ew; [|apply Oi_nil]. destruct (gen_loop _ _ _ _ _ _ _) as [[wk s1] e] eqn:E.
    exact (Oi_gens _ _ (fun w => avail_idle _ _ _ _ _ w Ew) _ _ _ _ _ _ Oi_nil E).
  - destruct (avail_workers _ _ _ _ _) as [ws|] eqn:Ew; [|apply Oi_nil]. destruct (sim_loop _ _ _ _ _ _ _ _ _) as [[[wk s1] pp] e] eqn:E.
    refine (Oi_sims _ _ _ _ Hb (fun w => avail_idle _ _ _ _ _ w Ew) _ _ _ _ _ _ _ _ Oi_nil E). rewrite <- Et. exact to_eval_lt.
Qed.
Lemma Oi_fast d num stop g p : Oi (o_work (fst (fast_alloc x d num stop g p H))).
Proof.
  unfold fast_alloc. destruct stop; [apply Oi_nil|]. destruct (avail_workers _ _ _ _ (Some false)) as [ws|] eqn:Ew; [|apply Oi_nil].
  destruct (avail_workers _ _ _ _ (Some true)) as [gs|] eqn:Eg; [|apply Oi_nil]. destruct (fast_sims _ _ _ _ _ _ _) as [[[wk s1] nx] e] eqn:E.
  pose proof (Oi_fast_sims _ _ (fun w => avail_idle _ _ _ _ _ w Ew) _ _ _ _ _ _ _ Oi_nil E) as T1.
  destruct e as [e|]; [exact T1|]. destruct (_ <=? _); [|exact T1]. destruct (fast_gens _ _ _ _ _ _ _ _) as [[[wk2 s2] calls] e2] eqn:E2.
  exact (Oi_fast_gens _ _ (fun w => avail_idle _ _ _ _ _ w Eg) _ _ _ _ _ _ _ _ T1 E2).
Qed.

Hypothesis Hpin : strict -> good (ac_persis_in x).
Lemma Oi_backs u async ws : pu_recv u = false -> (forall w, In w ws -> idle (ac_W x) w) -> forall work s work' s' e, Oi work ->
  back_loop x H u async ws work s = (work', s', e) -> Oi work'.
Proof.
  intros Hu. induction ws as [|w ws IH]; intros Hw work s work' s' e HT; cbn [back_loop]; [intros [= <- _ _]; auto|].
  assert (Hw' : forall v, In v ws -> idle (ac_W x) v) by (intros; apply Hw; now right).
  destruct (returned_for H w) as [|i ids] eqn:Er; [apply IH; auto|]. destruct (_ || _); [|apply IH; auto].
  destruct (gen_work _ _ _ _ _ _ s) as [a s1] eqn:E. destruct a as [k|er]; [|intros [= <- _ _]; auto].
  apply IH; auto. eapply Oi_gen in E; eauto; [rewrite Hu; auto|apply Hw; now left|].
  intros j Hj. rewrite <- Er in Hj. unfold returned_for in Hj. apply filter_In in Hj as [Hj _]. apply in_seq in Hj. lia.
Qed.
Lemma Oi_start u ws : pu_recv u = false -> (forall w, In w ws -> idle (ac_W x) w) -> forall gc st work s work' s' st' e,
  (strict -> H = [] \/ good (ac_gen_in x) \/ pu_num_gens u <= gc) -> Oi work ->
  start_loop x H u ws gc st work s = (work', s', st', e) -> Oi work'.
Proof.
  intros Hu. induction ws as [|w ws IH]; intros Hw gc st work s work' s' st' e Hgen HT; cbn [start_loop]; [intros [= <- _ _ _]; auto|].
  assert (Hw' : forall v, In v ws -> idle (ac_W x) v) by (intros; apply Hw; now right).
  destruct (Nat.ltb_spec gc (pu_num_gens u)) as [L|L]; [|apply IH; auto].
  assert (Hgen' : strict -> H = [] \/ good (ac_gen_in x)) by (intros HS; destruct (Hgen HS) as [|[|]]; auto; lia).
  destruct (gen_work _ _ _ _ _ _ s) as [a s1] eqn:E. destruct a as [k|er]; [|destruct er; intros [= <- _ _ _]; auto].
  apply IH; auto; [intros HS; destruct (Hgen' HS); auto|]. eapply Oi_gen in E; eauto; [|rewrite Hu; auto|apply Hw; now left|intros j Hj; apply in_seq in Hj; lia].
  intros HS Hn. destruct (Hgen' HS) as [-> |]; auto. destruct (Hn eq_refl).
Qed.
Lemma Oi_persistent d u stop g p : pu_recv u = false -> (strict -> kill = true -> pu_batch_give u = false) ->
  (strict -> H = [] \/ good (ac_gen_in x) \/ pu_num_gens u <= pi_gens_started p) -> set_order (ac_ord x) -> Oi (o_work (fst (only_persistent_gens x d u stop g p H))).
Proof.
  intros Hu Hb Hgen HO. unfold only_persistent_gens. destruct stop; [apply Oi_nil|]. destruct (Nat.ltb_spec (count_persis_gens (ac_W x)) (pi_gens_started p)) as [L|L]; [apply Oi_nil|].
  rewrite Hu. destruct (avail_workers _ (Some EVAL_GEN) _ _ _) as [bs|] eqn:Eb; [|apply Oi_nil].
  destruct (back_loop _ _ _ _ _ _ _) as [[wk1 s1] e1] eqn:E1.
  assert (T1 : Oi wk1) by exact (Oi_backs _ _ _ Hu (fun w => avail_idle _ _ _ _ _ w Eb) _ _ _ _ _ Oi_nil E1).
  destruct e1 as [e1|]; [auto|]. destruct (sim_workers x u) as [ws|] eqn:Ew; [|auto].
  assert (Hi : forall w, In w ws -> idle (ac_W x) w).
  { unfold sim_workers in Ew. destruct (pu_alt u); [|intros w; exact (avail_idle _ _ _ _ _ w Ew)].
    destruct (avail_workers (ac_W x) (Some 0) _ _ _) as [a|] eqn:Ea; [|discriminate]. cbn [bindr] in Ew.
    destruct (avail_workers (ac_W x) (Some EVAL_SIM) _ _ _) as [b|] eqn:Eb1; [|discriminate]. cbn [bindr] in Ew. injection Ew as <-.
    intros w Hin. apply (Permutation_in _ (HO _)) in Hin. apply nodup_In, in_app_iff in Hin as [Hin|Hin]; [exact (avail_idle _ _ _ _ _ w Ea Hin)|exact (avail_idle _ _ _ _ _ w Eb1 Hin)]. }
  destruct (sim_loop _ _ _ _ _ _ _ _ _) as [[[wk2 s2] pts] e2] eqn:E2.
  assert (T2 : Oi wk2) by exact (Oi_sims _ _ _ _ Hb Hi _ _ _ _ _ _ _ to_eval_lt T1 E2).
  destruct e2 as [e2|]; [auto|]. destruct pts; [|auto].
  destruct (avail_workers _ _ _ _ (Some true)) as [gs|] eqn:Eg; [|auto].
  destruct (start_loop _ _ _ _ _ _ _ _) as [[[wk3 s3] st] e3] eqn:E3. refine (Oi_start _ _ Hu (fun w => avail_idle _ _ _ _ _ w Eg) _ _ _ _ _ _ _ _ _ T2 E3).
  intros HS. destruct (Hgen HS) as [|[|]]; auto. right. right. lia.
Qed.
End Fit.

(** ** Along a driven run *)

Lemma fit_more len len' (cols cols' : field -> Prop) kill k : len <= len' -> (forall f, cols f -> cols' f) -> order_fit len cols kill k -> order_fit len' cols' kill k.
Proof.
  intros HL HC (B1 & B2 & B3 & B4 & B5). split; auto. split; auto. split; [intros i Hi; specialize (B3 i Hi); lia|]. split; auto.
  intros Hr. destruct (B4 Hr) as (C1 & C2 & C3). auto.
Qed.
Lemma in_sets w k i wk : In (w, k) wk -> In i (team_of k) -> In i (sets_given wk).
Proof. intros H1 H2. unfold sets_given. apply in_concat. exists (team_of k). split; auto. exact (in_map (fun p : nat * work => team_of (snd p)) wk (w, k) H1). Qed.

Lemma sets_managed b m wk : (m_res m <> None -> b = true) -> sets_ok b m wk -> sets_ok true m wk.
Proof. unfold sets_ok. destruct (m_res m) as [rm|]; [|auto]. intros Hb. now rewrite Hb. Qed.

Section Run.
Variables (c : mcfg) (a : asetup) (plain : Prop).

Definition asked (m : mgr) : Prop := forall f, In f (u_sim_in a ++ u_gen_in a ++ u_persis_in a) -> column (m_h m) f.
Definition has_plain (m : mgr) : Prop := exists r, In r (m_W m) /\ w_gen r = false.
Definition Jo (m : mgr) : Prop :=
  Jres c true m /\ no_recv m /\ asked m /\ (m_res m <> None -> u_manage a = true) /\ (plain -> has_plain m) /\ (plain -> h_safe (m_h m) = false).

Lemma plain_touch w r0 r1 m m' : table_ok c m -> touch c w r0 r1 m m' -> w_gen r1 = w_gen r0 -> has_plain m -> has_plain m'.
Proof.
  intros T (G & _ & _ & _ & Tc) Hg (r & R1 & R2). pose proof (wget_In _ _ _ _ G) as R0. destruct (Nat.eq_dec (w_id r) (w_id r0)) as [E|E].
  - assert (r = r0) by (apply (id_unique (m_W m)); auto; exact (table_nodup c m T)). subst r. exists r1. split; [apply Tc; auto|congruence].
  - exists r. split; [apply Tc; auto|auto].
Qed.
Lemma hist_msg_column t w x gs h h' : hist_msg c t w x gs h h' -> forall f, column h f -> column h' f.
Proof.
  intros [-> |[-> |(D & _ & ->)]] f Hf; auto.
  - exact (hstep_column (HF (n_rows x) (out_arr (n_out x)) (c_kill c) t) h f Hf).
  - exact (hstep_column (HXIn w D gs t) h f Hf).
Qed.

Lemma hist_msg_safe t w x gs h h' : hist_msg c t w x gs h h' -> h_safe h' = h_safe h.
Proof. intros H. now apply hist_msg_counts in H. Qed.
Lemma hist_given_safe t w k h : h_safe (fst (hist_given c t w k h)) = h_safe h.
Proof.
  unfold hist_given. destruct (k_tag k =? EVAL_SIM); [apply (hstep_safe (HXOut (k_rows k) w (c_kill c) t) h)|].
  destruct (k_tag k =? EVAL_GEN); [apply (hstep_safe (HToGen (k_rows k) t) h)|reflexivity].
Qed.

Lemma Jo_kill m m' e : Jo m -> kill_cancelled c m = (m', e) -> Lres c m' /\ (e = None -> Jo m').
Proof.
  intros (HJ & H1 & H2 & H3 & H4 & H5) E. destruct (Jres_kill _ _ _ _ _ HJ E) as [L1 L2]. split; auto. intros He. specialize (L2 He).
  apply kill_cancelled_spec in E as ((E1 & E2 & E3 & E4) & _ & Eh & _). unfold Jo, no_recv, asked, has_plain in *. rewrite E1, E2. split; auto. split; auto. split; [|split; auto; split; auto].
  - intros f Hf. specialize (H2 f Hf). destruct Eh as [-> | ->]; auto. exact (hstep_column HKill (m_h m) f H2).
  - intros HP. rewrite <- (H5 HP). destruct Eh as [-> | ->]; auto. exact (hstep_safe HKill (m_h m)).
Qed.
Lemma Jo_poll w i t m m' e : Jo m -> poll c (w, i, t) m = (m', e) -> Lres c m' /\ (e = None -> Jo m').
Proof.
  intros (HJ & H1 & H2 & H3 & H4 & H5) E. destruct (Jres_poll _ _ _ _ _ _ _ _ HJ E) as [L1 L2]. split; auto. intros ->. specialize (L2 eq_refl).
  assert (T : table_ok c m) by apply HJ.
  apply poll_spec in E as [(_ & -> & _)|(r0 & R1 & R2 & _ & _ & Hh & _ & He)]; auto; [exact (conj HJ (conj H1 (conj H2 (conj H3 (conj H4 H5)))))|]. specialize (He eq_refl). split; [exact L2|].
  assert (H2' : asked m') by (intros f Hf; specialize (H2 f Hf); destruct i as [d| | |]; [eapply hist_msg_column; eauto|rewrite Hh; auto..]).
  assert (HT : (exists r1, touch c w r0 r1 m m' /\ w_gen r1 = w_gen r0 /\ (w_recv r0 = false -> w_recv r1 = false)) \/ m_W m' = m_W m).
  { destruct i as [d| | |].
    - left. exists (after_msg (m_exc m) (memb w (m_pending m)) d r0). destruct He as (Tc & _). split; auto. unfold after_msg. destruct (fin_status d); cbn; auto.
    - left. exists (set_active 0 r0). destruct He as (_ & Tc & _). cbn. auto.
    - right. now rewrite He.
    - right. now rewrite He. }
  assert (HR : m_res m' <> None -> m_res m <> None).
  { destruct i as [d| | |]; [destruct He as (_ & _ & -> & _)|destruct He as (_ & _ & _ & ->); auto|rewrite He; auto|rewrite He; auto].
    destruct (_ || _); auto. destruct (m_res m); [discriminate|auto]. }
  split; [|split; [exact H2'|split; [auto|split]]].
  3:{ intros HP. rewrite <- (H5 HP). destruct i as [d| | |]; [eapply hist_msg_safe; eauto|now rewrite Hh..]. }
  - destruct HT as [(r1 & (_ & _ & _ & _ & Tc) & _ & Hr)|HW]; [|unfold no_recv; rewrite HW; exact H1].
    intros r Hin. apply Tc in Hin as [-> |[Hin _]]; auto.
  - intros HP. specialize (H4 HP). destruct HT as [(r1 & Tc & Hg & _)|HW]; [eapply plain_touch; eauto|unfold has_plain; rewrite HW; exact H4].
Qed.
Lemma Jo_edit m out : Jo m -> Jo (edited m out).
Proof. intros H. exact H. Qed.
Lemma plain_orders v wk : forall m m', table_ok c m -> has_plain m -> give_orders c (stamped v wk) m = (m', None) -> has_plain m'.
Proof.
  induction wk as [|[w k] wk IH]; intros m m' T HP; cbn [stamped map give_orders]; [intros [= <-]; auto|].
  destruct (sim_max_given c m); [intros [= <-]; auto|]. cbn [fst]. destruct (give_order c (v_times v w) w k m) as [m1 [e1|]] eqn:E; cbn [bindx]; [discriminate|].
  apply give_log in E as (r1 & k' & l & G & _ & Tc & Ht & _); auto. apply IH; [eapply touch_table; eauto|]. eapply plain_touch; eauto.
Qed.
Lemma safe_orders v wk : forall m m', table_ok c m -> give_orders c (stamped v wk) m = (m', None) -> h_safe (m_h m') = h_safe (m_h m).
Proof.
  induction wk as [|[w k] wk IH]; intros m m' T; cbn [stamped map give_orders]; [intros [= <-]; auto|].
  destruct (sim_max_given c m); [intros [= <-]; auto|]. cbn [fst]. destruct (give_order c (v_times v w) w k m) as [m1 [e1|]] eqn:E; cbn [bindx]; [discriminate|].
  apply give_log in E as (r1 & k' & l & G & _ & Tc & Ht & _ & _ & _ & _ & Hh & _); auto. intros EO. rewrite (IH m1 m'); [|eapply touch_table; eauto|exact EO].
  rewrite Hh. apply hist_given_safe.
Qed.
Lemma res_orders v wk : forall m m', table_ok c m -> m_res m = None -> give_orders c (stamped v wk) m = (m', None) -> m_res m' = None.
Proof.
  induction wk as [|[w k] wk IH]; intros m m' T HP; cbn [stamped map give_orders]; [intros [= <-]; auto|].
  destruct (sim_max_given c m); [intros [= <-]; auto|]. cbn [fst]. destruct (give_order c (v_times v w) w k m) as [m1 [e1|]] eqn:E; cbn [bindx]; [discriminate|].
  pose proof (give_res _ _ _ _ _ _ T E) as HR. rewrite HP in HR. apply give_log in E as (r1 & k' & l & _ & _ & Tc & Ht & _); auto. apply IH; auto. eapply touch_table; eauto.
Qed.


(** Allocation functions that never use active receive, and when they can be
    called: every order they give then is one the manager takes. *)
Inductive passive : forall S, alloc_fn S -> (mgr -> S -> Prop) -> Prop :=
| passive_default : forall u, passive nat (default_alloc c a u) (fun _ _ => c_kill c = true -> u_batch_give u = false)
| passive_fast : forall num, passive (nat * pinfo) (fast_alloc_fn c a num) (fun _ _ => True)
| passive_persistent : forall u, pu_recv u = false -> passive (nat * pinfo) (persistent_alloc c a u)
    (fun m s => (c_kill c = true -> pu_batch_give u = false) /\ u_persis_in a <> [] /\
                (u_gen_in a <> [] \/ trim_H (m_h m) = [] \/ pu_num_gens u <= pi_gens_started (snd s))).
Lemma passive_shipped S (A : alloc_fn S) F : passive S A F -> shipped c a S A.
Proof. destruct 1; constructor. Qed.
Hypothesis Hsim : u_sim_in a <> [].

Lemma passive_units S (A : alloc_fn S) F (strict : Prop) v s m out s' : passive S A F -> (strict -> F m s) -> asked m -> set_order (v_ord v) -> A v s m = (out, s') ->
  exists H, length H = length (trim_H (m_h m)) /\ Oi (call_context c a v m) H (column (m_h m)) (c_kill c) strict (o_work out).
Proof.
  intros HA HC H2 HO.
  assert (HG : forall fs, incl fs (u_sim_in a ++ u_gen_in a ++ u_persis_in a) -> fs <> [] -> good (column (m_h m)) fs) by (intros fs Hi Hn; split; auto).
  assert (Gs : good (column (m_h m)) (u_sim_in a)) by (apply HG; auto; intros f Hf; apply in_app_iff; auto).
  assert (Gg : u_gen_in a <> [] -> good (column (m_h m)) (u_gen_in a)) by (apply HG; intros f Hf; apply in_app_iff; right; apply in_app_iff; auto).
  assert (Gp : u_persis_in a <> [] -> good (column (m_h m)) (u_persis_in a)) by (apply HG; intros f Hf; apply in_app_iff; right; apply in_app_iff; auto).
  assert (Gg' : u_gen_in a = [] \/ good (column (m_h m)) (u_gen_in a)) by (destruct (u_gen_in a) eqn:Eg; [auto|right; apply Gg; discriminate]).
  intros E. revert s HC out s' E. destruct HA as [u|num|u Hu]; intros s HC out s'; unfold default_alloc, fast_alloc_fn, persistent_alloc; cbn zeta.
  - intros [= <- _]. exists (cancel_slow u (v_now v) (trim_H (m_h m))). split; [unfold cancel_slow; destruct (u_cancel_time u); auto; apply map_length|].
    apply Oi_default; auto.
  - pose proof (Oi_fast (call_context c a v m) (trim_H (m_h m)) (column (m_h m)) (c_kill c) strict (fun _ => Gs) (fun _ => Gg') (h_dtype (m_h m)) num (no_more_work c m) (fst s) (snd s)) as H.
    destruct (fast_alloc _ _ _ _ _ _ _) as [o p]. intros [= <- _]. eauto.
  - rename HC into Hq.
    assert (Q1 : strict -> good (column (m_h m)) (u_persis_in a)) by (intros HS; now apply Gp, Hq).
    assert (Q2 : strict -> c_kill c = true -> pu_batch_give u = false) by (intros HS; now apply Hq).
    assert (Q3 : strict -> trim_H (m_h m) = [] \/ good (column (m_h m)) (u_gen_in a) \/ pu_num_gens u <= pi_gens_started (snd s)) by (intros HS; destruct (Hq HS) as (_ & _ & [Hx|[Hx|Hx]]); auto).
    pose proof (Oi_persistent (call_context c a v m) (trim_H (m_h m)) (column (m_h m)) (c_kill c) strict (fun _ => Gs) (fun _ => Gg') Q1 (h_dtype (m_h m)) u (no_more_work c m) (fst s) (snd s) Hu Q2 Q3 HO) as H.
    destruct (only_persistent_gens _ _ _ _ _ _ _) as [o p]. intros [= <- _]. eauto.
Qed.

Lemma fits_all S (A : alloc_fn S) F v s m out s' : passive S A F -> F m s -> Jo m -> set_order (v_ord v) -> A v s m = (out, s') ->
  fit_all (edited m out) (c_kill c) (o_work out).
Proof.
  intros HA HC HJ HO E. assert (HJ' := HJ). destruct HJ' as (((T & _) & R & _) & H1 & H2 & H3 & H4 & H5).
  pose proof (shipped_Td c a S A (passive_shipped S A F HA) v s m out s' T R HO E) as HT. pose proof (Td_sets_ok _ _ _ _ _ HT) as [_ HS].
  destruct (passive_units S A F True v s m out s' HA (fun _ => HC) H2 HO E) as (H & Hl & Oi1 & Oi2).
  split; [exact Oi1|]. intros w k Hin. destruct (Oi2 _ Hin) as [Q1 [_ Q2]]. specialize (Q2 I). split; [exact Q1|]. split.
  - eapply fit_more; [|intros f Hf; exact Hf|exact Q2]. rewrite Hl. change (h_rows (m_h (edited m out))) with (mapi 0 (fun i r => nth i (o_rows out) r) (trim_H (m_h m)) ++ skipn (h_index (m_h m)) (h_rows (m_h m))).
    rewrite app_length, mapi_length. lia.
  - unfold team_fit. change (m_res (edited m out)) with (m_res m). destruct (m_res m) as [rm|] eqn:Er; [|exact I].
    rewrite (H3 ltac:(discriminate)) in HS. destruct HS as (HS & _). specialize (HS w k Hin). destruct (k_team k) as [t|] eqn:Et; [|congruence].
    exists t. split; auto. intros i Hi. apply (Td_range _ _ _ _ _ _ HT Er). apply (in_sets w k i (o_work out) Hin). unfold team_of. now rewrite Et.
Qed.

Lemma recv_orders v wk : forall m m', table_ok c m -> no_recv m -> (forall p, In p wk -> k_recv (snd p) = None \/ k_recv (snd p) = Some false /\ k_persistent (snd p) = true) ->
  give_orders c (stamped v wk) m = (m', None) -> no_recv m' /\ forall f, column (m_h m) f -> column (m_h m') f.
Proof.
  induction wk as [|[w k] wk IH]; intros m m' T HP HK; cbn [stamped map give_orders]; [intros [= <-]; auto|].
  destruct (sim_max_given c m); [intros [= <-]; auto|]. cbn [fst]. destruct (give_order c (v_times v w) w k m) as [m1 [e1|]] eqn:E; cbn [bindx]; [discriminate|].
  apply give_log in E as (r0 & k' & l & G & _ & Tc & Ht & _ & _ & _ & _ & Hh & _); auto. intros EO.
  destruct (hist_given_frame c (v_times v w) w k (m_h m)) as [_ L2]. rewrite <- Hh in L2.
  apply IH in EO as [E1 E2]; [auto|eapply touch_table; eauto| |intros p Hp; apply HK; now right].
  pose proof (wget_In _ _ _ _ G) as R0. destruct Tc as (_ & _ & _ & _ & Tc). intros r Hr. apply Tc in Hr as [-> |[Hr _]]; [|now apply HP]. cbn. rewrite (HP r0 R0). cbn.
  destruct (HK (w, k) (or_introl eq_refl)) as [Hk|[Hk _]]; cbn in Hk; rewrite Hk; apply andb_false_r.
Qed.

Lemma Jo_orders S (A : alloc_fn S) F v s m out s' m2 : passive S A F -> Jo m -> set_order (v_ord v) -> A v s m = (out, s') ->
  give_orders c (stamped v (o_work out)) (edited m out) = (m2, None) -> Jo m2.
Proof.
  intros HA HJ HO E EG. assert (HJ' := HJ). destruct HJ' as (HR & H1 & H2 & H3 & H4 & H5).
  destruct (passive_units S A F False v s m out s' HA (False_ind _) H2 HO E) as (H0 & _ & _ & HK).
  pose proof (shipped_sets c a S A (passive_shipped S A F HA) v s m out s' (proj1 (proj1 HR)) (proj1 (proj2 HR)) HO E) as HS.
  apply sets_managed in HS; [|exact H3].
  destruct (recv_orders v (o_work out) (edited m out) m2 (proj1 (proj1 HR)) H1 (fun p Hp => proj1 (proj2 (HK p Hp))) EG) as [N2 C2].
  split; [apply (Jres_orders c true v (o_work out) (edited m out) m2 None HR HS EG); reflexivity|]. split; auto. split; [intros f Hf; apply C2, H2, Hf|]. split.
  - intros Hn. apply H3. intros E0. apply Hn. exact (res_orders v (o_work out) (edited m out) m2 (proj1 (proj1 HR)) E0 EG).
  - split; [|intros HP; rewrite (safe_orders v (o_work out) (edited m out) m2 (proj1 (proj1 HR)) EG); exact (H5 HP)].
    intros HP. exact (plain_orders v (o_work out) (edited m out) m2 (proj1 (proj1 HR)) (H4 HP) EG).
Qed.

Lemma Lres_orders S (A : alloc_fn S) F v s m out s' m2 e : passive S A F -> Jo m -> set_order (v_ord v) -> A v s m = (out, s') ->
  give_orders c (stamped v (o_work out)) (edited m out) = (m2, e) -> Lres c m2.
Proof.
  intros HA HJ HO E EG. assert (HJ' := HJ). destruct HJ' as (HR & H1 & H2 & H3 & H4 & H5).
  pose proof (shipped_sets c a S A (passive_shipped S A F HA) v s m out s' (proj1 (proj1 HR)) (proj1 (proj2 HR)) HO E) as HS.
  apply sets_managed in HS; [|exact H3]. exact (proj1 (Jres_orders c true v (o_work out) (edited m out) m2 e HR HS EG)).
Qed.

Lemma driven_orders S (A : alloc_fn S) F vs s m m' x : passive S A F -> Forall (fun v => set_order (v_ord v)) vs -> Jo m ->
  driven_loop A c vs s m = (m', x) -> (forall e, x <> CExc e) -> Jo m'.
Proof.
  intros HA HV HJ E Hx.
  eapply (driven_ind A c (fun _ => Jo) (Lres c) (fun v => set_order (v_ord v)) (fun _ _ => True)) in E as [E1 E2]; eauto.
  - destruct (E2 Hx) as (_ & H). exact H.
  - intros _ m0 H. apply H.
  - intros _ m0 m1 e H E0. eapply Jo_kill; eauto.
  - intros _ w i t m0 m1 e H _ E0. eapply Jo_poll; eauto.
  - intros s0 s1 v m0 out H HO E0. split; [apply (Jo_edit m0 out H)|]. split; [intros _ _; exact (Jo_edit m0 out H)|]. intros _ _ m2 e EG.
    split; [exact (Lres_orders S A F v s0 m0 out s1 m2 e HA H HO E0 EG)|]. intros ->. exact (Jo_orders S A F v s0 m0 out s1 m2 HA H HO E0 EG).
Qed.
Lemma Jo_receive msgs : forall m m', Jo m -> receive c msgs m = (m', None) -> Jo m'.
Proof.
  unfold receive. induction msgs as [|[[w i] t] msgs IH]; intros m m' HJ; cbn [foldx]; [intros [= <-]; auto|].
  destruct (poll c (w, i, t) m) as [m1 [e1|]] eqn:E; cbn [bindx]; [discriminate|]. apply IH. eapply Jo_poll; eauto.
Qed.
Lemma Jo_turn v m m1 : Jo m -> bindx (kill_cancelled c m) (receive c (v_msgs v)) = (m1, None) -> Jo m1.
Proof.
  intros HJ. destruct (kill_cancelled c m) as [mk [ek|]] eqn:EK; cbn [bindx]; [discriminate|]. apply Jo_receive. eapply Jo_kill; eauto.
Qed.

(** ** The default does not stall *)
Lemma team_none x w q s : ac_manage x = false -> exists o, update_team x w q s = (Ok o, s).
Proof. intros Hm. unfold update_team. rewrite Hm. eauto. Qed.
Lemma dict_set_nonempty d w k : dict_set d w k <> [].
Proof. destruct d as [|[v k1] d]; cbn; [discriminate|]. destruct (_ =? _); discriminate. Qed.
Lemma sims_some x d H batch pp ws pts : ac_manage x = false -> ws <> [] -> pts <> [] -> forall s work' s' pts' e,
  sim_loop x d H batch pp ws pts [] s = (work', s', pts', e) -> work' <> [] /\ e = None.
Proof.
  intros Hm Hw Hp s work' s' pts' e.
  assert (G : forall ws pts work s work' s' pts' e, sim_loop x d H batch pp ws pts work s = (work', s', pts', e) -> (work <> [] -> work' <> []) /\ e = None).
  { clear - Hm. induction ws as [|w ws IH]; intros pts work s work' s' pts' e; cbn [sim_loop]; [intros [= <- _ _ <-]; auto|].
    destruct pts as [|i pts]; [intros [= <- _ _ <-]; auto|]. destruct (points_by_priority _ _ _ _) as [rows|e0] eqn:EP.
    2:{ unfold points_by_priority in EP. destruct (has _ _); [destruct batch|]; discriminate. }
    unfold sim_work. match goal with |- context [update_team ?a ?b ?q ?s] => destruct (team_none a b q s Hm) as ([[t np] ng] & ->) end.
    intros E. apply IH in E as [E1 E2]. split; auto. intros _. apply E1, dict_set_nonempty. }
  destruct ws as [|w ws]; [congruence|]. destruct pts as [|i pts]; [congruence|]. cbn [sim_loop]. destruct (points_by_priority _ _ _ _) as [rows|e0] eqn:EP.
  2:{ unfold points_by_priority in EP. destruct (has _ _); [destruct batch|]; discriminate. }
  unfold sim_work. match goal with |- context [update_team ?a ?b ?q ?s] => destruct (team_none a b q s Hm) as ([[t np] ng] & ->) end.
  intros E. apply G in E as [E1 E2]. split; auto. apply E1, dict_set_nonempty.
Qed.
Lemma gens_some x H u ws : ac_manage x = false -> u_batch_mode u = false -> (forall w, In w ws -> wget (ac_gom x) (ac_W x) w <> None) -> forall gc s work' s' e,
  gen_loop x H u ws gc [] s = (work', s', e) -> e = None /\ (ws <> [] -> (forall n, u_num_active_gens u = Some n -> gc < n) -> work' <> []).
Proof.
  intros Hm Hb.
  assert (G : forall ws, (forall w, In w ws -> wget (ac_gom x) (ac_W x) w <> None) -> forall gc work s work' s' e, gen_loop x H u ws gc work s = (work', s', e) ->
    e = None /\ (work <> [] -> work' <> []) /\ (ws <> [] -> (forall n, u_num_active_gens u = Some n -> gc < n) -> work' <> [])).
  { clear ws. induction ws as [|w ws IH]; intros Hw gc work s work' s' e; cbn [gen_loop]; [intros [= <- _ <-]; repeat split; auto; congruence|].
    destruct (match u_num_active_gens u with Some n => n <=? gc | None => false end) eqn:En.
    { intros [= <- _ <-]. split; auto. split; auto. intros _ Hn. destruct (u_num_active_gens u) as [n|]; [|discriminate]. apply Nat.leb_le in En. specialize (Hn n eq_refl). lia. }
    rewrite Hb. cbn [andb]. unfold gen_work at 1. match goal with |- context [update_team ?a ?b ?q ?s] => destruct (team_none a b q s Hm) as ([[t np] ng] & ->) end.
    destruct (wget (ac_gom x) (ac_W x) w) as [r|] eqn:Eg; [|destruct (Hw w (or_introl eq_refl) Eg)].
    unfold avail_workers at 1. cbn [andb]. intros E. apply IH in E as (E1 & E2 & _); [|intros; apply Hw; now right].
    split; auto. split; intros; apply E2, dict_set_nonempty. }
  intros Hw gc s work' s' e E. apply G in E as (E1 & _ & E2); auto.
Qed.

Lemma default_some v u g m : table_ok c m -> has_plain m -> u_manage a = false -> u_batch_mode u = false -> u_num_active_gens u <> Some 0 ->
  let out := give_sim_work_first (call_context c a v m) (h_dtype (m_h m)) u (v_now v) (no_more_work c m) g (trim_H (m_h m)) in
  o_err out = None /\ o_flag out = 0 /\ (sim_max_given c m = false -> o_work out <> [] \/ any_active m = true).
Proof.
  intros T (r & R1 & R2) Hm Hb Hn. cbn zeta. unfold give_sim_work_first. cbn zeta. set (x := call_context c a v m).
  assert (Hall : forall r, In r (m_W m) -> w_active r <> 0 -> any_active m = true).
  { intros r1 Q1 Q2. unfold any_active. apply existsb_exists. exists r1. split; auto. destruct (Nat.eqb_spec (w_active r1) 0); [congruence|reflexivity]. }
  destruct (no_more_work c m) eqn:En.
  { cbn [o_err o_flag o_work]. split; auto. split; auto. intros Hs. right. unfold no_more_work in En. rewrite Hs in En. cbn [orb] in En. apply negb_true_iff in En.
    apply (Hall r R1). intros E0. assert (X : existsb (fun r => w_active r =? 0) (m_W m) = true) by (apply existsb_exists; exists r; rewrite E0; auto). congruence. }
  assert (Hm' : ac_manage x = false) by exact Hm.
  destruct (to_evaluate _) as [|i pts] eqn:Et.
  - destruct (avail_workers (ac_W x) None false None (Some true)) as [ws|] eqn:Ew; [|discriminate Ew]. destruct (avail_ok _ _ _ _ _ _ Ew) as (ok & Ews & Hok).
    destruct (gen_loop _ _ _ _ _ _ _) as [[wk s1] e] eqn:E. apply gens_some in E as (E1 & E2); auto.
    2:{ intros w Hin. destruct (avail_idle _ _ _ _ _ w Ew Hin) as (r1 & Q1 & <- & _). cbn [x call_context ac_gom ac_W] in *. rewrite wget_in; auto. discriminate. }
    cbn [o_err o_flag o_work]. split; auto. split; auto. intros _. destruct ws as [|w ws].
    + right. destruct (existsb w_gen (m_W m)) eqn:Eg.
      * apply existsb_exists in Eg as (r1 & Q1 & Q2). apply (Hall r1 Q1). intros E0.
        assert (In r1 (filter ok (ac_W x))) by (apply filter_In; split; auto; apply Hok; repeat split; auto).
        destruct (filter ok (ac_W x)); [contradiction|discriminate].
      * apply (Hall r R1). intros E0.
        assert (In r (filter ok (ac_W x))).
        { apply filter_In. split; auto. apply Hok. repeat split; auto. intros (r1 & Q1 & Q2). assert (existsb w_gen (m_W m) = true) by (apply existsb_exists; eauto). congruence. }
        destruct (filter ok (ac_W x)); [contradiction|discriminate].
    + destruct (u_num_active_gens u) as [n|] eqn:Eu; [|left; apply E2; [discriminate|discriminate]].
      destruct (Nat.ltb_spec (count_gens (ac_W x)) n) as [L|L]; [left; apply E2; [discriminate|intros n0 [= <-]; auto]|].
      right. assert (0 < count_gens (ac_W x)) by (destruct n; [congruence|lia]). unfold count_gens in H.
      assert (X : exists r1, In r1 (ac_W x) /\ (w_active r1 =? EVAL_GEN) = true).
      { revert H. generalize (ac_W x). clear. induction l as [|r1 l IH]; cbn; [lia|]. destruct (w_active r1 =? EVAL_GEN) eqn:E; [exists r1; auto|]. intros H. destruct IH as (r2 & I1 & I2); [exact H|]. exists r2. auto. }
      destruct X as (r1 & Q1 & Q2). apply (Hall r1 Q1). apply Nat.eqb_eq in Q2. rewrite Q2. discriminate.
  - destruct (avail_workers (ac_W x) None false None (Some false)) as [ws|] eqn:Ew; [|discriminate Ew]. destruct (avail_ok _ _ _ _ _ _ Ew) as (ok & Ews & Hok).
    destruct (sim_loop _ _ _ _ _ _ _ _ _) as [[[wk s1] pp] e] eqn:E. cbn [o_err o_flag o_work]. destruct ws as [|w ws].
    + cbn [sim_loop] in E. injection E as <- <- <- <-. split; auto. split; auto. intros _. right. apply (Hall r R1). intros E0.
      assert (In r (filter ok (ac_W x))) by (apply filter_In; split; auto; apply Hok; repeat split; auto).
      destruct (filter ok (ac_W x)); [contradiction|discriminate].
    + apply sims_some in E as [E1 ->]; auto; discriminate.
Qed.

Lemma default_turn u v s m m2 e : (c_kill c = true -> u_batch_give u = false) -> Jo m -> plain -> set_order (v_ord v) ->
  u_manage a = false -> u_batch_mode u = false -> u_num_active_gens u <> Some 0 ->
  iterate c (fst (turn_of (default_alloc c a u) c v s m)) m = (m2, CExc e) ->
  term_test c (v_elapsed v) m = Err e \/ snd (bindx (kill_cancelled c m) (receive c (v_msgs v))) = Some e \/ term_test c (v_elapsed2 v) m2 = Err e \/
  ((exists m1 out s', bindx (kill_cancelled c m) (receive c (v_msgs v)) = (m1, None) /\ default_alloc c a u v s m1 = (out, s') /\
      give_orders c (stamped v (o_work out)) (edited m1 out) = (m2, None)) /\
   sim_max_given c m2 = true /\ any_active m2 = false /\ term_test c (v_elapsed2 v) m2 = Ok 0).
Proof.
  intros HA HJ HP HO Hm Hb Hn. unfold turn_of. destruct (bindx (kill_cancelled c m) (receive c (v_msgs v))) as [m1 e1] eqn:E1. cbn [fst snd].
  destruct (default_alloc c a u v s m1) as [out s'] eqn:EA. unfold iterate. cbn [fst it_elapsed it_msgs it_alloc it_elapsed2].
  destruct (term_test c (v_elapsed v) m) as [[|n]|e0]; [|discriminate|intros [= _ <-]; auto]. rewrite E1. destruct e1 as [e1|]; [intros [= _ <-]; auto|].
  assert (HJ1 : Jo m1) by (eapply Jo_turn; eauto). assert (HJ' := HJ1). destruct HJ' as (((T & _) & _) & H1 & _ & _ & H4 & H5).
  assert (EA' := EA). unfold default_alloc in EA'. cbn zeta in EA'. injection EA' as EA' _.
  destruct (default_some v u s m1 T (H4 HP) Hm Hb Hn) as (D1 & D2 & D3). rewrite EA' in D1, D2, D3.
  unfold alloc_work. cbn [it_edit it_alloc]. change (set_h m1 (alloc_edit (fun i r => nth i (o_rows out) r) (m_h m1))) with (edited m1 out).
  unfold result_of. rewrite D1, D2. cbn [Nat.eqb]. rewrite (H5 HP). cbn [andb]. fold (stamped v (o_work out)).
  destruct (give_orders c (stamped v (o_work out)) (edited m1 out)) as [m3 e3] eqn:EG.
  pose proof (fits_all nat (default_alloc c a u) _ v s m1 out s' (passive_default u) HA HJ1 HO EA) as HF.
  destruct (orders_taken_all c v (o_work out) (edited m1 out) m3 e3 T H1 HF EG) as (-> & _ & _ & _ & A1 & A2).
  destruct (term_test c (v_elapsed2 v) m3) as [[|n]|e4] eqn:E4; [|discriminate|intros [= <- <-]; auto].
  destruct (any_active m3) eqn:E3; [discriminate|]. intros [= <- _]. right. right. right. split; [exists m1, out, s'; auto|]. split; [|auto].
  destruct (sim_max_given c m1) eqn:Es.
  - assert (o_work out = []) as Ew. { rewrite <- EA'. unfold give_sim_work_first, no_more_work. rewrite Es. reflexivity. }
    rewrite Ew in EG. cbn [stamped map give_orders] in EG. injection EG as <-. exact Es.
  - destruct (D3 eq_refl) as [D4|D4]; [|specialize (A2 D4); congruence]. specialize (A1 D4 Es). congruence.
Qed.
End Run.

Lemma init_orders c a (plain : Prop) h n zeros gens rm pin : (forall r, rm = Some r -> reachable_table r /\ forall i, holder r i = None) -> (rm <> None -> u_manage a = true) ->
  (forall f, In f (u_sim_in a ++ u_gen_in a ++ u_persis_in a) -> column h f) -> (plain -> has_plain (init_manager c h n zeros gens rm pin)) -> (plain -> h_safe h = false) ->
  Jo c a plain (init_manager c h n zeros gens rm pin).
Proof.
  intros Hr Hm Hc Hp Hs. split; [apply init_sets; auto; discriminate|]. split; [|auto].
  intros r Hin. cbn in Hin. apply in_map_iff in Hin as (i & <- & _). reflexivity.
Qed.

Lemma driven_split {S} (A : alloc_fn S) c vs : forall s m m' e, driven_loop A c vs s m = (m', CExc e) ->
  exists vs1 v vs2 s1 m1, vs = vs1 ++ v :: vs2 /\ driven_loop A c vs1 s m = (m1, CGo) /\ iterate c (fst (turn_of A c v s1 m1)) m1 = (m', CExc e).
Proof.
  induction vs as [|v vs IH]; intros s m m' e; cbn [driven_loop]; [discriminate|].
  destruct (turn_of A c v s m) as [it s'] eqn:ET. destruct (iterate c it m) as [m1 y] eqn:EI. destruct y as [| |e1].
  - intros E. apply IH in E as (vs1 & v1 & vs2 & s1 & m2 & -> & E1 & E2). exists (v :: vs1), v1, vs2, s1, m2. split; auto. split; auto.
    cbn [driven_loop]. now rewrite ET, EI.
  - discriminate.
  - intros [= <- <-]. exists [], v, vs, s, m. split; auto. split; auto. now rewrite ET.
Qed.
