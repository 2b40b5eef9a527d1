(** The shipped allocation functions are careful; no point is sent out twice. *)
From Coq Require Import Permutation.
From Verif Require Import Base BaseLemmas HistoryModel HistorySpec HistoryProofs HistoryInv HistoryInv2 HistoryRun HistoryRun2 RsetModel RsetSpec WorkModel SchedModel SchedSpec AllocModel AllocSpec AllocProofs AllocLoops AllocFacts AllocFast AllocPersis ManagerModel ManagerSpec ManagerProofs ManagerMsg ManagerRun ManagerInv ManagerFinal ManagerEnd ManagerRes DrivenModel DrivenSpec DrivenProofs DrivenInv.

Lemma sinv_nodup c handed s : sinv c handed s -> NoDup handed.
Proof.
  unfold sinv. destruct (ac_rm c), (as_sched s); try contradiction; [intros [_ A _ _]; auto|intros ->; constructor].
Qed.
Lemma sets_team_ok wk : NoDup (sets_given wk) -> forall w k, In (w, k) wk -> team_ok k.
Proof.
  unfold sets_given, team_ok. induction wk as [|[w0 k0] wk IH]; cbn [map concat]; intros Hn w k Hin; [destruct Hin|]. destruct Hin as [H|H].
  - injection H as -> ->. apply NoDup_app_iff in Hn as (N & _). cbn in N. now destruct (k_team k).
  - apply NoDup_app_iff in Hn as (_ & N & _). exact (IH N w k H).
Qed.

Lemma call_ok c a v m : table_ok c m -> reach m -> set_order (v_ord v) ->
  ids_distinct (ac_W (call_context c a v m)) /\ resources_ok (call_context c a v m).
Proof. intros T R O. split; [exact (table_nodup c m T)|]. split; [exact O|exact R]. Qed.

Lemma same_started H : started_kept H H.
Proof. split; auto. intros i r E. eauto. Qed.

Lemma cancel_slow_started u now H : started_kept H (cancel_slow u now H).
Proof.
  unfold cancel_slow. destruct (u_cancel_time u) as [lim|]; [|apply same_started]. split; [apply map_length|].
  intros i r E. rewrite nth_error_map, E. cbn. eexists. split; [reflexivity|]. destruct (too_long now lim r); auto.
Qed.

Lemma idle_in W w : idle W w -> In w (map w_id W).
Proof. intros (r & H & <- & _). now apply in_map. Qed.

Lemma default_careful c a u v g m out g' : table_ok c m -> reach m -> set_order (v_ord v) -> default_alloc c a u v g m = (out, g') ->
  careful_out m out /\ forall i, In i (sim_rows (o_work out)) -> evaluable (trim_H (m_h m)) i.
Proof.
  intros T R O. destruct (call_ok c a v m T R O) as [Hi Hr]. unfold default_alloc. set (x := call_context c a v m) in *. intros [= <- <-].
  match goal with |- careful_out m ?o /\ _ => set (out := o) end.
  destruct (default_sound x (h_dtype (m_h m)) u (v_now v) (no_more_work c m) g (trim_H (m_h m)) Hi Hr) as (A1 & A2 & A3 & A4).
  destruct (default_cases x (h_dtype (m_h m)) u (v_now v) (no_more_work c m) g (trim_H (m_h m)) Hi Hr) as (B1 & _ & _ & s & B2).
  fold out in A1, A2, A3, A4, B1, B2. split; [|intros i Hx; now apply A4]. split; auto.
  - intros w k Hin. apply (idle_in (m_W m)). now apply (A1 w k).
  - apply sets_team_ok. eapply sinv_nodup; eauto.
  - rewrite B1. apply cancel_slow_started.
Qed.

Lemma persistent_careful c a u v s m out s' : table_ok c m -> reach m -> set_order (v_ord v) -> persistent_alloc c a u v s m = (out, s') ->
  careful_out m out /\ forall i, In i (sim_rows (o_work out)) -> evaluable (trim_H (m_h m)) i.
Proof.
  intros T R O. destruct (call_ok c a v m T R O) as [Hi Hr]. unfold persistent_alloc. set (x := call_context c a v m) in *.
  destruct (only_persistent_gens _ _ _ _ _ _ _) as [o p'] eqn:E. intros [= <- <-].
  destruct (no_more_work c m).
  - injection E as <- <-. cbn. split; [|intros i []]. split; cbn [o_work o_rows map sim_rows]; [constructor|intros ? ? []|constructor|intros ? ? []|apply same_started].
  - destruct (persis_facts x (h_dtype (m_h m)) u (fst s) (snd s) p' (trim_H (m_h m)) o Hi Hr E) as ((handed & st & P & Q) & A1 & _).
    pose proof P as (P1 & P2 & P3 & P4 & rest & P5). split; [|exact P4]. split; auto.
    + intros w k Hin. destruct (P2 _ Hin) as [[(r & L1 & L2 & _) _]|[[(r & L1 & L2 & _) _]|[(r & L1 & L2 & _) _]]]; cbn in L2; rewrite <- L2; now apply in_map.
    + apply sets_team_ok. eapply nodup_perm_l; [|exact P5]. eapply sinv_nodup; eauto.
    + rewrite A1. apply same_started.
Qed.

(** A run starts with nothing sent. *)
Lemma init_pts c outs H0 safe n zeros gens rm pin (B : nat -> Prop) :
  match rm with Some r => reachable_table r | None => True end ->
  (forall i, B i -> cell (h_rows (fresh_history c outs H0 safe)) i F_sim_started = Some (vbool true)) ->
  Jpts c B safe (init_manager c (fresh_history c outs H0 safe) n zeros gens rm pin).
Proof.
  intros Hr HB. split; [split; [apply init_table|]; cbn; split; [constructor|auto]|]. split; [exact Hr|]. split; [reflexivity|].
  split; [apply init_column; cbn; tauto|]. cbn. intros i [Hi|[]]. auto.
Qed.

Section Never.
Context {S : Type}.
Variables (A : alloc_fn S) (c : mcfg) (B : nat -> Prop) (safe : bool).
Hypothesis HA : forall v s m out s', table_ok c m -> reach m -> set_order (v_ord v) -> A v s m = (out, s') ->
  careful_out m out /\ forall i, In i (sim_rows (o_work out)) -> evaluable (trim_H (m_h m)) i.

Lemma never_twice vs s t rounds m m' o : Jpts c B safe m -> Forall (fun v => set_order (v_ord v) /\ (safe = true \/ surr_tidy v)) vs ->
  driven_run A c vs s t rounds m = (m', o) -> Lpts c B m'.
Proof.
  intros HJ HV E. apply driven_cases in E as (m1 & x & E & E2).
  eapply (driven_ind A c (fun _ => Jpts c B safe) (Lpts c B) (fun v => set_order (v_ord v) /\ (safe = true \/ surr_tidy v)) (tidy_msg safe)) in E as [E _]; eauto.
  - destruct E2 as [(_ & -> & _)|(_ & f & E2 & _)]; auto. eapply Lpts_final; eauto.
  - intros s0 m0 H0. apply H0.
  - intros v w i t0 [_ [H|H]] Hin; [now left|right]. eapply H; eauto.
  - intros s0 m0 m2 e H0 E0. eapply Jpts_kill; eauto.
  - intros s0 w i t0 m0 m2 e H0 H1 E0. eapply Jpts_poll; eauto.
  - intros s0 s1 v m0 out H0 [HO _] E0. destruct (HA v s0 m0 out s1) as [C1 C2]; auto; try apply H0.
    destruct (Jpts_alloc c B safe v m0 out H0 C1 C2) as (D1 & D2 & D3). split; auto.
Qed.
End Never.

(** ** The functions that count: fast_alloc, give_pregenerated_sim_work, ensure_one_active_gen *)
Section Counting.
Variables (A : alloc_fn (nat * pinfo)) (c : mcfg) (b : bool).

(** everything sent is before the position *)
Definition Kcount (s : nat * pinfo) (m : mgr) : Prop :=
  Lpts c (fun _ => False) m /\ reach m /\ h_index (m_h m) <= length (h_rows (m_h m)) /\ (b = true -> pi_next (snd s) <= h_index (m_h m)) /\
  forall i, In i (points_sent (m_log m)) -> i < pi_next (snd s).

Lemma trim_len h : h_index h <= length (h_rows h) -> length (trim_H h) = h_index h.
Proof. intros H. unfold trim_H. rewrite firstn_length. lia. Qed.

Lemma Kcount_hist s m m' : Kcount s m -> table_ok c m' -> points_sent (m_log m') = points_sent (m_log m) -> reach m' ->
  h_index (m_h m) <= h_index (m_h m') <= length (h_rows (m_h m')) -> Kcount s m'.
Proof.
  intros (H1 & H2 & H3 & H4 & H5) T E R Hi. split; [eapply Lpts_ext; eauto|]. split; auto. split; [lia|]. split; [intros Hb; specialize (H4 Hb); lia|]. now rewrite E.
Qed.

Lemma fin_hist_index t w r gs h h' : h_index h <= length (h_rows h) -> fin_hist c t w r gs h = (h', None) -> h_index h <= h_index h' <= length (h_rows h').
Proof.
  unfold fin_hist. intros Hi E. destruct (n_out r); try (injection E as <-; lia).
  destruct (_ && _); [now eapply x_in_index; eauto|]. destruct (_ && _); [|injection E as <-; lia].
  pose proof (hf_frame (n_rows r) (Some A0) (c_kill c) t h) as F. cbn zeta in F. rewrite E in F. cbn [fst] in F. lia.
Qed.

Lemma poll_index w i t m m' : table_ok c m -> h_index (m_h m) <= length (h_rows (m_h m)) -> poll c (w, i, t) m = (m', None) ->
  h_index (m_h m) <= h_index (m_h m') <= length (h_rows (m_h m')).
Proof.
  intros T Hi E. apply poll_spec in E as [(_ & -> & _)|(r0 & _ & _ & _ & _ & E & _ & E2)]; [lia| |auto].
  destruct i as [r| | |]; try (rewrite E; lia). destruct (E2 eq_refl) as (_ & _ & _ & F1 & F2 & F3 & F4). clear E2.
  destruct (fin_status r) eqn:Ef; [eapply fin_hist_index; eauto|].
  destruct (Nat.eq_dec (n_type r) EVAL_SIM) as [E1|E1].
  { destruct (F1 eq_refl E1) as [(_ & _ & ->)|(_ & -> & _)]; [lia|].
    pose proof (hf_frame (n_rows r) (out_arr (n_out r)) (c_kill c) t (m_h m)) as F. cbn zeta in F. lia. }
  destruct (Nat.eq_dec (n_type r) EVAL_GEN) as [E2|E2]; [|rewrite F3; auto].
  destruct (F2 eq_refl E2) as (D & _ & D1 & D2). eapply x_in_index; eauto. rewrite D1. rewrite <- D2. apply surjective_pairing.
Qed.

Lemma given_index t w k h : let h' := fst (hist_given c t w k h) in h_index h' = h_index h /\ length (h_rows h') = length (h_rows h).
Proof.
  cbn zeta. unfold hist_given. destruct (k_tag k =? EVAL_SIM); [|destruct (k_tag k =? EVAL_GEN); auto].
  - pose proof (x_out_frame (k_rows k) w (c_kill c) t h) as F. cbn zeta in F. tauto.
  - pose proof (to_gen_frame (k_rows k) t h) as F. cbn zeta in F. tauto.
Qed.

(** reachability and positions through the orders *)
Lemma orders_index v wk : forall m m', table_ok c m -> reach m -> (m_res m <> None -> forall w k, In (w, k) wk -> team_ok k) ->
  give_orders c (stamped v wk) m = (m', None) -> reach m' /\ h_index (m_h m') = h_index (m_h m) /\ length (h_rows (m_h m')) = length (h_rows (m_h m)).
Proof.
  induction wk as [|[w k] wk IH]; intros m m' T R Ht; cbn [stamped map give_orders].
  { intros [= <-]. auto. }
  destruct (sim_max_given c m); [intros [= <-]; auto|]. cbn [fst].
  destruct (give_order c (v_times v w) w k m) as [m1 [e1|]] eqn:E; cbn [bindx]; [discriminate|].
  pose proof (give_res _ _ _ _ _ _ T E) as ER.
  apply give_log in E as (r0 & k' & l & _ & Hk & Tc & _ & _ & _ & El & Ho & Eh & En); auto.
  assert (T1 : table_ok c m1) by (eapply touch_table; eauto).
  pose proof (given_index (v_times v w) w k (m_h m)) as G. cbn zeta in G. rewrite <- Eh in G.
  intros EG. apply IH in EG; auto.
  - intuition congruence.
  - unfold reach in *. destruct (m_res m) as [rm|]; [|now rewrite ER]. destruct ER as (rm' & k1 & team & R1 & R2 & R3 & ->).
    apply (reachable_step rm (RAssign team w)); auto. cbn. refine (nodup_team k (Ht _ w k (or_introl eq_refl)) k1 team _ _ R2); [discriminate| |eauto].
    now apply set_resources_as_sent in R1 as [? _].
  - intros Hr w1 k1 Hin. apply (Ht ltac:(destruct (m_res m); congruence) w1 k1). now right.
Qed.

Lemma wanted_range H lo hi i : In i (wanted_between H lo hi) -> lo <= i < hi.
Proof. unfold wanted_between. intros Hi. apply filter_In in Hi as [Hi _]. apply in_seq in Hi. lia. Qed.
Lemma wanted_nodup H lo hi : NoDup (wanted_between H lo hi).
Proof. apply NoDup_filter, seq_NoDup. Qed.


(** What such a function returns: new points, from the old position up to the new one. *)
Definition counts (m : mgr) (p p' : pinfo) (out : aout) : Prop :=
  o_rows out = trim_H (m_h m) /\ pi_next p <= pi_next p' /\ (b = true -> pi_next p' <= length (trim_H (m_h m))) /\
  NoDup (sim_rows (o_work out)) /\ (forall i, In i (sim_rows (o_work out)) -> pi_next p <= i < pi_next p') /\
  (m_res m <> None -> NoDup (sets_given (o_work out))).
Hypothesis HA : forall v s m out s', table_ok c m -> reach m -> set_order (v_ord v) -> (b = true -> pi_next (snd s) <= length (trim_H (m_h m))) ->
  A v s m = (out, s') -> counts m (snd s) (snd s') out.

Lemma counting_never_twice vs s t rounds m m' o : Kcount s m -> Forall (fun v => set_order (v_ord v)) vs ->
  driven_run A c vs s t rounds m = (m', o) -> NoDup (points_sent (m_log m')).
Proof.
  intros HJ HV E. apply driven_cases in E as (m1 & x & E & E2).
  eapply (driven_ind A c Kcount (Lpts c (fun _ => False)) (fun v => set_order (v_ord v)) (fun _ _ => True)) in E as [E _]; eauto.
  - destruct E2 as [(_ & -> & _)|(_ & f & E2 & _)]; [apply E|]. eapply Lpts_final in E2; eauto. apply E2.
  - intros s0 m0 H0. apply H0.
  - intros s0 m0 m2 e H0 E0. pose proof (kill_quiet _ _ _ _ E0) as Q. apply points_sent_ext in Q.
    apply kill_cancelled_spec in E0 as ((E1 & E3 & _) & _ & _ & E4).
    assert (T : table_ok c m2) by (unfold table_ok; rewrite E1; apply H0).
    split; [eapply Lpts_ext; eauto; apply H0|]. intros He. pose proof H0 as (_ & K2 & K3 & _). eapply Kcount_hist; eauto.
    + unfold reach. rewrite E3. exact K2.
    + destruct (E4 He) as [-> |[-> _]]; [lia|]. pose proof (kill_frame (m_h m0)) as F. cbn zeta in F. lia.
  - intros s0 w i t0 m0 m2 e H0 _ E0. pose proof H0 as ((T0 & K1) & K2 & K3 & _).
    pose proof (poll_quiet _ _ _ _ _ T0 E0) as Q. apply points_sent_ext in Q. pose proof (poll_table _ _ _ _ _ T0 E0) as [T _].
    split; [eapply Lpts_ext; eauto; apply H0|]. intros ->. eapply Kcount_hist; eauto.
    + exact (poll_reach _ _ _ _ _ _ T0 K2 E0).
    + exact (poll_index _ _ _ _ _ T0 K3 E0).
  - intros s0 s1 v m0 out H0 HO E0. pose proof H0 as ((T0 & K1) & K2 & K3 & K4 & K5).
    destruct (HA v s0 m0 out s1 T0 K2 HO) as (F5 & F3 & F3' & F4 & F4' & F6); auto. { intros Hb. rewrite trim_len; auto. }
    rewrite trim_len in F3' by auto.
    assert (Ht : m_res m0 <> None -> forall w k, In (w, k) (o_work out) -> team_ok k).
    { intros Hm. now apply sets_team_ok, F6. }
    assert (Li : h_index (m_h (edited m0 out)) = h_index (m_h m0) /\ length (h_rows (m_h (edited m0 out))) = length (h_rows (m_h m0))).
    { split; [reflexivity|]. unfold edited. cbn [m_h set_h]. cbn [h_rows alloc_edit set_rows with_rows].
      rewrite app_length, mapi_length, skipn_length, trim_len by auto. lia. }
    destruct Li as [L1 L2].
    assert (HE : Kcount s1 (edited m0 out)).
    { split; [apply H0|]. split; [exact K2|]. rewrite L1, L2. split; auto. split; [auto|].
      intros i Hx. apply K5 in Hx. lia. }
    split; [apply H0|]. split; [intros _ _; exact HE|]. intros _ _ m2 e EG.
    destruct (orders_points c v (o_work out) (edited m0 out) m2 e) as (T2 & rest & EP); auto.
    change (m_log (edited m0 out)) with (m_log m0) in EP.
    assert (HN : NoDup (points_sent (m_log m2) ++ rest)).
    { rewrite <- EP. apply NoDup_app_iff. split; [apply K1|]. split; [exact F4|]. intros i X1 X2. apply K5 in X1. apply F4' in X2. lia. }
    apply NoDup_app_iff in HN as (HN & _). assert (HL : Lpts c (fun _ => False) m2) by (split; auto). split; auto. intros ->.
    destruct (orders_index v (o_work out) (edited m0 out) m2) as (O1 & O2 & O3); auto.
    split; auto. split; auto. rewrite O2, O3, L1, L2. split; auto. split; [auto|].
    intros i Hx. assert (Hx' : In i (points_sent (m_log m0) ++ sim_rows (o_work out))) by (rewrite EP; apply in_app_iff; auto).
    apply in_app_iff in Hx' as [Hx'|Hx']; [apply K5 in Hx'; lia|apply F4' in Hx'; lia].
Qed.
End Counting.

Lemma fast_counts c a num v s m out s' : table_ok c m -> reach m -> set_order (v_ord v) ->
  (true = true -> pi_next (snd s) <= length (trim_H (m_h m))) -> fast_alloc_fn c a num v s m = (out, s') -> counts true m (snd s) (snd s') out.
Proof.
  intros T R O Hn. destruct (call_ok c a v m T R O) as [Hi Hr]. unfold fast_alloc_fn.
  destruct (fast_alloc _ _ _ _ _ _ _) as [o1 p'] eqn:EF. intros [= <- <-]. cbn [snd].
  apply fast_facts in EF as (F1 & F2 & F3 & F4 & _ & _ & _ & _ & F5 & F6 & _); auto.
  split; auto. split; [lia|]. split; [lia|]. rewrite F4. split; [apply wanted_nodup|]. split; [apply wanted_range|].
  intros Hm. destruct (m_res m) as [rm|] eqn:Er; [|congruence]. now apply (F6 rm).
Qed.

Lemma next_counts x d H g nx ws wk s nx' e : ids_distinct (ac_W x) -> resources_ok x -> nx < length H ->
  avail_workers (ac_W x) None false None (Some false) = Ok ws -> next_sims x d H ws nx [] (support_init x g) = (wk, s, nx', e) ->
  nx <= nx' /\ NoDup (sim_rows wk) /\ (forall i, In i (sim_rows wk) -> nx <= i < nx') /\ NoDup (sets_given wk).
Proof.
  intros Hi Hr Hnx Ew E.
  destruct (next_sims_spec x d H Hr ws _ [] _ [] _ _ _ _ (avail_sub _ _ _ _ _ _ Ew Hi) (fun w _ => eq_refl) (support_init_sinv x g Hr) Hnx E) as (new & E1 & _ & E3 & _ & E5 & E6 & E7).
  cbn in E1. subst new. cbn [app] in E6. rewrite (rows_of_sims _ _ _ _ _ E3). split; [lia|].
  assert (G : NoDup (rows_of wk) /\ forall i, In i (rows_of wk) -> nx <= i < nx').
  { destruct E7 as [[-> _]|(-> & -> & _)]; [split; [apply wanted_nodup|apply wanted_range]|]. split.
    - apply NoDup_app_iff. split; [apply wanted_nodup|]. split; [repeat constructor; intros []|]. intros i Hx [<-|[]]. apply wanted_range in Hx. lia.
    - intros i Hx. apply in_app_iff in Hx as [Hx|[<-|[]]]; [apply wanted_range in Hx|]; lia. }
  split; [apply G|]. split; [apply G|]. eapply sinv_nodup; eauto.
Qed.

Lemma pregenerated_counts c a v s m out s' : table_ok c m -> reach m -> set_order (v_ord v) ->
  (false = true -> pi_next (snd s) <= length (trim_H (m_h m))) -> pregenerated_alloc c a v s m = (out, s') -> counts false m (snd s) (snd s') out.
Proof.
  intros T R O _. destruct (call_ok c a v m T R O) as [Hi Hr]. unfold pregenerated_alloc.
  destruct (give_pregenerated _ _ _ _ _ _) as [o1 p'] eqn:EF. intros [= <- <-]. cbn [snd]. revert EF. unfold give_pregenerated.
  assert (Nil : forall f g e, (mkAO (trim_H (m_h m)) [] f g e, snd s) = (o1, p') -> counts false m (snd s) p' o1).
  { intros f g e [= <- <-]. unfold counts, sets_given, sim_rows. cbn. repeat split; auto; try discriminate; try constructor; contradiction. }
  destruct (no_more_work c m); [apply Nil|]. destruct (Nat.leb_spec (length (trim_H (m_h m))) (pi_next (snd s))) as [L|L]; [apply Nil|].
  destruct (avail_workers _ _ _ _ _) as [ws|e0] eqn:Ew; [|apply Nil].
  destruct (next_sims _ _ _ _ _ _ _) as [[[wk s1] nx] e] eqn:E1. intros [= <- <-].
  apply next_counts in E1 as (N1 & N2 & N3 & N4); auto. unfold counts. cbn. repeat split; auto; try discriminate; now apply N3.
Qed.

Lemma one_gen_counts c a v s m out s' : table_ok c m -> reach m -> set_order (v_ord v) ->
  (false = true -> pi_next (snd s) <= length (trim_H (m_h m))) -> one_gen_alloc c a v s m = (out, s') -> counts false m (snd s) (snd s') out.
Proof.
  intros T R O _. destruct (call_ok c a v m T R O) as [Hi Hr]. unfold one_gen_alloc. set (x := call_context c a v m) in *.
  destruct (ensure_one_active_gen _ _ _ _ _ _) as [o1 p'] eqn:EF. intros [= <- <-]. cbn [snd].
  pose proof EF as EF'. apply one_gen_facts in EF' as ((_ & _ & _ & C4 & _) & _ & _ & C5 & _); auto. revert EF. unfold ensure_one_active_gen.
  assert (Nil : forall f g e, (mkAO (trim_H (m_h m)) [] f g e, snd s) = (o1, p') -> counts false m (snd s) p' o1).
  { intros f g e [= <- <-]. unfold counts, sets_given, sim_rows. cbn. repeat split; auto; try discriminate; try constructor; contradiction. }
  destruct (no_more_work c m); [apply Nil|]. destruct (Nat.ltb_spec (pi_next (snd s)) (length (trim_H (m_h m)))) as [L|L].
  - destruct (avail_workers _ _ _ _ _) as [ws|e0] eqn:Ew; [|apply Nil].
    destruct (next_sims _ _ _ _ _ _ _) as [[[wk s1] nx] e] eqn:E1. intros [= <- <-].
    apply next_counts in E1 as (N1 & N2 & N3 & N4); auto. unfold counts. cbn. repeat split; auto; try discriminate; now apply N3.
  - destruct (negb _); [|apply Nil]. destruct (avail_workers _ _ _ _ _) as [[|w ws]|e0] eqn:Ew; try apply Nil.
    destruct (negb _); [apply Nil|]. destruct (gen_work _ _ _ _ _ _ _) as [[k|er] s1] eqn:Eg; [|destruct er; apply Nil].
    intros [= <- <-]. pose proof (gen_work_spec _ _ _ _ _ _ _ _ _ _ Hr (support_init_sinv x (fst s) Hr) Eg) as (X1 & X2 & _).
    unfold counts. cbn [o_rows o_work pi_next]. unfold sim_rows, sims. cbn [filter snd]. rewrite X2. cbn.
    repeat split; auto; try discriminate; try constructor; try contradiction.
    intros Hm. destruct (m_res m) as [rm|] eqn:Er; [|congruence]. now apply (C4 rm).
Qed.

(** A run starts with nothing sent and the position at 0. *)
Lemma init_count c b h n zeros gens rm pin s : h_index h <= length (h_rows h) -> match rm with Some r => reachable_table r | None => True end ->
  (b = true -> pi_next (snd s) <= h_index h) -> Kcount c b s (init_manager c h n zeros gens rm pin).
Proof.
  intros Hi Hr Hb. split; [split; [apply init_table|]; cbn; split; [constructor|auto]|]. split; [exact Hr|]. split; auto. split; auto. intros i [].
Qed.
