(** No point is given twice in a run driven by an allocation function. *)
From Coq Require Import Permutation.
From Verif Require Import Base BaseLemmas HistoryModel HistorySpec HistoryProofs HistoryInv HistoryInv2 HistoryRun HistoryRun2 RsetModel RsetSpec WorkModel SchedModel SchedSpec AllocModel AllocSpec AllocProofs AllocFacts AllocFast AllocPersis ManagerModel ManagerSpec ManagerProofs ManagerMsg ManagerRun ManagerInv ManagerFinal ManagerEnd ManagerRes DrivenModel DrivenSpec DrivenProofs.

Lemma NoDup_app_iff {A} (a b : list A) : NoDup (a ++ b) <-> NoDup a /\ NoDup b /\ forall x, In x a -> ~ In x b.
Proof.
  induction a as [|x a IH]; cbn [app].
  - split; [intros H; split; [constructor|]; auto|tauto].
  - rewrite !NoDup_cons_iff, IH, in_app_iff. cbn [In]. split.
    + intros (H1 & H2 & H3 & H4). split; [tauto|]. split; auto. intros y [<-|Hy]; [tauto|]. now apply H4.
    + intros ((H1 & H2) & H3 & H4). split; [intros [Hx|Hx]; [tauto|exact (H4 x (or_introl eq_refl) Hx)]|]. split; auto.
Qed.

(** ** Resource tables stay reachable *)

Definition reach (m : mgr) : Prop := match m_res m with Some rm => reachable_table rm | None => True end.

Lemma reachable_step rm o rm' : reachable_table rm -> no_repeats o -> rstep o rm = (rm', None) -> reachable_table rm'.
Proof.
  intros (nw & p & m0 & os & H1 & H2 & H3 & H4 & H5) Ho E. exists nw, p, m0, (os ++ [o]). split; auto. split; auto. split; auto.
  split; [apply Forall_app; auto|]. unfold rrun in *. rewrite foldx_app, H5. cbn [bindx foldx]. now rewrite E.
Qed.
Lemma reachable_free rm w : reachable_table rm -> reachable_table (free_rsets w rm).
Proof. intros H. eapply (reachable_step rm (RFree w)); eauto; exact I. Qed.

Lemma nodup_team k : match k_team k with Some t => NoDup t | None => True end ->
  forall k' t, as_sent k k' -> (k_team k = None -> exists rm w, set_resources w k rm = Ok k') -> k_team k' = Some t -> NoDup t.
Proof.
  intros Hn k' t Hk Hd Ht. destruct (k_team k) as [t0|] eqn:E.
  - destruct Hk as [->|(E0 & _)]; congruence.
  - destruct Hd as (rm & w & Hs); auto. unfold set_resources in Hs. rewrite E in Hs. destruct (default_rset rm w) as [d|]; [|discriminate].
    cbn in Hs. injection Hs as <-. cbn in Ht. injection Ht as <-. destruct d; repeat constructor. intros [].
Qed.

(** what an accepted order does to the resource table *)
Lemma give_res c t w k m m' : table_ok c m -> give_order c t w k m = (m', None) ->
  match m_res m with
  | None => m_res m' = None
  | Some rm => exists rm' k' team, set_resources w k rm = Ok k' /\ k_team k' = Some team /\ assign_rsets team w rm = (rm', None) /\ m_res m' = Some rm'
  end.
Proof.
  intros T. unfold give_order. destruct (check_work_order c false w k m) as [e0|] eqn:EC; [discriminate|].
  apply check_spec in EC as (r0 & G & _).
  destruct (send_work_order c t w k m) as [m1 e1] eqn:ES. destruct e1 as [e1|]; cbn [bindx]; [discriminate|].
  intros EU. pose proof ES as ES'. eapply send_work_order_spec in ES'; eauto. destruct ES' as (_ & _ & _ & _ & S5 & _ & _ & S8).
  destruct (S8 eq_refl) as (Tc & _). assert (G1 : exists r1, wget (c_gom c) (m_W m1) w = Some r1) by (destruct Tc as (_ & Tc & _); eauto).
  destruct G1 as (r1 & G1). eapply update_alloc_spec in EU; [|eapply touch_table; eauto|exact G1]. destruct EU as (_ & _ & _ & _ & U & _).
  revert ES. unfold send_work_order. destruct (m_res m) as [rm|] eqn:ER.
  - destruct (set_resources w k rm) as [k'|e] eqn:EK; [|discriminate]. destruct (set_resources_as_sent _ _ _ _ EK) as [_ HT].
    destruct (k_team k') as [team|] eqn:Et; [|congruence].
    destruct (assign_rsets team w rm) as [rm' [e|]] eqn:EA; [discriminate|]. intros ES.
    eapply send_order_msgs_spec in ES; [|exact T|exact G]. destruct ES as (_ & _ & R & _). exists rm', k', team. rewrite U, R. auto.
  - intros ES. eapply send_order_msgs_spec in ES; eauto. destruct ES as (_ & _ & R & _). congruence.
Qed.

(** ** What a careful allocation function does *)

Definition team_ok (k : work) : Prop := match k_team k with Some t => NoDup t | None => True end.

(** The rows returned have the "sim_started" values of the rows shown. *)
Definition started_kept (H H' : list row) : Prop :=
  length H' = length H /\ forall i r, nth_error H i = Some r -> exists r', nth_error H' i = Some r' /\ r' F_sim_started = r F_sim_started.

Record careful_out (m : mgr) (out : aout) : Prop := {
  co_workers : NoDup (map fst (o_work out));
  co_ids : forall w k, In (w, k) (o_work out) -> In w (map w_id (m_W m));
  co_nodup : NoDup (sim_rows (o_work out));
  co_teams : forall w k, In (w, k) (o_work out) -> team_ok k;
  co_rows : started_kept (trim_H (m_h m)) (o_rows out) }.

Section Points.
Variables (c : mcfg) (B : nat -> Prop) (safe : bool).

Definition Lpts (m : mgr) : Prop :=
  table_ok c m /\ NoDup (points_sent (m_log m)) /\ forall i, B i -> ~ In i (points_sent (m_log m)).
Definition Jpts (m : mgr) : Prop :=
  Lpts m /\ reach m /\ h_safe (m_h m) = safe /\ column (m_h m) F_sim_started /\
  forall i, B i \/ In i (points_sent (m_log m)) -> cell (h_rows (m_h m)) i F_sim_started = Some (vbool true).

Definition tidy_msg (w : nat) (i : imsg) : Prop := safe = true \/ tidy i.

Lemma Lpts_ext m m' : Lpts m -> table_ok c m' -> points_sent (m_log m') = points_sent (m_log m) -> Lpts m'.
Proof. unfold Lpts. intros (_ & H1 & H2) T ->. auto. Qed.

Lemma Jpts_hist m m' o : Jpts m -> table_ok c m' -> points_sent (m_log m') = points_sent (m_log m) -> reach m' ->
  op_clean (m_h m) o -> m_h m' = fst (hstep o (m_h m)) -> Jpts m'.
Proof.
  intros (H1 & H2 & H3 & H4 & H5) T E R C Eh. split; [eapply Lpts_ext; eauto|]. split; auto.
  rewrite Eh. split; [rewrite hstep_safe; auto|]. split; [now apply hstep_column|].
  rewrite E. intros i Hi. apply hstep_mono; auto.
Qed.
Lemma Jpts_same m m' : Jpts m -> table_ok c m' -> points_sent (m_log m') = points_sent (m_log m) -> reach m' -> m_h m' = m_h m -> Jpts m'.
Proof.
  intros (H1 & H2 & H3 & H4 & H5) T E R Eh. split; [eapply Lpts_ext; eauto|]. split; auto. rewrite Eh, E. auto.
Qed.

Lemma Jpts_kill m m' e : Jpts m -> kill_cancelled c m = (m', e) -> Lpts m' /\ (e = None -> Jpts m').
Proof.
  intros HJ E. pose proof (kill_quiet _ _ _ _ E) as Q. apply points_sent_ext in Q.
  apply kill_cancelled_spec in E as ((E1 & E2 & _) & _ & _ & E3).
  assert (T : table_ok c m') by (unfold table_ok; rewrite E1; apply HJ).
  assert (R : reach m') by (unfold reach; rewrite E2; apply HJ).
  split; [eapply Lpts_ext; eauto; apply HJ|]. intros He. destruct (E3 He) as [E|[E _]].
  - eapply Jpts_same; eauto.
  - eapply (Jpts_hist m m' HKill); eauto. exact I.
Qed.

Lemma poll_reach w i t m m' : table_ok c m -> reach m -> poll c (w, i, t) m = (m', None) -> reach m'.
Proof.
  intros T HR E. apply poll_spec in E as [(_ & -> & _)|(r0 & _ & _ & _ & _ & _ & _ & E)]; auto. specialize (E eq_refl). unfold reach in *.
  destruct i as [a| | |].
  - destruct E as (_ & _ & E & _). rewrite E. destruct (_ || _); auto. destruct (m_res m); cbn; auto. now apply reachable_free.
  - destruct E as (_ & _ & _ & E). now rewrite E.
  - now subst m'.
  - now subst m'.
Qed.

Lemma Jpts_poll w i t m m' e : Jpts m -> tidy_msg w i -> poll c (w, i, t) m = (m', e) -> Lpts m' /\ (e = None -> Jpts m').
Proof.
  intros HJ HM E. assert (T0 : table_ok c m) by apply HJ.
  pose proof (poll_quiet _ _ _ _ _ T0 E) as Q. apply points_sent_ext in Q. pose proof (poll_table _ _ _ _ _ T0 E) as [T _].
  split; [eapply Lpts_ext; eauto; apply HJ|]. intros ->. pose proof (poll_reach _ _ _ _ _ T0 (proj1 (proj2 HJ)) E) as R.
  apply poll_spec in E as [(_ & -> & _)|(r0 & _ & _ & _ & _ & E & _ & _)]; auto.
  destruct i as [a| | |]; try (eapply Jpts_same; eauto; fail).
  assert (HS : h_safe (m_h m) = safe) by apply HJ.
  destruct E as [E|[E|(D & HD & E)]]; [eapply Jpts_same; eauto| |].
  - eapply (Jpts_hist m m' (HF (n_rows a) (out_arr (n_out a)) (c_kill c) t)); eauto. cbn. unfold ret_clean, clean.
    destruct (n_out a) as [|D|] eqn:EO; cbn; auto. destruct HM as [HM|HM]; [left; congruence|]. cbn in HM. rewrite EO in HM. auto.
  - eapply (Jpts_hist m m' (HXIn w D (w_gstart r0) t)); eauto. cbn. unfold clean.
    destruct HM as [HM|HM]; [left; congruence|]. cbn in HM. rewrite HD in HM. auto.
Qed.

Lemma edited_cell m out i : started_kept (trim_H (m_h m)) (o_rows out) ->
  cell (h_rows (m_h m)) i F_sim_started = cell (h_rows (m_h (edited m out))) i F_sim_started.
Proof.
  intros [Hl Hk]. unfold edited. cbn [m_h set_h]. unfold cell. cbn [h_rows alloc_edit set_rows with_rows].
  assert (Hm : length (mapi 0 (fun i r => nth i (o_rows out) r) (trim_H (m_h m))) = length (trim_H (m_h m))) by apply mapi_length.
  destruct (Nat.lt_ge_cases i (length (trim_H (m_h m)))) as [Hi|Hi].
  - rewrite nth_error_app1 by lia. destruct (nth_error (trim_H (m_h m)) i) as [r|] eqn:En.
    2:{ apply nth_error_None in En. lia. }
    destruct (Hk i r En) as (r' & E1 & E2).
    assert (E3 : nth_error (mapi 0 (fun i r => nth i (o_rows out) r) (trim_H (m_h m))) i = Some r').
    { rewrite mapi_nth, En. cbn. f_equal. now apply nth_error_nth. }
    rewrite E3. cbn. unfold trim_H in En. rewrite nth_error_firstn in En. destruct (i <? h_index (m_h m)); [|discriminate].
    rewrite En. cbn. now rewrite E2.
  - rewrite nth_error_app2 by lia. rewrite Hm, nth_error_skipn. f_equal. unfold trim_H in *. rewrite firstn_length in *.
    destruct (Nat.le_gt_cases (h_index (m_h m)) (length (h_rows (m_h m)))).
    + f_equal. lia.
    + assert (E : forall j, length (h_rows (m_h m)) <= j -> nth_error (h_rows (m_h m)) j = None) by (intros; now apply nth_error_None).
      rewrite !E; auto; lia.
Qed.

Lemma Jpts_edit m out : Jpts m -> started_kept (trim_H (m_h m)) (o_rows out) -> Jpts (edited m out).
Proof.
  intros (H1 & H2 & H3 & H4 & H5) K. split; [exact H1|]. split; [exact H2|]. split; [exact H3|]. split; [exact H4|].
  intros i Hi. rewrite <- edited_cell by auto. now apply H5.
Qed.

Lemma Jpts_orders v wk : forall m m' e, Jpts m -> NoDup (sim_rows wk) ->
  (forall i, In i (sim_rows wk) -> ~ B i /\ ~ In i (points_sent (m_log m))) ->
  (forall w k, In (w, k) wk -> team_ok k) ->
  give_orders c (stamped v wk) m = (m', e) -> Lpts m' /\ (e = None -> Jpts m').
Proof.
  intros m m' e HJ Hn Hf Ht EG. split.
  - destruct (orders_points c v wk m m' e) as (T & rest & E); auto; [apply HJ|]. destruct HJ as ((_ & J1 & J2) & _).
    assert (HN : NoDup (points_sent (m_log m) ++ sim_rows wk)).
    { apply NoDup_app_iff; auto. split; auto. split; auto. intros x X1 X2. now destruct (Hf x X2). }
    rewrite E in HN. split; auto. split; [apply NoDup_app_iff in HN; apply HN|].
    intros i Hi Hin. assert (Hx : In i (points_sent (m_log m) ++ sim_rows wk)) by (rewrite E; apply in_app_iff; auto).
    apply in_app_iff in Hx as [Hx|Hx]; [exact (J2 i Hi Hx)|]. destruct (Hf i Hx) as [Hb _]. auto.
  - intros ->. revert m HJ Hn Hf Ht EG. induction wk as [|[w k] wk IH]; intros m HJ Hn Hf Ht; cbn [stamped map give_orders].
    + intros [= <-]. auto.
    + destruct (sim_max_given c m); [intros [= <-]; auto|]. cbn [fst].
      destruct (give_order c (v_times v w) w k m) as [m1 [e1|]] eqn:E; cbn [bindx]; [discriminate|].
      rewrite sim_rows_cons in Hn, Hf. cbn [snd] in *. apply NoDup_app_iff in Hn as (N1 & N2 & N3).
      assert (T : table_ok c m) by apply HJ.
      pose proof (give_res _ _ _ _ _ _ T E) as ER.
      apply give_log in E as (r0 & k' & l & _ & Hk & Tc & _ & _ & _ & El & Ho & Eh & En); auto.
      assert (T1 : table_ok c m1) by (eapply touch_table; eauto).
      assert (EP : points_sent (m_log m1) = points_sent (m_log m) ++ (if k_tag k =? EVAL_SIM then k_rows k else [])).
      { rewrite El, points_sent_app, (order_points_sent _ _ _ Ho). apply as_sent_same in Hk as (K1 & _ & K2 & _). now rewrite K1, K2. }
      apply IH; auto.
      * destruct HJ as ((_ & J1 & J2) & J3 & J4 & J5 & J6). split.
        { split; auto. rewrite EP. split.
          - apply NoDup_app_iff; auto. split; auto. split; auto. intros x X1 X2. destruct (Hf x) as [_ Hx]; [apply in_app_iff; auto|]. auto.
          - intros i Hi Hin. apply in_app_iff in Hin as [Hin|Hin]; [exact (J2 i Hi Hin)|]. destruct (Hf i) as [Hb _]; [apply in_app_iff; auto|]. auto. }
        split. { unfold reach in *. destruct (m_res m) as [rm|]; [|now rewrite ER]. destruct ER as (rm' & k1 & team & R1 & R2 & R3 & ->).
                 apply (reachable_step rm (RAssign team w)); auto. cbn. refine (nodup_team k (Ht w k (or_introl eq_refl)) k1 team _ _ R2); [|eauto].
                 now apply set_resources_as_sent in R1 as [? _]. }
        assert (Hop : exists o, op_clean (m_h m) o /\ m_h m1 = fst (hstep o (m_h m)) \/ m_h m1 = m_h m).
        { rewrite Eh. unfold hist_given. destruct (k_tag k =? EVAL_SIM); [exists (HXOut (k_rows k) w (c_kill c) (v_times v w)); left; cbn; auto|].
          destruct (k_tag k =? EVAL_GEN); [exists (HToGen (k_rows k) (v_times v w)); left; cbn; auto|]. exists HKill. auto. }
        destruct Hop as (o & Hop).
        split. { destruct Hop as [[_ ->]| ->]; auto. now rewrite hstep_safe. }
        split. { destruct Hop as [[_ ->]| ->]; auto. now apply hstep_column. }
        intros i Hi. rewrite EP in Hi. assert (Hi' : (B i \/ In i (points_sent (m_log m))) \/ In i (if k_tag k =? EVAL_SIM then k_rows k else [])).
        { destruct Hi as [Hi|Hi]; auto. apply in_app_iff in Hi as [Hi|Hi]; auto. }
        clear Hi. destruct Hi' as [Hi|Hi].
        { destruct Hop as [[Hc ->]| ->]; auto. apply hstep_mono; auto. }
        destruct (k_tag k =? EVAL_SIM) eqn:Et; [|destruct Hi]. rewrite Eh. unfold hist_given in *. rewrite Et in *.
        pose proof (x_out_frame (k_rows k) w (c_kill c) (v_times v w) (m_h m)) as F. cbn zeta in F.
        destruct F as (_&_&_&_&_&_&_&_&_&_&_&F&_). destruct (F En) as (_ & _ & F' & _). now apply F'.
      * intros i Hi. rewrite EP. destruct (Hf i) as [F1 F2]; [apply in_app_iff; auto|]. split; auto. rewrite in_app_iff. intros [Hx|Hx]; auto. exact (N3 i Hx Hi).
      * intros w1 k1 Hin. apply (Ht w1 k1). now right.
Qed.

(** The points of an allocation function that gives only points not yet started. *)
Lemma Jpts_alloc v m out : Jpts m -> careful_out m out -> (forall i, In i (sim_rows (o_work out)) -> evaluable (trim_H (m_h m)) i) ->
  Lpts (edited m out) /\ Jpts (edited m out) /\
  (forall m2 e, give_orders c (stamped v (o_work out)) (edited m out) = (m2, e) -> Lpts m2 /\ (e = None -> Jpts m2)).
Proof.
  intros HJ [C1 C2 C3 C4 C5] He. pose proof (Jpts_edit m out HJ C5) as HE. split; [apply HE|]. split; [exact HE|].
  intros m2 e. apply Jpts_orders; auto. intros i Hi. change (m_log (edited m out)) with (m_log m).
  assert (Hc : cell (h_rows (m_h m)) i F_sim_started <> Some (vbool true)).
  { destruct (He i Hi) as (r & Hr & Hs & _). unfold trim_H in Hr. rewrite nth_error_firstn in Hr. destruct (i <? _); [|discriminate].
    unfold cell. rewrite Hr. cbn. intros [= E]. rewrite E in Hs. discriminate. }
  destruct HJ as (_ & _ & _ & _ & H5). split; intros Hx; apply Hc, H5; auto.
Qed.

(** Points sent do not change in the final phase. *)
Lemma Lpts_final t rounds m m' f : Lpts m -> final_phase c t rounds m = (m', f) -> Lpts m'.
Proof.
  intros HJ E. eapply (final_ind c Lpts Lpts (fun _ _ => True)) in E as [E _]; eauto.
  - intros a Ha. apply Ha.
  - intros w i t0 a a' e Ha _ E0. assert (Lpts a'); [|auto]. eapply Lpts_ext; eauto; [eapply poll_table; eauto; apply Ha|].
    apply points_sent_ext. eapply poll_quiet; eauto. apply Ha.
  - intros t0 w a a' e Ha _ E0. assert (Lpts a'); [|auto]. eapply Lpts_ext; eauto; [eapply stop_persistent_spec in E0; [apply E0|apply Ha]|].
    apply points_sent_ext. eapply stop_quiet; eauto. apply Ha.
  - intros a Ha. pose proof (kill_workers_spec a) as (E1 & _ & E2 & _). eapply Lpts_ext; eauto; [unfold table_ok; rewrite E2; apply Ha|].
    rewrite E1, points_sent_app, (points_sent_quiet (finishes _)) by apply finishes_quiet. now rewrite app_nil_r.
  - red. auto.
Qed.
End Points.
