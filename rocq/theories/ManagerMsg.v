(** What one incoming message does to the manager. *)
From Verif Require Import Base BaseLemmas HistoryModel HistorySpec HistoryProofs HistoryInv HistoryInv2 HistoryRun RsetModel WorkModel ManagerModel ManagerSpec ManagerProofs.

Definition fin_status (a : answer) : bool := (n_status a =? FIN_PERSIS_SIM) || (n_status a =? FIN_PERSIS_GEN).

Lemma fin_status_spec a : fin_status a = true <-> n_status a = FIN_PERSIS_SIM \/ n_status a = FIN_PERSIS_GEN.
Proof. unfold fin_status. rewrite orb_true_iff, !Nat.eqb_eq. tauto. Qed.

(** the table row after a message *)
Definition act_after (exc pend : bool) (a : answer) (r : wrow) : nat :=
  if (negb pend && negb (w_recv r) && negb (n_keep a)) || exc then 0 else w_active r.
Definition after_msg (exc pend : bool) (a : answer) (r : wrow) : wrow :=
  if fin_status a then
    mkW (w_id r) (w_gen r) (if w_recv r || pend then 0 else act_after exc pend a r) 0 false (w_gstart r) (w_zero r)
  else
    mkW (w_id r) (w_gen r) (act_after exc pend a r) (if n_persistent a then n_type a else w_persis r)
        (w_recv r) (w_gstart r) (w_zero r).

(** the history after a message *)
Definition out_arr (o : uout) : option sarr := match o with UArr A => Some A | _ => None end.
Definition hist_msg (c : mcfg) (t : Z) (w : nat) (a : answer) (gs : Z) (h h' : hist) : Prop :=
  h' = h \/ h' = fst (update_history_f (n_rows a) (out_arr (n_out a)) (c_kill c) t h) \/
  exists D, n_out a = UArr D /\ h' = fst (update_history_x_in w D gs t h).

(** the history after the end of a persistent function *)
Definition fin_hist (c : mcfg) (t : Z) (w : nat) (a : answer) (gs : Z) (h : hist) : ex hist :=
  match n_out a with
  | UArr D => if (n_status a =? FIN_PERSIS_GEN) && c_ret_gen c then update_history_x_in w D gs t h
              else if (n_status a =? FIN_PERSIS_SIM) && c_ret_sim c then update_history_f (n_rows a) (Some D) (c_kill c) t h
              else (h, None)
  | _ => (h, None)
  end.

Lemma gstart_get c w m r : wget (c_gom c) (m_W m) w = Some r -> gstart_of c w m = w_gstart r.
Proof. unfold gstart_of. now intros ->. Qed.

Lemma deactivate_spec c w a m r0 : table_ok c m -> wget (c_gom c) (m_W m) w = Some r0 ->
  let r1 := set_active (act_after (m_exc m) (memb w (m_pending m)) a r0) r0 in let m' := deactivate c w a m in
  touch c w r0 r1 m m' /\ m_h m' = m_h m /\ m_log m' = m_log m /\ m_exc m' = m_exc m /\ m_pending m' = m_pending m /\
  m_res m' = m_res m.
Proof.
  intros T G. cbn zeta. unfold deactivate, act_after. rewrite G. destruct (_ || _) eqn:E.
  - split; [now apply (on_worker_touch c w (set_active 0))|]. autorewrite with ow. auto 6.
  - cj. split; auto. replace (set_active (w_active r0) r0) with r0 by (now destruct r0). now apply touch_same.
Qed.

Lemma persis_finished_spec c t w a m m' e r0 :
  table_ok c m -> wget (c_gom c) (m_W m) w = Some r0 -> persis_finished c t w a m = (m', e) ->
  table_ok c m' /\ map w_id (m_W m') = map w_id (m_W m) /\ hist_msg c t w a (w_gstart r0) (m_h m) (m_h m') /\
  m_log m' = m_log m /\ m_exc m' = m_exc m /\
  (e = None ->
   touch c w r0 (mkW (w_id r0) (w_gen r0) (if w_recv r0 || memb w (m_pending m) then 0 else w_active r0) 0 false
                     (w_gstart r0) (w_zero r0)) m m' /\
   m_pending m' = (if memb w (m_pending m) then remove_one w (m_pending m) else m_pending m) /\
   m_res m' = option_map (free_rsets w) (m_res m) /\
   fin_hist c t w a (w_gstart r0) (m_h m) = (m_h m', None)).
Proof.
  intros T G. unfold persis_finished.
  match goal with |- bindx ?x _ = _ -> _ => destruct x as [m1 e1] eqn:E1 end.
  assert (A : m_W m1 = m_W m /\ m_log m1 = m_log m /\ m_exc m1 = m_exc m /\ m_pending m1 = m_pending m /\
              m_res m1 = m_res m /\ hist_msg c t w a (w_gstart r0) (m_h m) (m_h m1) /\
              fin_hist c t w a (w_gstart r0) (m_h m) = (m_h m1, e1)).
  { unfold hist_msg, fin_hist. destruct (n_out a) as [|D|] eqn:EO; try (injection E1 as <- <-; auto 10).
    destruct (_ && _).
    - pose proof (ensure_keep c D m) as (N1&N2&N3&N4&N5&N6).
      apply liftx_keep in E1 as (L1&L2&L3&L4&L5&L6&L7&L8).
      rewrite N1 in *. rewrite (gstart_get c w _ r0) in L1, L2 by (now rewrite N2).
      cj. split; [right; right; eauto|]. rewrite L1, <- L2. apply surjective_pairing.
    - destruct (_ && _).
      + apply liftx_keep in E1 as (L1&L2&L3&L4&L5&L6&L7&L8). cj.
        rewrite L1, <- L2. apply surjective_pairing.
      + injection E1 as <- <-. auto 10. }
  destruct A as (A1&A2&A3&A4&A5&A6&A7).
  assert (T1 : table_ok c m1) by (unfold table_ok in *; now rewrite A1).
  assert (G1 : wget (c_gom c) (m_W m1) w = Some r0) by congruence.
  destruct e1 as [e1|]; cbn [bindx].
  { intros [= <- <-]. cj. discriminate. }
  set (m2 := on_worker c w (set_persis 0) m1).
  assert (H2 : touch c w r0 (set_persis 0 r0) m m2).
  { eapply touch_trans; [apply (touch_same c w r0 m m1)|]; auto. now apply on_worker_touch. }
  assert (K2 : m_h m2 = m_h m1 /\ m_log m2 = m_log m1 /\ m_exc m2 = m_exc m1 /\ m_pending m2 = m_pending m1 /\ m_res m2 = m_res m1).
  { unfold m2. autorewrite with ow. auto 6. }
  assert (G2 : wget (c_gom c) (m_W m2) w = Some (set_persis 0 r0)) by apply H2. rewrite G2. cbn [set_persis w_recv].
  set (m3 := if w_recv r0 then on_worker c w (set_recv false) (on_worker c w (set_active 0) m2) else m2).
  assert (H3 : touch c w r0 (mkW (w_id r0) (w_gen r0) (if w_recv r0 then 0 else w_active r0) 0 false (w_gstart r0) (w_zero r0)) m m3).
  { unfold m3. destruct (w_recv r0) eqn:ER.
    - assert (T2 : table_ok c m2) by (eapply touch_table; eauto).
      assert (Ha : touch c w r0 (set_active 0 (set_persis 0 r0)) m (on_worker c w (set_active 0) m2)).
      { eapply touch_trans; [exact H2|]. now apply on_worker_touch. }
      eapply touch_trans; [exact Ha|].
      apply (on_worker_touch c w (set_recv false)); auto; [eapply touch_table; eauto|apply Ha].
    - replace (mkW _ _ _ _ _ _ _) with (set_persis 0 r0); auto. unfold set_persis. now rewrite ER. }
  assert (K3 : m_h m3 = m_h m1 /\ m_log m3 = m_log m1 /\ m_exc m3 = m_exc m1 /\ m_pending m3 = m_pending m1 /\ m_res m3 = m_res m1).
  { unfold m3. destruct (w_recv r0); autorewrite with ow; apply K2. }
  destruct K3 as (K31&K32&K33&K34&K35).
  set (m4 := if memb w (m_pending m3) then on_worker c w (set_active 0) (set_pending m3 (remove_one w (m_pending m3))) else m3).
  intros [= <- <-].
  pose proof (freeup_keep w m4) as (F1&F2&F3&F4&F5&F6).
  assert (H4 : touch c w r0 (mkW (w_id r0) (w_gen r0) (if w_recv r0 || memb w (m_pending m) then 0 else w_active r0) 0 false
                     (w_gstart r0) (w_zero r0)) m m4).
  { unfold m4. rewrite K34, A4. destruct (memb w (m_pending m)).
    - rewrite orb_true_r. eapply touch_trans; [exact H3|].
      eapply touch_trans; [apply (touch_same c w _ m3 (set_pending m3 (remove_one w (m_pending m)))); auto; [eapply touch_table; eauto|apply H3]|].
      apply (on_worker_touch c w (set_active 0)); auto; [eapply touch_table in H3; eauto|apply H3].
    - rewrite orb_false_r. exact H3. }
  assert (K4 : m_h m4 = m_h m1 /\ m_log m4 = m_log m1 /\ m_exc m4 = m_exc m1 /\ m_res m4 = m_res m1 /\
     m_pending m4 = (if memb w (m_pending m) then remove_one w (m_pending m) else m_pending m)).
  { unfold m4. rewrite K34, A4. destruct (memb w (m_pending m)); autorewrite with ow; cbn [m_h m_log m_exc m_res m_pending set_pending]; repeat split; congruence. }
  destruct K4 as (K41&K42&K43&K44&K45).
  assert (HF : touch c w r0 (mkW (w_id r0) (w_gen r0) (if w_recv r0 || memb w (m_pending m) then 0 else w_active r0) 0 false
                     (w_gstart r0) (w_zero r0)) m (freeup w m4)).
  { eapply touch_trans; [exact H4|]. apply touch_same; auto; [eapply touch_table; eauto|apply H4]. }
  split; [eapply touch_table; eauto|]. split; [apply HF|]. split; [now rewrite F1, K41|].
  split; [congruence|]. split; [congruence|]. intros _. split; [exact HF|]. split; [congruence|].
  split; [unfold freeup; rewrite <- A5, <- K44; destruct (m_res m4) eqn:E; auto|].
  rewrite F1, K41. exact A7.
Qed.

Lemma sim_result_spec c t a m m' e : sim_result c t a m = (m', e) ->
  m_W m' = m_W m /\ m_res m' = m_res m /\ m_pending m' = m_pending m /\
  (m_h m' = m_h m \/ m_h m' = fst (update_history_f (n_rows a) (out_arr (n_out a)) (c_kill c) t (m_h m))) /\
  ((m_log m' = m_log m /\ m_exc m' = m_exc m) \/
   (e = Some EWorker /\ m_exc m = false /\ m_exc m' = true /\ m_log m' = m_log m ++ finishes (map w_id (m_W m)) /\ n_out a = UOther)) /\
  (e = None -> (n_out a = UOther /\ m_exc m = true /\ m' = m) \/
     (n_out a <> UOther /\ m_h m' = fst (update_history_f (n_rows a) (out_arr (n_out a)) (c_kill c) t (m_h m)) /\
      snd (update_history_f (n_rows a) (out_arr (n_out a)) (c_kill c) t (m_h m)) = None)).
Proof.
  unfold sim_result. destruct (n_out a) as [|D|]; cbn [out_arr].
  - intros H. apply liftx_keep in H as (L1&L2&L3&L4&L5&L6&L7&L8). cj. intros ->. right. split; [discriminate|]. auto.
  - intros H. apply liftx_keep in H as (L1&L2&L3&L4&L5&L6&L7&L8). cj. intros ->. right. split; [discriminate|]. auto.
  - destruct (m_exc m) eqn:EX; intros [= <- <-].
    + cj. intros _. left. auto.
    + pose proof (kill_workers_spec (set_exc m true)) as (L1&L2&L3&L4&L5&L6).
      rewrite L1, L2, L3, L4, L5, L6. cbn. cj. split; [right; repeat split|discriminate].
Qed.

Lemma gen_result_spec c t w a m m' e r0 : wget (c_gom c) (m_W m) w = Some r0 -> gen_result c t w a m = (m', e) ->
  m_W m' = m_W m /\ m_res m' = m_res m /\ m_pending m' = m_pending m /\ m_log m' = m_log m /\ m_exc m' = m_exc m /\
  (m_h m' = m_h m \/ exists D, n_out a = UArr D /\ m_h m' = fst (update_history_x_in w D (w_gstart r0) t (m_h m))) /\
  (e = None -> exists D, n_out a = UArr D /\ m_h m' = fst (update_history_x_in w D (w_gstart r0) t (m_h m)) /\
     snd (update_history_x_in w D (w_gstart r0) t (m_h m)) = None /\
     (a_rows D = [] -> any_active m = true \/ w_persis r0 <> 0)).
Proof.
  intros G. unfold gen_result. destruct (n_out a) as [|D|] eqn:EO;
    try (intros [= <- <-]; cj; discriminate).
  pose proof (ensure_keep c D m) as (N1&N2&N3&N4&N5&N6).
  destruct (liftx _ _) as [m1 e1] eqn:EL. apply liftx_keep in EL as (L1&L2&L3&L4&L5&L6&L7&L8).
  rewrite N1 in *. rewrite (gstart_get c w _ r0) in * by (now rewrite N2).
  assert (B : m_W m1 = m_W m /\ m_res m1 = m_res m /\ m_pending m1 = m_pending m /\ m_log m1 = m_log m /\ m_exc m1 = m_exc m /\
     (m_h m1 = m_h m \/ exists D0, UArr D = UArr D0 /\ m_h m1 = fst (update_history_x_in w D0 (w_gstart r0) t (m_h m)))).
  { cj. right. eauto. }
  destruct B as (B1&B2&B3&B4&B5&B6).
  destruct e1 as [e1|]; cbn [bindx].
  { intros [= <- <-]. cj. discriminate. }
  destruct (_ || _) eqn:EA; intros [= <- <-]; cj; [|discriminate].
  intros _. exists D. cj. intros ED. rewrite ED in EA. cbn [length Nat.ltb Nat.leb orb] in EA.
  apply orb_true_iff in EA as [EA|EA].
  - left. unfold any_active in *. now rewrite B1 in EA.
  - right. rewrite B1, G in EA. intros E. now rewrite E in EA.
Qed.

Lemma update_on_msg_spec c t w a m m' e r0 :
  table_ok c m -> wget (c_gom c) (m_W m) w = Some r0 -> update_on_msg c t w a m = (m', e) ->
  table_ok c m' /\ map w_id (m_W m') = map w_id (m_W m) /\
  hist_msg c t w a (w_gstart r0) (m_h m) (m_h m') /\
  ((m_log m' = m_log m /\ m_exc m' = m_exc m) \/
   (e = Some EWorker /\ m_exc m = false /\ m_exc m' = true /\ m_log m' = m_log m ++ finishes (map w_id (m_W m)) /\ n_type a = EVAL_SIM /\ n_out a = UOther)) /\
  (e = None ->
   touch c w r0 (after_msg (m_exc m) (memb w (m_pending m)) a r0) m m' /\
   m_pending m' = (if fin_status a && memb w (m_pending m) then remove_one w (m_pending m) else m_pending m) /\
   m_res m' = (if fin_status a || negb (n_persistent a) then option_map (free_rsets w) (m_res m) else m_res m) /\
   (fin_status a = false -> n_type a = EVAL_SIM ->
      (n_out a = UOther /\ m_exc m = true /\ m_h m' = m_h m) \/
      (n_out a <> UOther /\ m_h m' = fst (update_history_f (n_rows a) (out_arr (n_out a)) (c_kill c) t (m_h m)) /\
       snd (update_history_f (n_rows a) (out_arr (n_out a)) (c_kill c) t (m_h m)) = None)) /\
   (fin_status a = false -> n_type a = EVAL_GEN ->
      exists D, n_out a = UArr D /\ m_h m' = fst (update_history_x_in w D (w_gstart r0) t (m_h m)) /\
        snd (update_history_x_in w D (w_gstart r0) t (m_h m)) = None) /\
   (fin_status a = false -> n_type a <> EVAL_SIM -> n_type a <> EVAL_GEN -> m_h m' = m_h m) /\
   (fin_status a = true -> fin_hist c t w a (w_gstart r0) (m_h m) = (m_h m', None))).
Proof.
  intros T G. unfold update_on_msg.
  pose proof (deactivate_spec c w a m r0 T G) as D. cbn zeta in D.
  set (m0 := deactivate c w a m) in *. clearbody m0. destruct D as (D1&D2&D3&D4&D5&D6).
  set (r1 := set_active (act_after (m_exc m) (memb w (m_pending m)) a r0) r0) in *.
  assert (T0 : table_ok c m0) by (eapply touch_table; eauto).
  assert (G0 : wget (c_gom c) (m_W m0) w = Some r1) by apply D1.
  assert (I0 : map w_id (m_W m0) = map w_id (m_W m)) by apply D1.
  fold (fin_status a). destruct (fin_status a) eqn:EF; cbn [andb orb].
  { intros H. eapply persis_finished_spec in H; eauto. destruct H as (P1&P2&P3&P4&P5&P6).
    split; [auto|]. split; [congruence|]. split; [now rewrite <- D2|]. split; [left; split; congruence|].
    intros ->. destruct (P6 eq_refl) as (Q1&Q2&Q3&Q4). rewrite D5 in *. rewrite D6 in *. rewrite D2 in Q4.
    split. { eapply touch_trans; [exact D1|]. unfold after_msg. rewrite EF. exact Q1. }
    cj. intros _. exact Q4. }
  (* normal answer *)
  set (X := if n_type a =? EVAL_SIM then sim_result c t a m0 else (m0, None)).
  destruct X as [m1 e1] eqn:EX. unfold X in EX. clear X.
  assert (S : m_W m1 = m_W m0 /\ m_res m1 = m_res m0 /\ m_pending m1 = m_pending m0 /\
     (m_h m1 = m_h m \/ (n_type a = EVAL_SIM /\ m_h m1 = fst (update_history_f (n_rows a) (out_arr (n_out a)) (c_kill c) t (m_h m)))) /\
     ((m_log m1 = m_log m /\ m_exc m1 = m_exc m) \/
      (e1 = Some EWorker /\ m_exc m = false /\ m_exc m1 = true /\ m_log m1 = m_log m ++ finishes (map w_id (m_W m)) /\ n_type a = EVAL_SIM /\ n_out a = UOther)) /\
     (e1 = None -> n_type a = EVAL_SIM -> (n_out a = UOther /\ m_exc m = true /\ m_h m1 = m_h m) \/
     (n_out a <> UOther /\ m_h m1 = fst (update_history_f (n_rows a) (out_arr (n_out a)) (c_kill c) t (m_h m)) /\
      snd (update_history_f (n_rows a) (out_arr (n_out a)) (c_kill c) t (m_h m)) = None)) /\
     (n_type a <> EVAL_SIM -> m_h m1 = m_h m)).
  { destruct (Nat.eqb_spec (n_type a) EVAL_SIM) as [et|nt].
    - apply sim_result_spec in EX as (S1&S2&S3&S4&S5&S6). rewrite D2, D3, D4, I0 in *. cj.
      split; [destruct S4; auto|]. split. { destruct S5 as [S5|(Z1&Z2&Z3&Z4&Z5)]; [auto|right; auto 8]. } split; [|congruence].
      intros E _. destruct (S6 E) as [(Z1&Z2&->)|Z]; [left; cj; congruence|right; auto].
    - injection EX as <- <-. rewrite D2. cj; congruence. }
  destruct S as (S1&S2&S3&S4&S5&S6&S7).
  assert (T1 : table_ok c m1) by (unfold table_ok in *; now rewrite S1).
  assert (G1 : wget (c_gom c) (m_W m1) w = Some r1) by (now rewrite S1).
  assert (HM : hist_msg c t w a (w_gstart r0) (m_h m) (m_h m1)).
  { unfold hist_msg. destruct S4 as [S4|[_ S4]]; auto. }
  destruct e1 as [e1|]; cbn [bindx].
  { intros [= <- <-]. split; [auto|]. split; [congruence|]. cj. discriminate. }
  destruct S5 as [(S51&S52)|(S5&_)]; [|discriminate].
  set (X := if n_type a =? EVAL_GEN then gen_result c t w a m1 else (m1, None)).
  destruct X as [m2 e2] eqn:EY. unfold X in EY. clear X.
  assert (R : m_W m2 = m_W m1 /\ m_res m2 = m_res m1 /\ m_pending m2 = m_pending m1 /\ m_log m2 = m_log m1 /\ m_exc m2 = m_exc m1 /\
     hist_msg c t w a (w_gstart r0) (m_h m) (m_h m2) /\ (n_type a <> EVAL_GEN -> m_h m2 = m_h m1) /\
     (e2 = None -> n_type a = EVAL_GEN -> exists D, n_out a = UArr D /\ m_h m2 = fst (update_history_x_in w D (w_gstart r0) t (m_h m)) /\
        snd (update_history_x_in w D (w_gstart r0) t (m_h m)) = None)).
  { destruct (Nat.eqb_spec (n_type a) EVAL_GEN) as [et|nt].
    - apply gen_result_spec with (r0 := r1) in EY; auto. destruct EY as (R1&R2&R3&R4&R5&R6&R7).
      assert (EH : m_h m1 = m_h m) by (apply S7; rewrite et; discriminate).
      rewrite EH in *. change (w_gstart r1) with (w_gstart r0) in *. cj.
      split. { unfold hist_msg. destruct R6 as [R6|(D&R6)]; eauto. }
      split; [congruence|]. intros E _. destruct (R7 E) as (D&Q1&Q2&Q3&_). eauto.
    - injection EY as <- <-. cj. congruence. }
  destruct R as (R1&R2&R3&R4&R5&R6&R7&R8).
  destruct e2 as [e2|]; cbn [bindx].
  { intros [= <- <-]. split; [unfold table_ok in *; now rewrite R1|]. split; [congruence|]. split; [auto|].
    split; [left; split; congruence|]. discriminate. }
  assert (T2 : table_ok c m2) by (unfold table_ok in *; now rewrite R1).
  assert (G2 : wget (c_gom c) (m_W m2) w = Some r1) by (now rewrite R1).
  assert (H2 : touch c w r0 r1 m m2).
  { eapply touch_trans; [exact D1|]. apply touch_same; auto. congruence. }
  set (m3 := if n_persistent a then on_worker c w (set_persis (n_type a)) m2 else freeup w m2).
  intros [= <- <-].
  pose proof (freeup_keep w m2) as (F1&F2&F3&F4&F5&F6).
  assert (K : m_h m3 = m_h m2 /\ m_log m3 = m_log m2 /\ m_exc m3 = m_exc m2 /\ m_pending m3 = m_pending m2 /\
     m_res m3 = (if negb (n_persistent a) then option_map (free_rsets w) (m_res m2) else m_res m2)).
  { unfold m3. destruct (n_persistent a); cbn [negb]; autorewrite with ow.
    - repeat split.
    - split; [auto|]. split; [auto|]. split; [auto|]. split; [auto|]. unfold freeup. destruct (m_res m2) eqn:E9; cbn; auto. }
  assert (H3 : touch c w r0 (after_msg (m_exc m) (memb w (m_pending m)) a r0) m m3).
  { eapply touch_trans; [exact H2|]. unfold m3, after_msg. rewrite EF. destruct (n_persistent a).
    - apply (on_worker_touch c w (set_persis (n_type a))); auto.
    - replace (mkW _ _ _ _ _ _ _) with r1 by reflexivity. now apply touch_same. }
  clearbody m3. destruct K as (K1&K2&K3&K4&K5).
  split; [eapply touch_table; eauto|]. split; [apply H3|]. rewrite K1. split; [auto|].
  split; [left; split; congruence|]. intros _. split; [exact H3|]. split; [congruence|].
  split; [rewrite K5, R2, S2, D6; reflexivity|].
  split. { intros _ et. rewrite R7 by (rewrite et; discriminate). auto. }
  split. { intros _ et. auto. }
  split; [|discriminate]. intros _ n1 n2. rewrite R7, S7; auto.
Qed.

(** One message, whatever it is. *)
Lemma poll_spec c w i t m m' e : table_ok c m -> poll c (w, i, t) m = (m', e) ->
  (~ In w (map w_id (m_W m)) /\ m' = m /\ e = None) \/
  exists r0, In r0 (m_W m) /\ w_id r0 = w /\
  table_ok c m' /\ map w_id (m_W m') = map w_id (m_W m) /\
  (match i with IData a => hist_msg c t w a (w_gstart r0) (m_h m) (m_h m') | _ => m_h m' = m_h m end) /\
  ((m_log m' = m_log m ++ [Got w i] /\ m_exc m' = m_exc m /\ (i = IErr -> m_exc m = true)) \/
   (e = Some EWorker /\ m_exc m = false /\ m_exc m' = true /\ m_log m' = m_log m ++ Got w i :: finishes (map w_id (m_W m)) /\ failure i)) /\
  (e = None -> match i with
   | IData a =>
      touch c w r0 (after_msg (m_exc m) (memb w (m_pending m)) a r0) m m' /\
      m_pending m' = (if fin_status a && memb w (m_pending m) then remove_one w (m_pending m) else m_pending m) /\
      m_res m' = (if fin_status a || negb (n_persistent a) then option_map (free_rsets w) (m_res m) else m_res m) /\
      (fin_status a = false -> n_type a = EVAL_SIM ->
      (n_out a = UOther /\ m_exc m = true /\ m_h m' = m_h m) \/
      (n_out a <> UOther /\ m_h m' = fst (update_history_f (n_rows a) (out_arr (n_out a)) (c_kill c) t (m_h m)) /\
       snd (update_history_f (n_rows a) (out_arr (n_out a)) (c_kill c) t (m_h m)) = None)) /\
      (fin_status a = false -> n_type a = EVAL_GEN ->
      exists D, n_out a = UArr D /\ m_h m' = fst (update_history_x_in w D (w_gstart r0) t (m_h m)) /\
        snd (update_history_x_in w D (w_gstart r0) t (m_h m)) = None) /\
      (fin_status a = false -> n_type a <> EVAL_SIM -> n_type a <> EVAL_GEN -> m_h m' = m_h m) /\
      (fin_status a = true -> fin_hist c t w a (w_gstart r0) (m_h m) = (m_h m', None))
   | IErr => m_exc m = true /\ touch c w r0 (set_active 0 r0) m m' /\ m_pending m' = m_pending m /\ m_res m' = m_res m
   | _ => m' = logev m (Got w i)
   end).
Proof.
  intros T. unfold poll. cbn [fst]. destruct (memb w (map w_id (m_W m))) eqn:EM.
  2:{ intros [= <- <-]. left. split; auto. intros H. unfold memb in EM.
      assert (existsb (Nat.eqb w) (map w_id (m_W m)) = true); [|congruence].
      apply existsb_exists. exists w. split; auto. apply Nat.eqb_refl. }
  assert (HI : In w (map w_id (m_W m))).
  { unfold memb in EM. apply existsb_exists in EM as (x & Hx & E). apply Nat.eqb_eq in E. now subst. }
  destruct (wget_id c m w T HI) as (r0 & G & E0 & IN). right. exists r0. split; [auto|]. split; [auto|]. revert H. unfold handle_msg.
  set (m0 := logev m (Got w i)).
  assert (T0 : table_ok c m0) by exact T.
  assert (H0 : touch c w r0 r0 m m0) by (now apply touch_same).
  destruct i as [a| | |].
  - intros H. eapply update_on_msg_spec in H; [|exact T0|exact G].
    destruct H as (P1&P2&P3&P4&P5). change (m_h m0) with (m_h m) in *. change (m_exc m0) with (m_exc m) in *.
    change (m_pending m0) with (m_pending m) in *. change (m_res m0) with (m_res m) in *.
    change (m_log m0) with (m_log m ++ [Got w (IData a)]) in *. change (m_W m0) with (m_W m) in *.
    cj. split. { rewrite <- app_assoc in P4. destruct P4 as [(A&B)|(A1&A2&A3&A4&A5&A6)]; [left; cj; discriminate|]. right. cj. right. eauto. }
    intros E. destruct (P5 E) as (Q1&Q2). split; [eapply touch_trans; [exact H0|exact Q1]|]. exact Q2.
  - set (m1 := on_worker c w (set_active 0) m0).
    assert (H1 : touch c w r0 (set_active 0 r0) m m1) by (eapply touch_trans; [exact H0|]; now apply on_worker_touch).
    assert (K : m_h m1 = m_h m /\ m_log m1 = m_log m ++ [Got w IErr] /\ m_exc m1 = m_exc m /\ m_pending m1 = m_pending m /\ m_res m1 = m_res m).
    { unfold m1. autorewrite with ow. auto 6. }
    clearbody m1. destruct K as (K1&K2&K3&K4&K5). rewrite K3. destruct (m_exc m) eqn:EX; intros [= <- <-].
    + split; [eapply touch_table; eauto|]. split; [apply H1|]. split; [auto|]. split; [auto|]. auto 6.
    + pose proof (kill_workers_spec (set_exc m1 true)) as (L1&L2&L3&L4&L5&L6).
      assert (map w_id (m_W m1) = map w_id (m_W m)) as I1 by apply H1.
      split. { eapply touch_table in H1; eauto. unfold table_ok in *. now rewrite L3. }
      split; [rewrite L3; apply H1|]. split; [rewrite L2; cbn; auto|]. split; [|discriminate].
      right. split; [auto|]. split; [auto|]. split; [rewrite L4; auto|].
      split; [|now left]. rewrite L1. cbn [m_log m_W set_exc]. rewrite K2, I1, <- app_assoc. reflexivity.
  - intros [= <- <-]. cj. split; [left; cj; discriminate|]. auto.
  - intros [= <- <-]. cj. split; [left; cj; discriminate|]. auto.
Qed.
