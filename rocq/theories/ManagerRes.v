(** Resource sets and counters over a run; the stop test; errors end the run. *)
From Verif Require Import Base BaseLemmas HistoryModel HistorySpec HistoryProofs HistoryInv HistoryInv2 HistoryRun HistoryRun2 RsetModel RsetSpec WorkModel ManagerModel ManagerSpec ManagerProofs ManagerMsg ManagerRun ManagerInv ManagerFinal ManagerEnd.

(** ** Who holds resource sets *)

Lemma assign_one_holder w p m i v : holder (assign_one w p m) i = Some v -> holder m i = Some v \/ v = w.
Proof.
  destruct p as [j old]. unfold assign_one. destruct old; auto.
  destruct (nth_error (rm_rsets m) j) as [r|] eqn:E; auto.
  assert (H : forall rs, rs = upd (rm_rsets m) j (own (Some w)) -> forall v, (match nth_error rs i with Some r => rs_owner r | None => None end) = Some v ->
     holder m i = Some v \/ v = w).
  { intros rs -> u. unfold holder. destruct (Nat.eq_dec j i) as [->|Hne].
    - rewrite nth_upd_eq, E. cbn. intros [= <-]. auto.
    - rewrite nth_upd_ne by auto. auto. }
  destruct (rs_gpu r); intros Hv; eapply H; eauto; exact Hv.
Qed.

Lemma assign_holder team w m m' i v : assign_rsets team w m = (m', None) -> holder m' i = Some v -> holder m i = Some v \/ v = w.
Proof.
  unfold assign_rsets. destruct (forallb _ _); [|discriminate]. intros [= <-].
  match goal with |- context [fold_left _ ?l m] => generalize l end. intros ps. revert m.
  induction ps as [|p ps IH]; intros m; cbn [fold_left]; auto. intros H. apply IH in H as [H|H]; auto.
  now apply assign_one_holder in H.
Qed.

Lemma free_holder w m i : holder (free_rsets w m) i = match holder m i with Some v => if v =? w then None else Some v | None => None end.
Proof.
  unfold holder; cbn. rewrite nth_error_map. destruct (nth_error (rm_rsets m) i) as [r|]; cbn; auto.
  unfold owned_by. destruct (rs_owner r) as [v|] eqn:E; cbn; [destruct (v =? w); cbn; auto|]; auto.
Qed.

Definition J_res c ids (m : mgr) : Prop :=
  table_ok c m /\ map w_id (m_W m) = ids /\ m_exc m = false /\
  forall rm i w, m_res m = Some rm -> holder rm i = Some w ->
    exists r, In r (m_W m) /\ w_id r = w /\ (w_active r <> 0 \/ w_persis r <> 0).

Lemma wget_same c m w r : table_ok c m -> In w (map w_id (m_W m)) -> wget (c_gom c) (m_W m) w = Some r -> w_id r = w.
Proof. intros T Hin G. destruct (wget_id c m w T Hin) as (r'&G'&Hr&_). congruence. Qed.

Lemma J_res_kill c ids m m' : J_res c ids m -> kill_cancelled c m = (m', None) -> J_res c ids m'.
Proof.
  intros (T&I&X&H) E. apply kill_cancelled_spec in E as ((E1&E2&E3&_)&_).
  split; [unfold table_ok in *; now rewrite E1|]. split; [congruence|]. split; [congruence|]. rewrite E1, E2. auto.
Qed.

Lemma J_res_poll c ids w i t m m' : J_res c ids m -> honest w i -> poll c (w, i, t) m = (m', None) -> J_res c ids m'.
Proof.
  intros HJ HM E. pose proof HJ as (T&I&X&H). pose proof (poll_table _ _ _ _ _ T E) as (T'&I').
  apply poll_spec in E as [(_&->&_)|(r0&Hin&Hid&E1&E2&E3&E4&E5)]; auto.
  destruct E4 as [(E4&E6&E7)|(E4&_)]; [|discriminate]. specialize (E5 eq_refl).
  split; auto. split; [congruence|]. split; [congruence|].
  destruct i as [a| | |].
  - destruct E5 as (Tc&_&ER&_). intros rm j v Hrm Hh.
    destruct (fin_status a || negb (n_persistent a)) eqn:EF.
    + rewrite ER in Hrm. destruct (m_res m) as [rm0|] eqn:E0; [|discriminate]. cbn in Hrm. injection Hrm as <-.
      rewrite free_holder in Hh. destruct (holder rm0 j) as [u|] eqn:Eh; [|discriminate].
      destruct (u =? w) eqn:Eu; [discriminate|]. injection Hh as <-. apply Nat.eqb_neq in Eu.
      destruct (H _ _ _ eq_refl Eh) as (r&R1&R2&R3). exists r. split; auto. apply Tc. right. split; auto. congruence.
    + apply orb_false_iff in EF as [EF EP]. apply negb_false_iff in EP. rewrite ER in Hrm.
      destruct (H _ _ _ Hrm Hh) as (r&R1&R2&R3). destruct (Nat.eq_dec v w) as [->|Hne].
      * eexists. split; [apply Tc; left; reflexivity|]. unfold after_msg. rewrite EF, EP. cbn. split; [congruence|].
        right. now apply HM.
      * exists r. split; auto. apply Tc. right. split; auto. congruence.
  - rewrite E7 in X; auto. discriminate.
  - subst m'. exact H.
  - subst m'. exact H.
Qed.

Lemma J_res_give c ids t w k m m' : J_res c ids m -> In w ids -> give_order c t w k m = (m', None) -> J_res c ids m'.
Proof.
  intros HJ Hw E. pose proof HJ as (T&I&X&H). apply give_order_spec in E as (E8&E9&_&E1&E0&E2&_&E3); auto.
  destruct (E3 eq_refl) as (r0&k'&G&Hk&C1&C2&Ht&Tc&Hh1&Hh2&_&HR&_).
  split; auto. split; [congruence|]. split; [congruence|].
  assert (Hid : w_id r0 = w) by (eapply wget_same; eauto; congruence).
  intros rm j v Hrm Hh. destruct (m_res m) as [rm0|] eqn:Em; [|congruence].
  destruct HR as (rm'&team&_&HA&Er). rewrite Er in Hrm. injection Hrm as <-.
  assert (Hnew : exists r, In r (m_W m') /\ w_id r = w /\ (w_active r <> 0 \/ w_persis r <> 0)).
  { exists (given t k r0). split; [apply Tc; auto|]. split; [auto|]. left. cbn. destruct Ht as [->|[-> | ->]]; discriminate. }
  destruct (assign_holder _ _ _ _ _ _ HA Hh) as [Hh'|Hv]; [clear Hh; rename Hh' into Hh|subst v; exact Hnew].
  destruct (Nat.eq_dec v w) as [->|Hne]; [exact Hnew|].
  destruct (H _ _ _ eq_refl Hh) as (r&R1&R2&R3). exists r. split; auto. apply Tc. right. split; auto. congruence.
Qed.

Lemma stop_res c t w m m' : table_ok c m -> stop_persistent c t w m = (m', None) ->
  forall rm i v, m_res m' = Some rm -> holder rm i = Some v -> v = w \/ exists rm0, m_res m = Some rm0 /\ holder rm0 i = Some v.
Proof.
  intros T. unfold stop_persistent. match goal with |- bindx ?X _ = _ -> _ => destruct X as [m1 [e1|]] eqn:EX end; cbn [bindx]; [discriminate|].
  intros [= <-] rm i v. cbn [m_res set_pending]. autorewrite with ow. intros Hrm Hh. destruct (c_final_send c).
  - destruct (m_persis_in m) as [fs|]; [|discriminate].
    set (rows := uninformed (h_rows (m_h m))) in *. set (k := mkWork _ _ _ _ _ _ _ _ _ _) in *.
    destruct (check_work_order c true w k m) as [e0|] eqn:EC; [discriminate|]. apply check_spec in EC as (r0&G&_).
    destruct (send_work_order c t w k m) as [m2 [e2|]] eqn:ES; cbn [bindx] in EX; [discriminate|].
    apply liftx_keep in EX as (_&_&_&_&L5&_). eapply send_work_order_spec in ES; eauto.
    destruct ES as (_&_&_&_&_&_&_&ES). destruct (ES eq_refl) as (_&_&k'&_&_&HR&_).
    destruct (m_res m) as [rm0|]; [|congruence]. destruct HR as (rm'&team&_&HA&Er).
    rewrite L5, Er in Hrm. injection Hrm as <-. eapply assign_holder in HA as [HA|HA]; eauto.
  - apply send_spec in EX as [[E1 ->]|[E1 (r&E2&E3&->)]]; [discriminate|]. right. cbn in Hrm. eauto.
Qed.

Lemma J_res_stop c ids t w m m' : J_res c ids m -> (exists r, In r (m_W m) /\ w_id r = w /\ w_persis r <> 0) ->
  stop_persistent c t w m = (m', None) -> J_res c ids m'.
Proof.
  intros HJ (rw&W1&W2&W3) E. pose proof HJ as (T&I&X&H). pose proof (stop_res _ _ _ _ _ T E) as HS.
  apply stop_persistent_spec in E as (T'&I'&EX&_&_&E); auto.
  destruct (E eq_refl) as (_&r0&r1&Tc&R1&_). split; auto. split; [congruence|]. split; [congruence|].
  assert (r0 = rw). { destruct Tc as (Tc&_). rewrite <- W2 in Tc. rewrite (wget_in c m) in Tc; auto. congruence. } subst rw.
  assert (Hnew : exists r, In r (m_W m') /\ w_id r = w /\ (w_active r <> 0 \/ w_persis r <> 0)).
  { exists r1. split; [apply Tc; auto|]. split; [rewrite <- W2; apply Tc|]. right. congruence. }
  intros rm j v Hrm Hh. destruct (Nat.eq_dec v w) as [->|Hne]; [exact Hnew|].
  destruct (HS _ _ _ Hrm Hh) as [->|(rm0&H1&H2)]; [exact Hnew|].
  destruct (H _ _ _ H1 H2) as (r&Q1&Q2&Q3). exists r. split; auto. apply Tc. right. split; auto. congruence.
Qed.

Lemma init_res c h n zeros gens rm pin : (forall r i, rm = Some r -> holder r i = None) ->
  J_res c (worker_ids c n) (init_manager c h n zeros gens rm pin).
Proof.
  intros H. split; [apply init_table|]. split; [apply init_F; exact nil|]. split; [reflexivity|]. cbn.
  intros r i w Hr Hh. rewrite (H r i Hr) in Hh. discriminate.
Qed.

(** ** The number of results *)

Definition J_cnt c (m : mgr) : Prop :=
  table_ok c m /\ m_exc m = false /\ h_ended (m_h m) = h_ended_off (m_h m) + results_in (c_ret_sim c) (m_log m).

Lemma results_app ret a b : results_in ret (a ++ b) = results_in ret a + results_in ret b.
Proof. induction a as [|e a IH]; auto. destruct e as [w o|w i]; cbn; auto. destruct i; auto. rewrite IH. lia. Qed.

Lemma results_0 ret l : (forall w a, ~ In (Got w (IData a)) l) -> results_in ret l = 0.
Proof.
  induction l as [|e l IH]; auto. intros H. assert (H' : forall w a, ~ In (Got w (IData a)) l) by (intros w a Hin; apply (H w a); now right).
  destruct e as [w o|w i]; cbn; auto. destruct i; auto. destruct (H w a). now left.
Qed.

Lemma J_cnt_keep c m m' l : J_cnt c m -> table_ok c m' -> m_exc m' = m_exc m ->
  h_ended (m_h m') = h_ended (m_h m) -> h_ended_off (m_h m') = h_ended_off (m_h m) ->
  m_log m' = m_log m ++ l -> (forall w a, ~ In (Got w (IData a)) l) -> J_cnt c m'.
Proof.
  intros (T&X&H) T' X' E1 E2 E3 N. split; auto. split; [congruence|]. rewrite E1, E2, E3, results_app, (results_0 _ l), Nat.add_0_r; auto.
Qed.

Lemma J_cnt_kill c m m' : J_cnt c m -> kill_cancelled c m = (m', None) -> J_cnt c m'.
Proof.
  intros HJ E. apply kill_cancelled_spec in E as ((E1&_&E2&_)&(l&E3&E4)&E5&_). rewrite Forall_forall in E4.
  pose proof (kill_frame (m_h m)) as F. cbn zeta in F.
  eapply J_cnt_keep; eauto.
  - unfold table_ok. rewrite E1. apply HJ.
  - destruct E5 as [-> | ->]; tauto.
  - destruct E5 as [-> | ->]; tauto.
  - intros w a Hin. apply E4 in Hin as (v&_&Hin). discriminate.
Qed.

Lemma J_cnt_poll c w i t m m' : J_cnt c m -> poll c (w, i, t) m = (m', None) -> J_cnt c m'.
Proof.
  intros HJ E. pose proof HJ as (T&X&H). pose proof (poll_table _ _ _ _ _ T E) as (T'&I').
  apply poll_spec in E as [(_&->&_)|(r0&Hin&Hid&E1&E2&E3&E4&E5)]; auto.
  destruct E4 as [(E4&E6&E7)|(E4&_)]; [|discriminate]. specialize (E5 eq_refl).
  split; auto. split; [congruence|]. rewrite E4, results_app.
  destruct i as [a| | |]; try (rewrite E3; cbn; lia).
  destruct E5 as (_&_&_&E8&E9&E10&E11). cbn [results_in]. unfold answered_rows. fold (fin_status a).
  assert (HF : forall ret, snd (update_history_f (n_rows a) ret (c_kill c) t (m_h m)) = None ->
     m_h m' = fst (update_history_f (n_rows a) ret (c_kill c) t (m_h m)) ->
     h_ended (m_h m') = h_ended (m_h m) + length (n_rows a) /\ h_ended_off (m_h m') = h_ended_off (m_h m)).
  { intros ret Hn ->. pose proof (hf_frame (n_rows a) ret (c_kill c) t (m_h m)) as F. cbn zeta in F. split; [now apply F|apply F]. }
  assert (HX : forall D gs, m_h m' = fst (update_history_x_in w D gs t (m_h m)) ->
     h_ended (m_h m') = h_ended (m_h m) /\ h_ended_off (m_h m') = h_ended_off (m_h m)).
  { intros D gs ->. pose proof (x_in_counts w D gs t (m_h m)) as F. cbn zeta in F. split; apply F. }
  destruct (fin_status a) eqn:EF.
  - specialize (E11 eq_refl). unfold fin_hist in E11. destruct (n_out a) as [|D|]; try (injection E11 as E11; rewrite <- E11; cbn; lia).
    destruct ((n_status a =? FIN_PERSIS_GEN) && c_ret_gen c) eqn:EG.
    + destruct (HX D (w_gstart r0)) as (F1&F2); [now rewrite E11|]. rewrite F1, F2.
      apply andb_true_iff in EG as [EG _]. apply Nat.eqb_eq in EG. rewrite EG. cbn. lia.
    + destruct ((n_status a =? FIN_PERSIS_SIM) && c_ret_sim c) eqn:EG2.
      * destruct (HF (Some D)) as (F1&F2); try (now rewrite E11). lia.
      * injection E11 as E11. rewrite <- E11. lia.
  - destruct (Nat.eqb_spec (n_type a) EVAL_SIM) as [et|nt].
    + destruct (E8 eq_refl et) as [(_&Hx&_)|(_&H1&H2)]; [congruence|]. destruct (HF _ H2 H1). lia.
    + destruct (Nat.eq_dec (n_type a) EVAL_GEN) as [eg|ng].
      * destruct (E9 eq_refl eg) as (D&_&H1&_). destruct (HX _ _ H1). lia.
      * rewrite E10; auto. cbn. lia.
Qed.

Lemma J_cnt_give c t w k m m' : J_cnt c m -> give_order c t w k m = (m', None) -> J_cnt c m'.
Proof.
  intros HJ E. apply give_log in E as (r0&k'&l&G&Hk&Tc&Ht&EX&_&EL&EO&EH&EN); [|apply HJ].
  assert (F : h_ended (m_h m') = h_ended (m_h m) /\ h_ended_off (m_h m') = h_ended_off (m_h m)).
  { rewrite EH. unfold hist_given. destruct (k_tag k =? EVAL_SIM).
    - pose proof (x_out_frame (k_rows k) w (c_kill c) t (m_h m)) as F. cbn zeta in F. tauto.
    - destruct (k_tag k =? EVAL_GEN); [|auto]. pose proof (to_gen_frame (k_rows k) t (m_h m)) as F. cbn zeta in F. tauto. }
  destruct F as [F1 F2]. eapply J_cnt_keep; eauto.
  - eapply touch_table; eauto. apply HJ.
  - intros v a Hin. destruct EO as [->|(d&->)]; cbn in Hin; intuition discriminate.
Qed.

Lemma init_cnt c outs H0 safe n zeros gens rm pin : J_cnt c (init_manager c (fresh_history c outs H0 safe) n zeros gens rm pin).
Proof.
  split; [apply init_table|]. split; [reflexivity|]. cbn [m_h m_log init_manager results_in].
  unfold fresh_history. destruct (init_counts (match c_sim_max c with Some n => n | None => 100 end) outs H0 safe) as (_&_&_&_&_&E&_).
  rewrite E. lia.
Qed.

Lemma cnt_main c its m m' s : J_cnt c m -> main_loop c its m = (m', s) -> (forall e, s <> CExc e) -> J_cnt c m'.
Proof.
  intros HJ E Hs. eapply (main_ok c (J_cnt c) (fun _ _ => True) (fun _ _ => True)); try exact HJ; try exact E; try exact Hs.
  - intros; eapply J_cnt_kill; eauto.
  - intros; eapply J_cnt_poll; eauto.
  - intros ed a Ha. cbn zeta. intros _. exact Ha.
  - intros; eapply J_cnt_give; eauto.
  - red; auto.
  - red; auto.
Qed.

(** ** The stop test *)

Lemma sc_le_spec a b : sc_le a b = true <-> at_most a b.
Proof.
  split.
  - destruct a, b; cbn; try discriminate; try constructor. apply Z.leb_le. auto.
  - intros H. destruct H; cbn; auto. now apply Z.leb_le.
Qed.
Lemma in_cell_spec s v : In s (entries v) <-> in_cell s v.
Proof.
  unfold in_cell. destruct v as [x|l]; cbn; split.
  - intros [->|[]]. auto.
  - intros [[= ->]|(l&[=]&_)]. auto.
  - intros H. right. eauto.
  - intros [[=]|(l'&[= <-]&H)]. auto.
Qed.

Lemma stop_hit_spec c h key v b : c_stop c = Some (key, v) -> stop_val_hit h key v = Ok b -> (b = true <-> stop_reached c h).
Proof.
  intros Hc. unfold stop_val_hit. destruct (has _ _); [|discriminate]. intros [= <-]. rewrite existsb_exists. split.
  - intros (s&Hs&Hle). apply filter_In in Hs as [Hs _]. apply in_flat_map in Hs as (r&Hr&Hs).
    apply filter_In in Hr as [Hr Hf]. apply In_nth_error in Hr as (k&Hk).
    exists key, v, k, (r key), s. split; auto. split.
    { exists (r F_sim_ended). unfold cell. rewrite Hk. auto. }
    split; [unfold cell; now rewrite Hk|]. split; [now apply in_cell_spec|now apply sc_le_spec].
  - intros (key'&v'&k&x&s&E&(u&Hu&Ht)&Hx&Hs&Hle). rewrite Hc in E. injection E as <- <-.
    unfold cell in *. destruct (nth_error (h_rows h) k) as [r|] eqn:Er; [|discriminate]. cbn in Hu, Hx. injection Hu as <-. injection Hx as <-.
    exists s. split; [|now apply sc_le_spec]. apply filter_In. split.
    + apply in_flat_map. exists r. split; [|now apply in_cell_spec]. apply filter_In. split; auto. now apply nth_error_In in Er.
    + destruct Hle; auto.
Qed.

Lemma term_spec c el m :
  (forall key v, c_stop c = Some (key, v) -> column (m_h m) key) ->
  (wall_passed c el -> term_test c el m = Ok 2) /\
  (~ wall_passed c el -> (sim_max_reached c (m_h m) \/ gen_max_reached c (m_h m) \/ stop_reached c (m_h m)) -> term_test c el m = Ok 1) /\
  (~ wall_passed c el -> ~ sim_max_reached c (m_h m) -> ~ gen_max_reached c (m_h m) -> ~ stop_reached c (m_h m) -> term_test c el m = Ok 0).
Proof.
  intros Hcol. unfold term_test.
  set (bw := match c_wall c with Some x => (x <=? el)%Z | None => false end).
  set (bs := match c_sim_max c with Some n => n + h_ended_off (m_h m) <=? h_ended (m_h m) | None => false end).
  set (bg := match c_gen_max c with Some n => n + h_informed_off (m_h m) <=? h_index (m_h m) | None => false end).
  assert (Hw : bw = true <-> wall_passed c el).
  { unfold bw, wall_passed. destruct (c_wall c) as [x|]; split.
    - intros H. exists x. split; auto. now apply Z.leb_le.
    - intros (y&[= <-]&H). now apply Z.leb_le.
    - discriminate.
    - intros (y&[=]&_). }
  assert (Hs : bs = true <-> sim_max_reached c (m_h m)).
  { unfold bs, sim_max_reached. destruct (c_sim_max c) as [x|]; split.
    - intros H. exists x. split; auto. now apply Nat.leb_le.
    - intros (y&[= <-]&H). now apply Nat.leb_le.
    - discriminate.
    - intros (y&[=]&_). }
  assert (Hg : bg = true <-> gen_max_reached c (m_h m)).
  { unfold bg, gen_max_reached. destruct (c_gen_max c) as [x|]; split.
    - intros H. exists x. split; auto. now apply Nat.leb_le.
    - intros (y&[= <-]&H). now apply Nat.leb_le.
    - discriminate.
    - intros (y&[=]&_). }
  assert (Hst : exists b : bool, match c_stop c with Some (key, v) => bindr (stop_val_hit (m_h m) key v) (fun b => Ok (if b then 1 else 0)) | None => Ok 0 end = Ok (if b then 1 else 0) /\
                  (b = true <-> stop_reached c (m_h m))).
  { destruct (c_stop c) as [[key v]|] eqn:Ec.
    - assert (exists b, stop_val_hit (m_h m) key v = Ok b) as (b&Eb).
      { unfold stop_val_hit. pose proof (Hcol key v eq_refl) as Hc. unfold column in Hc. apply has_In in Hc. rewrite Hc. eauto. }
      exists b. rewrite Eb. split; auto. eapply stop_hit_spec; eauto.
    - exists false. split; auto. split; [discriminate|]. intros (key&v&k&x&s&E&_). congruence. }
  destruct Hst as (b&Eb&Hb). rewrite Eb. clear Eb.
  destruct bw; [split; [auto|]; split; intros N; destruct N; now apply Hw|].
  split; [intros H; apply Hw in H; discriminate|].
  destruct bs; [split; auto; intros _ N; destruct N; now apply Hs|].
  destruct bg; [split; auto; intros _ _ N; destruct N; now apply Hg|].
  split.
  - intros _ [H|[H|H]]; [apply Hs in H; discriminate|apply Hg in H; discriminate|]. apply Hb in H. now rewrite H.
  - intros _ _ _ N. destruct b; auto. destruct N. now apply Hb.
Qed.

Lemma term_unknown c el m key v : c_stop c = Some (key, v) -> ~ column (m_h m) key ->
  ~ wall_passed c el -> ~ sim_max_reached c (m_h m) -> ~ gen_max_reached c (m_h m) -> term_test c el m = Err EValue.
Proof.
  intros Ec Hc Hw Hs Hg. unfold term_test.
  destruct (match c_wall c with Some _ => _ | None => _ end) eqn:E1.
  { destruct Hw. destruct (c_wall c) as [x|] eqn:E; [|discriminate]. exists x. split; auto. now apply Z.leb_le. }
  destruct (match c_sim_max c with Some _ => _ | None => _ end) eqn:E2.
  { destruct Hs. destruct (c_sim_max c) as [x|] eqn:E; [|discriminate]. exists x. split; auto. now apply Nat.leb_le. }
  destruct (match c_gen_max c with Some _ => _ | None => _ end) eqn:E3.
  { destruct Hg. destruct (c_gen_max c) as [x|] eqn:E; [|discriminate]. exists x. split; auto. now apply Nat.leb_le. }
  rewrite Ec. unfold stop_val_hit. apply has_false in Hc. now rewrite Hc.
Qed.

(** ** An error report ends the run *)

Lemma receive_exc c msgs : forall m m' e, table_ok c m -> m_exc m = true -> receive c msgs m = (m', e) -> m_exc m' = true.
Proof.
  unfold receive. induction msgs as [|[[w i] t] msgs IH]; intros m m' e T X; cbn [foldx].
  - intros [= <- <-]. auto.
  - destruct (poll c (w, i, t) m) as [m1 e1] eqn:E. pose proof (poll_table _ _ _ _ _ T E) as (T1&_).
    assert (X1 : m_exc m1 = true).
    { apply poll_spec in E as [(_&->&_)|(r0&_&_&_&_&_&[(_&E&_)|(_&E&_)]&_)]; auto; congruence. }
    destruct e1; cbn [bindx]; [intros [= <- <-]; auto|]. now apply IH.
Qed.

Lemma stop_all_exc c t m m' e : table_ok c m -> stop_all_persistent c t m = (m', e) -> table_ok c m' /\ m_exc m' = m_exc m.
Proof.
  intros T E. set (J := fun a => table_ok c a /\ m_exc a = m_exc m).
  eapply (stop_all_ind c J J) in E as [E _]; auto.
  - intros a Ha. apply Ha.
  - intros tt w a a' e' (Ha1&Ha2) _ H. assert (J a'); [|auto].
    apply stop_persistent_spec in H as (H1&_&H2&_); auto. split; auto. congruence.
  - split; auto.
Qed.

Lemma error_final c t rounds m m' f : table_ok c m -> m_exc m = true -> rounds <> [] ->
  final_phase c t rounds m = (m', f) -> f <> FWait.
Proof.
  intros T X Hr. unfold final_phase. destruct (stop_all_persistent c t m) as [m1 [e|]] eqn:E; [intros [= <- <-]; discriminate|].
  apply stop_all_exc in E as (T1&X1); auto. destruct rounds as [|[msgs el] rounds]; [congruence|]. cbn [final_loop].
  destruct (_ && _); [|intros [= <- <-]; discriminate].
  destruct (receive c msgs m1) as [m2 [e|]] eqn:ER; [intros [= <- <-]; discriminate|].
  apply receive_exc in ER; auto; [|congruence].
  destruct (term_test c el m2) as [r|e]; [|intros [= <- <-]; discriminate]. rewrite ER.
  destruct rounds as [|[ms l] rounds]; cbn [final_loop]; rewrite andb_false_r; intros [= <- <-]; discriminate.
Qed.

Lemma error_run c ids its t rounds m m0 s m' o w : F_ok c ids m -> main_loop c its m = (m0, s) ->
  In (Got w IErr) (m_log m0) -> rounds <> [] -> run c its t rounds m = (m', o) -> exists e, o = Raised e.
Proof.
  intros HF E1 Hin Hr E. apply run_cases in E as (m1&s1&E2&E). rewrite E1 in E2. injection E2 as <- <-.
  assert (A : F_inv c ids m0 /\ ((forall e, s <> CExc e) -> F_ok c ids m0)).
  { eapply (main_ind c (F_ok c ids) (F_inv c ids) (fun _ _ => True) (fun _ _ => True)) in E1; auto.
    - apply F_ok_inv.
    - intros a a' e Ha H. pose proof (F_ok_inv _ _ _ Ha) as Hb. eapply F_kill in H as [H1 H2]; eauto.
    - intros v i tt a a' e Ha _ H. pose proof (F_ok_inv _ _ _ Ha) as Hb. eapply F_poll in H as [H1 H2]; eauto.
    - intros ed a Ha. cbn zeta. split; [apply F_ok_inv|intros _]; exact Ha.
    - intros tt v k a a' e Ha _ _ H. pose proof (F_ok_inv _ _ _ Ha) as Hb. eapply F_give in H as [H1 H2]; eauto.
    - red; auto.
    - red; auto. }
  destruct A as [A1 A2].
  assert (N : ~ F_ok c ids m0). { intros (_&_&_&_&N). now apply (N w). }
  assert (X : m_exc m0 = true). { destruct A1 as (HT&HI&[H|(H&_)]); auto. destruct N. split; auto. }
  assert (Hs : exists e, s = CExc e). { destruct s as [| |e]; [destruct N; apply A2; discriminate|destruct N; apply A2; discriminate|eauto]. }
  destruct Hs as (e&->). destruct E as [(E&_)|(_&f&E&->)]; [discriminate|].
  apply error_final in E; auto; [|apply A1]. destruct f; [congruence|eauto|eauto].
Qed.
