(** The fields returned to the generator over a run. *)
From Verif Require Import Base BaseLemmas HistoryModel HistorySpec HistoryProofs RsetModel WorkModel ManagerModel ManagerSpec ManagerProofs ManagerMsg ManagerRun.

Definition own_b (c : mcfg) (a : answer) : bool :=
  c_generator c &&
  match n_out a with
  | UArr D => (0 <? length (a_rows D)) && has F_sim_id (names (a_dtype D))
  | _ => false
  end &&
  (if fin_status a then (n_status a =? FIN_PERSIS_GEN) && c_ret_gen c else n_type a =? EVAL_GEN).
Definition own_event (c : mcfg) (e : event) : bool := match e with Got _ (IData a) => own_b c a | _ => false end.
Definition with_id (p : option (list field)) : list field :=
  let l := match p with Some l => l | None => [] end in if has F_sim_id l then l else l ++ [F_sim_id].

Lemma with_id_twice p : with_id (Some (with_id p)) = with_id p.
Proof.
  unfold with_id at 1. assert (has F_sim_id (with_id p) = true) as ->; auto.
  apply has_In. unfold with_id. destruct (has F_sim_id _) eqn:E; [now apply has_In|]. apply in_or_app. cbn. auto.
Qed.

Lemma kill_workers_pin m : m_persis_in (kill_workers m) = m_persis_in m.
Proof. unfold kill_workers. generalize (m_W m). intros W. revert m. induction W as [|r W IH]; intros m; cbn; auto. now rewrite IH. Qed.
Lemma kill_cancelled_pin c m m' e : kill_cancelled c m = (m', e) -> m_persis_in m' = m_persis_in m.
Proof.
  unfold kill_cancelled. destruct (c_kill c); [|now intros [= <- <-]]. destruct (kill_pass (m_h m)) as [[h' e0] ws].
  assert (G : forall ws m m1 e1, foldx (fun z => send c (Z.to_nat z) (OStop SIG_KILL)) ws m = (m1, e1) -> m_persis_in m1 = m_persis_in m).
  { induction ws0 as [|z zs IH]; intros a b e1; cbn [foldx]; [now intros [= <- <-]|].
    destruct (send c (Z.to_nat z) (OStop SIG_KILL) a) as [a1 [e2|]] eqn:ES; cbn [bindx];
      apply send_spec in ES as [[ES1 ES2]|[ES1 (r&ES2&ES3&ES4)]]; try discriminate.
    - intros [= <- <-]. now subst.
    - intros H. apply IH in H. now subst a1. }
  destruct (foldx _ ws m) as [m1 [e1|]] eqn:EF; apply G in EF; cbn [bindx]; intros [= <- <-]; auto.
Qed.
Lemma stop_persistent_pin c t w m m' e : table_ok c m -> stop_persistent c t w m = (m', e) -> m_persis_in m' = m_persis_in m.
Proof.
  intros T. unfold stop_persistent. match goal with |- bindx ?X _ = _ -> _ => destruct X as [m1 e1] eqn:EX end.
  assert (A : m_persis_in m1 = m_persis_in m).
  { destruct (c_final_send c).
    - destruct (m_persis_in m) as [fs|] eqn:EP; [|injection EX as <- <-; auto].
      destruct (check_work_order c true w _ m) as [e0|] eqn:EC; [injection EX as <- <-; auto|].
      apply check_spec in EC as (r0 & G & _).
      destruct (send_work_order c t w _ m) as [m2 e2] eqn:ES. eapply send_work_order_spec in ES; eauto. destruct ES as (_&_&_&S4&_).
      destruct e2 as [e2|]; cbn [bindx] in EX; [injection EX as <- <-; congruence|].
      apply liftx_keep in EX as (_&_&_&_&_&_&_&L8). congruence.
    - apply send_spec in EX as [[E1 ->]|[E1 (r&E2&E3&->)]]; auto. }
  destruct e1; cbn [bindx]; intros [= <- <-]; auto. cbn. now autorewrite with ow.
Qed.

Lemma ensure_pin c D m : m_persis_in (ensure_sim_id c D m) =
  if c_generator c && ((0 <? length (a_rows D)) && has F_sim_id (names (a_dtype D))) then Some (with_id (m_persis_in m)) else m_persis_in m.
Proof.
  unfold ensure_sim_id. rewrite andb_assoc. destruct (_ && _ && _); auto.
Qed.

Lemma msg_pin c t w a m m' e : update_on_msg c t w a m = (m', e) ->
  m_persis_in m' = if own_b c a then Some (with_id (m_persis_in m)) else m_persis_in m.
Proof.
  unfold update_on_msg. set (m0 := deactivate c w a m).
  assert (P0 : m_persis_in m0 = m_persis_in m) by (unfold m0, deactivate; destruct (_ || _); autorewrite with ow; auto).
  rewrite <- P0. generalize m0. clear m0 P0. intros m0. unfold own_b, fin_status.
  destruct ((n_status a =? FIN_PERSIS_SIM) || (n_status a =? FIN_PERSIS_GEN)) eqn:EF.
  - unfold persis_finished.
    match goal with |- bindx ?X _ = _ -> _ => destruct X as [m1 e1] eqn:EX end.
    assert (A : m_persis_in m1 = if c_generator c && match n_out a with UArr D => (0 <? length (a_rows D)) && has F_sim_id (names (a_dtype D)) | _ => false end
        && ((n_status a =? FIN_PERSIS_GEN) && c_ret_gen c) then Some (with_id (m_persis_in m0)) else m_persis_in m0).
    { destruct (n_out a) as [|D|].
      - injection EX as <- <-. now rewrite andb_false_r.
      - destruct ((n_status a =? FIN_PERSIS_GEN) && c_ret_gen c).
        + apply liftx_keep in EX as (_&_&_&_&_&_&_&->). rewrite ensure_pin, andb_true_r. reflexivity.
        + rewrite andb_false_r. destruct (_ && _); [|now injection EX as <- <-].
          apply liftx_keep in EX as (_&_&_&_&_&_&_&->). reflexivity.
      - injection EX as <- <-. now rewrite andb_false_r. }
    destruct e1; cbn [bindx]; intros [= <- <-]; auto. rewrite <- A.
    match goal with |- m_persis_in (freeup w ?X) = _ => destruct (freeup_keep w X) as (_&_&_&_&_&->) end.
    clear A EX.
    assert (Z : m_persis_in (on_worker c w (set_persis 0) m1) = m_persis_in m1) by now autorewrite with ow.
    rewrite <- Z. generalize (on_worker c w (set_persis 0) m1). intros m2.
    repeat match goal with
      | |- context[if ?b then _ else _] => destruct b
      | |- context[match ?x with Some _ => _ | None => _ end] => destruct x
      end; cbn [m_persis_in set_pending]; autorewrite with ow; cbn [m_persis_in set_pending]; autorewrite with ow; auto.
  - destruct (n_type a =? EVAL_GEN) eqn:EG.
    + apply Nat.eqb_eq in EG. rewrite EG. cbn [Nat.eqb EVAL_GEN EVAL_SIM bindx]. rewrite andb_true_r.
      unfold gen_result. destruct (n_out a) as [|D|]; cbn [bindx].
      * intros [= <- <-]. now rewrite andb_false_r.
      * match goal with |- bindx (bindx ?X _) _ = _ -> _ => destruct X as [m1 e1] eqn:EX end.
        apply liftx_keep in EX as (_&_&_&_&_&_&_&EX). rewrite ensure_pin in EX.
        destruct e1; cbn [bindx]; [intros [= <- <-]; auto|].
        destruct (_ || _ || _); cbn [bindx]; intros [= <- <-]; auto.
        destruct (n_persistent a); [now autorewrite with ow|]. now destruct (freeup_keep w m1) as (_&_&_&_&_&->).
      * intros [= <- <-]. now rewrite andb_false_r.
    + rewrite andb_false_r. match goal with |- bindx ?X _ = _ -> _ => destruct X as [m1 e1] eqn:EX end.
      assert (A : m_persis_in m1 = m_persis_in m0).
      { destruct (n_type a =? EVAL_SIM); [|now injection EX as <- <-]. unfold sim_result in EX. destruct (n_out a).
        - apply liftx_keep in EX as (_&_&_&_&_&_&_&->). reflexivity.
        - apply liftx_keep in EX as (_&_&_&_&_&_&_&->). reflexivity.
        - destruct (m_exc m0); injection EX as <- <-; auto. now rewrite kill_workers_pin. }
      destruct e1; cbn [bindx]; intros [= <- <-]; auto.
      destruct (n_persistent a); [now autorewrite with ow|]. now destruct (freeup_keep w m1) as (_&_&_&_&_&->).
Qed.

Definition PinK c (p0 : option (list field)) (m : mgr) : Prop :=
  table_ok c m /\ m_persis_in m = if existsb (own_event c) (m_log m) then Some (with_id p0) else p0.

Lemma pin_step c p0 m m' l : PinK c p0 m -> table_ok c m' -> m_persis_in m' = m_persis_in m -> m_log m' = m_log m ++ l ->
  (forall w i, ~ In (Got w i) l) -> PinK c p0 m'.
Proof.
  intros [T K] T' E EL N. split; auto. rewrite E, EL, existsb_app.
  assert (existsb (own_event c) l = false) as ->; [|now rewrite orb_false_r].
  destruct (existsb _ l) eqn:EX; auto. apply existsb_exists in EX as ([w o|w i]&H1&H2); [discriminate|]. now apply N in H1.
Qed.

Lemma pin_poll c p0 w i t m m' e : PinK c p0 m -> poll c (w, i, t) m = (m', e) -> PinK c p0 m'.
Proof.
  intros [T K] E. pose proof E as E0. apply poll_spec in E0 as [(_&->&_)|(r0&_&_&T'&_&_&EL&_)]; auto; [split; auto|].
  split; auto.
  assert (EG : existsb (own_event c) (m_log m') = existsb (own_event c) (m_log m) || own_event c (Got w i)).
  { destruct EL as [(->&_)|(_&_&_&->&_)]; rewrite existsb_app; cbn [existsb].
    - now rewrite orb_false_r.
    - assert (existsb (own_event c) (finishes (map w_id (m_W m))) = false) as ->; [|now rewrite orb_false_r].
      unfold finishes. induction (map w_id (m_W m)); auto. }
  rewrite EG. unfold poll in E. cbn [fst] in E. destruct (memb w (map w_id (m_W m))) eqn:EM.
  2:{ injection E as <- <-. exfalso. destruct EL as [(EL&_)|(_&_&_&EL&_)]; apply (f_equal (@length _)) in EL; rewrite app_length in EL; cbn in EL; lia. }
  unfold handle_msg in E. destruct i as [a| | |]; cbn [own_event] in *; rewrite ?orb_false_r.
  - apply msg_pin in E. rewrite E. cbn [m_persis_in logev]. rewrite K.
    destruct (existsb (own_event c) (m_log m)), (own_b c a); cbn; auto. now rewrite with_id_twice.
  - destruct (m_exc (on_worker c w (set_active 0) (logev m (Got w IErr)))).
    + injection E as <- <-. autorewrite with ow. exact K.
    + injection E as <- <-. rewrite kill_workers_pin. cbn [m_persis_in set_exc]. autorewrite with ow. exact K.
  - injection E as <- <-. exact K.
  - injection E as <- <-. exact K.
Qed.

Lemma pin_run c p0 its t rounds m m' o : PinK c p0 m -> run c its t rounds m = (m', o) -> PinK c p0 m'.
Proof.
  intros HK E. apply run_cases in E as (m1&s&E1&E2).
  assert (HP : forall w i tt a a' e, PinK c p0 a -> True -> poll c (w, i, tt) a = (a', e) -> PinK c p0 a' /\ (e = None -> PinK c p0 a')).
  { intros. assert (PinK c p0 a') by (eapply pin_poll; eauto). auto. }
  apply (main_ind c (PinK c p0) (PinK c p0) (fun _ _ => True) (fun _ _ => True)) in E1 as [A _]; auto.
  - destruct E2 as [(->&->&->)|(Hs&f&E2&->)]; auto.
    apply (final_ind c (PinK c p0) (PinK c p0) (fun _ _ => True)) in E2 as [E2 _]; auto.
    + intros a Ha. apply Ha.
    + intros tt w a a' e Ha _ H. assert (PinK c p0 a'); auto. pose proof H as H'. apply stop_persistent_pin in H'; [|apply Ha].
      apply stop_persistent_spec in H as (T'&_&_&_&(l&EL&EN)&_); [|apply Ha]. rewrite Forall_forall in EN.
      eapply pin_step; eauto. intros v i Hin. apply EN in Hin as (u&_&[Hin|[(k1&Hk&Hin)|(fs&d&Hin)]]); discriminate.
    + intros a Ha. pose proof (kill_workers_spec a) as (K1&K2&K3&_). eapply pin_step; eauto.
      * unfold table_ok. rewrite K3. apply Ha.
      * apply kill_workers_pin.
      * intros v i H. unfold finishes in H. apply in_map_iff in H as (u&Hu&_). discriminate.
    + red; auto.
  - intros a a' e Ha H. assert (PinK c p0 a'); auto. pose proof H as H'. apply kill_cancelled_pin in H'.
    apply kill_cancelled_spec in H as ((K1&_)&(l&K3&K4)&_). rewrite Forall_forall in K4. eapply pin_step; eauto.
    * unfold table_ok. rewrite K1. apply Ha.
    * intros v i Hi. apply K4 in Hi as (u&_&Hi). discriminate.
  - intros tt w k a a' e Ha _ _ H. assert (PinK c p0 a'); auto.
    apply give_order_spec in H as (_&_&P&T'&_&EL&_); [|apply Ha].
    destruct EL as [EL|(r0&k'&l&_&_&O&EL&_)].
    + eapply pin_step with (l := []); eauto. now rewrite app_nil_r.
    + eapply pin_step; eauto. intros v i. destruct O as [->|(d&->)]; cbn; intuition discriminate.
  - red; auto.
  - red; auto.
Qed.

(** The order of a final send carries the fields as they are then. *)
Lemma final_send_fields c t w m m' : table_ok c m -> c_final_send c = true -> stop_persistent c t w m = (m', None) ->
  exists l, m_log m' = m_log m ++ l /\ forall v k, In (Sent v (OWork k)) l -> m_persis_in m = Some (k_fields k).
Proof.
  intros T HF. unfold stop_persistent. rewrite HF. destruct (m_persis_in m) as [fs|] eqn:EP; [|discriminate].
  destruct (check_work_order c true w _ m) as [e0|] eqn:EC; [discriminate|]. apply check_spec in EC as (r0 & G & _).
  destruct (send_work_order c t w _ m) as [m2 e2] eqn:ES. eapply send_work_order_spec in ES; eauto. destruct ES as (_&_&_&_&_&_&_&S8).
  destruct e2 as [e2|]; cbn [bindx]; [discriminate|]. destruct (S8 eq_refl) as (_&_&k'&A&_&_&S6&S7). apply as_sent_same in A as (_&A&_). cbn [k_fields k_rows] in *.
  destruct (liftx m2 _) as [m3 [e3|]] eqn:EL; cbn [bindx]; [discriminate|]. intros [= <-]. cbn [m_log set_pending]. autorewrite with ow.
  apply liftx_keep in EL as (_&_&_&EL&_). rewrite EL. destruct (uninformed (h_rows (m_h m))).
  - eexists. split; [apply S6; reflexivity|]. intros v k [[= <- <-]|[]]. congruence.
  - destruct S7 as (_&d&_&S7); [discriminate|]. eexists. split; [exact S7|]. intros v k [[= <- <-]|[H|[]]]; [congruence|discriminate].
Qed.
Lemma final_sends c t ws : c_final_send c = true -> forall m m', table_ok c m -> foldx (stop_persistent c t) ws m = (m', None) ->
  exists l, m_log m' = m_log m ++ l /\ forall v k, In (Sent v (OWork k)) l -> m_persis_in m = Some (k_fields k).
Proof.
  intros HF. induction ws as [|w ws IH]; intros m m' T; cbn [foldx].
  - intros [= <-]. exists []. rewrite app_nil_r. split; auto. intros ? ? [].
  - destruct (stop_persistent c t w m) as [m1 [e|]] eqn:E; cbn [bindx]; [discriminate|]. intros H.
    pose proof (stop_persistent_pin _ _ _ _ _ _ T E) as P. pose proof (stop_persistent_spec _ _ _ _ _ _ T E) as (T1&_).
    apply final_send_fields in E as (l1&L1&F1); auto. apply IH in H as (l2&L2&F2); auto.
    exists (l1 ++ l2). rewrite L2, L1, app_assoc. split; auto. intros v k Hin. apply in_app_iff in Hin as [Hin|Hin]; eauto.
    rewrite <- P. eauto.
Qed.
Lemma pin_main c p0 its m m' s : PinK c p0 m -> main_loop c its m = (m', s) -> PinK c p0 m'.
Proof.
  intros HK E.
  assert (HP : forall w i tt a a' e, PinK c p0 a -> True -> poll c (w, i, tt) a = (a', e) -> PinK c p0 a' /\ (e = None -> PinK c p0 a')).
  { intros. assert (PinK c p0 a') by (eapply pin_poll; eauto). auto. }
  apply (main_ind c (PinK c p0) (PinK c p0) (fun _ _ => True) (fun _ _ => True)) in E as [A _]; auto.
  - intros a a' e Ha H. assert (PinK c p0 a'); auto. pose proof H as H'. apply kill_cancelled_pin in H'.
    apply kill_cancelled_spec in H as ((K1&_)&(l&K3&K4)&_). rewrite Forall_forall in K4. eapply pin_step; eauto.
    * unfold table_ok. rewrite K1. apply Ha.
    * intros v i Hi. apply K4 in Hi as (u&_&Hi). discriminate.
  - intros tt w k a a' e Ha _ _ H. assert (PinK c p0 a'); auto.
    apply give_order_spec in H as (_&_&P&T'&_&EL&_); [|apply Ha].
    destruct EL as [EL|(r0&k'&l&_&_&O&EL&_)].
    + eapply pin_step with (l := []); eauto. now rewrite app_nil_r.
    + eapply pin_step; eauto. intros v i. destruct O as [->|(d&->)]; cbn; intuition discriminate.
  - red; auto.
  - red; auto.
Qed.
