(** Induction over manager runs. *)
From Verif Require Import Base BaseLemmas HistoryModel HistorySpec HistoryProofs HistoryInv HistoryInv2 HistoryRun RsetModel WorkModel ManagerModel ManagerSpec ManagerProofs ManagerMsg.

Section Main.
Variables (c : mcfg) (J L : mgr -> Prop) (P : nat -> work -> Prop) (M : nat -> imsg -> Prop).
Hypothesis HL : forall m, J m -> L m.
Hypothesis Hkill : forall m m' e, J m -> kill_cancelled c m = (m', e) -> L m' /\ (e = None -> J m').
Hypothesis Hpoll : forall w i t m m' e, J m -> M w i -> poll c (w, i, t) m = (m', e) -> L m' /\ (e = None -> J m').
Hypothesis Hedit : forall ed m, J m -> let m' := set_h m (alloc_edit ed (m_h m)) in
  L m' /\ ((h_safe (m_h m) = true -> all_same_protected (trim_H (m_h m)) (trim_H (m_h m')) = true) -> J m').
Hypothesis Hgive : forall t w k m m' e, J m -> P w k -> sim_max_given c m = false -> give_order c t w k m = (m', e) ->
  L m' /\ (e = None -> J m').

Lemma receive_ind msgs : (forall w i t, In (w, i, t) msgs -> M w i) -> forall m m' e, J m -> receive c msgs m = (m', e) -> L m' /\ (e = None -> J m').
Proof.
  unfold receive. induction msgs as [|[[w i] t] msgs IH]; intros HM m m' e HJ; cbn [foldx].
  - intros [= <- <-]. auto.
  - assert (M w i) by (eapply HM; left; reflexivity).
    destruct (poll c (w, i, t) m) as [m1 [e1|]] eqn:E; cbn [bindx].
    + intros [= <- <-]. apply Hpoll in E as [E _]; auto. split; [auto|discriminate].
    + apply IH. { intros; eapply HM; right; eauto. } apply Hpoll in E as [_ E]; auto.
Qed.

Lemma give_orders_ind ws : (forall w k t, In (w, k, t) ws -> P w k) ->
  forall m m' e, J m -> give_orders c ws m = (m', e) -> L m' /\ (e = None -> J m').
Proof.
  induction ws as [|[[w k] t] ws IH]; intros HP m m' e HJ; cbn [give_orders].
  - intros [= <- <-]. auto.
  - destruct (sim_max_given c m) eqn:Eg; [intros [= <- <-]; auto|].
    destruct (give_order c t w k m) as [m1 [e1|]] eqn:E; cbn [bindx].
    + intros [= <- <-]. apply Hgive in E as [E _]; eauto with datatypes. split; [auto|discriminate].
    + apply IH. { intros; eapply HP; right; eauto. } eapply Hgive in E; eauto with datatypes. now apply E.
Qed.

Lemma iterate_ind it m m' s : (forall w i t, In (w, i, t) (it_msgs it) -> M w i) -> (forall ws w k t, it_alloc it = AWork ws -> In (w, k, t) ws -> P w k) ->
  J m -> iterate c it m = (m', s) -> L m' /\ ((forall e, s <> CExc e) -> J m').
Proof.
  intros HM HP HJ. unfold iterate.
  destruct (term_test c (it_elapsed it) m) as [[|n]|e0].
  2,3: intros [= <- <-]; split; auto.
  destruct (kill_cancelled c m) as [m0 [e0|]] eqn:EK; cbn [bindx].
  { intros [= <- <-]. apply Hkill in EK as [EK _]; auto. split; [auto|]. intros H; destruct (H e0); auto. }
  apply Hkill in EK as [_ EK]; auto. specialize (EK eq_refl).
  destruct (receive c (it_msgs it) m0) as [m1 [e1|]] eqn:ER.
  { intros [= <- <-]. apply receive_ind in ER as [ER _]; auto. split; [auto|]. intros H; destruct (H e1); auto. }
  apply receive_ind in ER as [_ ER]; auto. specialize (ER eq_refl).
  unfold alloc_work. pose proof (Hedit (it_edit it) m1 ER) as HE. cbn zeta in HE.
  set (m2 := set_h m1 (alloc_edit (it_edit it) (m_h m1))) in *.
  destruct (it_alloc it) as [ea| |ws] eqn:EA.
  { intros [= <- <-]. split; [apply HE|]. intros H; destruct (H ea); auto. }
  { destruct (_ && _) eqn:ES; intros [= <- <-].
    - split; [apply HE|]. intros H; destruct (H EAssert); auto.
    - assert (J m2). { apply HE. intros E. rewrite E in ES. cbn in ES. now apply negb_false_iff. } auto. }
  destruct (_ && _) eqn:ES.
  { intros [= <- <-]. split; [apply HE|]. intros H; destruct (H EAssert); auto. }
  assert (J2 : J m2). { apply HE. intros E. rewrite E in ES. cbn in ES. now apply negb_false_iff. }
  destruct (give_orders c ws m2) as [m3 [e3|]] eqn:EG.
  { intros [= <- <-]. apply give_orders_ind in EG as [EG _]; eauto. split; [auto|]. intros H; destruct (H e3); auto. }
  apply give_orders_ind in EG as [LG EG]; eauto. specialize (EG eq_refl).
  destruct (term_test c (it_elapsed2 it) m3) as [[|n]|e4].
  - destruct (any_active m3); intros [= <- <-]; auto.
  - intros [= <- <-]; auto.
  - intros [= <- <-]; auto.
Qed.

Lemma main_ind its : msgs_ok M its -> orders_ok P its -> forall m m' s, J m -> main_loop c its m = (m', s) ->
  L m' /\ ((forall e, s <> CExc e) -> J m').
Proof.
  induction its as [|it its IH]; intros HM HP m m' s HJ; cbn [main_loop].
  - intros [= <- <-]. auto.
  - destruct (iterate c it m) as [m1 s1] eqn:E.
    apply iterate_ind in E as [E1 E2]; auto.
    2:{ intros w i t Hin. eapply HM; [left; reflexivity|eauto]. }
    2:{ intros ws w k t Ha Hin. eapply HP; [left; reflexivity|eauto|eauto]. }
    destruct s1 as [| |e].
    + apply IH; [| |apply E2; discriminate]. { intros it' w i t Hin. apply (HM it'). now right. } intros it' ws w k t Hin. apply (HP it'). now right.
    + intros [= <- <-]. split; auto.
    + intros [= <- <-]. split; auto.
Qed.
End Main.

(** ** Facts shared by all invariants *)

Lemma send_spec c w o m m' e : send c w o m = (m', e) ->
  (e = Some EIndex /\ m' = m) \/ (e = None /\ exists r, In r (m_W m) /\ wget (c_gom c) (m_W m) w = Some r /\ m' = logev m (Sent (w_id r) o)).
Proof.
  unfold send. destruct (wget _ _ _) as [r|] eqn:G; intros [= <- <-]; [right|left; auto].
  split; auto. exists r. split; [|auto]. eapply wget_In; eauto.
Qed.

Definition same_but_h_log (m m' : mgr) : Prop :=
  m_W m' = m_W m /\ m_res m' = m_res m /\ m_exc m' = m_exc m /\ m_pending m' = m_pending m.

Lemma kill_cancelled_spec c m m' e : kill_cancelled c m = (m', e) ->
  same_but_h_log m m' /\ ext (fun e => exists w, In w (map w_id (m_W m)) /\ e = Sent w (OStop SIG_KILL)) m m' /\
  (m_h m' = m_h m \/ m_h m' = fst (fst (kill_pass (m_h m)))) /\
  (e = None -> m_h m' = m_h m \/ (m_h m' = fst (fst (kill_pass (m_h m))) /\ snd (fst (kill_pass (m_h m))) = None)).
Proof.
  unfold kill_cancelled. destruct (c_kill c).
  2:{ intros [= <- <-]. repeat split; auto. now apply ext_refl. }
  destruct (kill_pass (m_h m)) as [[h' e0] ws] eqn:EK. cbn [fst snd].
  assert (G : forall ws m m1 e1, foldx (fun z => send c (Z.to_nat z) (OStop SIG_KILL)) ws m = (m1, e1) ->
     same_but_h_log m m1 /\ m_h m1 = m_h m /\ ext (fun e => exists w, In w (map w_id (m_W m)) /\ e = Sent w (OStop SIG_KILL)) m m1).
  { induction ws0 as [|z zs IH]; intros a b e1; cbn [foldx].
    - intros [= <- <-]. repeat split; auto. now apply ext_refl.
    - destruct (send c (Z.to_nat z) (OStop SIG_KILL) a) as [a1 [e2|]] eqn:ES; cbn [bindx];
        apply send_spec in ES as [[ES1 ES2]|[ES1 (r&ES2&ES3&ES4)]]; try discriminate.
      + intros [= <- <-]. subst. repeat split; auto. now apply ext_refl.
      + intros H. apply IH in H as ((I1&I2&I3&I4)&I5&I6). subst a1. cbn [m_W m_res m_exc m_pending m_h logev] in *.
        repeat split; auto. eapply ext_trans; [|exact I6]. eapply ext_snoc; [reflexivity|].
        exists (w_id r). split; auto. now apply in_map. }
  destruct (foldx _ ws m) as [m1 e1] eqn:EF. apply G in EF as ((G1&G2&G3&G4)&G5&G6).
  destruct e1 as [e1|]; cbn [bindx]; intros [= <- <-].
  - split; [repeat split; auto|]. split; [auto|]. split; [auto|discriminate].
  - split; [repeat split; auto|]. split; [exact G6|]. cbn [m_h set_h]. split; auto.
Qed.

Lemma stop_persistent_spec c t w m m' e : table_ok c m -> stop_persistent c t w m = (m', e) ->
  table_ok c m' /\ map w_id (m_W m') = map w_id (m_W m) /\ m_exc m' = m_exc m /\
  (m_h m' = m_h m \/ exists rows, m_h m' = fst (update_history_to_gen rows t (m_h m))) /\
  ext (fun x => exists v, In v (map w_id (m_W m)) /\
         (x = Sent v (OPStop SIG_KILL) \/ (exists k, k_tag k = PERSIS_STOP /\ x = Sent v (OWork k)) \/
          exists fs d, x = Sent v (ORows fs d))) m m' /\
  (e = None -> m_pending m' = m_pending m ++ [w] /\
     exists r0 r1, touch c w r0 r1 m m' /\ w_persis r1 = w_persis r0 /\ w_recv r1 = w_recv r0 /\ w_gstart r1 = w_gstart r0 /\
       w_active r1 = (if w_active r0 =? 0 then w_persis r0 else w_active r0) /\
       exists l, m_log m' = m_log m ++ l /\
         (exists x l', l = Sent (w_id r0) x :: l' /\
            (x = OPStop SIG_KILL /\ l' = [] \/
             exists k, x = OWork k /\ k_tag k = PERSIS_STOP /\ (l' = [] \/ exists fs d, l' = [Sent (w_id r0) (ORows fs d)])))).
Proof.
  intros T. unfold stop_persistent.
  match goal with |- bindx ?X _ = _ -> _ => destruct X as [m1 e1] eqn:EX end.
  set (Pe := fun x => exists v, In v (map w_id (m_W m)) /\
         (x = Sent v (OPStop SIG_KILL) \/ (exists k, k_tag k = PERSIS_STOP /\ x = Sent v (OWork k)) \/
          exists fs d, x = Sent v (ORows fs d))).
  assert (A : table_ok c m1 /\ map w_id (m_W m1) = map w_id (m_W m) /\ m_exc m1 = m_exc m /\ m_pending m1 = m_pending m /\
     (m_h m1 = m_h m \/ exists rows, m_h m1 = fst (update_history_to_gen rows t (m_h m))) /\ ext Pe m m1 /\
     (e1 = None -> exists r0, touch c w r0 r0 m m1 /\ exists l, m_log m1 = m_log m ++ l /\
         (exists x l', l = Sent (w_id r0) x :: l' /\
            (x = OPStop SIG_KILL /\ l' = [] \/
             exists k, x = OWork k /\ k_tag k = PERSIS_STOP /\ (l' = [] \/ exists fs d, l' = [Sent (w_id r0) (ORows fs d)]))))).
  { destruct (c_final_send c).
    - destruct (m_persis_in m) as [fs|].
      2:{ injection EX as <- <-. cj. split; [now apply ext_refl|discriminate]. }
      set (rows := uninformed (h_rows (m_h m))) in *.
      set (k := mkWork PERSIS_STOP fs rows true None None None None None None) in *.
      destruct (check_work_order c true w k m) as [e0|] eqn:EC.
      { injection EX as <- <-. cj. split; [now apply ext_refl|discriminate]. }
      apply check_spec in EC as (r0 & G & C1 & C2 & C3).
      destruct (send_work_order c t w k m) as [m2 e2] eqn:ES.
      eapply send_work_order_spec in ES; eauto. destruct ES as (S1&S2&S3&S4&S5&S6&S7&S8).
      assert (X : ext Pe m m2).
      { destruct S7 as [S7|(l&k'&S71&S72&S73)]; [now apply ext_refl|].
        exists l. split; auto. apply as_sent_same in S72 as (U1&_).
        assert (Hi : In (w_id r0) (map w_id (m_W m))) by (apply in_map; eapply wget_In; eauto).
        destruct S73 as [->|(d&->)]; repeat constructor; exists (w_id r0); split; auto.
        - right; left; exists k'; rewrite U1; auto.
        - right; left; exists k'; rewrite U1; auto.
        - right; right; eauto. }
      destruct e2 as [e2|]; cbn [bindx] in EX.
      { injection EX as <- <-. cj. discriminate. }
      apply liftx_keep in EX as (L1&L2&L3&L4&L5&L6&L7&L8).
      split; [unfold table_ok in *; now rewrite L3|]. split; [congruence|]. split; [congruence|]. split; [congruence|].
      rewrite S1 in L1. split; [right; eauto|]. split; [destruct X as (l&X1&X2); exists l; split; congruence|].
      intros _. destruct (S8 eq_refl) as (V1&V2&k'&V3&V4&V5&V6&V7). exists r0.
      assert (V1' : touch c w r0 r0 m m1).
      { eapply touch_trans; [exact V1|]. cbn [k_tag k]. cbn. apply touch_same; auto. apply V1. }
      split; [exact V1'|]. apply as_sent_same in V3 as (U1&_). rewrite L4.
      destruct rows as [|i rows0] eqn:ER.
      + eexists. split; [apply V6; reflexivity|]. exists (OWork k'), []. split; auto. right. exists k'. rewrite U1. auto.
      + destruct V7 as (V7&d&V8&V9); [discriminate|]. eexists. split; [exact V9|].
        exists (OWork k'), [Sent (w_id r0) (ORows (k_fields k) d)]. split; auto. right. exists k'. rewrite U1. cj. right. eauto.
    - apply send_spec in EX as [[E1 ->]|[E1 (r&E2&E3&->)]].
      + cj. split; [now apply ext_refl|congruence].
      + cbn [m_h m_W m_exc m_pending logev]. cj.
        split. { eapply ext_snoc; [reflexivity|]. exists (w_id r). split; [now apply in_map|auto]. }
        intros _. exists r. split; [now apply touch_same|]. eexists. split; [reflexivity|].
        exists (OPStop SIG_KILL), []. auto. }
  destruct A as (A1&A2&A3&A4&A5&A6&A7).
  destruct e1 as [e1|]; cbn [bindx].
  { intros [= <- <-]. cj. discriminate. }
  destruct (A7 eq_refl) as (r0&B1&l&B2&B3).
  set (f := fun r => if w_active r =? 0 then set_active (w_persis r) r else r).
  assert (Hf : forall r, w_id (f r) = w_id r) by (intros r; unfold f; now destruct (_ =? _)).
  assert (B4 : touch c w r0 (f r0) m (on_worker c w f m1)).
  { eapply touch_trans; [exact B1|]. apply on_worker_touch; auto. apply B1. }
  intros [= <- <-]. cbn [m_W m_h m_exc m_log m_pending set_pending].
  split; [eapply touch_table in B4; eauto|]. split; [apply B4|]. autorewrite with ow. split; [auto|]. split; [auto|].
  split. { destruct A6 as (l6&E6&F6). exists l6. cbn [m_log set_pending]. autorewrite with ow. auto. }
  intros _. split; [congruence|]. exists r0, (f r0). split; [exact B4|].
  unfold f. destruct (w_active r0 =? 0); cbn; cj; eauto.
Qed.

Section Final.
Variables (c : mcfg) (J L : mgr -> Prop) (M : nat -> imsg -> Prop).
Hypothesis HT : forall m, J m -> table_ok c m.
Hypothesis HL : forall m, J m -> L m.
Hypothesis Hpoll : forall w i t m m' e, J m -> M w i -> poll c (w, i, t) m = (m', e) -> L m' /\ (e = None -> J m').
Hypothesis Hstop : forall t w m m' e, J m -> (exists r, In r (m_W m) /\ w_id r = w /\ w_persis r <> 0) -> stop_persistent c t w m = (m', e) -> L m' /\ (e = None -> J m').
Hypothesis Hfinish : forall m, J m -> J (kill_workers m).

Lemma stop_all_ind t m m' e : J m -> stop_all_persistent c t m = (m', e) -> L m' /\ (e = None -> J m').
Proof.
  intros HJ. unfold stop_all_persistent.
  assert (HN : NoDup (map w_id (filter (fun r => negb (w_persis r =? 0)) (m_W m)))).
  { pose proof (table_nodup c m (HT m HJ)) as H. induction (m_W m) as [|r l IH]; cbn in *; [constructor|].
    inversion H as [|? ? H1 H2]; subst. destruct (negb (w_persis r =? 0)); cbn; auto. constructor; auto.
    intros Hin. apply H1. apply in_map_iff in Hin as (x&<-&Hx). apply filter_In in Hx as [Hx _]. now apply in_map. }
  assert (HP : forall w, In w (map w_id (filter (fun r => negb (w_persis r =? 0)) (m_W m))) ->
                 exists r, In r (m_W m) /\ w_id r = w /\ w_persis r <> 0).
  { intros w Hin. apply in_map_iff in Hin as (x&<-&Hx). apply filter_In in Hx as [Hx E]. exists x.
    split; auto. split; auto. intros E0. rewrite E0 in E. discriminate. }
  revert HN HP HJ. generalize (map w_id (filter (fun r => negb (w_persis r =? 0)) (m_W m))). intros ws.
  revert m; induction ws as [|w ws IH]; intros m HN HP HJ; cbn [foldx].
  - intros [= <- <-]. auto.
  - destruct (stop_persistent c t w m) as [m1 [e1|]] eqn:E; cbn [bindx].
    + intros [= <- <-]. apply Hstop in E as [E _]; auto with datatypes. split; [auto|discriminate].
    + inversion HN as [|? ? HN1 HN2]; subst. apply IH; auto.
      2:{ eapply Hstop in E; eauto with datatypes. now apply E. }
      pose proof E as E'. apply stop_persistent_spec in E' as (_&_&_&_&_&E'); auto.
      destruct (E' eq_refl) as (_&r0&r1&T&T1&_). clear E'.
      destruct (HP w (or_introl eq_refl)) as (rw&W1&W2&W3).
      assert (r0 = rw). { destruct T as (T&_). rewrite <- W2 in T. rewrite (wget_in c m) in T; auto. congruence. }
      subst rw. intros v Hv. destruct (HP v (or_intror Hv)) as (r&R1&R2&R3). exists r. split; auto.
      apply T. right. split; auto. intros E0. apply HN1. congruence.
Qed.

Lemma final_loop_ind rounds : rounds_ok M rounds -> forall flag m m' s, J m -> final_loop c rounds flag m = (m', s) ->
  L m' /\ ((forall e, s <> FExc e) -> J m').
Proof.
  induction rounds as [|[msgs el] rounds IH]; intros HM flag m m' s HJ; cbn [final_loop].
  - destruct (_ && _); intros [= <- <-]; auto.
  - destruct (_ && _); [|intros [= <- <-]; auto].
    assert (HM1 : forall w i t, In (w, i, t) msgs -> M w i) by (intros; eapply HM; [left; reflexivity|eauto]).
    assert (HM2 : rounds_ok M rounds) by (intros ? ? ? ? ? Hin; eapply HM; right; exact Hin).
    destruct (receive c msgs m) as [m1 [e1|]] eqn:ER.
    + intros [= <- <-]. apply (receive_ind c J L M HL Hpoll) in ER as [ER _]; auto. split; [auto|]. intros H; destruct (H e1); auto.
    + apply (receive_ind c J L M HL Hpoll) in ER as [_ ER]; auto. specialize (ER eq_refl).
      destruct (term_test c el m1) as [r|e2].
      * apply IH; auto.
      * intros [= <- <-]. split; auto.
Qed.

Lemma final_ind t rounds m m' s : rounds_ok M rounds -> J m -> final_phase c t rounds m = (m', s) ->
  L m' /\ ((forall e, s <> FExc e) -> J m').
Proof.
  intros HM HJ. unfold final_phase. destruct (stop_all_persistent c t m) as [m1 [e1|]] eqn:E.
  { intros [= <- <-]. apply stop_all_ind in E as [E _]; auto. split; [auto|]. intros H; destruct (H e1); auto. }
  apply stop_all_ind in E as [_ E]; auto. specialize (E eq_refl).
  destruct (final_loop c rounds 0 m1) as [m2 s2] eqn:EF. apply final_loop_ind in EF as [F1 F2]; auto.
  destruct s2; intros [= <- <-]; auto.
  - assert (J (kill_workers m2)) by (apply Hfinish, F2; discriminate). auto.
Qed.
End Final.

(** A run: J holds of all states the main loop leaves without an exception, L of
    all its states; JF and LF play the same part for the final phase. *)
Lemma run_cases c its t rounds m m' o : run c its t rounds m = (m', o) ->
  exists m1 s, main_loop c its m = (m1, s) /\
    ((s = CGo /\ m' = m1 /\ o = Running) \/
     (s <> CGo /\ exists f, final_phase c t rounds m1 = (m', f) /\
        o = match f with FWait => Running | FExc e => Raised e
            | FDone g => match s with CExc e => Raised e | _ => Returned g end end)).
Proof.
  unfold run. destruct (main_loop c its m) as [m1 s] eqn:EM. intros H. exists m1, s. split; auto.
  destruct s as [| |e].
  - injection H as <- <-. auto.
  - right. split; [discriminate|]. destruct (final_phase c t rounds m1) as [m2 f]. exists f.
    destruct f; injection H as <- <-; auto.
  - right. split; [discriminate|]. destruct (final_phase c t rounds m1) as [m2 f]. exists f.
    destruct f; injection H as <- <-; auto.
Qed.

