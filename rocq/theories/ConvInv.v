(** The invariant of the ensemble with persistent functions, step by step. *)
From Verif Require Import Base BaseLemmas HistoryModel HistorySpec RsetModel WorkModel ManagerModel ManagerSpec ManagerProofs ManagerMsg ManagerRun ManagerInv
  CommsModel WorkerModel WorkerSpec WorkerProofs WorkerFrames SystemModel SystemSpec SystemProofs ConvModel ConvSpec ConvProofs.

Lemma replies_app w a b : replies_from w (a ++ b) = replies_from w a ++ replies_from w b.
Proof. apply flat_map_app. Qed.

Lemma sent_none w l : sent_to w l = [] -> orders_to w l = [].
Proof.
  intros Hs. induction l as [|e l IH]; [reflexivity|]. change (e :: l) with ([e] ++ l) in *. rewrite sent_to_app in Hs.
  apply app_eq_nil in Hs as (Hs1 & Hs2). rewrite orders_to_app, (IH Hs2), app_nil_r. cbn in *. rewrite app_nil_r in *.
  destruct e as [v [k|fs d|x|x]|v i]; try reflexivity. destruct (v =? w); [discriminate|reflexivity].
Qed.

Lemma flow_to_closing m l t : flow m l (MClosing t) -> exists t', m = MClosing t'.
Proof.
  intros H. remember (MClosing t) as m0 eqn:E. induction H as [m|m i m2 l m3 H1 H2 IH]; [eauto|].
  destruct (IH E) as (t' & ->). inversion H1; subst; eauto.
Qed.

Lemma memb_remove w v l : w <> v -> memb w (remove_one v l) = memb w l.
Proof.
  intros H. unfold memb. induction l as [|x l IH]; cbn; [reflexivity|]. destruct (x =? v) eqn:E; cbn; [|now rewrite IH].
  apply Nat.eqb_eq in E. subst x. now rewrite (proj2 (Nat.eqb_neq w v) H).
Qed.
Lemma In_remove w v l : In w (remove_one v l) -> In w l.
Proof. induction l as [|x l IH]; cbn; auto. destruct (x =? v); cbn; intuition. Qed.
Lemma NoDup_remove_one v l : NoDup l -> NoDup (remove_one v l) /\ ~ In v (remove_one v l).
Proof.
  induction 1 as [|x l H1 H2 IH]; cbn; [split; [constructor|auto]|]. destruct (x =? v) eqn:E.
  - apply Nat.eqb_eq in E. subst x. auto.
  - destruct IH as (I1 & I2). split; [constructor; auto; intros Hx; apply H1; now apply In_remove in Hx|].
    intros [->|Hx]; [now rewrite Nat.eqb_refl in E|auto].
Qed.
Lemma memb_In w l : memb w l = true <-> In w l.
Proof.
  unfold memb. rewrite existsb_exists. split; [intros (x & Hx & E); apply Nat.eqb_eq in E; now subst|intros H; exists w; now rewrite Nat.eqb_refl].
Qed.
Lemma memb_notin w l : ~ In w l -> memb w l = false.
Proof. intros H. destruct (memb w l) eqn:E; [|reflexivity]. now apply memb_In in E. Qed.

Lemma NoDup_end {A} (l : list A) x : NoDup l -> ~ In x l -> NoDup (l ++ [x]).
Proof.
  induction 1 as [|y l H1 H2 IH]; intros Hx; cbn; [constructor; auto; constructor|]. constructor.
  - intros Hy. apply in_app_or in Hy as [Hy|[<-|[]]]; [auto|]. apply Hx. now left.
  - apply IH. intros Hy. apply Hx. now right.
Qed.

Lemma stops_log c t ws : forall m m' e, foldx (stop_persistent c t) ws m = (m', e) -> table_ok c m -> exists l, m_log m' = m_log m ++ l.
Proof.
  induction ws as [|w ws IH]; intros m m' e E T; cbn [foldx] in E.
  - injection E as <- <-. exists []. now rewrite app_nil_r.
  - destruct (stop_persistent c t w m) as [m1 e1] eqn:E1.
    destruct (stop_persistent_spec _ _ _ _ _ _ T E1) as (T1 & _ & _ & _ & (l & El & _) & _). destruct e1 as [e1|]; cbn [bindx] in E.
    + injection E as <- <-. eauto.
    + destruct (IH _ _ _ E T1) as (l2 & El2). exists (l ++ l2). now rewrite El2, El, app_assoc.
Qed.

Lemma stops_marks c t ws : forall m m', foldx (stop_persistent c t) ws m = (m', None) -> table_ok c m ->
  m_pending m' = m_pending m ++ ws /\ forall r, In r (m_W m') -> exists r0, In r0 (m_W m) /\ w_id r = w_id r0 /\ w_persis r = w_persis r0.
Proof.
  induction ws as [|w ws IH]; intros m m' E T; cbn [foldx] in E.
  - injection E as <-. rewrite app_nil_r. split; [reflexivity|]. eauto.
  - destruct (stop_persistent c t w m) as [m1 [e1|]] eqn:E1; cbn [bindx] in E; [discriminate|].
    destruct (stop_persistent_spec _ _ _ _ _ _ T E1) as (T1 & _ & _ & _ & _ & G). destruct (G eq_refl) as (Gp & r0 & r1 & (T5 & T6 & T7 & T8 & T9) & Hp & _).
    destruct (IH _ _ E T1) as (I1 & I2). rewrite I1, Gp, <- app_assoc. split; [reflexivity|].
    intros r Hr. destruct (I2 r Hr) as (r2 & R1 & R2 & R3). apply T9 in R1 as [->|(R1 & _)]; [|eauto].
    exists r0. apply wget_In in T5. repeat split; congruence.
Qed.

Section Inv.
Variable U : Type.
Variable ustart : work -> list field -> list (list val) -> U.
Variable ustep : U -> uact U.
Variable kd : kind.
Variable c : mcfg.
Variables single owing ready ending : U -> Prop.
Hypothesis MN : manners ustart ustep single owing ready ending.
Hypothesis NK : c_kill c = false.
Hypothesis NF : c_final_send c = false.
Notation wstep := (WorkerModel.wstep ustart ustep kd).
Notation situated := (ConvSpec.situated single owing ready ending).
Notation moved := (ConvProofs.moved U single owing ready ending).

Definition good (late strict : bool) (m : mgr) (f : nat -> wst U) (r : wrow) : Prop :=
  w_recv r = false /\
  (reports_error (f (w_id r)) \/
   exists mo mo' owed p items extra,
     marked mo r (memb (w_id r) (m_pending m)) /\ flow mo (q_out (s_comm (f (w_id r)))) mo' /\
     situated late mo' (f (w_id r)) owed p /\
     sent_to (w_id r) (m_log m) = wires items /\ orders_in items = orders_reached (s_log (f (w_id r))) ++ p /\
     orders_to (w_id r) (m_log m) ++ extra = replies_from (w_id r) (m_log m) ++ outreplies (q_out (s_comm (f (w_id r)))) ++ owed /\
     (extra <> [] -> owed = [] /\ late = true) /\
     (strict = true -> forall t, mo <> MOwing t /\ mo <> MReady t)).

Definition is_late (ph : phase) : bool := match ph with Giving => false | _ => true end.

Definition J (late strict : bool) (y : sys U) : Prop :=
  table_ok c (y_m y) /\ m_exc (y_m y) = false /\ NoDup (m_pending (y_m y)) /\ (late = false -> m_pending (y_m y) = []) /\
  forall r, In r (m_W (y_m y)) -> good late strict (y_m y) (y_w y) r.

(** traffic that does not concern the worker *)
Lemma good_other late strict m m' l f f' r : good late strict m f r -> m_log m' = m_log m ++ l ->
  memb (w_id r) (m_pending m') = memb (w_id r) (m_pending m) ->
  sent_to (w_id r) l = [] -> replies_from (w_id r) l = [] -> f' (w_id r) = f (w_id r) -> good late strict m' f' r.
Proof.
  intros (H1 & [H|(mo & mo' & owed & p & items & extra & A1 & A2 & A3 & A4 & A5 & A6 & A7 & A10)]) El Ep Hs Ha Ef.
  - split; [exact H1|]. left. now rewrite Ef.
  - split; [exact H1|]. right. exists mo, mo', owed, p, items, extra.
    rewrite Ef, El, Ep, orders_to_app, replies_app, sent_to_app, (sent_none _ _ Hs), Hs, Ha, !app_nil_r. auto 9.
Qed.

Lemma reports_arrive l (s : wst U) : reports_error s -> reports_error (arrive_all l s).
Proof. exact (fun H => H). Qed.

(** Several lemmas need one row with a given id. *)
Lemma same_row m r r0 : table_ok c m -> In r (m_W m) -> In r0 (m_W m) -> w_id r = w_id r0 -> r = r0.
Proof. intros H1 Hr In0 Hid. assert (A := wget_in _ _ _ H1 Hr). assert (B := wget_in _ _ _ H1 In0). rewrite Hid in A. congruence. Qed.

Lemma sent_wire w (k : work) fs d : sent_to w (map (Sent w) (wire (XOrder k fs d))) = wire (XOrder k fs d).
Proof. cbn. destruct (k_rows k); cbn; rewrite Nat.eqb_refl; reflexivity. Qed.
Lemma sent_wire_other w v (k : work) fs d : w <> v -> sent_to w (map (Sent v) (wire (XOrder k fs d))) = [].
Proof. intros H. cbn. destruct (k_rows k); cbn; rewrite (proj2 (Nat.eqb_neq v w)) by congruence; reflexivity. Qed.
Lemma replies_wire w v (k : work) fs d : replies_from w (map (Sent v) (wire (XOrder k fs d))) = [].
Proof. cbn. now destruct (k_rows k). Qed.
Lemma orders_wire w (k : work) fs d : orders_to w (map (Sent w) (wire (XOrder k fs d))) = [(k_tag k, k_rows k)].
Proof. cbn. destruct (k_rows k) eqn:Ek; cbn; rewrite Nat.eqb_refl, ?Ek; reflexivity. Qed.

Lemma marked_after mo a mo1 r0 pend : w_recv r0 = false -> marked mo r0 pend -> tells mo (IData a) mo1 ->
  marked mo1 (after_msg false pend a r0) (if fin_status a && pend then false else pend).
Proof.
  intros Hr Hm Ht. assert (Hfin : forall b, (final_status (n_status a) -> b = true) -> (~ final_status (n_status a) -> b = false) -> fin_status a = b).
  { intros b Hb1 Hb2. destruct (fin_status a) eqn:Ef; [symmetry; apply Hb1|symmetry; apply Hb2]; [|intros Hx]; apply fin_status_spec in Ef || (apply fin_status_spec in Hx; congruence). exact Ef. }
  inversion Ht as [|m t' x Hp Hx Hb Hk Hf|t' x Hx Hb Hk Hf|t' x Hx Hb Hk Hf| m t' x Hp Hx Hk Hf|t' x Hx Hb Hk Hf]; subst;
    try (assert (Ef : fin_status a = false) by (apply Hfin; tauto)); try (assert (Ef : fin_status a = true) by (apply Hfin; tauto));
    unfold after_msg, act_after; rewrite Ef, Hr, Hk, ?Hb; cbn [negb andb orb].
  - rewrite !andb_false_r. cbn [orb]. destruct Hp as [Hp|[Hp|Hp]]; subst mo1; cbn in *; destruct Hm as (M1 & M2 & M3 & M4); repeat split; auto.
  - cbn in *. destruct Hm as (M1 & M2 & -> & M4). cbn. auto.
  - cbn in *. destruct Hm as (M1 & M2 & -> & M4). cbn. auto.
  - destruct Hp as [-> | ->]; cbn in Hm; destruct Hm as (M1 & M2 & -> & M4); cbn; auto.
  - cbn in *. destruct Hm as (M1 & M2 & -> & M4). cbn. auto.
Qed.

Lemma situated_out late mo rest (s : wst U) owed p : situated late mo s owed p -> situated late mo (set_out rest s) owed p.
Proof. intros H. destruct H; [eapply si_idle|eapply si_sent|eapply si_rows|eapply si_single|eapply si_owing|eapply si_ready|eapply si_next|eapply si_taking|eapply si_ending]; eauto. Qed.

Lemma out_not k mo : out_mode k mo -> mo <> MIdle /\ forall t, mo <> MReady t.
Proof. unfold out_mode. destruct (k_persistent k); [intros [-> | ->]|intros ->]; split; congruence. Qed.
Lemma owes_not t mo : owes mo t -> mo <> MIdle /\ forall t, mo <> MReady t.
Proof. intros [-> | ->]; split; congruence. Qed.

Lemma at_idle late (s : wst U) owed p : situated late MIdle s owed p ->
  s_place s = AtTop /\ (late = false -> waiting (s_comm s) = []) /\ owed = [] /\ p = [] /\
  (forall o, In o (waiting (s_comm s)) -> o = OPStop SIG_KILL).
Proof.
  intros H. inversion H as [s' H1 H2 H3|m k fs d s' H1 H2 H3 H4|m k fs d s' H1 H0 H2 H3 H4| |m k rows u s' H1 H2 H3 H4 H5
    |m k rows u s' H1 H2 H3 H4 H5|m k rows u k2 fs d s' H1 H2 H3 H4 H5 H6 H7|m k k2 g fs d s' H1 H2 H3 H4 H5 H6 H7| ]; subst; auto 6; exfalso.
  1,2: now apply out_not in H3.
  1,3,4: now apply owes_not in H4.
  destruct H4; discriminate.
Qed.

Lemma at_ready late t (s : wst U) owed p : situated late (MReady t) s owed p ->
  exists k rows u, s_place s = InCalc k rows u /\ k_persistent k = true /\ ready u /\ t = k_tag k /\ waiting (s_comm s) = [] /\ owed = [] /\ p = [].
Proof.
  intros H. inversion H as [s' H1 H2 H3|m k fs d s' H1 H2 H3 H4|m k fs d s' H1 H0 H2 H3 H4| |m k rows u s' H1 H2 H3 H4 H5
    |m k rows u s' H1 H2 H3 H4 H5|m k rows u k2 fs d s' H1 H2 H3 H4 H5 H6 H7|m k k2 g fs d s' H1 H2 H3 H4 H5 H6 H7| ]; subst.
  1,2: exfalso; apply out_not in H3 as (_ & H3); now apply (H3 t).
  1,3,4: exfalso; apply owes_not in H4 as (_ & H4); now apply (H4 t).
  destruct H4 as [H4|H4]; [injection H4 as ->|discriminate]. exists k, rows, u. auto 9.
Qed.

Lemma J_give t w k m' y : order_ok (y_m y) w k -> J false false y -> give_order c t w k (y_m y) = (m', None) ->
  J false false (manager_moves y m' (y_w y)).
Proof.
  intros (Hw & Hrc & Htag & Hfol) (H1 & H2 & HN & H3 & H4) E. specialize (H3 eq_refl).
  destruct (give_order_spec _ _ _ _ _ _ _ H1 E) as (G1 & G2 & G3 & G4 & G5 & _ & _ & G6).
  destruct (G6 eq_refl) as (r0 & k' & R1 & R2 & R3 & R4 & R5 & R6 & R7 & R8 & R9 & R10 & R11 & R12). clear G6.
  assert (In0 : In r0 (m_W (y_m y))) by (eapply wget_In; eauto).
  assert (E0 : w_id r0 = w). { destruct (wget_id c _ _ H1 Hw) as (r & A & B & _). congruence. }
  destruct (as_sent_same _ _ R2) as (S1 & S2 & S3 & S4 & S5).
  assert (Hl : exists fs d, m_log m' = m_log (y_m y) ++ map (Sent (w_id r0)) (wire (XOrder k' fs d))).
  { cbn. rewrite S3. destruct (k_rows k) eqn:Ek.
    - exists [], []. rewrite R11 by reflexivity. reflexivity.
    - destruct R12 as (_ & _ & d & _ & Ed); [discriminate|]. exists (k_fields k), d. exact Ed. }
  destruct Hl as (fs & d & El). clear R11 R12.
  unfold manager_moves. rewrite (new_events_app _ _ _ El).
  unfold J. cbn [y_m y_w]. split; [exact G4|]. split; [congruence|]. split; [congruence|]. split; [congruence|].
  intros r Hr. destruct R6 as (T1 & T2 & T3 & T4 & T5). apply T5 in Hr as [-> | [Hr Hne]].
  - destruct (H4 _ In0) as (P2 & Hg).
    assert (Ha : w_active r0 = 0) by auto.
    unfold good, given. cbn [w_recv w_id]. split. { rewrite P2, Hrc. cbn. apply andb_false_r. }
    destruct Hg as [Hg|(mo & mo' & owed & p & items & extra & A1 & A2 & A3 & A4 & A5 & A6 & A7 & A10)]; [left; exact Hg|right].
    assert (Ord : ordinary k') by (split; [congruence|rewrite S1; exact Htag]).
    assert (Hz : k_tag k <> 0) by (destruct Htag as [-> | ->]; discriminate).
    assert (extra = []) by (destruct extra; [reflexivity|destruct A7; [discriminate|discriminate]]). subst extra. rewrite app_nil_r in A6.
    rewrite G2, H3 in *. unfold deliver. rewrite El, orders_to_app, replies_app, sent_to_app, sent_wire, orders_wire, replies_wire, A4, app_nil_r.
    exists (if k_persistent k then MOwing (k_tag k) else MShot (k_tag k)).
    exists (if k_persistent k then MOwing (k_tag k) else MShot (k_tag k)).
    exists [(k_tag k', k_rows k')], (order_of (XOrder k' fs d)), (items ++ [XOrder k' fs d]), [].
    assert (Hm : marked (if k_persistent k then MOwing (k_tag k) else MShot (k_tag k))
       (mkW (w_id r0) (w_gen r0) (k_tag k) (if k_persistent k then k_tag k else w_persis r0)
          (w_recv r0 || k_persistent k && match k_recv k with Some true => true | _ => false end)
          (if k_tag k =? EVAL_GEN then t else w_gstart r0) (w_zero r0)) false).
    { destruct (k_persistent k) eqn:Ek; cbn; repeat split; auto. destruct mo; cbn in A1; try apply A1; try (destruct A1 as (?&?&?&?); congruence).
      exfalso. destruct A1 as (_ & A1 & _ & A0). assert (Hp : w_persis r0 <> 0) by congruence. destruct (Hfol _ In0 E0 Hp); congruence. }
    split; [exact Hm|]. rewrite wires_app, orders_app, A5. cbn [wires orders_in flat_map s_comm arrive_all q_out s_log]. rewrite !app_nil_r.
    destruct mo as [|tg|tg|tg|tg]; cbn in A1; try (destruct A1 as (A1 & _ & _ & A0); congruence); try (destruct A1 as (_ & _ & A1 & _); discriminate).
    + (* idle *)
      destruct (flow_idle _ _ A2) as (-> & Q1 & _ & Q2). rewrite Q1 in *.
      assert (Hp : w_persis r0 = 0) by apply A1. destruct (at_idle _ _ _ _ A3) as (I1 & I2 & -> & -> & _).
      split; [apply Q2|]. rewrite app_nil_r. split.
      * eapply si_sent; auto.
        -- unfold out_mode. rewrite S4, S1. destruct (k_persistent k); [now left|reflexivity].
        -- rewrite arrive_waiting. rewrite I2 by reflexivity. destruct (k_persistent k); now rewrite app_nil_r.
      * split; [reflexivity|]. split; [reflexivity|]. split; [rewrite A6; now rewrite app_nil_r|]. split; [congruence|discriminate].
    + (* waiting for an order *)
      destruct A1 as (_ & Hp & _ & A0). destruct (Hfol _ In0 E0) as (Kp & Kt & Kr); [congruence|].
      destruct (flow_ready _ _ _ A2) as (-> & Q1 & Q2). rewrite Q1 in *. rewrite Kp.
      destruct (at_ready _ _ _ _ _ A3) as (k1 & rows & u & I1 & I2 & I3 & I4 & I5 & -> & ->).
      assert (Et : k_tag k = k_tag k1) by congruence.
      split; [rewrite Et, <- I4; exact Q2|]. split.
      * replace (order_of (XOrder k' fs d)) with [(k', fs, d)].
        2:{ cbn. destruct (k_rows k') eqn:Ek; [congruence|reflexivity]. }
        rewrite S1, Et. eapply si_next; cbn [s_place arrive_all]; eauto; try congruence.
        -- now left.
        -- rewrite arrive_waiting, I5. cbn [app wire]. destruct (k_rows k') eqn:Ek; [congruence|]. reflexivity.
      * rewrite !app_nil_r. split; [reflexivity|]. split; [reflexivity|]. split; [rewrite A6; now rewrite app_nil_r|]. split; [congruence|discriminate].
  - eapply good_other; [apply H4; exact Hr|exact El|now rewrite G2| | |].
    + apply sent_wire_other. congruence.
    + apply replies_wire.
    + unfold deliver. rewrite sent_wire_other by congruence. apply arrive_nil.
Qed.

Lemma J_take late strict t w i rest m' y : J late strict y -> In w (map w_id (m_W (y_m y))) -> q_out (s_comm (y_w y w)) = i :: rest ->
  poll c (w, i, t) (y_m y) = (m', None) -> J late strict (manager_moves y m' (set_worker w (set_out rest (y_w y w)) (y_w y))).
Proof.
  intros (H1 & H2 & HN & H3 & H4) Hw Eq E.
  destruct (poll_spec _ _ _ _ _ _ _ H1 E) as [(Hn & _)|(r0 & In0 & Ew & G1 & G2 & _ & G4 & G5)]; [contradiction|].
  specialize (G5 eq_refl).
  destruct G4 as [(El & Ee & Herr)|(Bad & _)]; [|discriminate].
  unfold manager_moves. rewrite (new_events_app _ _ _ El).
  set (f' := set_worker w (set_out rest (y_w y w)) (y_w y)) in *.
  assert (Hsame : forall v, deliver [Got w i] f' v = f' v). { intros v. unfold deliver. cbn. apply arrive_nil. }
  assert (Hpend : m_pending m' = m_pending (y_m y) \/ m_pending m' = remove_one w (m_pending (y_m y))).
  { destruct i as [a| | |].
    - destruct G5 as (_ & -> & _). destruct (fin_status a && memb w (m_pending (y_m y))); auto.
    - destruct G5 as (_ & _ & -> & _). now left.
    - subst m'. now left.
    - subst m'. now left. }
  assert (Hoth : forall r, In r (m_W (y_m y)) -> w_id r <> w -> good late strict m' (deliver [Got w i] f') r).
  { intros r Hr Hne. eapply good_other; [apply H4; exact Hr|exact El| |reflexivity| |].
    - destruct Hpend as [-> | ->]; [reflexivity|]. now apply memb_remove.
    - cbn. rewrite (proj2 (Nat.eqb_neq w (w_id r))) by congruence. reflexivity.
    - rewrite Hsame. unfold f', set_worker. rewrite (proj2 (Nat.eqb_neq (w_id r) w)) by congruence. reflexivity. }
  destruct (H4 _ In0) as (P2 & Hg). rewrite Ew in Hg.
  assert (Hf' : deliver [Got w i] f' w = set_out rest (y_w y w)). { rewrite Hsame. unfold f', set_worker. now rewrite Nat.eqb_refl. }
  unfold J. cbn [y_m y_w]. split; [exact G1|]. split; [congruence|].
  split. { destruct Hpend as [-> | ->]; [exact HN|]. now apply NoDup_remove_one. }
  split. { intros Hl. destruct Hpend as [-> | ->]; rewrite (H3 Hl); reflexivity. }
  assert (Hi : i <> IErr). { intros ->. specialize (Herr eq_refl). congruence. }
  assert (Hrow : exists r1, w_recv r1 = false /\ w_id r1 = w /\ (forall r, In r (m_W m') -> r = r1 \/ (In r (m_W (y_m y)) /\ w_id r <> w)) /\
     forall mo mo1, marked mo r0 (memb w (m_pending (y_m y))) -> tells mo i mo1 -> marked mo1 r1 (memb w (m_pending m'))).
  { assert (Hlog : i = ILog \/ i = IDone -> m' = logev (y_m y) (Got w i) -> exists r1, w_recv r1 = false /\ w_id r1 = w /\
      (forall r, In r (m_W m') -> r = r1 \/ (In r (m_W (y_m y)) /\ w_id r <> w)) /\
      forall mo mo1, marked mo r0 (memb w (m_pending (y_m y))) -> tells mo i mo1 -> marked mo1 r1 (memb w (m_pending m'))).
    { intros Hli ->. exists r0. split; [exact P2|]. split; [exact Ew|]. split.
      - cbn [m_W logev]. intros r Hr. destruct (Nat.eq_dec (w_id r) w); [left; apply (same_row _ _ _ H1 Hr In0); congruence|auto].
      - intros mo mo1 Hm Ht. inversion Ht; subst; [exact Hm| | | | |]; destruct Hli; discriminate. }
    destruct i as [a| | |]; [|congruence|apply Hlog; auto|apply Hlog; auto].
    destruct G5 as ((_ & _ & T3 & _ & T5) & Gp & _).
    exists (after_msg (m_exc (y_m y)) (memb w (m_pending (y_m y))) a r0).
    split. { unfold after_msg. destruct (fin_status a); cbn; auto. }
    split. { unfold after_msg. destruct (fin_status a); cbn; auto. }
    split. { intros r Hr. apply T5 in Hr as [->|[Hr Hne]]; [now left|right]. split; [exact Hr|congruence]. }
    intros mo mo1 Hm Ht. rewrite H2.
    assert (Ep : memb w (m_pending m') = if fin_status a && memb w (m_pending (y_m y)) then false else memb w (m_pending (y_m y))).
    { rewrite Gp. destruct (fin_status a && memb w (m_pending (y_m y))); [|reflexivity]. apply memb_notin. now apply NoDup_remove_one. }
    rewrite Ep. now apply (marked_after mo). }
  destruct Hrow as (r1 & B1 & B2 & B3 & B4). intros r Hr. apply B3 in Hr as [->|[Hr Hne]]; [|now apply Hoth].
  split; [exact B1|]. rewrite B2, Hf'.
  destruct Hg as [Hg|(mo & mo' & owed & p & items & extra & A1 & A2 & A3 & A4 & A5 & A6 & A7 & A10)].
  - left. unfold reports_error in *. rewrite Eq in Hg. destruct Hg as [->|Hg]; [congruence|exact Hg].
  - right. rewrite Eq in A2, A6. inversion A2 as [|? ? mo1 ? ? A8 A9]; subst.
    exists mo1, mo', owed, p, items, extra. split; [now apply (B4 mo)|]. split; [exact A9|]. split; [now apply situated_out|].
    rewrite El, orders_to_app, replies_app, sent_to_app. change (sent_to (w_id r1) [Got (w_id r1) i]) with (@nil omsg).
    change (orders_to (w_id r1) [Got (w_id r1) i]) with (@nil (nat * list nat)). rewrite !app_nil_r. split; [exact A4|]. split; [exact A5|].
    split; [|split; [exact A7|]].
    2:{ intros Hst tg. assert (N := A10 Hst). inversion A8 as [|? t' ? Hp|t' ?|t' ?|? t' ? Hp|]; subst; try apply N; try (split; discriminate).
        now destruct (N (n_type a)). }
    rewrite A6. cbn. rewrite Nat.eqb_refl, app_nil_r, <- !app_assoc. reflexivity.
Qed.

Lemma deliver_nil (f : nat -> wst U) v : deliver [] f v = f v.
Proof. unfold deliver. apply arrive_nil. Qed.

Lemma J_kill m' y : J false false y -> kill_cancelled c (y_m y) = (m', None) -> J false false (manager_moves y m' (y_w y)).
Proof.
  intros (H1 & H2 & HN & H3 & H4) E. unfold kill_cancelled in E. rewrite NK in E. injection E as <-.
  assert (El : m_log (y_m y) = m_log (y_m y) ++ []) by now rewrite app_nil_r.
  unfold manager_moves. rewrite (new_events_app _ _ _ El). unfold J. cbn [y_m y_w]. repeat (split; [assumption|]).
  intros r Hr. eapply good_other; [apply H4; exact Hr|exact El|reflexivity|reflexivity|reflexivity|apply deliver_nil].
Qed.

Lemma not_closing mo r pend l mo' : marked mo r pend -> pend = false -> flow mo l mo' -> forall t, mo' <> MClosing t.
Proof. intros Hm Hp Hf t ->. destruct (flow_to_closing _ _ _ Hf) as (t' & ->). cbn in Hm. destruct Hm as (_ & _ & Hm & _). congruence. Qed.

Lemma step_reports b (s s' : wst U) : reports_error s -> wstep b s = Some s' -> reports_error s'.
Proof.
  unfold reports_error. intros H E.
  assert (G : forall i, In IErr (q_out (s_comm s) ++ [i])) by (intros i; apply in_or_app; now left).
  assert (F : forall s1 : wst U, q_out (s_comm s1) = q_out (s_comm s) -> In IErr (q_out (s_comm (fails s1)))).
  { intros s1 Es. cbn. rewrite Es. apply G. }
  assert (C : forall k fs d (s1 : wst U), q_out (s_comm s1) = q_out (s_comm s) -> In IErr (q_out (s_comm (call ustart k fs d s1)))).
  { intros k fs d s1 Es. unfold call. destruct (_ || _); [cbn; now rewrite Es|now apply F]. }
  assert (B : forall o (s1 : wst U) h, q_out (s_comm s1) = q_out (s_comm s) -> (forall s2 : wst U, q_out (s_comm (h s2)) = q_out (s_comm s2)) ->
     In IErr (q_out (s_comm (push_back kd o s1 h)))).
  { intros o s1 h Es Hh. unfold push_back. destruct (comm_push kd o (s_comm s1)) as [q' [e|]] eqn:Ep; [now apply F|].
    rewrite Hh. cbn. unfold comm_push in Ep. destruct kd, (q_buf (s_comm s1)); try discriminate Ep; injection Ep as <-; cbn; now rewrite Es. }
  unfold WorkerModel.wstep in E. destruct (s_place s) as [|k dis|k rows u|k rows k2 g|].
  - destruct (comm_recv (s_comm s)) as [[o q]|] eqn:Er; [|discriminate]. injection E as <-.
    destruct (recv_waiting _ _ _ Er) as (_ & _ & Eo).
    destruct o as [k|fs d|x|x].
    + destruct (match k_recv k with Some b0 => b0 && negb (k_persistent k) | None => false end);
        destruct (k_rows k); cbn; rewrite ?Eo; auto; apply C; auto.
    + now apply F.
    + destruct (x =? SIG_FINISH); [cbn; now rewrite Eo|]. destruct (x =? SIG_KILL); [cbn; now rewrite Eo|now apply F].
    + destruct (x =? SIG_FINISH); [cbn; now rewrite Eo|]. destruct (x =? SIG_KILL); [cbn; now rewrite Eo|now apply F].
  - destruct (comm_recv (s_comm s)) as [[o q]|] eqn:Er; [|discriminate]. injection E as <-.
    destruct (recv_waiting _ _ _ Er) as (_ & _ & Eo). destruct dis.
    + destruct (_ || _); [cbn; now rewrite Eo|now apply F].
    + destruct o; apply C; auto.
  - destruct (ustep u) as [u'|v st keep u'|bl g|g|r|].
    + injection E as <-. exact H.
    + injection E as <-. apply G.
    + destruct (negb bl && negb (comm_mail kd (s_comm s) && b)); [injection E as <-; exact H|].
      destruct (comm_recv (s_comm s)) as [[o q]|] eqn:Er; [|discriminate]. injection E as <-.
      destruct (recv_waiting _ _ _ Er) as (_ & _ & Eo). destruct o as [k2|fs d|x|x].
      * cbn. now rewrite Eo.
      * now apply F.
      * apply B; auto.
      * apply B; auto.
    + destruct (comm_mail kd (s_comm s) && b); [|injection E as <-; exact H].
      destruct (comm_recv (s_comm s)) as [[o q]|] eqn:Er; [|discriminate]. injection E as <-.
      destruct (recv_waiting _ _ _ Er) as (_ & _ & Eo). destruct o; try (cbn; now rewrite Eo). apply B; auto.
    + injection E as <-. unfold returned.
      set (q := match q_buf (s_comm s) with Some o => _ | None => (s, 0) end).
      assert (Hq : q_out (s_comm (fst q)) = q_out (s_comm s)).
      { subst q. unfold comm_recv. now destruct (q_buf (s_comm s)). }
      destruct q as [s1 st0]. cbn [fst] in Hq. destruct (runner_check r); [|now apply F].
      destruct (parse_out _ _) as [[v st]|]; [|now apply F]. destruct (st =? SIG_FINISH); cbn; rewrite Hq; auto.
    + injection E as <-. now apply F.
  - destruct (comm_recv (s_comm s)) as [[o q]|] eqn:Er; [|discriminate]. injection E as <-.
    destruct (recv_waiting _ _ _ Er) as (_ & _ & Eo). destruct o as [k3|fs d|x|x].
    + destruct (_ || _); [apply B; auto|cbn; now rewrite Eo].
    + cbn. now rewrite Eo.
    + apply B; auto.
    + apply B; auto.
  - discriminate.
Qed.

Lemma J_work late strict w b s' y : J late strict y -> wstep b (y_w y w) = Some s' -> J late strict (mkSys (y_m y) (set_worker w s' (y_w y))).
Proof.
  intros (H1 & H2 & HN & H3 & H4) E. unfold J. cbn [y_m y_w]. repeat (split; [assumption|]).
  intros r Hr. destruct (H4 _ Hr) as (P2 & Hg). split; [exact P2|]. unfold set_worker. destruct (w_id r =? w) eqn:Ew; [|exact Hg].
  apply Nat.eqb_eq in Ew. rewrite Ew in *. destruct Hg as [Hg|(mo & mo' & owed & p & items & extra & A1 & A2 & A3 & A4 & A5 & A6 & A7 & A10)].
  - left. now apply (step_reports b (y_w y w)).
  - assert (Hl : late = false -> forall t, mo' <> MClosing t).
    { intros Hl. eapply not_closing; eauto. now rewrite (H3 Hl). }
    destruct (situated_step _ _ _ _ _ _ _ _ MN b late mo' _ _ _ _ Hl A3 E) as [H|(l & m2 & owed' & p' & B1 & B2 & B3 & B4 & ex & B5 & B6)]; [now left|].
    right. exists mo, m2, owed', p', items, (extra ++ ex). split; [exact A1|]. rewrite B1. split; [eapply flow_app; eauto|].
    split; [exact B3|]. split; [exact A4|]. split; [now rewrite A5, B4|]. split; [|split; [|exact A10]].
    + rewrite app_assoc, A6, outreplies_app, <- !app_assoc, B5. reflexivity.
    + intros Hx. destruct ex as [|x ex].
      * rewrite app_nil_r in Hx, B5. destruct (A7 Hx) as (-> & ->). apply app_eq_nil in B5 as (_ & ->). auto.
      * destruct B6 as (-> & t & ->); [discriminate|]. split; [reflexivity|]. destruct late; [reflexivity|]. now destruct (Hl eq_refl t).
Qed.

Lemma J_note late strict w y : J late strict y -> J late strict (mkSys (y_m y) (set_worker w (set_out (q_out (s_comm (y_w y w)) ++ [ILog]) (y_w y w)) (y_w y))).
Proof.
  intros (H1 & H2 & HN & H3 & H4). unfold J. cbn [y_m y_w]. repeat (split; [assumption|]).
  intros r Hr. destruct (H4 _ Hr) as (P2 & Hg). split; [exact P2|]. unfold set_worker. destruct (w_id r =? w) eqn:Ew; [|exact Hg].
  apply Nat.eqb_eq in Ew. rewrite Ew in *. destruct Hg as [Hg|(mo & mo' & owed & p & items & extra & A1 & A2 & A3 & A4 & A5 & A6 & A7 & A10)].
  - left. unfold reports_error in *. cbn. apply in_or_app. now left.
  - right. exists mo, mo', owed, p, items, extra. split; [exact A1|]. split; [eapply flow_snoc; [exact A2|constructor]|].
    split; [now apply situated_out|]. split; [exact A4|]. split; [exact A5|]. split; [|auto].
    cbn [s_comm set_out q_out]. rewrite outreplies_app. cbn [outreplies flat_map reply_of]. rewrite app_nil_r. exact A6.
Qed.

(** ** The handshake with the persistent workers *)

Lemma situated_late (late : bool) mo (s : wst U) owed p : situated late mo s owed p -> situated true mo s owed p.
Proof.
  intros H. destruct H; [eapply si_idle|eapply si_sent|eapply si_rows|eapply si_single|eapply si_owing|eapply si_ready|eapply si_next|eapply si_taking|eapply si_ending]; eauto.
  discriminate.
Qed.

Lemma J_late y : J false false y -> J true false y.
Proof.
  intros (H1 & H2 & HN & H3 & H4). split; [exact H1|]. split; [exact H2|]. split; [exact HN|]. split; [discriminate|].
  intros r Hr. destruct (H4 _ Hr) as (P2 & [Hg|(mo & mo' & owed & p & items & extra & A1 & A2 & A3 & A4 & A5 & A6 & A7 & A10)]).
  - split; auto.
  - split; [exact P2|]. right. exists mo, mo', owed, p, items, extra. split; [exact A1|]. split; [exact A2|].
    split; [eapply situated_late; eauto|]. repeat (split; [assumption|]). split; [|discriminate]. intros Hx. now destruct (A7 Hx).
Qed.

(** the stop signal reaches a worker *)
Lemma situated_stop mo t (s : wst U) owed p : mo = MOwing t \/ mo = MReady t -> situated true mo s owed p ->
  situated true (MClosing t) (arrive_all [OPStop SIG_KILL] s) owed p.
Proof.
  intros Hm H.
  assert (Hout : forall k, out_mode k mo -> stop_signal mo = [] /\ out_mode k (MClosing t)).
  { intros k. unfold out_mode. destruct (k_persistent k); [|intros ->; destruct Hm; discriminate].
    intros [-> | ->]; (destruct Hm as [Hm|Hm]; try discriminate). injection Hm as ->. split; [reflexivity|now right]. }
  assert (Howe : forall t', owes mo t' -> stop_signal mo = [] /\ owes (MClosing t) t').
  { intros t' [-> | ->]; (destruct Hm as [Hm|Hm]; try discriminate). injection Hm as ->. split; [reflexivity|now right]. }
  destruct H as [s H1 H2 H3|m k fs d s H1 H2 H3 H4|m k fs d s H1 H0 H2 H3 H4|k u s H1 H2 H3 H4|m k rows u s H1 H2 H3 H4 H5
    |m k rows u s H1 H2 H3 H4 H5|m k rows u k2 fs d s H1 H2 H3 H4 H5 H6 H7|m k k2 g fs d s H1 H2 H3 H4 H5 H6 H7|k rows u s H1 H2 H3 H4].
  - destruct Hm; discriminate.
  - destruct (Hout _ H3) as (Es & Ho). eapply si_sent; cbn [s_place arrive_all]; eauto. rewrite arrive_waiting, H4, Es, app_nil_r. reflexivity.
  - destruct (Hout _ H3) as (Es & Ho). eapply si_rows; cbn [s_place arrive_all]; eauto. rewrite arrive_waiting, H4, Es. reflexivity.
  - destruct Hm; discriminate.
  - destruct (Howe _ H4) as (Es & Ho). eapply si_owing; cbn [s_place arrive_all]; eauto. rewrite arrive_waiting, H5, Es. reflexivity.
  - assert (Et : t = k_tag k) by (destruct Hm, H4; congruence). subst t.
    eapply si_ready; cbn [s_place arrive_all]; eauto. rewrite arrive_waiting, H5. destruct Hm; subst m; reflexivity.
  - destruct (Howe _ H4) as (Es & Ho). eapply si_next; cbn [s_place arrive_all]; eauto. rewrite arrive_waiting, H7, Es, app_nil_r. reflexivity.
  - destruct (Howe _ H4) as (Es & Ho). eapply si_taking; cbn [s_place arrive_all]; eauto. rewrite arrive_waiting, H7, Es. reflexivity.
  - destruct Hm; discriminate.
Qed.

(** a worker whose final message is on its way gets the signal all the same *)
Lemma situated_stop_idle (s : wst U) owed p : situated true MIdle s owed p -> situated true MIdle (arrive_all [OPStop SIG_KILL] s) owed p.
Proof.
  intros H. destruct (at_idle _ _ _ _ H) as (H1 & _ & -> & -> & H2).
  apply si_idle; auto; [discriminate|]. intros o. rewrite arrive_waiting. intros Ho. apply in_app_or in Ho as [Ho|[<-|[]]]; auto.
Qed.

Lemma J_stop1 t w m' y r0 : J true false y -> In r0 (m_W (y_m y)) -> w_id r0 = w -> w_persis r0 <> 0 -> ~ In w (m_pending (y_m y)) ->
  stop_persistent c t w (y_m y) = (m', None) ->
  J true false (manager_moves y m' (y_w y)) /\ m_pending m' = m_pending (y_m y) ++ [w] /\
  (exists l, m_log m' = m_log (y_m y) ++ l) /\
  forall r, In r (m_W (y_m y)) -> w_id r <> w -> In r (m_W m').
Proof.
  intros (H1 & H2 & HN & H3 & H4) In0 Ew Hper Hnp E.
  destruct (stop_persistent_spec _ _ _ _ _ _ H1 E) as (G1 & G2 & G3 & _ & _ & G6).
  destruct (G6 eq_refl) as (Gp & r & r1 & T & T1 & T2 & _ & T4 & _). clear G6.
  assert (El : m_log m' = m_log (y_m y) ++ [Sent w (OPStop SIG_KILL)]).
  { unfold stop_persistent in E. rewrite NF in E. unfold send in E. rewrite <- Ew in E at 1.
    rewrite (wget_in c (y_m y) r0 H1 In0) in E. cbn [bindx] in E. injection E as <-. cbn [m_log set_pending]. rewrite on_worker_log. cbn. now rewrite Ew. }
  destruct T as (T5 & T6 & T7 & T8 & T9).
  assert (r = r0). { pose proof (wget_in c _ _ H1 In0). congruence. } subst r.
  unfold manager_moves. rewrite (new_events_app _ _ _ El).
  split; [|split; [exact Gp|split; [eauto|intros r Hr Hne; apply T9; right; split; [exact Hr|congruence]]]].
  unfold J. cbn [y_m y_w]. split; [exact G1|]. split; [congruence|]. split.
  { rewrite Gp. apply NoDup_end; auto. }
  split; [discriminate|].
  intros r Hr. apply T9 in Hr as [->|[Hr Hne]].
  - destruct (H4 _ In0) as (P2 & Hg). split; [congruence|]. rewrite T7, Ew in *. unfold deliver.
    replace (sent_to w [Sent w (OPStop SIG_KILL)]) with [OPStop SIG_KILL] by (cbn; now rewrite Nat.eqb_refl).
    destruct Hg as [Hg|(mo & mo' & owed & p & items & extra & A1 & A2 & A3 & A4 & A5 & A6 & A7 & A10)]; [left; exact Hg|right].
    rewrite (memb_notin _ _ Hnp) in A1.
    assert (Hmo : exists tg, (mo = MOwing tg \/ mo = MReady tg) /\ marked (MClosing tg) r1 true).
    { destruct mo as [|tg|tg|tg|tg]; cbn in A1.
      - destruct A1 as (_ & A1 & _). congruence.
      - destruct A1 as (_ & A1 & _). congruence.
      - exists tg. split; [now left|]. destruct A1 as (A0 & A1 & _ & A8). cbn. rewrite T4, A0, T1, A1, (proj2 (Nat.eqb_neq _ _) A8). auto.
      - exists tg. split; [now right|]. destruct A1 as (A0 & A1 & _ & A8). cbn. rewrite T4, A0, T1, A1. cbn. auto.
      - destruct A1 as (_ & _ & A1 & _). discriminate. }
    destruct Hmo as (tg & Hmo & Hm1). destruct (flow_close _ _ _ _ Hmo A2) as (F1 & F2).
    exists (MClosing tg), (closed mo'), owed, p, (items ++ [XPStop SIG_KILL]), extra.
    rewrite Gp, El, orders_to_app, replies_app, sent_to_app, A4.
    replace (sent_to w [Sent w (OPStop SIG_KILL)]) with [OPStop SIG_KILL] by (cbn; now rewrite Nat.eqb_refl).
    change (orders_to w [Sent w (OPStop SIG_KILL)]) with (@nil (nat * list nat)).
    change (replies_from w [Sent w (OPStop SIG_KILL)]) with (@nil (nat * list nat)). rewrite !app_nil_r.
    split. { replace (memb w (m_pending (y_m y) ++ [w])) with true; [exact Hm1|]. symmetry. apply memb_In. apply in_or_app. right. now left. }
    split; [exact F1|]. split.
    { destruct F2 as [-> | [-> | ->]]; cbn [closed]; [now apply situated_stop_idle|apply (situated_stop (MOwing tg)); auto|apply (situated_stop (MReady tg)); auto]. }
    split; [now rewrite wires_app|]. split; [rewrite orders_app; cbn; rewrite app_nil_r; exact A5|]. split; [exact A6|]. split; [exact A7|discriminate].
  - eapply good_other; [apply H4; exact Hr|exact El| | |reflexivity|].
    + rewrite Gp. unfold memb. rewrite existsb_app. cbn. rewrite (proj2 (Nat.eqb_neq (w_id r) w)) by congruence. now rewrite orb_false_r.
    + cbn. rewrite (proj2 (Nat.eqb_neq w (w_id r))) by congruence. reflexivity.
    + unfold deliver. replace (sent_to (w_id r) [Sent w (OPStop SIG_KILL)]) with (@nil omsg); [apply arrive_nil|].
      cbn. rewrite (proj2 (Nat.eqb_neq w (w_id r))) by congruence. reflexivity.
Qed.

Lemma deliver_app l1 l2 (f : nat -> wst U) v : deliver (l1 ++ l2) f v = deliver l2 (deliver l1 f) v.
Proof. unfold deliver. rewrite sent_to_app. unfold arrive_all. cbn. now rewrite app_assoc. Qed.

Lemma good_ext late strict m f f' r : f' (w_id r) = f (w_id r) -> good late strict m f r -> good late strict m f' r.
Proof. unfold good. intros ->. auto. Qed.

Lemma J_stop t ws : forall m' y, NoDup ws -> J true false y ->
  (forall w, In w ws -> ~ In w (m_pending (y_m y)) /\ exists r, In r (m_W (y_m y)) /\ w_id r = w /\ w_persis r <> 0) ->
  foldx (stop_persistent c t) ws (y_m y) = (m', None) -> J true false (manager_moves y m' (y_w y)).
Proof.
  induction ws as [|w ws IH]; intros m' y Hnd HJ Hws E; cbn [foldx] in E.
  - injection E as <-. destruct HJ as (H1 & H2 & HN & H3 & H4).
    assert (El : m_log (y_m y) = m_log (y_m y) ++ []) by now rewrite app_nil_r.
    unfold manager_moves. rewrite (new_events_app _ _ _ El). unfold J. cbn [y_m y_w]. repeat (split; [assumption|]).
    intros r Hr. apply (good_ext _ _ _ (y_w y)); [apply deliver_nil|]. now apply H4.
  - destruct (stop_persistent c t w (y_m y)) as [m1 [e|]] eqn:E1; cbn [bindx] in E; [discriminate|].
    destruct (Hws w) as (Hnp & r0 & In0 & Ew & Hper); [now left|].
    destruct (J_stop1 t w m1 y r0 HJ In0 Ew Hper Hnp E1) as (HJ1 & Gp & (l1 & El1) & Hin).
    inversion Hnd as [|? ? N1 N2]; subst.
    assert (HJ2 := IH m' (manager_moves y m1 (y_w y)) N2 HJ1).
    assert (HJ3 : J true false (manager_moves (manager_moves y m1 (y_w y)) m' (y_w (manager_moves y m1 (y_w y))))).
    { apply HJ2; [|exact E]. intros v Hv. destruct (Hws v) as (Hnp' & r & In1 & Ev & Hp'); [now right|]. cbn [y_m manager_moves]. split.
      - rewrite Gp. intros Hx. apply in_app_or in Hx as [Hx|[Hx|[]]]; [auto|]. congruence.
      - exists r. split; [|auto]. apply Hin; [exact In1|]. congruence. }
    destruct HJ3 as (H1 & H2 & HN & H3 & H4). unfold J in *. cbn [y_m y_w manager_moves] in *. repeat (split; [assumption|]).
    intros r Hr. eapply good_ext; [|now apply H4].
    assert (Ex : exists l2, m_log m' = m_log m1 ++ l2) by (eapply stops_log; [exact E|]; destruct HJ1 as (HT & _); exact HT). destruct Ex as (l2 & El2).
    rewrite (new_events_app _ _ _ El1), (new_events_app _ _ _ El2). rewrite (new_events_app _ m' (l1 ++ l2)); [|now rewrite El2, El1, app_assoc].
    apply deliver_app.
Qed.

Lemma J_strict y : J true false y -> (forall r, In r (m_W (y_m y)) -> w_persis r <> 0 -> In (w_id r) (m_pending (y_m y))) -> J true true y.
Proof.
  intros (H1 & H2 & HN & H3 & H4) Hs. repeat (split; [assumption|]). intros r Hr. specialize (Hs r Hr).
  destruct (H4 _ Hr) as (P2 & [Hg|(mo & mo' & owed & p & items & extra & A1 & A2 & A3 & A4 & A5 & A6 & A7 & A10)]); (split; [exact P2|]); [now left|].
  right. exists mo, mo', owed, p, items, extra. repeat (split; [assumption|]). intros _ t.
  split; intros ->; cbn in A1; destruct A1 as (A0 & A1 & A8 & A9); rewrite A1 in Hs; specialize (Hs A9); apply memb_In in Hs; congruence.
Qed.

Lemma J_finish_all t m' y : J false false y -> stop_all_persistent c t (y_m y) = (m', None) -> J true true (manager_moves y m' (y_w y)).
Proof.
  intros HJ E. unfold stop_all_persistent in E. pose proof (J_late _ HJ) as HJ'. destruct HJ as (H1 & _ & _ & H3 & _). specialize (H3 eq_refl).
  apply J_strict.
  2:{ cbn [y_m manager_moves]. intros r Hr Hp. destruct (stops_marks _ _ _ _ _ E H1) as (Mp & Mr). destruct (Mr r Hr) as (r0 & R1 & R2 & R3).
      rewrite Mp. apply in_or_app. right. rewrite R2. apply in_map. apply filter_In. split; [exact R1|].
      destruct (w_persis r0 =? 0) eqn:Ez; [|reflexivity]. apply Nat.eqb_eq in Ez. congruence. }
  eapply J_stop; [|exact HJ'| |exact E].
  - assert (Hn : NoDup (map w_id (m_W (y_m y)))). { red in H1. rewrite H1. destruct (c_gom c); apply seq_NoDup. }
    revert Hn. generalize (m_W (y_m y)). induction l as [|r l IH]; cbn; [constructor|]. intros Hn. inversion Hn as [|? ? N1 N2]; subst.
    destruct (negb (w_persis r =? 0)); cbn; auto. constructor; auto. intros Hx. apply N1. apply in_map_iff in Hx as (x & Ex & Hx).
    apply filter_In in Hx as (Hx & _). rewrite <- Ex. now apply in_map.
  - intros w Hw. rewrite H3. split; [intros []|]. apply in_map_iff in Hw as (r & Er & Hr). apply filter_In in Hr as (Hr & Hp).
    exists r. repeat split; auto. intros Hz. rewrite Hz in Hp. discriminate.
Qed.

(** ** After the FINISH messages *)

Definition rest (m : mgr) (s : wst U) (r : wrow) : Prop :=
  w_active r = 0 /\ w_persis r = 0 /\
  (reports_error s \/
   quiet (q_out (s_comm s)) /\
   (s_place s = Left \/ s_place s = AtTop /\ exists l, waiting (s_comm s) = l ++ [OStop SIG_FINISH] /\ forall o, In o l -> o = OPStop SIG_KILL) /\
   (exists items, sent_to (w_id r) (m_log m) = wires items /\ orders_in items = orders_reached (s_log s)) /\
   exists extra, orders_to (w_id r) (m_log m) ++ extra = replies_from (w_id r) (m_log m)).

Definition JF (y : sys U) : Prop :=
  table_ok c (y_m y) /\ forall r, In r (m_W (y_m y)) -> rest (y_m y) (y_w y (w_id r)) r.

Lemma finishes_cons w v ids : sent_to w (finishes (v :: ids)) = (if v =? w then [OStop SIG_FINISH] else []) ++ sent_to w (finishes ids).
Proof. reflexivity. Qed.
Lemma finishes_to w ids : NoDup ids -> In w ids -> sent_to w (finishes ids) = [OStop SIG_FINISH].
Proof.
  assert (Hz : forall ids, ~ In w ids -> sent_to w (finishes ids) = []).
  { induction ids0 as [|v l IH]; intros Hn; [reflexivity|]. rewrite finishes_cons, (proj2 (Nat.eqb_neq v w)) by (intros ->; apply Hn; now left).
    apply IH. intros Hx. apply Hn. now right. }
  induction 1 as [|v l H1 H2 IH]; intros Hin; [destruct Hin|]. rewrite finishes_cons. destruct (v =? w) eqn:E.
  - apply Nat.eqb_eq in E. subst v. now rewrite (Hz l H1).
  - destruct Hin as [->|Hin]; [now rewrite Nat.eqb_refl in E|]. now apply IH.
Qed.
Lemma finishes_none w ids : orders_to w (finishes ids) = [] /\ replies_from w (finishes ids) = [].
Proof. induction ids as [|v l (IH1 & IH2)]; split; auto. Qed.

Lemma table_nodup m : table_ok c m -> NoDup (map w_id (m_W m)).
Proof. intros H. red in H. rewrite H. destruct (c_gom c); apply seq_NoDup. Qed.

Lemma J_finished y : J true true y -> any_active (y_m y) = false -> any_persis (y_m y) = false ->
  JF (manager_moves y (kill_workers (y_m y)) (y_w y)).
Proof.
  intros (H1 & H2 & HN & H3 & H4) Ha Hp. destruct (kill_workers_spec (y_m y)) as (El & _ & EW & _).
  unfold manager_moves. rewrite (new_events_app _ _ _ El). unfold JF. cbn [y_m y_w]. split; [unfold table_ok; now rewrite EW|].
  rewrite EW. intros r Hr.
  assert (Ha' : w_active r = 0).
  { destruct (w_active r) eqn:E; [reflexivity|]. assert (any_active (y_m y) = true); [|congruence]. apply existsb_exists. exists r. now rewrite E. }
  assert (Hp' : w_persis r = 0).
  { destruct (w_persis r) eqn:E; [reflexivity|]. assert (any_persis (y_m y) = true); [|congruence]. apply existsb_exists. exists r. now rewrite E. }
  split; [exact Ha'|]. split; [exact Hp'|].
  destruct (H4 _ Hr) as (P2 & [Hg|(mo & mo' & owed & p & items & extra & A1 & A2 & A3 & A4 & A5 & A6 & A7 & A10)]); [left; exact Hg|right].
  assert (mo = MIdle). { destruct mo; cbn in A1; auto; destruct A1 as (?&?&?&?); congruence. } subst mo.
  destruct (flow_idle _ _ A2) as (-> & Q1 & Q2 & _). rewrite Q1 in *.
  destruct (at_idle _ _ _ _ A3) as (I1 & _ & -> & -> & Hw).
  assert (Ef : sent_to (w_id r) (finishes (map w_id (m_W (y_m y)))) = [OStop SIG_FINISH]).
  { apply finishes_to; [now apply table_nodup|now apply in_map]. }
  destruct (finishes_none (w_id r) (map w_id (m_W (y_m y)))) as (F1 & F2).
  unfold deliver. rewrite Ef. split; [exact Q2|]. split; [|split].
  - right. split; [exact I1|]. exists (waiting (s_comm (y_w y (w_id r)))). split; [apply arrive_waiting|exact Hw].
  - exists (items ++ [XStop SIG_FINISH]). rewrite El, sent_to_app, Ef, A4, wires_app, orders_app, A5. cbn. now rewrite !app_nil_r.
  - exists extra. rewrite El, orders_to_app, replies_app, F1, F2, !app_nil_r in *. exact A6.
Qed.

Lemma JF_work w b s' y : JF y -> wstep b (y_w y w) = Some s' -> JF (mkSys (y_m y) (set_worker w s' (y_w y))).
Proof.
  intros (H1 & H4) E. split; [exact H1|]. cbn [y_m y_w]. intros r Hr. unfold set_worker. destruct (w_id r =? w) eqn:Ew; [|now apply H4].
  apply Nat.eqb_eq in Ew. subst w. destruct (H4 _ Hr) as (R1 & R2 & [R3|(R3 & R4 & (items & R5 & R6) & R7)]); (split; [exact R1|]; split; [exact R2|]).
  - left. now apply (step_reports b (y_w y (w_id r))).
  - right. unfold WorkerModel.wstep in E. destruct R4 as [R4|(R4 & l & R8 & R9)]; rewrite R4 in E; [discriminate|].
    destruct (comm_recv (s_comm (y_w y (w_id r)))) as [[o q]|] eqn:Er; [|discriminate]. injection E as <-.
    destruct (recv_waiting _ _ _ Er) as (W1 & W2 & W3). rewrite R8 in W1. destruct l as [|x l]; cbn [app] in W1; injection W1 as <- W1.
    + cbn. rewrite W3, reached_app. cbn. rewrite app_nil_r. split; [exact R3|]. split; [now left|]. split; [eauto|exact R7].
    + rewrite (R9 x) by now left. cbn. rewrite W3, reached_app. cbn. rewrite app_nil_r. split; [exact R3|]. split; [|split; [eauto|exact R7]].
      right. split; [exact R4|]. exists l. split; [now rewrite <- W1|]. intros o Ho. apply R9. now right.
Qed.

Lemma JF_note w y : JF y -> JF (mkSys (y_m y) (set_worker w (set_out (q_out (s_comm (y_w y w)) ++ [ILog]) (y_w y w)) (y_w y))).
Proof.
  intros (H1 & H4). split; [exact H1|]. cbn [y_m y_w]. intros r Hr. unfold set_worker. destruct (w_id r =? w) eqn:Ew; [|now apply H4].
  apply Nat.eqb_eq in Ew. subst w. destruct (H4 _ Hr) as (R1 & R2 & [R3|(R3 & R4 & R5 & R7)]); (split; [exact R1|]; split; [exact R2|]).
  - left. unfold reports_error in *. cbn. apply in_or_app. now left.
  - right. cbn [s_comm set_out q_out s_place s_log]. split; [now apply quiet_snoc|]. auto.
Qed.

(** ** Every reachable state *)

Definition JJ (z : phase * sys U) : Prop := match fst z with Finished => JF (snd z) | ph => J (is_late ph) (is_late ph) (snd z) end.

Lemma J_start h n zeros gens rm pin : J false false (start_sys (init_manager c h n zeros gens rm pin)).
Proof.
  unfold J. cbn [y_m y_w start_sys]. split; [apply init_table|]. split; [reflexivity|]. split; [constructor|]. split; [reflexivity|].
  intros r Hr. destruct (init_workers_idle _ _ _ _ _ Hr) as (A & B & D). split; [exact D|]. right.
  exists MIdle, MIdle, [], [], [], []. split; [cbn; auto|]. split; [constructor|]. split.
  - apply si_idle; auto. intros o [].
  - repeat split; try congruence; intros; discriminate.
Qed.

Lemma JJ_reach (P : mgr -> nat -> work -> Prop) h n zeros gens rm pin z : (forall m w k, P m w k -> order_ok m w k) ->
  zreach U ustart ustep kd c P (init_manager c h n zeros gens rm pin) z -> JJ z.
Proof.
  intros HP H. induction H as [|z z' H IH E]; [apply J_start|].
  destruct E as [y t w k m' Hk E|ph y t w i l m' Hph Hw Eq E|y m' E|y ed|y t m' E|y E1 E2|ph y w b s' E|ph y w]; unfold JJ in *; cbn [fst snd is_late] in *.
  - eapply J_give; eauto.
  - destruct ph; [| |congruence]; eapply J_take; eauto.
  - now apply J_kill.
  - destruct IH as (H1 & H2 & H3 & H4 & H5). unfold J. cbn [y_m y_w]. repeat (split; [assumption|]). exact H5.
  - eapply J_finish_all; eauto.
  - now apply J_finished.
  - destruct ph; [eapply J_work; eauto|eapply J_work; eauto|eapply JF_work; eauto].
  - destruct ph; [now apply J_note|now apply J_note|now apply JF_note].
Qed.

(** One answer is owed, or on its way, for each order that is out. *)
Lemma one_owed late t mo l mo' (s : wst U) owed p :
  flow mo l mo' -> mo = MOwing t \/ mo = MShot t -> situated late mo' s owed p ->
  mo' <> MClosing t -> exists rows, outreplies l ++ owed = [(t, rows)].
Proof.
  intros H. induction H as [m|m i m2 l m3 H1 H2 IH]; intros Hm Hs Hc.
  - cbn. inversion Hs; subst; unfold out_mode, owes in *;
      repeat match goal with Hp : (if k_persistent ?k then _ else _) |- _ => destruct (k_persistent k) end;
      repeat match goal with Hp : _ \/ _ |- _ => destruct Hp as [Hp|Hp] end; try congruence; subst;
      repeat match goal with Hp : MOwing _ = MOwing _ |- _ => injection Hp as Hp | Hp : MShot _ = MShot _ |- _ => injection Hp as Hp end;
      subst; try discriminate; eauto.
  - destruct Hm as [-> | ->]; inversion H1; subst.
    + destruct (IH (or_introl eq_refl) Hs Hc) as (rows & E). exists rows. exact E.
    + match goal with Hp : persists _ _ |- _ => destruct Hp as [Hp|[Hp|Hp]]; try discriminate; injection Hp as Hp end.
      destruct (IH (or_introl eq_refl) Hs Hc) as (rows & E). exists rows.
      cbn [outreplies flat_map reply_of]. match goal with Hk : n_keep _ = true |- _ => rewrite Hk end. exact E.
    + destruct (flow_ready _ _ _ H2) as (-> & Eo & _). cbn [outreplies flat_map reply_of].
      match goal with Hk : n_keep _ = false |- _ => rewrite Hk end. fold (outreplies l). rewrite Eo.
      apply at_ready in Hs as (k & rows & u & _ & _ & _ & _ & _ & -> & _). eexists. reflexivity.
    + destruct (flow_idle _ _ H2) as (-> & Eo & _). cbn [outreplies flat_map reply_of].
      match goal with Hk : n_keep _ = false |- _ => rewrite Hk end. fold (outreplies l). rewrite Eo.
      apply at_idle in Hs as (_ & _ & -> & _). 
      match goal with Hp : owes _ _ |- _ => destruct Hp as [Hp|Hp]; try discriminate; injection Hp as Hp end. subst. eexists. reflexivity.
    + destruct (IH (or_intror eq_refl) Hs Hc) as (rows & E). exists rows. exact E.
    + match goal with Hp : persists _ _ |- _ => destruct Hp as [Hp|[Hp|Hp]]; discriminate end.
    + match goal with Hp : owes _ _ |- _ => destruct Hp as [Hp|Hp]; discriminate end.
    + destruct (flow_idle _ _ H2) as (-> & Eo & _). cbn [outreplies flat_map reply_of].
      match goal with Hk : n_keep _ = false |- _ => rewrite Hk end. fold (outreplies l). rewrite Eo.
      apply at_idle in Hs as (_ & _ & -> & _). eexists. reflexivity.
Qed.

(** ** Nobody is waited for in vain *)

Lemma situated_moves mo (s : wst U) late owed p : situated late mo s owed p -> mo <> MIdle -> (forall t, mo <> MReady t) ->
  exists s', wstep true s = Some s'.
Proof.
  intros H N1 N2. unfold WorkerModel.wstep.
  assert (Hr : waiting (s_comm s) <> [] -> exists o q, comm_recv (s_comm s) = Some (o, q)) by apply recv_some.
  destruct H as [s H1 H2 H3|m k fs d s H1 H2 H3 H4|m k fs d s H1 H0 H2 H3 H4|k u s H1 H2 H3 H4|m k rows u s H1 H2 H3 H4 H5
    |m k rows u s H1 H2 H3 H4 H5|m k rows u k2 fs d s H1 H2 H3 H4 H5 H6 H7|m k k2 g fs d s H1 H2 H3 H4 H5 H6 H7|k rows u s H1 H2 H3 H4]; rewrite H1.
  - congruence.
  - destruct Hr as (o & q & ->); [|eauto]. rewrite H4. cbn. destruct (k_rows k); discriminate.
  - destruct Hr as (o & q & ->); [|eauto]. rewrite H4. discriminate.
  - pose proof (mn_single_step _ _ _ _ _ _ MN u H3) as Hu. destruct (ustep u) as [u'|v st keep u'|bl g|g|r|] eqn:Eu; try contradiction; eauto.
    rewrite andb_true_r. destruct (comm_mail kd (s_comm s)) eqn:Em; [|eauto].
    unfold comm_mail, waiting in *. destruct kd, (q_buf (s_comm s)), (q_in (s_comm s)); discriminate.
  - pose proof (mn_owing_step _ _ _ _ _ _ MN u H3) as Hu. destruct (ustep u) as [u'|v st keep u'|bl g|g|r|] eqn:Eu; try contradiction; eauto.
  - destruct H4 as [-> | ->]; [now destruct (N2 (k_tag k))|].
    pose proof (mn_ready_step _ _ _ _ _ _ MN u H3) as Hu. destruct (ustep u) as [u'|v st keep u'|bl g|g|r|] eqn:Eu; try contradiction; eauto.
    destruct (negb bl && negb (comm_mail kd (s_comm s) && true)); [eauto|]. destruct Hr as (o & q & ->); [|eauto]. rewrite H5. discriminate.
  - pose proof (mn_ready_step _ _ _ _ _ _ MN u H3) as Hu. destruct (ustep u) as [u'|v st keep u'|bl g|g|r|] eqn:Eu; try contradiction; eauto.
    destruct (negb bl && negb (comm_mail kd (s_comm s) && true)); [eauto|]. destruct Hr as (o & q & ->); [|eauto]. rewrite H7. discriminate.
  - destruct Hr as (o & q & ->); [|eauto]. rewrite H7. discriminate.
  - pose proof (mn_ending_step _ _ _ _ _ _ MN u H3) as Hu. destruct (ustep u) as [u'|v st keep u'|bl g|g|r|] eqn:Eu; try contradiction; eauto.
    destruct (negb bl && negb (comm_mail kd (s_comm s) && true)); [eauto|]. destruct Hr as (o & q & ->); [|eauto]. rewrite H4. discriminate.
Qed.

End Inv.
