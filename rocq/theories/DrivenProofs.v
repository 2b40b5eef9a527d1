(** Proofs about runs driven by an allocation function. *)
From Coq Require Import Permutation.
From Verif Require Import Base BaseLemmas HistoryModel HistorySpec HistoryProofs HistoryInv HistoryInv2 HistoryRun RsetModel RsetSpec WorkModel SchedModel SchedSpec AllocModel AllocSpec AllocProofs AllocFacts AllocFast AllocPersis ManagerModel ManagerSpec ManagerProofs ManagerMsg ManagerRun ManagerInv ManagerFinal ManagerEnd ManagerRes DrivenModel DrivenSpec.

(** ** A driven run is a run *)

Lemma driven_main {S} (A : alloc_fn S) c vs : forall s m, exists its,
  main_loop c its m = driven_loop A c vs s m /\ forall it, In it its -> exists v, In v vs /\ it_msgs it = v_msgs v /\ it_elapsed it = v_elapsed v /\ it_elapsed2 it = v_elapsed2 v.
Proof.
  induction vs as [|v vs IH]; intros s m.
  - exists []. split; auto. intros it [].
  - cbn [driven_loop]. destruct (turn_of A c v s m) as [it s'] eqn:ET. unfold turn_of in ET.
    destruct (A v s _) as [out s1] in ET. injection ET as <- <-.
    set (it := mkIt _ _ _ _ _). destruct (iterate c it m) as [m1 x] eqn:E.
    destruct x as [| |e].
    + destruct (IH s1 m1) as (its & I1 & I2). exists (it :: its). split; [cbn [main_loop]; now rewrite E|].
      intros i [<-|Hi]; [exists v; cbn; auto|]. destruct (I2 i Hi) as (v' & ? & ?). exists v'. split; [now right|auto].
    + exists [it]. split; [cbn [main_loop]; now rewrite E|]. intros i [<-|[]]. exists v; cbn; auto.
    + exists [it]. split; [cbn [main_loop]; now rewrite E|]. intros i [<-|[]]. exists v; cbn; auto.
Qed.

Lemma driven_run_is_run {S} (A : alloc_fn S) c vs s t rounds m : exists its,
  run c its t rounds m = driven_run A c vs s t rounds m /\
  forall it, In it its -> exists v, In v vs /\ it_msgs it = v_msgs v /\ it_elapsed it = v_elapsed v /\ it_elapsed2 it = v_elapsed2 v.
Proof.
  destruct (driven_main A c vs s m) as (its & E & H). exists its. split; auto. unfold run, driven_run. now rewrite E.
Qed.

Lemma driven_cases {S} (A : alloc_fn S) c vs s t rounds m m' o : driven_run A c vs s t rounds m = (m', o) ->
  exists m1 x, driven_loop A c vs s m = (m1, x) /\
    ((x = CGo /\ m' = m1 /\ o = Running) \/
     (x <> CGo /\ exists f, final_phase c t rounds m1 = (m', f) /\
        o = match f with FWait => Running | FExc e => Raised e | FDone g => match x with CExc e => Raised e | _ => Returned g end end)).
Proof.
  unfold driven_run. destruct (driven_loop A c vs s m) as [m1 x] eqn:EM. intros H. exists m1, x. split; auto.
  destruct x as [| |e].
  - injection H as <- <-. auto.
  - right. split; [discriminate|]. destruct (final_phase c t rounds m1) as [m2 f]. exists f. destruct f; injection H as <- <-; auto.
  - right. split; [discriminate|]. destruct (final_phase c t rounds m1) as [m2 f]. exists f. destruct f; injection H as <- <-; auto.
Qed.

(** ** Induction over driven runs *)

Definition edited (m : mgr) (out : aout) : mgr := set_h m (alloc_edit (fun i r => nth i (o_rows out) r) (m_h m)).
Definition stamped (v : surr) (wk : wdict) : list (nat * work * Z) := map (fun p => (p, v_times v (fst p))) wk.

Section Ind.
Context {S : Type}.
Variables (A : alloc_fn S) (c : mcfg) (J : S -> mgr -> Prop) (L : mgr -> Prop) (V : surr -> Prop) (M : nat -> imsg -> Prop).
Hypothesis HL : forall s m, J s m -> L m.
Hypothesis HM : forall v w i t, V v -> In (w, i, t) (v_msgs v) -> M w i.
Hypothesis Hkill : forall s m m' e, J s m -> kill_cancelled c m = (m', e) -> L m' /\ (e = None -> J s m').
Hypothesis Hpoll : forall s w i t m m' e, J s m -> M w i -> poll c (w, i, t) m = (m', e) -> L m' /\ (e = None -> J s m').
Hypothesis Halloc : forall s s' v m out, J s m -> V v -> A v s m = (out, s') ->
  L (edited m out) /\ (o_err out = None -> o_flag out <> 0 -> J s' (edited m out)) /\
  (o_err out = None -> o_flag out = 0 -> forall m2 e, give_orders c (stamped v (o_work out)) (edited m out) = (m2, e) -> L m2 /\ (e = None -> J s' m2)).

Lemma driven_receive s msgs : (forall w i t, In (w, i, t) msgs -> M w i) -> forall m m' e, J s m -> receive c msgs m = (m', e) -> L m' /\ (e = None -> J s m').
Proof.
  unfold receive. induction msgs as [|[[w i] t] msgs IH]; intros Hm m m' e HJ; cbn [foldx].
  - intros [= <- <-]. split; eauto.
  - assert (M w i) by (eapply Hm; left; reflexivity).
    destruct (poll c (w, i, t) m) as [m1 [e1|]] eqn:E; cbn [bindx].
    + intros [= <- <-]. eapply Hpoll in E as [E _]; eauto. split; [auto|discriminate].
    + apply IH. { intros; eapply Hm; right; eauto. } eapply Hpoll in E as [_ E]; eauto.
Qed.

Lemma driven_ind vs : Forall V vs -> forall s m m' x, J s m -> driven_loop A c vs s m = (m', x) ->
  L m' /\ ((forall e, x <> CExc e) -> exists s', J s' m').
Proof.
  induction 1 as [|v vs Hv Hvs IH]; intros s m m' x HJ; cbn [driven_loop].
  { intros [= <- <-]. split; eauto. }
  destruct (turn_of A c v s m) as [it s'] eqn:ET. unfold turn_of in ET.
  destruct (iterate c it m) as [m1 y] eqn:EI.
  assert (G : L m1 /\ (y = CGo -> J s' m1) /\ ((forall e, y <> CExc e) -> exists s1, J s1 m1)).
  { destruct (bindx (kill_cancelled c m) (receive c (v_msgs v))) as [m0 e0] eqn:E0. cbn [fst] in ET.
    destruct (A v s m0) as [out s0] eqn:EA. injection ET as <- <-. revert EI. unfold iterate. cbn [it_elapsed it_msgs it_alloc it_elapsed2].
    destruct (term_test c (v_elapsed v) m) as [[|n]|e1].
    2:{ intros [= <- <-]. split; [eauto|]. split; [discriminate|eauto]. }
    2:{ intros [= <- <-]. split; [eauto|]. split; [discriminate|]. intros H. destruct (H e1); auto. }
    rewrite E0. destruct (kill_cancelled c m) as [mk [ek|]] eqn:EK; cbn [bindx] in E0.
    { injection E0 as <- <-. intros [= <- <-]. eapply Hkill in EK as [EK _]; eauto. split; [auto|]. split; [discriminate|]. intros H. destruct (H ek); auto. }
    eapply Hkill in EK as [_ EK]; eauto. specialize (EK eq_refl).
    eapply driven_receive in E0 as [E1 E2]; eauto.
    destruct e0 as [e0|]. { intros [= <- <-]. split; [auto|]. split; [discriminate|]. intros H. destruct (H e0); auto. }
    specialize (E2 eq_refl). destruct (Halloc s s0 v m0 out E2 Hv EA) as (A1 & A2 & A3).
    unfold alloc_work. cbn [it_edit it_alloc]. change (set_h m0 (alloc_edit (fun i r => nth i (o_rows out) r) (m_h m0))) with (edited m0 out).
    unfold result_of. destruct (o_err out) as [eo|].
    { intros [= <- <-]. split; [auto|]. split; [discriminate|]. intros H. destruct (H eo); auto. }
    destruct (Nat.eqb_spec (o_flag out) 0) as [Ef|Ef].
    - destruct (_ && _). { intros [= <- <-]. split; [auto|]. split; [discriminate|]. intros H. destruct (H EAssert); auto. }
      fold (stamped v (o_work out)). destruct (give_orders c (stamped v (o_work out)) (edited m0 out)) as [m3 e3] eqn:EG.
      destruct (A3 eq_refl Ef m3 e3 eq_refl) as [B1 B2].
      destruct e3 as [e3|]. { intros [= <- <-]. split; [auto|]. split; [discriminate|]. intros H. destruct (H e3); auto. }
      specialize (B2 eq_refl). destruct (term_test c (v_elapsed2 v) m3) as [[|n]|e4].
      + destruct (any_active m3); intros [= <- <-]; (split; [auto|]); (split; [auto|]); [intros _; eauto|intros H; destruct (H EAssert); auto]; discriminate.
      + intros [= <- <-]. split; [auto|]. split; [auto|]. eauto.
      + intros [= <- <-]. split; [auto|]. split; [discriminate|]. intros H. destruct (H e4); auto.
    - destruct (_ && _). { intros [= <- <-]. split; [auto|]. split; [discriminate|]. intros H. destruct (H EAssert); auto. }
      intros [= <- <-]. split; [auto|]. split; [discriminate|]. eauto. }
  destruct G as (G1 & G2 & G3). destruct y as [| |e].
  - apply IH. auto.
  - intros [= <- <-]. split; auto.
  - intros [= <- <-]. split; auto.
Qed.
End Ind.

(** ** The points in the traffic *)

Lemma points_sent_app a b : points_sent (a ++ b) = points_sent a ++ points_sent b.
Proof. induction a as [|e a IH]; auto. cbn. destruct e as [w o|w i]; auto. destruct o; auto. rewrite IH. now rewrite app_assoc. Qed.
Lemma points_sent_quiet l : Forall (fun e => ~ is_order e) l -> points_sent l = [].
Proof.
  induction 1 as [|e l H]; auto. cbn. destruct e as [w o|w i]; auto. destruct o; auto.
  cbn in H. destruct (k_tag k =? EVAL_SIM) eqn:E; auto. apply Nat.eqb_eq in E. destruct H. rewrite E. discriminate.
Qed.
Lemma points_sent_ext m m' : ext (fun e => ~ is_order e) m m' -> points_sent (m_log m') = points_sent (m_log m).
Proof. intros (l & -> & H). now rewrite points_sent_app, (points_sent_quiet l), app_nil_r. Qed.
Lemma order_points_sent v k l : order_msgs v k l -> points_sent l = if k_tag k =? EVAL_SIM then k_rows k else [].
Proof. intros [->|(d & ->)]; cbn; now rewrite app_nil_r. Qed.

Lemma sim_rows_cons p wk : sim_rows (p :: wk) = (if k_tag (snd p) =? EVAL_SIM then k_rows (snd p) else []) ++ sim_rows wk.
Proof. unfold sim_rows, sims. cbn [filter]. now destruct (k_tag (snd p) =? EVAL_SIM). Qed.

(** the orders given are a first part of the orders returned *)
Lemma orders_points c v wk : forall m m' e, table_ok c m -> give_orders c (stamped v wk) m = (m', e) ->
  table_ok c m' /\ exists rest, points_sent (m_log m) ++ sim_rows wk = points_sent (m_log m') ++ rest.
Proof.
  induction wk as [|[w k] wk IH]; intros m m' e T; cbn [stamped map give_orders].
  - intros [= <- <-]. split; auto. exists []. reflexivity.
  - destruct (sim_max_given c m). { intros [= <- <-]. split; auto. exists (sim_rows ((w, k) :: wk)). auto. }
    destruct (give_order c (v_times v w) w k m) as [m1 e1] eqn:E. cbn [fst]. rewrite E.
    pose proof E as E'. apply give_order_spec in E' as (_ & _ & _ & T1 & _ & Hl & _); auto.
    rewrite sim_rows_cons. cbn [snd].
    assert (Hp : forall l k' r0, m_log m1 = m_log m ++ l -> as_sent k k' -> order_msgs (w_id r0) k' l ->
                 points_sent (m_log m1) = points_sent (m_log m) ++ (if k_tag k =? EVAL_SIM then k_rows k else [])).
    { intros l k' r0 El Hk Ho. rewrite El, points_sent_app. f_equal.
      rewrite (order_points_sent _ _ _ Ho). apply as_sent_same in Hk as (K1 & _ & K2 & _). now rewrite K1, K2. }
    destruct e1 as [e1|]; cbn [bindx].
    + intros [= <- <-]. split; auto. destruct Hl as [->|(r0 & k' & l & _ & Hk & Ho & El & _)]; [eexists; reflexivity|].
      rewrite (Hp l k' r0 El Hk Ho). eexists. rewrite <- app_assoc. reflexivity.
    + intros EG. apply IH in EG as (T' & rest & HR); auto. split; auto. exists rest.
      apply give_log in E as (r0 & k' & l & _ & Hk & _ & _ & _ & _ & El & Ho & _); auto.
      rewrite app_assoc, <- (Hp l k' r0 El Hk Ho). exact HR.
Qed.
