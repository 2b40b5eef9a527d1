(** Shutdown: who is told to finish, when, and what has been recorded by then. *)
From Verif Require Import Base BaseLemmas HistoryModel HistorySpec HistoryProofs HistoryInv HistoryInv2 HistoryRun HistoryRun2 RsetModel RsetSpec WorkModel ManagerModel ManagerSpec ManagerProofs ManagerMsg ManagerRun ManagerInv.

Lemma existsb_false {A} (p : A -> bool) l : existsb p l = false <-> forall x, In x l -> p x = false.
Proof.
  split.
  - intros H x Hx. destruct (p x) eqn:E; auto. assert (existsb p l = true) by (apply existsb_exists; eauto). congruence.
  - intros H. destruct (existsb p l) eqn:E; auto. apply existsb_exists in E as (x&Hx&E). rewrite H in E; auto.
Qed.

Lemma any_active_false m : any_active m = false <-> forall r, In r (m_W m) -> w_active r = 0.
Proof.
  unfold any_active. rewrite existsb_false. split; intros H r Hr; specialize (H r Hr).
  - apply negb_false_iff, Nat.eqb_eq in H. auto.
  - now rewrite H.
Qed.
Lemma any_persis_false m : any_persis m = false <-> forall r, In r (m_W m) -> w_persis r = 0.
Proof.
  unfold any_persis. rewrite existsb_false. split; intros H r Hr; specialize (H r Hr).
  - apply negb_false_iff, Nat.eqb_eq in H. auto.
  - now rewrite H.
Qed.

Lemma term_wall c el m : term_test c el m = Ok 2 -> wall_passed c el.
Proof.
  unfold term_test, wall_passed. destruct (c_wall c) as [x|].
  - destruct (x <=? el)%Z eqn:E. { intros _. exists x. split; auto. now apply Z.leb_le. }
    intros H. exfalso. revert H.
    destruct (match c_sim_max c with Some _ => _ | None => _ end); [discriminate|].
    destruct (match c_gen_max c with Some _ => _ | None => _ end); [discriminate|].
    destruct (c_stop c) as [[key v]|]; [|discriminate]. unfold stop_val_hit. destruct (has _ _); [|discriminate].
    cbn. destruct (existsb _ _); discriminate.
  - intros H. exfalso. revert H.
    destruct (match c_sim_max c with Some _ => _ | None => _ end); [discriminate|].
    destruct (match c_gen_max c with Some _ => _ | None => _ end); [discriminate|].
    destruct (c_stop c) as [[key v]|]; [|discriminate]. unfold stop_val_hit. destruct (has _ _); [|discriminate].
    cbn. destruct (existsb _ _); discriminate.
Qed.

(** how the waiting loop ends *)
Definition loop_end (c : mcfg) (rounds : list (list (nat * imsg * Z) * Z)) (f : nat) (m : mgr) : Prop :=
  (f = 0 /\ any_active m = false /\ any_persis m = false) \/
  (f = 2 /\ any_persis m = false /\ exists msgs el, In (msgs, el) rounds /\ wall_passed c el) \/
  (f = 1 /\ m_exc m = true).

Lemma final_loop_end c rounds0 rounds : (forall x, In x rounds -> In x rounds0) ->
  forall flag m m' f, final_loop c rounds flag m = (m', FDone f) ->
  (flag = 0 \/ loop_end c rounds0 flag m) -> loop_end c rounds0 f m'.
Proof.
  assert (base : forall flag m m' f, (any_active m || any_persis m) && (flag =? 0) = false ->
     (m, FDone flag) = (m', FDone f) -> (flag = 0 \/ loop_end c rounds0 flag m) -> loop_end c rounds0 f m').
  { intros flag m m' f E [= <- <-] [->|H]; auto. left. cbn in E. rewrite andb_true_r in E. apply orb_false_iff in E. auto. }
  induction rounds as [|[msgs el] rounds IH]; intros Hsub flag m m' f; cbn [final_loop].
  - destruct (_ && _) eqn:E; [discriminate|]. now apply base.
  - destruct (_ && _) eqn:E; [|now apply base]. intros H _. apply andb_true_iff in E as [_ E]. apply Nat.eqb_eq in E. subst flag.
    destruct (receive c msgs m) as [m1 [e1|]]; [discriminate|].
    destruct (term_test c el m1) as [r|e2] eqn:ET; [|discriminate].
    apply IH in H; auto.
    { intros x Hx. apply Hsub. now right. }
    destruct (m_exc m1) eqn:EX. { right. right. right. auto. }
    destruct ((r =? 2) && negb (any_persis m1)) eqn:E2; [|left; auto]. apply andb_true_iff in E2 as [E2 E3].
    apply Nat.eqb_eq in E2. subst r. apply negb_true_iff in E3. apply term_wall in ET.
    right. right. left. repeat split; auto. exists msgs, el. split; auto. apply Hsub. now left.
Qed.

(** ** Induction over runs that return *)
Section Returned.
Variables (c : mcfg) (J : mgr -> Prop) (P : nat -> work -> Prop) (M : nat -> imsg -> Prop).
Hypothesis HT : forall m, J m -> table_ok c m.
Hypothesis Hkill : forall m m', J m -> kill_cancelled c m = (m', None) -> J m'.
Hypothesis Hpoll : forall w i t m m', J m -> M w i -> poll c (w, i, t) m = (m', None) -> J m'.
Hypothesis Hedit : forall ed m, J m -> let m' := set_h m (alloc_edit ed (m_h m)) in
  (h_safe (m_h m) = true -> all_same_protected (trim_H (m_h m)) (trim_H (m_h m')) = true) -> J m'.
Hypothesis Hgive : forall t w k m m', J m -> P w k -> sim_max_given c m = false -> give_order c t w k m = (m', None) -> J m'.
Hypothesis Hstop : forall t w m m', J m -> (exists r, In r (m_W m) /\ w_id r = w /\ w_persis r <> 0) ->
  stop_persistent c t w m = (m', None) -> J m'.

Let LTrue : mgr -> Prop := fun _ => True.

Lemma main_ok its m m' s : msgs_ok M its -> orders_ok P its -> J m -> main_loop c its m = (m', s) ->
  (forall e, s <> CExc e) -> J m'.
Proof.
  intros HM HP HJ E. eapply (main_ind c J LTrue P M) in E as [_ E]; auto; unfold LTrue; try (intros; exact I).
  - intros a a' e Ha H. split; [exact I|]. intros ->. eauto.
  - intros w i t a a' e Ha Hm H. split; [exact I|]. intros ->. eauto.
  - intros ed a Ha. cbn zeta. split; [exact I|]. exact (Hedit ed a Ha).
  - intros t w k a a' e Ha Hk Hg H. split; [exact I|]. intros ->. eauto.
Qed.

Lemma stops_ok t m m' : J m -> stop_all_persistent c t m = (m', None) -> J m'.
Proof.
  intros HJ E. eapply (stop_all_ind c J LTrue) in E as [_ E]; auto; unfold LTrue; try (intros; exact I).
  - intros t0 w a a' e Ha H1 H. split; [exact I|]. intros ->. eauto.
Qed.

Lemma waits_ok rounds flag m m' s : rounds_ok M rounds -> J m -> final_loop c rounds flag m = (m', s) ->
  (forall e, s <> FExc e) -> J m'.
Proof.
  intros HM HJ E. eapply (final_loop_ind c J LTrue M) in E as [_ E]; auto; unfold LTrue; try (intros; exact I).
  - intros w i t a a' e Ha Hm H. split; [exact I|]. intros ->. eauto.
Qed.

Lemma returned_ind its t rounds m m' f : msgs_ok M its -> orders_ok P its -> rounds_ok M rounds -> J m ->
  run c its t rounds m = (m', Returned f) ->
  exists m0 m1 m2, main_loop c its m = (m0, CStop) /\ J m0 /\ stop_all_persistent c t m0 = (m1, None) /\ J m1 /\
    final_loop c rounds 0 m1 = (m2, FDone f) /\ J m2 /\ m' = kill_workers m2 /\ loop_end c rounds f m2.
Proof.
  intros HM HP HR HJ E. apply run_cases in E as (m0&s&E1&[(_&_&E2)|(Hs&g&E2&E3)]); [discriminate|].
  destruct g as [|g|e]; try discriminate. destruct s as [| |e]; try discriminate; [congruence|]. injection E3 as <-.
  unfold final_phase in E2. destruct (stop_all_persistent c t m0) as [m1 [e|]] eqn:ES; [discriminate|].
  destruct (final_loop c rounds 0 m1) as [m2 s] eqn:EF. destruct s as [|g'|e]; try discriminate. injection E2 as <- <-.
  assert (J0 : J m0) by (eapply main_ok; eauto; discriminate).
  assert (J1 : J m1) by (eapply stops_ok; eauto).
  exists m0, m1, m2. repeat (split; [assumption || reflexivity|]).
  split; [eapply waits_ok; eauto; discriminate|]. split; auto.
  eapply final_loop_end; eauto.
Qed.
End Returned.

(** ** FINISH signals *)

Lemma no_finish_app a b : no_finish (a ++ b) <-> no_finish a /\ no_finish b.
Proof.
  unfold no_finish. split.
  - intros H. split; intros e He; apply H, in_or_app; auto.
  - intros [H1 H2] e He. apply in_app_iff in He as [He|He]; auto.
Qed.
Lemma no_error_app a b : no_error (a ++ b) <-> no_error a /\ no_error b.
Proof.
  unfold no_error. split.
  - intros H. split; intros w He; apply (H w), in_or_app; auto.
  - intros [H1 H2] w He. apply in_app_iff in He as [He|He]; [eapply H1|eapply H2]; eauto.
Qed.

Definition quiet2 (l : list event) : Prop := no_finish l /\ no_error l.
Lemma quiet2_app a b : quiet2 (a ++ b) <-> quiet2 a /\ quiet2 b.
Proof. unfold quiet2. rewrite no_finish_app, no_error_app. tauto. Qed.
Lemma quiet2_all l : (forall e, In e l -> ~ is_finish e /\ forall w, e <> Got w IErr) -> quiet2 l.
Proof. intros H. split; [intros e He; now apply H|]. intros w He. apply H in He as [_ He]. now apply (He w). Qed.

Definition before (ids : list nat) (m : mgr) : Prop := m_exc m = false /\ quiet2 (m_log m).
Definition after_err (ids : list nat) (m : mgr) : Prop := m_exc m = true /\
  exists l0 w i l1, m_log m = l0 ++ Got w i :: finishes ids ++ l1 /\ failure i /\ quiet2 l0 /\ no_finish l1.
Definition F_inv c ids (m : mgr) : Prop := table_ok c m /\ map w_id (m_W m) = ids /\ (before ids m \/ after_err ids m).
Definition F_ok c ids (m : mgr) : Prop := table_ok c m /\ map w_id (m_W m) = ids /\ before ids m.

Lemma after_err_app ids m m' l : m_exc m' = m_exc m -> m_log m' = m_log m ++ l -> no_finish l -> after_err ids m -> after_err ids m'.
Proof.
  intros E1 E2 Hl (H1&l0&w&i&l1&H2&HF&H3&H4). split; [congruence|]. exists l0, w, i, (l1 ++ l). rewrite E2, H2.
  split; [rewrite <- !app_assoc; cbn; now rewrite <- !app_assoc|]. split; auto. split; auto. now apply no_finish_app.
Qed.

Lemma F_poll c ids w i t m m' e : F_inv c ids m -> poll c (w, i, t) m = (m', e) ->
  F_inv c ids m' /\ (e = None -> F_ok c ids m -> F_ok c ids m').
Proof.
  intros (T&I&H) E. pose proof (poll_table _ _ _ _ _ T E) as (T'&I').
  apply poll_spec in E as [(_&->&->)|(r0&_&_&_&_&_&E&_)]; auto.
  { split; [split; auto|auto]. }
  destruct E as [(E1&E2&E3)|(E0&E1&E2&E3&E4)].
  - split.
    + split; auto. split; [congruence|]. destruct H as [H|H].
      * left. destruct H as (H1&H2). split; [congruence|]. rewrite E1. apply quiet2_app. split; auto.
        apply quiet2_all. intros x [<-|[]]. split; [intros (v&Hv); discriminate|]. intros v [= <- ->]. rewrite E3 in H1; auto. discriminate.
      * right. eapply after_err_app; eauto. intros x [<-|[]] (v&Hv). discriminate.
    + intros _ (_&_&H1&H2). split; auto. split; [congruence|]. split; [congruence|]. rewrite E1. apply quiet2_app. split; auto.
      apply quiet2_all. intros x [<-|[]]. split; [intros (v&Hv); discriminate|]. intros v [= <- ->]. rewrite E3 in H1; auto. discriminate.
  - split; [|congruence]. split; auto. split; [congruence|]. right. split; auto. exists (m_log m), w, i, []. rewrite app_nil_r.
    split; [congruence|]. split; [exact E4|]. split; [|intros ? []]. destruct H as [H|H]; [apply H|]. destruct H as (H&_). congruence.
Qed.

Lemma F_quiet c ids m m' l : F_inv c ids m -> table_ok c m' -> map w_id (m_W m') = map w_id (m_W m) -> m_exc m' = m_exc m ->
  m_log m' = m_log m ++ l -> quiet2 l -> F_inv c ids m' /\ (F_ok c ids m -> F_ok c ids m').
Proof.
  intros (T&I&H) T' I' X E Q. split.
  - split; auto. split; [congruence|]. destruct H as [(H1&H2)|H].
    + left. split; [congruence|]. rewrite E. apply quiet2_app. auto.
    + right. eapply after_err_app; eauto. apply Q.
  - intros (_&_&H1&H2). split; auto. split; [congruence|]. split; [congruence|]. rewrite E. apply quiet2_app. auto.
Qed.

Lemma F_kill c ids m m' e : F_inv c ids m -> kill_cancelled c m = (m', e) -> F_inv c ids m' /\ (F_ok c ids m -> F_ok c ids m').
Proof.
  intros HF E. apply kill_cancelled_spec in E as ((E1&_&E2&_)&(l&E3&E4)&_). eapply F_quiet; eauto.
  - unfold table_ok in *. rewrite E1. apply HF.
  - now rewrite E1.
  - rewrite Forall_forall in E4. apply quiet2_all. intros x Hx. apply E4 in Hx as (w&_&->).
    split; [intros (v&[= _ Hv])|]; discriminate.
Qed.

Lemma F_stop c ids t w m m' e : F_inv c ids m -> stop_persistent c t w m = (m', e) -> F_inv c ids m' /\ (F_ok c ids m -> F_ok c ids m').
Proof.
  intros HF E. apply stop_persistent_spec in E as (E1&E2&E3&_&(l&E4&E5)&_); [|apply HF]. eapply F_quiet; eauto.
  rewrite Forall_forall in E5. apply quiet2_all. intros x Hx. apply E5 in Hx as (v&_&[->|[(k&Hk&->)|(fs&d&->)]]);
    (split; [intros (v'&Hv)|]; discriminate).
Qed.

Lemma F_give c ids t w k m m' e : F_inv c ids m -> give_order c t w k m = (m', e) -> F_inv c ids m' /\ (F_ok c ids m -> F_ok c ids m').
Proof.
  intros HF E. apply give_order_spec in E as (E1&_&_&E2&E3&E4&_); [|apply HF].
  assert (exists l, m_log m' = m_log m ++ l /\ quiet2 l) as (l&L1&L2).
  { destruct E4 as [->|(r0&k'&l&_&_&[->|(d&->)]&->&_)].
    - exists []. rewrite app_nil_r. split; auto. apply quiet2_all. intros x [].
    - eexists. split; [reflexivity|]. apply quiet2_all. intros x [<-|[]]. split; [intros (v&Hv)|]; discriminate.
    - eexists. split; [reflexivity|]. apply quiet2_all. intros x [<-|[<-|[]]]; (split; [intros (v&Hv)|]; discriminate). }
  eapply F_quiet; eauto.
Qed.

Lemma F_ok_inv c ids m : F_ok c ids m -> F_inv c ids m.
Proof. intros (H1&H2&H3). split; auto. Qed.

Lemma run_trace c its t rounds m m' o ids : F_ok c ids m -> run c its t rounds m = (m', o) ->
  (exists l, m_log m' = l /\ no_finish l /\ no_error l /\ forall f, o <> Returned f) \/
  (exists l, m_log m' = l ++ finishes ids /\ no_finish l /\ no_error l) \/
  (error_trace ids (m_log m') /\ forall f, o <> Returned f).
Proof.
  intros HF E. apply run_cases in E as (m0&s&E1&E2).
  assert (A : F_inv c ids m0 /\ ((forall e, s <> CExc e) -> F_ok c ids m0)).
  { eapply (main_ind c (F_ok c ids) (F_inv c ids) (fun _ _ => True) (fun _ _ => True)) in E1; auto.
    - apply F_ok_inv.
    - intros a a' e Ha H. pose proof (F_ok_inv _ _ _ Ha) as Hb. eapply F_kill in H as [H1 H2]; eauto.
    - intros w i tt a a' e Ha _ H. pose proof (F_ok_inv _ _ _ Ha) as Hb. eapply F_poll in H as [H1 H2]; eauto.
    - intros ed a Ha. cbn zeta. split; [apply F_ok_inv|intros _]; exact Ha.
    - intros tt w k a a' e Ha _ _ H. pose proof (F_ok_inv _ _ _ Ha) as Hb. eapply F_give in H as [H1 H2]; eauto.
    - red; auto.
    - red; auto. }
  destruct A as [A1 A2].
  assert (Step : forall a, F_inv c ids a -> (exists l, m_log a = l /\ no_finish l /\ no_error l) \/ error_trace ids (m_log a)).
  { intros a (_&_&[(_&Q)|(_&l0&w&i&l1&H1&HF1&H2&H3)]); [left|right].
    - exists (m_log a). split; auto.
    - exists l0, w, i, l1. destruct H2. auto 8. }
  destruct E2 as [(->&->&->)|(Hs&f&E2&->)].
  { destruct (Step m0 A1) as [(l&H1&H2&H3)|H].
    - left. exists l. repeat split; auto. discriminate.
    - right. right. split; auto. discriminate. }
  unfold final_phase in E2. destruct (stop_all_persistent c t m0) as [m1 e1] eqn:ES.
  assert (B : F_inv c ids m1 /\ (e1 = None -> F_ok c ids m0 -> F_ok c ids m1)).
  { split.
    - eapply (stop_all_ind c (F_inv c ids) (F_inv c ids)) in ES as [ES _]; auto.
      + intros a Ha. apply Ha.
      + intros tt w a a' e Ha _ H. eapply F_stop in H as [H1 H2]; eauto.
    - intros -> HF0. eapply (stop_all_ind c (F_ok c ids) (F_inv c ids)) in ES as [_ ES]; auto.
      + intros a Ha. apply Ha.
      + apply F_ok_inv.
      + intros tt w a a' e Ha _ H. pose proof (F_ok_inv _ _ _ Ha). eapply F_stop in H as [H1 H2]; eauto. }
  destruct B as [B1 B2]. destruct e1 as [e1|].
  { injection E2 as <- <-. destruct (Step m1 B1) as [(l&H1&H2&H3)|H].
    - left. exists l. repeat split; auto. discriminate.
    - right. right. split; auto. discriminate. }
  destruct (final_loop c rounds 0 m1) as [m2 g] eqn:EF.
  assert (C : F_inv c ids m2 /\ ((forall e, g <> FExc e) -> F_ok c ids m1 -> F_ok c ids m2)).
  { split.
    - eapply (final_loop_ind c (F_inv c ids) (F_inv c ids) (fun _ _ => True)) in EF as [EF _]; auto.
      + intros w i tt a a' e Ha _ H. eapply F_poll in H as [H1 H2]; eauto.
      + red; auto.
    - intros Hg HF0. eapply (final_loop_ind c (F_ok c ids) (F_inv c ids) (fun _ _ => True)) in EF as [_ EF]; auto.
      + apply F_ok_inv.
      + intros w i tt a a' e Ha _ H. pose proof (F_ok_inv _ _ _ Ha) as Hb. eapply F_poll in H as [H1 H2]; eauto.
      + red; auto. }
  destruct C as [C1 C2].
  destruct g as [|g|e].
  - injection E2 as <- <-. destruct (Step m2 C1) as [(l&H1&H2&H3)|H].
    + left. exists l. repeat split; auto. discriminate.
    + right. right. split; auto. discriminate.
  - injection E2 as <- <-. pose proof (kill_workers_spec m2) as (K1&_).
    assert (I2 : map w_id (m_W m2) = ids) by apply C1. rewrite I2 in K1. rewrite K1.
    destruct s as [| |e]; [congruence| |].
    + right. left. exists (m_log m2). assert (F_ok c ids m2) as (_&_&_&Q).
      { apply C2; [discriminate|]. apply B2; auto. apply A2. discriminate. }
      destruct Q. auto.
    + destruct C1 as (_&_&[(_&Q)|(_&l0&w&i&l1&H1&HF1&H2&H3)]).
      * right. left. exists (m_log m2). destruct Q. auto.
      * right. right. split; [|discriminate]. exists l0, w, i, (l1 ++ finishes ids). rewrite H1.
        split; [rewrite <- !app_assoc; cbn; now rewrite <- !app_assoc|]. destruct H2. split; auto. split; auto. split; auto. right. eauto.
  - injection E2 as <- <-. destruct (Step m2 C1) as [(l&H1&H2&H3)|H].
    + left. exists l. repeat split; auto. discriminate.
    + right. right. split; auto. discriminate.
Qed.

Lemma init_F c h n zeros gens rm pin : F_ok c (worker_ids c n) (init_manager c h n zeros gens rm pin).
Proof.
  split; [apply init_table|]. split.
  - cbn. unfold init_workers, worker_ids. rewrite map_map. apply map_id.
  - split; auto. apply quiet2_all. intros e [].
Qed.
