(** Proofs about tasks, launches and the polling loop. *)
From Verif Require Import Base ExecutorModel ExecutorSpec.
Local Open Scope Z_scope.

(** ** Timers *)
Lemma tm_run_intervals l : forall t, tm_cum (fold_left (fun t e => tm_do e t) (intervals l) t) = tm_cum t + lengths l /\
  (l <> [] \/ tm_on t = false -> tm_on (fold_left (fun t e => tm_do e t) (intervals l) t) = false).
Proof.
  induction l as [|[a b] l IH]; intros t.
  - cbn. split; [lia|]. intros [H|H]; [now destruct H|exact H].
  - destruct (IH (tm_stop b (tm_begin a t))) as [H1 H2].
    change (intervals ((a, b) :: l)) with (TStart a :: TStop b :: intervals l). cbn [fold_left tm_do].
    split; [rewrite H1; cbn [lengths fold_right fst snd tm_cum tm_stop tm_begin tm_start]; unfold lengths; lia|]. intros _. apply H2. now right.
Qed.

(** ** The invariant of tasks *)
Definition good (t : task) : Prop :=
  (t_finished t = true -> final_state t) /\ (t_finished t = false -> open_state t) /\
  (t_dry t = true -> (t_state t = Created \/ t_state t = Finished) /\ t_proc t = None /\ t_total t = None).
Lemma good_fin t : good t -> t_finished t = true -> final_state t. Proof. intros H. apply H. Qed.
Lemma good_open t : good t -> t_finished t = false -> open_state t. Proof. intros H. apply H. Qed.

Lemma calc_timing_same now t : t_state (calc_timing now t) = t_state t /\ t_proc (calc_timing now t) = t_proc t /\
  t_errcode (calc_timing now t) = t_errcode t /\ t_finished (calc_timing now t) = t_finished t /\ t_success (calc_timing now t) = t_success t /\
  t_dry (calc_timing now t) = t_dry t /\ t_gpus (calc_timing now t) = t_gpus t /\ t_attempts (calc_timing now t) = t_attempts t /\
  t_submit (calc_timing now t) = t_submit t.
Proof. unfold calc_timing. destruct (t_submit t) eqn:E, (t_total t); cbn; auto 10. Qed.

Definition ends_with (rc : Z) : tstate := match rc with 0 => Finished | _ => Failed end.

Lemma complete_spec now t p rc : t_proc t = Some p -> p_rc p = Some rc -> t_dry t = false ->
  let t' := set_complete now t in
  t_finished t' = true /\ t_state t' = ends_with rc /\ t_errcode t' = Some rc /\ t_success t' = (rc =? 0) /\ t_proc t' = Some p /\
  t_dry t' = false /\ t_gpus t' = t_gpus t /\ t_attempts t' = t_attempts t.
Proof.
  intros Hp Hr Hd. unfold set_complete. rewrite Hd, Hp, Hr. cbn.
  destruct (calc_timing_same now t) as (_ & E1 & _ & _ & _ & E2 & E3 & E4 & _). rewrite E1, E2, E3, E4.
  destruct rc; cbn; auto 10.
Qed.

Lemma complete_dry now t : t_dry t = true -> set_complete now t = set_ended Finished (t_errcode t) true t.
Proof. intros Hd. unfold set_complete. now rewrite Hd. Qed.

Lemma poll_cases now obs t t' e : good t -> poll now obs t = (t', e) ->
  (t_dry t = true /\ t' = set_complete now t /\ e = None) \/
  (t_dry t = false /\ t_proc t = None /\ t' = t /\ e = Some (EOther 0)) \/
  (exists p, t_dry t = false /\ t_proc t = Some p /\ t_finished t = true /\ t' = t /\ e = None) \/
  (exists p, t_dry t = false /\ t_proc t = Some p /\ t_finished t = false /\ obs = None /\ e = None /\
     t' = set_runtime (tm_elapsed now (t_timer t)) (set_state Running (set_proc (Some p) t))) \/
  (exists p rc, t_dry t = false /\ t_proc t = Some p /\ t_finished t = false /\ obs = Some rc /\ e = None /\
     t' = set_complete now (set_proc (Some (mkProc (Some rc) (p_sig p))) t)).
Proof.
  intros Hg E. unfold poll in E. destruct (t_dry t) eqn:Ed; [left; injection E as <- <-; auto|right].
  destruct (t_proc t) as [p|] eqn:Ep; [|left; injection E as <- <-; auto]. right.
  destruct (t_finished t) eqn:Ef; [left; exists p; injection E as <- <-; auto 8|right].
  apply good_open in Hg; [|exact Ef]. destruct Hg as (Hs & Hsu & He & Hx & Ht).
  unfold exit_code in Hx. rewrite Ep in Hx. unfold proc_poll in E. rewrite Hx in E. cbn [p_rc] in E.
  destruct obs as [rc|]; injection E as <- <-.
  - right. exists p, rc. auto 8.
  - left. exists p. destruct p as [r s]. cbn in Hx. subst r. auto 8.
Qed.

Lemma signals_proc t p : t_proc t = Some p -> signals t = p_sig p.
Proof. unfold signals. now intros ->. Qed.

Lemma completed_good now t p rc : t_proc t = Some p -> p_rc p = Some rc -> t_dry t = false -> good (set_complete now t).
Proof.
  intros Hp Hr Hd. destruct (complete_spec now t p rc Hp Hr Hd) as (A1 & A2 & A3 & A4 & A5 & A6 & _). split; [intros _|split; congruence].
  unfold final_state, exit_code. rewrite A2, A3, A4, A5, Hr. destruct rc; cbn; [auto|split; [reflexivity|]; eexists; split; [|split; reflexivity]; discriminate..].
Qed.

Lemma dry_good now t : good t -> t_dry t = true -> good (set_complete now t) /\ t_proc (set_complete now t) = None /\ t_proc t = None.
Proof.
  intros Hg Hd. destruct Hg as (_ & _ & H). destruct (H Hd) as (_ & Hp & Ht). rewrite (complete_dry now t Hd).
  split; [|split; [exact Hp|exact Hp]]. split; [intros _|split; [discriminate|]].
  - unfold final_state. cbn. auto.
  - intros _. cbn. auto.
Qed.

Lemma poll_good now obs t t' e : good t -> poll now obs t = (t', e) -> good t' /\ t_dry t' = t_dry t /\
  (t_proc t = None <-> t_proc t' = None) /\ signals t' = signals t /\ t_gpus t' = t_gpus t /\ t_attempts t' = t_attempts t /\
  (t_finished t = true -> t_dry t = false -> t' = t).
Proof.
  intros Hg E.
  destruct (poll_cases _ _ _ _ _ Hg E) as [(Hd & -> & ->)|[(Hd & Hp & -> & ->)|[(p & Hd & Hp & Hf & -> & ->)|[(p & Hd & Hp & Hf & -> & -> & ->)|(p & rc & Hd & Hp & Hf & -> & -> & ->)]]]].
  - destruct (dry_good now t Hg Hd) as (A & B & C). split; [exact A|]. rewrite (complete_dry now t Hd) in *. cbn in *. unfold signals. cbn. rewrite C.
    repeat split; auto. congruence.
  - split; [exact Hg|]. rewrite Hp. repeat split; auto.
  - split; [exact Hg|]. rewrite Hp. repeat split; auto.
  - assert (Ho := good_open _ Hg Hf). destruct Ho as (O1 & O2 & O3 & O4 & O5). split.
    + split; [cbn; congruence|split; [|cbn; congruence]]. intros _. unfold open_state, exit_code in *. cbn. rewrite Hp in O4. auto 8.
    + unfold signals. cbn. rewrite Hp. repeat split; auto; congruence.
  - set (t1 := set_proc (Some (mkProc (Some rc) (p_sig p))) t).
    destruct (complete_spec now t1 (mkProc (Some rc) (p_sig p)) rc) as (A1 & A2 & A3 & A4 & A5 & A6 & A7 & A8); auto.
    split; [eapply completed_good; [reflexivity|reflexivity|exact Hd]|]. rewrite A5, A6, A7, A8. rewrite (signals_proc _ _ A5), (signals_proc _ _ Hp).
    repeat split; auto; try congruence.
Qed.

(** ** Calls *)
Lemma wait_good now tmo obs t t' e : good t -> wait now tmo obs t = Some (t', e) -> good t' /\ t_dry t' = t_dry t /\ signals t' = signals t /\
  (t_finished t = true -> t_dry t = false -> t' = t).
Proof.
  intros Hg E. unfold wait in E. destruct (t_dry t) eqn:Ed.
  - injection E as <- <-. destruct (dry_good now t Hg Ed) as (A & B & C). split; [exact A|]. rewrite (complete_dry now t Ed) in *. cbn in *. unfold signals. cbn. rewrite C.
    repeat split; auto. congruence.
  - destruct (t_proc t) as [p|] eqn:Ep; [|injection E as <- <-; auto].
    destruct (t_finished t) eqn:Ef; [injection E as <- <-; auto|].
    assert (Ho := good_open _ Hg Ef). destruct Ho as (O1 & O2 & O3 & O4 & O5). unfold exit_code in O4. rewrite Ep in O4.
    unfold proc_poll in E. rewrite O4 in E. cbn [p_rc] in E. destruct obs as [rc|].
    + injection E as <- <-. set (t1 := set_proc (Some (mkProc (Some rc) (p_sig p))) t).
      destruct (complete_spec now t1 (mkProc (Some rc) (p_sig p)) rc) as (A1 & A2 & A3 & A4 & A5 & A6 & A7 & A8); auto.
      split; [eapply completed_good; [reflexivity|reflexivity|exact Ed]|]. rewrite A6, (signals_proc _ _ A5), (signals_proc _ _ Ep).
      repeat split; auto. discriminate.
    + destruct tmo; [|discriminate]. injection E as <- <-. split.
      * split; [cbn; congruence|split; [|cbn; congruence]]. intros _. unfold open_state, exit_code in *. cbn. auto 8.
      * unfold signals. cbn. rewrite Ep. repeat split; auto; congruence.
Qed.

Lemma cancel_ended tmo g f p p' : cancel tmo g f p = Some p' -> p_rc p' <> None.
Proof.
  unfold cancel. set (p1 := match tmo with Some x => if 0 <? x then send_signal SigTerm p else p | None => p end).
  destruct (p_rc (proc_poll g p1)) eqn:E1.
  - intros H. injection H as <-. congruence.
  - destruct tmo; [|discriminate]. destruct (p_rc (proc_poll f (send_signal SigKill (proc_poll g p1)))) eqn:E2; [|discriminate].
    intros H. injection H as <-. congruence.
Qed.

Lemma kill_cases now obs w later g f t t' e : good t -> kill now obs w later g f t = Some (t', e) ->
  (exists e0, poll now obs t = (t', e0) /\ e = e0 /\ (e0 <> None \/ t_finished t' = true)) \/
  (exists t1 p p', poll now obs t = (t1, None) /\ t_finished t1 = false /\ t_dry t1 = false /\ t_proc t1 = Some p /\ cancel w g f p = Some p' /\ e = None /\
     t' = calc_timing later (set_ended UserKilled (t_errcode t1) (t_success t1) (set_proc (Some p') t1))).
Proof.
  intros Hg E. unfold kill in E. destruct (poll now obs t) as [t1 [e0|]] eqn:Ep.
  - injection E as <- <-. left. exists (Some e0). split; [reflexivity|]. split; [reflexivity|]. left; discriminate.
  - destruct (t_dry t1 || t_finished t1) eqn:Eb.
    + injection E as <- <-. left. exists None. split; [reflexivity|]. split; [reflexivity|]. right.
      destruct (t_finished t1) eqn:Ef; [reflexivity|]. rewrite orb_false_r in Eb.
      destruct (poll_good _ _ _ _ _ Hg Ep) as (_ & Hd & _). rewrite Hd in Eb. unfold poll in Ep. rewrite Eb in Ep. injection Ep as <-.
      rewrite (complete_dry now t Eb) in Ef. discriminate.
    + apply orb_false_iff in Eb as [Eb1 Eb2]. destruct (t_proc t1) as [p|] eqn:Epr.
      * destruct (cancel w g f p) as [p'|] eqn:Ec; [|discriminate]. injection E as <- <-. right. exists t1, p, p'. auto 8.
      * injection E as <- <-. exfalso. destruct (poll_good _ _ _ _ _ Hg Ep) as (_ & Hd & Hn & _). rewrite Hd in Eb1.
        unfold poll in Ep. rewrite Eb1 in Ep. rewrite (proj2 Hn Epr) in Ep. discriminate.
Qed.

Lemma killed_good later t p' : t_dry t = false -> t_success t = false -> t_errcode t = None -> p_rc p' <> None ->
  good (calc_timing later (set_ended UserKilled (t_errcode t) (t_success t) (set_proc (Some p') t))).
Proof.
  intros Hd Hs He Hp. set (t2 := set_ended _ _ _ _). destruct (calc_timing_same later t2) as (A1 & A2 & A3 & A4 & A5 & A6 & _).
  split; [intros _|split; [rewrite A4; discriminate|rewrite A6; cbn; congruence]]. unfold final_state, exit_code. rewrite A1, A2, A3, A5. cbn. auto.
Qed.

Lemma kill_good now obs w later g f t t' e : good t -> kill now obs w later g f t = Some (t', e) -> good t' /\ t_dry t' = t_dry t /\
  (t_finished t = true -> t_dry t = false -> t' = t).
Proof.
  intros Hg E. destruct (kill_cases _ _ _ _ _ _ _ _ _ Hg E) as [(e0 & Ep & _)|(t1 & p & p' & Ep & Hf & Hd & Hp & Hc & -> & ->)].
  - destruct (poll_good _ _ _ _ _ Hg Ep) as (A & B & _ & _ & _ & _ & D). auto.
  - destruct (poll_good _ _ _ _ _ Hg Ep) as (A & B & _ & _ & _ & _ & D).
    destruct (good_open _ A Hf) as (_ & O2 & O3 & _). split; [apply killed_good; auto; eapply cancel_ended; eauto|]. split.
    + match goal with |- t_dry (calc_timing later ?x) = _ => destruct (calc_timing_same later x) as (_ & _ & _ & _ & _ & -> & _) end. exact B.
    + intros H1 H2. rewrite (D H1 H2) in Hf. congruence.
Qed.

Lemma call_good x t t' e : good t -> do_call x t = Some (t', e) -> good t' /\ t_dry t' = t_dry t /\ (t_finished t = true -> t' = t).
Proof.
  intros Hg E. assert (Hdry : t_finished t = true -> t_dry t = true -> forall now, set_complete now t = t).
  { intros Hf Hd now. rewrite complete_dry by exact Hd. assert (H := good_fin _ Hg Hf). unfold final_state in H.
    destruct t as [s p ec fi su sb rt tt tm dr gp at_]. unfold set_ended. cbn in *. subst.
    destruct Hg as (_ & _ & Hg). destruct (Hg eq_refl) as ([Hs|Hs] & _); cbn in Hs; subst s; [contradiction|]. destruct H as (-> & _). reflexivity. }
  assert (Hsame : t_finished t = true -> (t_finished t = true -> t_dry t = false -> t' = t) -> (t_dry t = true -> exists now, t' = set_complete now t) -> t' = t).
  { intros Hf H1 H2. destruct (t_dry t) eqn:Ed; [|auto]. destruct (H2 eq_refl) as (now & ->). auto. }
  destruct x as [now obs|now tmo obs|now obs w later g f]; cbn in E.
  - injection E as E. destruct (poll_good _ _ _ _ _ Hg E) as (A & B & _ & _ & _ & _ & D). split; [exact A|]. split; [exact B|]. intros Hf.
    apply Hsame; auto. intros Hd. exists now. unfold poll in E. rewrite Hd in E. congruence.
  - destruct (wait_good _ _ _ _ _ _ Hg E) as (A & B & _ & D). split; [exact A|]. split; [exact B|]. intros Hf.
    apply Hsame; auto. intros Hd. exists now. unfold wait in E. rewrite Hd in E. congruence.
  - destruct (kill_good _ _ _ _ _ _ _ _ _ Hg E) as (A & B & D). split; [exact A|]. split; [exact B|]. intros Hf.
    apply Hsame; auto. intros Hd. exists now. unfold kill, poll in E. rewrite Hd in E. rewrite (complete_dry now t Hd) in E. cbn in E. rewrite Hd in E. cbn in E.
    rewrite (complete_dry now t Hd). congruence.
Qed.

Lemma calls_good t l t' : good t -> calls t l t' -> good t' /\ t_dry t' = t_dry t.
Proof.
  intros Hg H. induction H as [t|t x t1 e l t2 E _ IH]; [auto|]. destruct (call_good _ _ _ _ Hg E) as (A & B & _).
  destruct (IH A) as (C & D). split; [exact C|congruence].
Qed.

Lemma calls_final t l t' : good t -> calls t l t' -> t_finished t = true -> t' = t.
Proof.
  intros Hg H. induction H as [t|t x t1 e l t2 E _ IH]; intros Hf; [auto|]. destruct (call_good _ _ _ _ Hg E) as (A & B & C).
  assert (E1 : t1 = t) by auto. subst t1. apply IH; auto.
Qed.

(** signals are sent by kill only *)
Lemma call_signals x t t' e : good t -> do_call x t = Some (t', e) ->
  signals t' = signals t \/ exists now obs w later g f, x = CKill now obs w later g f /\ t_finished t = false.
Proof.
  intros Hg E. destruct x as [now obs|now tmo obs|now obs w later g f]; cbn in E.
  - left. injection E as E. now destruct (poll_good _ _ _ _ _ Hg E) as (_ & _ & _ & D & _).
  - left. now destruct (wait_good _ _ _ _ _ _ Hg E) as (_ & _ & D & _).
  - destruct (kill_cases _ _ _ _ _ _ _ _ _ Hg E) as [(e0 & Ep & _)|(t1 & p & p' & Ep & Hf & Hd & Hp & Hc & -> & ->)].
    + left. now destruct (poll_good _ _ _ _ _ Hg Ep) as (_ & _ & _ & D & _).
    + right. exists now, obs, w, later, g, f. split; [reflexivity|].
      destruct (t_finished t) eqn:Ef; [|reflexivity]. destruct (poll_good _ _ _ _ _ Hg Ep) as (_ & B & _ & _ & _ & _ & D).
      rewrite D in Hf; congruence.
Qed.

(** ** Launching *)

(** The status attributes, and the parts of the timer that they depend on. *)
Definition alike (t u : task) : Prop :=
  same_status t u /\ (tm_on (t_timer t) = true -> tm_start (t_timer t) = tm_start (t_timer u)).
(** with the resting timer, too *)
Definition alike_off (t u : task) : Prop := same_status t u /\ t_timer t = t_timer u.

Lemma elapsed_alike now t u : tm_on (t_timer t) = tm_on (t_timer u) -> tm_on (t_timer t) = true ->
  tm_start (t_timer t) = tm_start (t_timer u) -> tm_elapsed now (t_timer t) = tm_elapsed now (t_timer u).
Proof. intros H1 H2 H3. unfold tm_elapsed. rewrite <- H1, H2, H3. reflexivity. Qed.

Lemma calc_alike now t u : same_status t u -> (t_submit t <> None -> t_total t = None -> tm_start (t_timer t) = tm_start (t_timer u)) ->
  same_status (calc_timing now t) (calc_timing now u).
Proof.
  intros (H1 & H2 & H3 & H4 & H5 & H6 & H7 & H8 & H9 & H10) Hs. unfold calc_timing. rewrite <- H6, <- H8.
  destruct (t_submit t) eqn:E1, (t_total t) eqn:E2; unfold same_status; cbn; try (repeat split; congruence).
  unfold tm_elapsed. cbn. rewrite Hs by congruence. repeat split; congruence.
Qed.

Lemma complete_alike now t u : same_status t u -> (t_submit t <> None -> t_total t = None -> tm_start (t_timer t) = tm_start (t_timer u)) ->
  same_status (set_complete now t) (set_complete now u).
Proof.
  intros H Hs. assert (H' := H). destruct H' as (H1 & H2 & H3 & H4 & H5 & H6 & H7 & H8 & H9 & H10). unfold set_complete. rewrite <- H9, <- H2, <- H3.
  destruct (t_dry t) eqn:Ed.
  - unfold same_status. cbn. repeat split; congruence.
  - destruct (calc_alike now t u H Hs) as (G1 & G2 & G3 & G4 & G5 & G6 & G7 & G8 & G9 & G10). unfold same_status. cbn. repeat split; congruence.
Qed.

(** while the timer runs, the look at a process depends on its start only *)
Definition ticking (t u : task) : Prop :=
  same_status t u /\ t_dry t = false /\ (t_finished t = false -> tm_on (t_timer t) = true /\ tm_start (t_timer t) = tm_start (t_timer u)).

Lemma poll_ticking now obs t u : ticking t u -> ticking (fst (poll now obs t)) (fst (poll now obs u)).
Proof.
  intros (H & Hd & Ht). assert (H' := H). destruct H' as (H1 & H2 & H3 & H4 & H5 & H6 & H7 & H8 & H9 & H10). unfold poll. rewrite <- H9, <- H2, <- H4, Hd.
  destruct (t_proc t) as [p|] eqn:Ep; [|cbn; unfold ticking; auto].
  destruct (t_finished t) eqn:Ef; [cbn; unfold ticking; rewrite Ef; auto|]. destruct (Ht eq_refl) as (Ht1 & Ht2).
  destruct (p_rc (proc_poll obs p)) as [rc|]; cbn.
  - split; [|split].
    + apply complete_alike; [unfold same_status; cbn; repeat split; congruence|]. cbn. auto.
    + unfold set_complete. cbn. rewrite Hd. cbn. match goal with |- t_dry (calc_timing ?a ?x) = _ => destruct (calc_timing_same a x) as (_ & _ & _ & _ & _ & -> & _) end. exact Hd.
    + intros Hc. exfalso. unfold set_complete in Hc. cbn in Hc. rewrite Hd in Hc. cbn in Hc. discriminate.
  - split; [|split; [exact Hd|auto]]. unfold same_status. cbn. rewrite (elapsed_alike now t u) by congruence. repeat split; congruence.
Qed.

Lemma poll_resting now obs t u : alike_off t u -> alike_off (fst (poll now obs t)) (fst (poll now obs u)).
Proof.
  intros (H & Ht). assert (H' := H). destruct H' as (H1 & H2 & H3 & H4 & H5 & H6 & H7 & H8 & H9 & H10). unfold poll. rewrite <- H9, <- H2, <- H4.
  destruct (t_dry t) eqn:Ed.
  { cbn. split; [apply complete_alike; auto; congruence|]. unfold set_complete. rewrite <- H9, Ed. exact Ht. }
  destruct (t_proc t) as [p|] eqn:Ep; [|split; auto].
  destruct (t_finished t) eqn:Ef; [split; auto|].
  destruct (p_rc (proc_poll obs p)) as [rc|]; cbn.
  - split; [apply complete_alike; [unfold same_status; cbn; repeat split; congruence|cbn; congruence]|].
    unfold set_complete. cbn. rewrite <- H9, Ed. cbn. unfold calc_timing. cbn. rewrite <- H6, <- H8. destruct (t_submit t), (t_total t); cbn; congruence.
  - split; [|exact Ht]. unfold same_status. cbn. rewrite Ht. repeat split; congruence.
Qed.

Lemma started_ticking l : forall t u, ticking t u ->
  match wait_started l t, wait_started l u with
  | Some (t', r), Some (u', r') => ticking t' u' /\ r = r'
  | None, None => True
  | _, _ => False
  end.
Proof.
  induction l as [|x l IH]; intros t u H; cbn; assert (E : t_state t = t_state u) by apply H; rewrite <- E; destruct (not_started (t_state t)); auto.
  apply IH. now apply poll_ticking.
Qed.

Lemma good_ended t : good t -> t_finished t = true -> ended (t_state t) = true.
Proof. intros H Hf. apply good_fin in H; [|exact Hf]. unfold final_state in H. destruct (t_state t); auto; contradiction. Qed.

Lemma poll_keeps_good now obs t : good t -> good (fst (poll now obs t)).
Proof. intros H. destruct (poll now obs t) as [t1 e] eqn:E. now destruct (poll_good _ _ _ _ _ H E). Qed.

Lemma watch_ticking ft l : forall rem rem' t u, ticking t u -> good t -> ended (t_state t) = true \/ rem = rem' ->
  match watch ft rem l t, watch ft rem' l u with Some t', Some u' => ticking t' u' | None, None => True | _, _ => False end.
Proof.
  induction l as [|x l IH]; intros rem rem' t u H Hg Hr; cbn; assert (E : t_state t = t_state u) by apply H; rewrite <- E.
  - destruct Hr as [-> | ->]; [cbn; auto|]. destruct (negb _ && _); auto.
  - destruct (ended (t_state t)) eqn:Ee; [cbn; auto|]. destruct Hr as [Hr|<-]; [discriminate|]. cbn [negb andb].
    destruct (0 <? rem); [|auto]. set (t1 := fst (poll (lk_now x) (lk_obs x) t)). set (u1 := fst (poll (lk_now x) (lk_obs x) u)).
    assert (H1 : ticking t1 u1) by (now apply poll_ticking). assert (Hg1 : good t1) by (now apply poll_keeps_good).
    apply IH; auto. destruct (t_finished t1) eqn:Ef; [left; now apply good_ended|right].
    destruct H1 as (Hs & _ & Ht). destruct (Ht Ef) as (Ht1 & Ht2). f_equal. apply elapsed_alike; auto. apply Hs.
Qed.

Lemma wos_ticking t0 t1 t2 ft l t u : same_status t u -> t_dry t = false -> good t ->
  match wait_on_start t0 t1 t2 ft l t, wait_on_start t0 t1 t2 ft l u with Some t', Some u' => ticking t' u' | None, None => True | _, _ => False end.
Proof.
  intros H Hd Hg. unfold wait_on_start.
  set (a := set_submit (Some t0) (tm_begin t0 (t_timer t)) t). set (b := set_submit (Some t0) (tm_begin t0 (t_timer u)) u).
  assert (Hab : ticking a b).
  { destruct H as (H1 & H2 & H3 & H4 & H5 & H6 & H7 & H8 & H9 & H10). split; [unfold same_status; cbn; repeat split; congruence|]. split; [exact Hd|]. cbn. auto. }
  assert (Hga : good a).
  { destruct Hg as (G1 & G2 & G3). unfold good, a, final_state, open_state, exit_code in *. cbn. auto. }
  assert (Hgr : forall l x y r, good x -> wait_started l x = Some (y, r) -> good y).
  { clear. induction l as [|k l IH]; intros x y r Hx; cbn; destruct (not_started (t_state x)); try discriminate; try (intros E; injection E as <- <-; exact Hx).
    apply IH. now apply poll_keeps_good. }
  generalize (started_ticking l a b Hab). destruct (wait_started l a) as [[a' r]|] eqn:Ea, (wait_started l b) as [[b' r']|]; [|contradiction|contradiction|auto]. intros (Hab' & <-).
  assert (Hg' : good a') by (eapply Hgr; eauto).
  assert (Ef : t_finished a' = t_finished b') by apply Hab'. rewrite <- Ef. destruct (t_finished a') eqn:Efa; [exact Hab'|].
  set (c := set_submit (Some t1) (tm_begin t1 (t_timer a')) a'). set (d := set_submit (Some t1) (tm_begin t1 (t_timer b')) b').
  assert (Hcd : ticking c d).
  { destruct Hab' as ((H1 & H2 & H3 & H4 & H5 & H6 & H7 & H8 & H9 & H10) & Hd' & _). split; [unfold same_status; cbn; repeat split; congruence|]. split; [exact Hd'|]. cbn. auto. }
  destruct (ft =? 0); [exact Hcd|]. apply watch_ticking; [exact Hcd| |right; reflexivity].
  destruct Hg' as (G1 & G2 & G3). unfold good, c, final_state, open_state, exit_code in *. cbn. auto.
Qed.

(** a task that is about to be launched *)
Definition ready (wait : bool) (t : task) : Prop :=
  t_state t = Created /\ t_proc t = None /\ t_errcode t = None /\ t_finished t = false /\ t_success t = false /\ t_submit t = None /\
  t_runtime t = 0 /\ t_total t = None /\ t_dry t = false /\ tm_on (t_timer t) = false /\ (wait = false -> t_timer t = new_timer).

Lemma ready_new wait gpus : ready wait (new_task false gpus).
Proof. unfold ready. cbn. auto 15. Qed.

Lemma ready_same wait t u : ready wait t -> ready wait u -> same_status t u.
Proof. unfold ready, same_status. intros (A1 & A2 & A3 & A4 & A5 & A6 & A7 & A8 & A9 & A10 & _) (B1 & B2 & B3 & B4 & B5 & B6 & B7 & B8 & B9 & B10 & _). repeat split; congruence. Qed.

Lemma ready_good wait t : ready wait t -> good t.
Proof.
  intros (A1 & A2 & A3 & A4 & A5 & A6 & A7 & A8 & A9 & A10 & _). split; [congruence|split; [|congruence]]. intros _.
  unfold open_state, exit_code. rewrite A1, A2. auto 8.
Qed.

Lemma proc_ready_good wait t : ready wait t -> good (set_proc (Some new_proc) (add_attempt t)).
Proof.
  intros (A1 & A2 & A3 & A4 & A5 & A6 & A7 & A8 & A9 & A10 & _). split; [cbn; congruence|split; [|cbn; congruence]]. intros _.
  unfold open_state, exit_code. cbn. auto 8.
Qed.

Lemma started_keeps l : forall x y r, good x -> wait_started l x = Some (y, r) ->
  good y /\ t_gpus y = t_gpus x /\ t_attempts y = t_attempts x /\ t_dry y = t_dry x /\ (t_proc x = None <-> t_proc y = None) /\ t_submit y = t_submit x.
Proof.
  assert (Hsub : forall now obs t, t_submit (fst (poll now obs t)) = t_submit t).
  { intros now obs t. unfold poll. destruct (t_dry t) eqn:Ed; [unfold set_complete; rewrite Ed; reflexivity|]. destruct (t_proc t); [|reflexivity].
    destruct (t_finished t); [reflexivity|]. destruct (p_rc _); [|reflexivity]. unfold set_complete. cbn [set_proc t_dry]. rewrite Ed.
    cbn. match goal with |- t_submit (calc_timing ?a ?x) = _ => destruct (calc_timing_same a x) as (_ & _ & _ & _ & _ & _ & _ & _ & ->) end. reflexivity. }
  induction l as [|k l IH]; intros x y r Hx; cbn; destruct (not_started (t_state x)); try discriminate; try (intros E; injection E as <- <-; tauto).
  intros E. destruct (poll (lk_now k) (lk_obs k) x) as [x1 e] eqn:Ep. cbn in E. destruct (poll_good _ _ _ _ _ Hx Ep) as (A & B & C & _ & D & F & _).
  assert (Hs := Hsub (lk_now k) (lk_obs k) x). rewrite Ep in Hs. cbn in Hs.
  destruct (IH _ _ _ A E) as (I1 & I2 & I3 & I4 & I5 & I6). split; [exact I1|]. split; [congruence|]. split; [congruence|]. split; [congruence|]. split; [tauto|congruence].
Qed.

Lemma watch_keeps ft l : forall rem x y, good x -> watch ft rem l x = Some y ->
  good y /\ t_gpus y = t_gpus x /\ t_attempts y = t_attempts x /\ t_dry y = t_dry x /\ (t_proc x = None <-> t_proc y = None).
Proof.
  induction l as [|k l IH]; intros rem x y Hx; cbn; destruct (negb _ && _); try discriminate; try (intros E; injection E as <-; tauto).
  intros E. destruct (poll (lk_now k) (lk_obs k) x) as [x1 e] eqn:Ep. cbn in E. destruct (poll_good _ _ _ _ _ Hx Ep) as (A & B & C & _ & D & F & _).
  destruct (IH _ _ _ A E) as (I1 & I2 & I3 & I4 & I5). split; [exact I1|]. split; [congruence|]. split; [congruence|]. split; [congruence|tauto].
Qed.

Lemma submit_good x tm t : good t -> good (set_submit x tm t).
Proof. intros (G1 & G2 & G3). unfold good, final_state, open_state, exit_code in *. cbn. auto. Qed.

Lemma wos_keeps t0 t1 t2 ft l x y : good x -> wait_on_start t0 t1 t2 ft l x = Some y ->
  good y /\ t_gpus y = t_gpus x /\ t_attempts y = t_attempts x /\ t_dry y = t_dry x /\ (t_proc x = None <-> t_proc y = None).
Proof.
  intros Hx. unfold wait_on_start. set (a := set_submit (Some t0) (tm_begin t0 (t_timer x)) x).
  assert (Ha : good a) by (now apply submit_good). destruct (wait_started l a) as [[a' r]|] eqn:E1; [|discriminate].
  destruct (started_keeps _ _ _ _ Ha E1) as (I1 & I2 & I3 & I4 & I5 & _). destruct (t_finished a').
  - intros E. injection E as <-. auto.
  - set (c := set_submit (Some t1) (tm_begin t1 (t_timer a')) a'). assert (Hc : good c) by (now apply submit_good).
    destruct (ft =? 0).
    + intros E. injection E as <-. auto.
    + intros E. destruct (watch_keeps _ _ _ _ _ Hc E) as (J1 & J2 & J3 & J4 & J5). split; [exact J1|]. split; [rewrite J2; exact I2|].
      split; [rewrite J3; exact I3|]. split; [rewrite J4; exact I4|]. cbn in *. tauto.
Qed.

(** one attempt depends only on what every fresh task has *)
Lemma try_alike wait ft a t u : ready wait t -> ready wait u ->
  match try_launch wait ft a t, try_launch wait ft a u with
  | Some t', Some u' => same_status t' u' /\ (t_finished t' = false -> tm_on (t_timer t') = true \/ t_timer t' = t_timer u')
  | None, None => True
  | _, _ => False
  end.
Proof.
  intros Ht Hu. assert (Hs := ready_same _ _ _ Ht Hu). unfold try_launch. destruct a as [|t0 t1 t2 looks now obs].
  - destruct Hs as (H1 & H2 & H3 & H4 & H5 & H6 & H7 & H8 & H9 & H10). split; [unfold same_status; cbn; repeat split; congruence|cbn; discriminate].
  - set (t' := set_proc (Some new_proc) (add_attempt t)). set (u' := set_proc (Some new_proc) (add_attempt u)).
    assert (Hs' : same_status t' u').
    { destruct Hs as (H1 & H2 & H3 & H4 & H5 & H6 & H7 & H8 & H9 & H10). unfold same_status. cbn. repeat split; congruence. }
    destruct wait.
    + assert (Hd : t_dry t' = false) by apply Ht.
      generalize (wos_ticking t0 t1 t2 ft looks t' u' Hs' Hd (proc_ready_good _ _ Ht)).
      destruct (wait_on_start t0 t1 t2 ft looks t') as [x|], (wait_on_start t0 t1 t2 ft looks u') as [y|]; [|contradiction|contradiction|auto].
      intros Hxy. apply (poll_ticking now obs) in Hxy. split; [apply Hxy|]. intros Hf. left. now apply Hxy.
    + assert (Ho : alike_off t' u').
      { split; [exact Hs'|]. cbn. destruct Ht as (_ & _ & _ & _ & _ & _ & _ & _ & _ & _ & ->); auto. destruct Hu as (_ & _ & _ & _ & _ & _ & _ & _ & _ & _ & ->); auto. }
      apply (poll_resting now obs) in Ho. destruct Ho as (A & B). split; auto.
Qed.

Definition timed (t : task) : Prop := t_submit t <> None /\ t_dry t = false /\ (t_finished t = true -> tm_on (t_timer t) = false).
Lemma poll_timed now obs t : good t -> timed t -> timed (fst (poll now obs t)).
Proof.
  intros Hg (H1 & H2 & H3). unfold poll. rewrite H2. destruct (t_proc t) as [p|]; [|unfold timed; auto].
  destruct (t_finished t) eqn:Ef; [unfold timed; auto|]. destruct (good_open _ Hg Ef) as (_ & _ & _ & _ & Ht).
  destruct (p_rc (proc_poll obs p)); [|unfold timed; cbn; repeat split; auto; congruence].
  unfold set_complete. cbn. rewrite H2. unfold calc_timing. cbn. rewrite Ht. destruct (t_submit t) eqn:Es; [|congruence]. unfold timed. cbn. rewrite Es. repeat split; auto.
Qed.

Lemma wos_timed t0 t1 t2 ft l x y : good x -> t_dry x = false -> t_finished x = false -> wait_on_start t0 t1 t2 ft l x = Some y -> timed y.
Proof.
  intros Hx Hd Hf. unfold wait_on_start. set (a := set_submit (Some t0) (tm_begin t0 (t_timer x)) x).
  assert (Ha : good a) by (now apply submit_good). assert (Ta : timed a) by (unfold timed, a; cbn; repeat split; auto; congruence).
  assert (Hw : forall l x y r, good x -> timed x -> wait_started l x = Some (y, r) -> good y /\ timed y).
  { clear. induction l as [|k l IH]; intros x y r Hx Tx; cbn; destruct (not_started (t_state x)); try discriminate; try (intros E; injection E as <- <-; auto).
    apply IH; [now apply poll_keeps_good|now apply poll_timed]. }
  assert (Hww : forall l rem x y, good x -> timed x -> watch ft rem l x = Some y -> timed y).
  { clear. induction l as [|k l IH]; intros rem x y Hx Tx; cbn; destruct (negb _ && _); try discriminate; try (intros E; injection E as <-; auto).
    apply IH; [now apply poll_keeps_good|now apply poll_timed]. }
  destruct (wait_started l a) as [[a' r]|] eqn:E1; [|discriminate]. destruct (Hw _ _ _ _ Ha Ta E1) as (Ga' & Ta').
  destruct (t_finished a') eqn:Ef; [intros E; injection E as <-; auto|].
  set (c := set_submit (Some t1) (tm_begin t1 (t_timer a')) a'). assert (Hc : good c) by (now apply submit_good).
  assert (Tc : timed c) by (unfold timed, c; cbn; repeat split; [discriminate|apply Ta'|congruence]).
  destruct (ft =? 0); [intros E; injection E as <-; auto|]. now apply Hww.
Qed.

Lemma try_facts wait ft a t t' : ready wait t -> try_launch wait ft a t = Some t' ->
  good t' /\ t_gpus t' = t_gpus t /\ t_attempts t' = S (t_attempts t) /\ t_dry t' = false /\
  (a = LRaise <-> t_state t' = FailedToStart) /\ (wants_retry a t' = true -> ready wait (reset t')).
Proof.
  intros Ht. unfold try_launch. destruct a as [|t0 t1 t2 looks now obs].
  - intros E. injection E as <-. destruct Ht as (A1 & A2 & A3 & A4 & A5 & A6 & A7 & A8 & A9 & A10 & A11).
    split; [|split; [reflexivity|split; [reflexivity|split; [exact A9|split; [split; reflexivity|]]]]].
    + split; [intros _|split; [discriminate|cbn; congruence]]. unfold final_state. cbn. auto.
    + intros _. unfold ready. cbn. auto 15.
  - assert (Hg := proc_ready_good _ _ Ht). set (x := set_proc (Some new_proc) (add_attempt t)) in *.
    assert (Hstate : forall y, good y -> t_proc y <> None -> t_state (fst (poll now obs y)) <> FailedToStart).
    { intros y Gy Py Ey. destruct (poll now obs y) as [y1 e] eqn:Ep. cbn in Ey. destruct (poll_good _ _ _ _ _ Gy Ep) as (G1 & _ & C & _).
      destruct (t_finished y1) eqn:Ef.
      - apply good_fin in G1; [|exact Ef]. unfold final_state in G1. rewrite Ey in G1. destruct G1 as (_ & _ & G1). tauto.
      - apply good_open in G1; [|exact Ef]. destruct G1 as ([G1|G1] & _); congruence. }
    destruct wait.
    + destruct (wait_on_start t0 t1 t2 ft looks x) as [y|] eqn:Ew; [|discriminate]. intros E. injection E as <-.
      destruct (wos_keeps _ _ _ _ _ _ _ Hg Ew) as (K1 & K2 & K3 & K4 & K5).
      assert (Ty : timed y) by (eapply wos_timed; [exact Hg|apply Ht|apply Ht|exact Ew]).
      assert (Ty1 := poll_timed now obs y K1 Ty). assert (Hs : t_state (fst (poll now obs y)) <> FailedToStart) by (apply Hstate; auto; rewrite <- K5; discriminate).
      destruct (poll now obs y) as [y1 e] eqn:Ep. cbn in *. destruct (poll_good _ _ _ _ _ K1 Ep) as (G1 & G2 & _ & _ & G5 & G6 & _).
      split; [exact G1|]. split; [congruence|]. split; [congruence|]. split; [rewrite G2, K4; apply Ht|]. split; [split; congruence|].
      intros Hr. unfold ready. cbn. destruct (t_state y1) eqn:Es; try discriminate.
      assert (Hfin : t_finished y1 = true).
      { destruct (t_finished y1) eqn:Ef; [reflexivity|]. apply good_open in G1; [|exact Ef]. destruct G1 as ([G1|G1] & _); congruence. }
      destruct Ty1 as (_ & T2 & T3). repeat split; auto. discriminate.
    + intros E. injection E as <-.
      assert (Hs : t_state (fst (poll now obs x)) <> FailedToStart) by (apply Hstate; auto; discriminate).
      assert (Htm : t_timer (fst (poll now obs x)) = t_timer x).
      { unfold poll. destruct Ht as (_ & _ & _ & Af & _ & As & _ & At & Ad & _). cbn. rewrite Ad. rewrite Af. destruct obs; cbn; [|reflexivity].
        unfold set_complete. cbn. rewrite Ad. unfold calc_timing. cbn. rewrite As. reflexivity. }
      destruct (poll now obs x) as [y1 e] eqn:Ep. cbn in *. destruct (poll_good _ _ _ _ _ Hg Ep) as (G1 & G2 & _ & _ & G5 & G6 & _).
      split; [exact G1|]. split; [rewrite G5; reflexivity|]. split; [rewrite G6; reflexivity|]. split; [rewrite G2; apply Ht|]. split; [split; [discriminate|congruence]|].
      intros Hr. unfold ready. cbn. rewrite Htm. destruct Ht as (_ & _ & _ & Af & _ & As & _ & At & Ad & Ao & An). repeat split; auto. rewrite G2. exact Ad.
Qed.

Lemma launch_spec wait ft : forall left l t t', ready wait t -> launch (S left) wait ft l t = Some t' ->
  exists pre a rest u, l = pre ++ a :: rest /\ (length pre <= left)%nat /\ ready wait u /\ try_launch wait ft a u = Some t' /\
    t_attempts t' = (t_attempts t + S (length pre))%nat /\ (pre = [] -> u = t) /\ (pre <> [] -> t_gpus u = 0%nat) /\
    (forall b, In b pre -> exists v v', ready wait v /\ try_launch wait ft b v = Some v' /\ wants_retry b v' = true) /\
    (wants_retry a t' = true -> length pre = left).
Proof.
  induction left as [|left IH]; intros l t t' Ht E.
  - cbn in E. destruct l as [|a l]; [discriminate|]. destruct (try_launch wait ft a t) as [t1|] eqn:Et; [|discriminate].
    rewrite andb_false_r in E. injection E as <-. exists [], a, l, t. destruct (try_facts _ _ _ _ _ Ht Et) as (_ & _ & F & _).
    cbn. split; [reflexivity|]. split; [lia|]. split; [exact Ht|]. split; [exact Et|]. split; [lia|]. split; [auto|]. split; [congruence|]. split; [intros b []|auto].
  - remember (S left) as sl. cbn in E. destruct l as [|a l]; [discriminate|]. destruct (try_launch wait ft a t) as [t1|] eqn:Et; [|discriminate].
    destruct (try_facts _ _ _ _ _ Ht Et) as (_ & _ & F & _ & _ & R).
    destruct (wants_retry a t1) eqn:Er; cbn [andb] in E.
    + replace (0 <? sl)%nat with true in E by (subst; reflexivity). subst sl.
      destruct (IH l (reset t1) t' (R eq_refl) E) as (pre & a' & rest & u & I1 & I2 & I3 & I4 & I5 & I6 & I7 & I8 & I9).
      exists (a :: pre), a', rest, u. cbn. split; [now rewrite I1|]. split; [lia|]. split; [exact I3|]. split; [exact I4|]. split; [rewrite I5; cbn; lia|].
      split; [discriminate|]. split; [|split; [|intros Hw; rewrite I9; auto]].
      * intros _. destruct pre; [rewrite I6; reflexivity|apply I7; discriminate].
      * intros b [<-|Hb]; [exists t, t1; auto|auto].
    + injection E as <-. exists [], a, l, t. cbn. split; [reflexivity|]. split; [lia|]. split; [exact Ht|]. split; [exact Et|]. split; [lia|]. split; [auto|]. split; [congruence|]. split; [intros b []|congruence].
Qed.

(** ** Submitted tasks *)
Definition clocked (t : task) : Prop :=
  t_dry t = false -> t_finished t = false -> t_proc t <> None /\ tm_on (t_timer t) = true /\ t_submit t = Some (tm_start (t_timer t)).

Lemma poll_clocked now obs t : good t -> clocked t -> clocked (fst (poll now obs t)).
Proof.
  intros Hg Hc. destruct (poll now obs t) as [t' e] eqn:E. cbn.
  destruct (poll_cases _ _ _ _ _ Hg E) as [(Hd & -> & ->)|[(Hd & Hp & -> & ->)|[(p & Hd & Hp & Hf & -> & ->)|[(p & Hd & Hp & Hf & -> & -> & ->)|(p & rc & Hd & Hp & Hf & -> & -> & ->)]]]]; auto.
  - rewrite complete_dry by exact Hd. intros H. cbn in H. congruence.
  - intros _ _. cbn. split; [discriminate|]. now apply Hc.
  - intros _ H. edestruct (complete_spec now (set_proc (Some (mkProc (Some rc) (p_sig p))) t)) as (A1 & _); [reflexivity|reflexivity|exact Hd|]. congruence.
Qed.

Lemma call_clocked x t t' e : good t -> clocked t -> do_call x t = Some (t', e) -> clocked t'.
Proof.
  intros Hg Hc E. destruct x as [now obs|now tmo obs|now obs w later g f]; cbn in E.
  - injection E as E. assert (H := poll_clocked now obs t Hg Hc). now rewrite E in H.
  - unfold wait in E. destruct (t_dry t) eqn:Ed; [injection E as <- <-; intros H; rewrite complete_dry in H by exact Ed; cbn in H; congruence|].
    destruct (t_proc t) as [p|] eqn:Ep; [|injection E as <- <-; exact Hc]. destruct (t_finished t) eqn:Ef; [injection E as <- <-; exact Hc|].
    destruct (p_rc (proc_poll obs p)) as [rc|] eqn:Er.
    + injection E as <- <-. intros _ H. edestruct (complete_spec now (set_proc (Some (proc_poll obs p)) t)) as (A1 & _); [reflexivity|exact Er|exact Ed|]. congruence.
    + destruct tmo; [|discriminate]. injection E as <- <-. intros _ _. cbn. split; [discriminate|]. now apply Hc.
  - destruct (kill_cases _ _ _ _ _ _ _ _ _ Hg E) as [(e0 & Ep & _)|(t1 & p & p' & Ep & Hf & Hd & Hp & _ & -> & ->)].
    + assert (H := poll_clocked now obs t Hg Hc). now rewrite Ep in H.
    + intros _ H. match goal with H : t_finished (calc_timing ?a ?x) = false |- _ => destruct (calc_timing_same a x) as (_ & _ & _ & A & _) end. rewrite A in H. discriminate.
Qed.

Lemma wos_clocked t0 t1 t2 ft l x y : good x -> t_proc x <> None -> wait_on_start t0 t1 t2 ft l x = Some y -> clocked y.
Proof.
  intros Hx Hp. unfold wait_on_start. set (a := set_submit (Some t0) (tm_begin t0 (t_timer x)) x).
  assert (Ha : good a) by (now apply submit_good). assert (Ca : clocked a) by (intros _ _; unfold a; cbn; auto).
  destruct (wait_started l a) as [[a' r]|] eqn:E1; [|discriminate].
  assert (Hw : forall l x y r, good x -> clocked x -> wait_started l x = Some (y, r) -> clocked y).
  { clear. induction l as [|k l IH]; intros x y r Hx Tx; cbn; destruct (not_started (t_state x)); try discriminate; try (intros E; injection E as <- <-; auto).
    apply IH; [now apply poll_keeps_good|now apply poll_clocked]. }
  assert (Hww : forall l rem x y, good x -> clocked x -> watch ft rem l x = Some y -> clocked y).
  { clear. induction l as [|k l IH]; intros rem x y Hx Tx; cbn; destruct (negb _ && _); try discriminate; try (intros E; injection E as <-; auto).
    apply IH; [now apply poll_keeps_good|now apply poll_clocked]. }
  destruct (started_keeps _ _ _ _ Ha E1) as (I1 & _ & _ & _ & I5 & _). assert (Ca' := Hw _ _ _ _ Ha Ca E1).
  destruct (t_finished a') eqn:Ef; [intros E; injection E as <-; auto|].
  set (c := set_submit (Some t1) (tm_begin t1 (t_timer a')) a'). assert (Hc : good c) by (now apply submit_good).
  assert (Cc : clocked c) by (intros _ _; unfold c; cbn; split; [cbn in I5; tauto|auto]).
  destruct (ft =? 0); [intros E; injection E as <-; auto|]. now apply Hww.
Qed.

Lemma new_good dry g : good (new_task dry g).
Proof. split; [discriminate|split; [|cbn; auto]]. intros _. unfold open_state, exit_code. cbn. auto 8. Qed.

Lemma finish_submit now t : good t -> t_dry t = false ->
  (t_finished t = false -> t_proc t <> None /\ (tm_on (t_timer t) = true -> t_submit t = Some (tm_start (t_timer t)))) ->
  let t' := if negb (tm_on (t_timer t)) && negb (t_finished t) then set_submit (Some now) (tm_begin now (t_timer t)) t else t in
  good t' /\ clocked t'.
Proof.
  intros Hg Hd Hp. cbn zeta. destruct (tm_on (t_timer t)) eqn:Eo, (t_finished t) eqn:Ef; cbn [negb andb].
  - split; [exact Hg|]. intros _ H. congruence.
  - split; [exact Hg|]. intros _ _. destruct (Hp eq_refl) as (A & B). auto.
  - split; [exact Hg|]. intros _ H. congruence.
  - split; [now apply submit_good|]. intros _ _. cbn. destruct (Hp eq_refl) as (A & B). auto.
Qed.

Lemma try_clocked wait ft a t t' : ready wait t -> try_launch wait ft a t = Some t' -> t_finished t' = false ->
  t_proc t' <> None /\ (tm_on (t_timer t') = true -> t_submit t' = Some (tm_start (t_timer t'))).
Proof.
  intros Ht E Hf. destruct (try_facts _ _ _ _ _ Ht E) as (_ & _ & _ & Hd & _). unfold try_launch in E. destruct a as [|t0 t1 t2 looks now obs].
  - injection E as <-. discriminate.
  - assert (Hg := proc_ready_good _ _ Ht). set (x := set_proc (Some new_proc) (add_attempt t)) in *. destruct wait.
    + destruct (wait_on_start t0 t1 t2 ft looks x) as [y|] eqn:Ew; [|discriminate]. injection E as <-.
      assert (Gy : good y) by (now destruct (wos_keeps _ _ _ _ _ _ _ Hg Ew)).
      assert (Cy : clocked y) by (eapply wos_clocked; [exact Hg| |exact Ew]; discriminate).
      destruct (poll_clocked now obs y Gy Cy Hd Hf) as (A & B & C). auto.
    + injection E as <-. destruct (poll now obs x) as [x1 e] eqn:Ep. cbn in *. assert (Hp : t_proc x <> None) by discriminate.
      destruct (poll_good _ _ _ _ _ Hg Ep) as (_ & _ & C & _). split; [tauto|].
      destruct (poll_cases _ _ _ _ _ Hg Ep) as [(Hd' & _)|[(_ & Hp' & _)|[(p & _ & _ & Hf' & _)|[(p & _ & _ & _ & _ & _ & ->)|(p & rc & Hd' & _ & _ & _ & _ & ->)]]]].
      * destruct Ht as (_ & _ & _ & _ & _ & _ & _ & _ & A9 & _). cbn in Hd'. congruence.
      * congruence.
      * destruct Ht as (_ & _ & _ & A4 & _). cbn in Hf'. congruence.
      * cbn. destruct Ht as (_ & _ & _ & _ & _ & _ & _ & _ & _ & A10 & _). congruence.
      * edestruct (complete_spec now (set_proc (Some (mkProc (Some rc) (p_sig p))) x)) as (A1 & _); [reflexivity|reflexivity|exact Hd'|]. congruence.
Qed.

Lemma submitted_ok t : submitted t -> good t /\ clocked t.
Proof.
  intros [(dry & gpus & n & wait & ft & l & now & E)|(dry & wait & a & now & E)].
  - unfold submit in E. destruct dry.
    + injection E as <-. split; [|intros H; rewrite complete_dry in H by reflexivity; discriminate].
      now apply dry_good; [apply new_good|].
    + destruct (launch (S n) wait ft l (new_task false gpus)) as [t1|] eqn:El; [|discriminate]. injection E as <-.
      destruct (launch_spec _ _ _ _ _ _ (ready_new wait gpus) El) as (pre & a & rest & u & _ & _ & Hu & Ht & _).
      destruct (try_facts _ _ _ _ _ Hu Ht) as (Hg & _ & _ & Hd & _).
      apply finish_submit; auto. intros Hf. eapply try_clocked; eauto.
  - unfold submit_serial in E. destruct dry.
    + injection E as <-. split; [apply new_good|discriminate].
    + destruct a as [|t0 t1 t2 looks nn obs]; [discriminate|].
      set (x := set_proc (Some new_proc) (new_task false 0)) in *.
      assert (Hg : good x). { split; [discriminate|split; [|discriminate]]. intros _. unfold open_state, exit_code. cbn. auto 8. }
      destruct wait as [f|].
      * destruct (wait_on_start t0 t1 t2 f looks x) as [y|] eqn:Ew; [|discriminate]. injection E as <-.
        destruct (wos_keeps _ _ _ _ _ _ _ Hg Ew) as (Gy & _ & _ & Dy & _).
        assert (Cy : clocked y) by (eapply wos_clocked; [exact Hg| |exact Ew]; discriminate).
        apply finish_submit; auto. intros Hf. destruct (Cy Dy Hf) as (A & B & C). auto.
      * injection E as <-. apply (finish_submit now x); auto. intros _. split; [discriminate|]. cbn. discriminate.
Qed.

Lemma calls_ok t l t' : good t /\ clocked t -> calls t l t' -> good t' /\ clocked t'.
Proof.
  intros H Hc. induction Hc as [t|t x t1 e l t2 E _ IH]; [exact H|]. destruct H as (Hg & Hk). apply IH. split.
  - now destruct (call_good _ _ _ _ Hg E).
  - eapply call_clocked; eauto.
Qed.

(** ** The polling loop *)
Lemma kill_no_raise x t t' e : good t -> (t_dry t = false -> t_proc t <> None) -> kill_in x t = Some (t', e) -> e = None /\ t_finished t' = true /\ good t'.
Proof.
  intros Hg Hp E. unfold kill_in in E. destruct (kill_good _ _ _ _ _ _ _ _ _ Hg E) as (G & _).
  destruct (kill_cases _ _ _ _ _ _ _ _ _ Hg E) as [(e0 & Ep & -> & Hor)|(t1 & p & p' & Ep & Hf & Hd & Hpr & Hc & -> & ->)].
  - assert (e0 = None).
    { destruct (poll_cases _ _ _ _ _ Hg Ep) as [(_ & _ & ->)|[(Hd & Hn & _)|[(p & _ & _ & _ & _ & ->)|[(p & _ & _ & _ & _ & -> & _)|(p & rc & _ & _ & _ & _ & -> & _)]]]]; auto.
      exfalso. now apply Hp. }
    subst e0. destruct Hor as [Hor|Hor]; [congruence|auto].
  - split; [reflexivity|]. split; [|exact G].
    match goal with |- t_finished (calc_timing ?a ?x) = _ => destruct (calc_timing_same a x) as (_ & _ & _ & A & _) end. rewrite A. reflexivity.
Qed.

Definition over (timeout : option Z) (t : task) : Prop := exists tmo, timeout = Some tmo /\ tmo < t_runtime t.

Lemma loop_spec timeout pm : forall l t r t', good t -> clocked t -> polling_loop timeout pm l t = Some (r, t') ->
  good t' /\ t_finished t' = true /\
  ((r = Some (closing_status 0 t') /\ (t_finished t = true -> t' = t) /\ (t_finished t = false -> t_state t' = Finished \/ t_state t' = Failed)) \/
   (exists x s, In x l /\ pm = true /\ ps_sig x = Some s /\ kill_signal s = true /\ r = Some s /\ t_finished t = false) \/
   (exists x tmo t1, In x l /\ timeout = Some tmo /\ t_finished t = false /\ r = Some WORKER_KILL_ON_TIMEOUT /\ tmo < t_runtime t1 /\
      ((t_dry t = true /\ t_runtime t1 = t_runtime t) \/ t_dry t = false /\ exists start, t_submit t = Some start /\ t_runtime t1 = ps_now x - start))).
Proof.
  induction l as [|x l IH]; intros t r t' Hg Hc E; cbn in E.
  - destruct (t_finished t) eqn:Ef; [|discriminate]. injection E as <- <-. split; [exact Hg|]. split; [exact Ef|]. left. split; [reflexivity|]. split; [auto|discriminate].
  - destruct (t_finished t) eqn:Ef.
    { injection E as <- <-. split; [exact Hg|]. split; [exact Ef|]. left. split; [reflexivity|]. split; [auto|discriminate]. }
    assert (Hc' := poll_clocked (ps_now x) (ps_obs x) t Hg Hc).
    destruct (poll (ps_now x) (ps_obs x) t) as [t1 e] eqn:Ep. cbn in Hc'.
    destruct (poll_good _ _ _ _ _ Hg Ep) as (G1 & D1 & P1 & _).
    assert (He : e = None).
    { destruct (poll_cases _ _ _ _ _ Hg Ep) as [(_ & _ & ->)|[(Hd & Hn & _)|[(p & _ & _ & _ & _ & ->)|[(p & _ & _ & _ & _ & -> & _)|(p & rc & _ & _ & _ & _ & -> & _)]]]]; auto.
      exfalso. now apply (Hc Hd Ef). }
    subst e.
    assert (Hproc : t_dry t1 = false -> t_proc t1 <> None). { rewrite D1. intros Hd. destruct (Hc Hd Ef) as (A & _). tauto. }
    assert (Hrt : (t_dry t = true /\ t_runtime t1 = t_runtime t) \/ t_dry t = false /\ exists start, t_submit t = Some start /\ t_runtime t1 = ps_now x - start).
    { destruct (poll_cases _ _ _ _ _ Hg Ep) as [(Hd & -> & _)|[(Hd & Hn & -> & He)|[(p & _ & _ & Hf' & _)|[(p & Hd & _ & _ & _ & _ & ->)|(p & rc & Hd & Hp & _ & _ & _ & ->)]]]]; try discriminate; try congruence.
      - left. split; [exact Hd|]. rewrite complete_dry by exact Hd. reflexivity.
      - right. split; [exact Hd|]. destruct (Hc Hd Ef) as (_ & B & C). exists (tm_start (t_timer t)). split; [exact C|]. cbn. unfold tm_elapsed. now rewrite B.
      - right. split; [exact Hd|]. destruct (Hc Hd Ef) as (_ & B & C). exists (tm_start (t_timer t)). split; [exact C|].
        unfold set_complete. cbn. rewrite Hd. unfold calc_timing. cbn. rewrite C. destruct (good_open _ Hg Ef) as (_ & _ & _ & _ & ->). reflexivity. }
    assert (Hsub : t_finished t1 = false -> t_submit t1 = t_submit t /\ t_runtime t1 = t_runtime t1).
    { intros Hf1. destruct (poll_cases _ _ _ _ _ Hg Ep) as [(Hd & -> & _)|[(Hd & Hn & -> & He)|[(p & _ & _ & Hf' & _)|[(p & Hd & _ & _ & _ & _ & ->)|(p & rc & Hd & Hp & _ & _ & _ & ->)]]]]; try discriminate; try congruence; auto.
      - rewrite complete_dry in Hf1 by exact Hd. discriminate.
      - edestruct (complete_spec (ps_now x) (set_proc (Some (mkProc (Some rc) (p_sig p))) t)) as (A1 & _); [reflexivity|reflexivity|exact Hd|]. congruence. }
    assert (Htail : polling_loop timeout pm l t1 = Some (r, t') ->
      good t' /\ t_finished t' = true /\
      ((r = Some (closing_status 0 t') /\ (false = true -> t' = t) /\ (false = false -> t_state t' = Finished \/ t_state t' = Failed)) \/
       (exists x0 s, In x0 (x :: l) /\ pm = true /\ ps_sig x0 = Some s /\ kill_signal s = true /\ r = Some s /\ false = false) \/
       (exists x0 tmo t2, In x0 (x :: l) /\ timeout = Some tmo /\ false = false /\ r = Some WORKER_KILL_ON_TIMEOUT /\ tmo < t_runtime t2 /\
          ((t_dry t = true /\ t_runtime t2 = t_runtime t) \/ t_dry t = false /\ exists start, t_submit t = Some start /\ t_runtime t2 = ps_now x0 - start)))).
    { intros El. destruct (IH t1 r t' G1 Hc' El) as (A & B & C). split; [exact A|]. split; [exact B|].
      destruct C as [(C1 & C2 & C3)|[(x0 & s & C1 & C2 & C3 & C4 & C5 & C6)|(x0 & tmo & t2 & C1 & C2 & C3 & C4 & C5 & C6)]].
      - left. split; [exact C1|]. split; [discriminate|]. intros _. destruct (t_finished t1) eqn:Ef1; [|auto]. rewrite (C2 eq_refl).
        destruct (poll_cases _ _ _ _ _ Hg Ep) as [(Hd & -> & _)|[(Hd & Hn & -> & He)|[(p & _ & _ & Hf' & _)|[(p & Hd & _ & _ & _ & _ & ->)|(p & rc & Hd & Hp & _ & _ & _ & ->)]]]]; try discriminate; try congruence.
        + left. rewrite complete_dry by exact Hd. reflexivity.
        + cbn in Ef1. congruence.
        + edestruct (complete_spec (ps_now x) (set_proc (Some (mkProc (Some rc) (p_sig p))) t)) as (_ & A2 & _); [reflexivity|reflexivity|exact Hd|].
          rewrite A2. destruct rc; cbn; auto.
      - right. left. exists x0, s. cbn. auto 10.
      - right. right. exists x0, tmo, t2. destruct (Hsub C3) as (S1 & _). rewrite D1, S1 in C6. cbn.
        repeat (split; [auto|]). destruct C6 as [(Hd & Hr)|C6]; [|right; exact C6]. left. split; [exact Hd|].
        destruct Hrt as [(_ & Hr')|(Hd' & _)]; [congruence|congruence]. }
    assert (Hover : (if match timeout with Some tmo => tmo <? t_runtime t1 | None => false end then
                       match kill_in x t1 with
                       | None => None
                       | Some (t2, None) => Some (Some (closing_status WORKER_KILL_ON_TIMEOUT t2), t2)
                       | Some (t2, Some _) => Some (None, t2)
                       end
                     else polling_loop timeout pm l t1) = Some (r, t') ->
      good t' /\ t_finished t' = true /\
      ((r = Some (closing_status 0 t') /\ (false = true -> t' = t) /\ (false = false -> t_state t' = Finished \/ t_state t' = Failed)) \/
       (exists x0 s, In x0 (x :: l) /\ pm = true /\ ps_sig x0 = Some s /\ kill_signal s = true /\ r = Some s /\ false = false) \/
       (exists x0 tmo t2, In x0 (x :: l) /\ timeout = Some tmo /\ false = false /\ r = Some WORKER_KILL_ON_TIMEOUT /\ tmo < t_runtime t2 /\
          ((t_dry t = true /\ t_runtime t2 = t_runtime t) \/ t_dry t = false /\ exists start, t_submit t = Some start /\ t_runtime t2 = ps_now x0 - start)))).
    { destruct (match timeout with Some tmo => tmo <? t_runtime t1 | None => false end) eqn:Eo; [|exact Htail].
      destruct timeout as [tmo|]; [|discriminate]. apply Z.ltb_lt in Eo.
      destruct (kill_in x t1) as [[t2 e2]|] eqn:Ek; [|discriminate]. destruct (kill_no_raise _ _ _ _ G1 Hproc Ek) as (-> & K2 & K3).
      intros E2. injection E2 as <- <-. split; [exact K3|]. split; [exact K2|]. right. right. exists x, tmo, t1. cbn. auto 10. }
    destruct (if pm then ps_sig x else None) as [s|] eqn:Es; [|exact (Hover E)].
    destruct (kill_signal s) eqn:Eks; [|exact (Hover E)].
    destruct (kill_in x t1) as [[t2 e2]|] eqn:Ek; [|discriminate]. destruct (kill_no_raise _ _ _ _ G1 Hproc Ek) as (-> & K2 & K3).
    injection E as <- <-. split; [exact K3|]. split; [exact K2|]. right. left. exists x, s. destruct pm; [|discriminate]. cbn.
    assert (Hcs : closing_status s t2 = s) by (unfold closing_status; destruct s; [discriminate|reflexivity]). rewrite Hcs. auto 10.
Qed.

(** the loop ends as soon as a look finds the process gone *)
Lemma kill_returns x t : good t -> (t_dry t = false -> t_proc t <> None) -> ps_kfinal x <> None -> kill_in x t <> None.
Proof.
  intros Hg Hp Hk. unfold kill_in, kill. destruct (poll (ps_know x) (ps_kobs x) t) as [t1 [e|]] eqn:E; [discriminate|].
  destruct (t_dry t1 || t_finished t1); [discriminate|]. destruct (t_proc t1) as [p|]; [|discriminate].
  unfold cancel. cbn [Z.ltb Z.compare]. destruct (p_rc (proc_poll _ _)); [discriminate|].
  set (q := send_signal SigKill _). unfold proc_poll at 1 2. destruct (p_rc q) eqn:Eq; [rewrite Eq; discriminate|].
  cbn. destruct (ps_kfinal x); [discriminate|congruence].
Qed.

Lemma loop_ends timeout pm l : forall t, good t -> clocked t -> (forall x, In x l -> ps_kfinal x <> None) ->
  (exists x, In x l /\ (ps_obs x <> None \/ pm = true /\ exists s, ps_sig x = Some s /\ kill_signal s = true)) -> polling_loop timeout pm l t <> None.
Proof.
  induction l as [|x l IH]; intros t Hg Hc Hk (x0 & Hin & Hx); [destruct Hin|]. cbn [polling_loop].
  destruct (t_finished t) eqn:Ef; [discriminate|].
  assert (Hc' := poll_clocked (ps_now x) (ps_obs x) t Hg Hc).
  destruct (poll (ps_now x) (ps_obs x) t) as [t1 e] eqn:Ep. cbn in Hc'. destruct (poll_good _ _ _ _ _ Hg Ep) as (G1 & D1 & P1 & _).
  destruct e; [discriminate|].
  assert (Hproc : t_dry t1 = false -> t_proc t1 <> None). { rewrite D1. intros Hd. destruct (Hc Hd Ef) as (A & _). tauto. }
  assert (Hkill : forall r : nat, match kill_in x t1 with None => None | Some (t2, None) => Some (Some (closing_status r t2), t2) | Some (t2, Some _) => Some (None, t2) end <> None).
  { intros r. destruct (kill_in x t1) as [[t2 [e2|]]|] eqn:Ek; try discriminate. exfalso. eapply kill_returns; [exact G1|exact Hproc| |exact Ek]. apply Hk. now left. }
  assert (Hrest : polling_loop timeout pm l t1 <> None \/ (pm = true /\ exists s, ps_sig x = Some s /\ kill_signal s = true)).
  { destruct Hin as [<-|Hin].
    - destruct Hx as [Hx|Hx]; [left|right; exact Hx]. destruct (ps_obs x) as [rc|] eqn:Eo; [|congruence].
      assert (Hf1 : t_finished t1 = true).
      { destruct (poll_cases _ _ _ _ _ Hg Ep) as [(Hd & -> & _)|[(Hd & Hn & -> & He)|[(p & _ & _ & Hf' & _)|[(p & Hd & _ & _ & He & _ & ->)|(p & rc' & Hd & Hp & _ & _ & _ & ->)]]]]; try discriminate; try congruence.
        - rewrite complete_dry by exact Hd. reflexivity.
        - edestruct (complete_spec (ps_now x) (set_proc (Some (mkProc (Some rc') (p_sig p))) t)) as (A1 & _); [reflexivity|reflexivity|exact Hd|exact A1]. }
      destruct l; cbn; rewrite Hf1; discriminate.
    - left. apply IH; auto. { intros y Hy. apply Hk. now right. } exists x0. auto. }
  destruct (if pm then ps_sig x else None) as [s|] eqn:Es.
  - destruct (kill_signal s) eqn:Eks; [apply Hkill|]. destruct (match timeout with Some tmo => tmo <? t_runtime t1 | None => false end); [apply Hkill|].
    destruct Hrest as [H|(-> & s' & H1 & H2)]; [exact H|]. congruence.
  - destruct (match timeout with Some tmo => tmo <? t_runtime t1 | None => false end); [apply Hkill|].
    destruct Hrest as [H|(-> & s' & H1 & H2)]; [exact H|]. congruence.
Qed.
