(** The worker reads orders and row data in matching pairs. *)
From Verif Require Import Base HistoryModel WorkModel ManagerModel CommsModel WorkerModel WorkerSpec WorkerProofs.

Section Frames.
Variable U : Type.
Variable ustart : work -> list field -> list (list val) -> U.
Variable ustep : U -> uact U.
Variable kd : kind.
Notation wstep := (wstep ustart ustep kd).
Notation wsteps := (wsteps ustart ustep kd).

Definition with_rows (x : parcel) : Prop := match x with XOrder k _ _ => k_rows k <> [] | _ => True end.
Definition signal (o : omsg) : Prop := match o with OStop _ | OPStop _ => True | _ => False end.

Lemma wires_signal o l rest : wires rest = o :: l -> signal o ->
  exists x rest', rest = x :: rest' /\ wire x = [o] /\ order_of x = [] /\ l = wires rest'.
Proof.
  destruct rest as [|[k fs d|x|x] rest]; cbn; [discriminate| | |].
  - destruct (k_rows k); cbn; intros H; injection H as <- <-; intros [].
  - intros H _; injection H as <- <-. eexists _, _. repeat split.
  - intros H _; injection H as <- <-. eexists _, _. repeat split.
Qed.

Lemma wires_work k l rest : wires rest = OWork k :: l ->
  exists fs d rest', rest = XOrder k fs d :: rest' /\
    l = match k_rows k with [] => wires rest' | _ => ORows fs d :: wires rest' end.
Proof.
  destruct rest as [|[k1 fs d|x|x] rest]; cbn; try discriminate.
  destruct (k_rows k1) eqn:E; cbn; intros H; injection H as <- <-; exists fs, d, rest; now rewrite E.
Qed.

Lemma wires_rows fs d l rest : wires rest <> ORows fs d :: l.
Proof. destruct rest as [|[k1 gs e|x|x] rest]; cbn; try discriminate. destruct (k_rows k1); discriminate. Qed.

Definition unmixed (l : list wev) : Prop := forall e, In e l -> match e with VHand (RMixed _ _) | VHand (RFinal _) => False | _ => True end.

Definition framed (items : list parcel) (s : wst U) : Prop :=
  exists done rest, items = done ++ rest /\ orders_reached (s_log s) = orders_in done /\ unmixed (s_log s) /\
  match s_place s with
  | Left => True
  | AtTop | InCalc _ _ _ => waiting (s_comm s) = wires rest /\ forall o, q_buf (s_comm s) = Some o -> signal o
  | AtRows k discard => discard = false /\ k_rows k <> [] /\ q_buf (s_comm s) = None /\
      exists fs d rest', rest = XOrder k fs d :: rest' /\ waiting (s_comm s) = ORows fs d :: wires rest'
  | InRecv _ _ k _ => k_rows k <> [] /\ q_buf (s_comm s) = None /\
      exists fs d rest', rest = XOrder k fs d :: rest' /\ waiting (s_comm s) = ORows fs d :: wires rest'
  end.

Lemma reached_app a b : orders_reached (a ++ b) = orders_reached a ++ orders_reached b.
Proof. apply flat_map_app. Qed.
Lemma orders_app a b : orders_in (a ++ b) = orders_in a ++ orders_in b.
Proof. apply flat_map_app. Qed.

Lemma unmixed_snoc l e : unmixed l -> match e with VHand (RMixed _ _) | VHand (RFinal _) => False | _ => True end -> unmixed (l ++ [e]).
Proof. intros H He x Hx. apply in_app_or in Hx as [Hx|[<-|[]]]; [exact (H _ Hx)|exact He]. Qed.

Lemma framed_left items done rest s e : items = done ++ rest -> orders_reached (s_log s) = orders_in done -> unmixed (s_log s) ->
  reached e = [] -> match e with VHand (RMixed _ _) | VHand (RFinal _) => False | _ => True end -> framed items (inform e (goto Left s)).
Proof.
  intros H1 H2 H3 H4 H5. exists done, rest. cbn. rewrite reached_app, H2. cbn. rewrite H4, !app_nil_r. repeat split; auto.
  now apply unmixed_snoc.
Qed.

Lemma snoc_done (items done rest : list parcel) x rest' : items = done ++ rest -> rest = x :: rest' -> items = (done ++ [x]) ++ rest'.
Proof. intros -> ->. now rewrite <- app_assoc. Qed.

Lemma framed_call items done rest k fs d s :
  items = done ++ rest -> orders_reached (s_log s) ++ [(k, fs, d)] = orders_in done ->
  (exists done0 rest0, items = done0 ++ rest0 /\ orders_reached (s_log s) = orders_in done0) ->
  unmixed (s_log s) -> waiting (s_comm s) = wires rest -> q_buf (s_comm s) = None ->
  framed items (call ustart k fs d s).
Proof.
  intros H1 H2 (done0 & rest0 & H3 & H4) H5 H6 H7. unfold call. destruct (_ || _).
  - exists done, rest. cbn. rewrite reached_app. cbn. repeat split; auto; [now apply unmixed_snoc|].
    rewrite H7; discriminate.
  - exact (framed_left items done0 rest0 (emit IErr s) VFail H3 H4 H5 eq_refl I).
Qed.

Lemma waiting_buf {A B} (q : comm A B) o l : q_buf q = Some o -> waiting q = l -> l = o :: q_in q.
Proof. unfold waiting. intros ->. congruence. Qed.

Lemma framed_step items b s s' : no_poll ustep -> silent ustep \/ Forall with_rows items -> Forall sendable items ->
  framed items s -> wstep b s = Some s' -> framed items s'.
Proof.
  intros Hnp Hrows Hsend (done & rest & H1 & H2 & H3 & H4) E. unfold WorkerModel.wstep in E.
  destruct (s_place s) as [|k discard|k rows u|k rows k2 c|] eqn:Ep; [| | | |discriminate].
  - destruct H4 as (Hw & Hb). destruct (comm_recv (s_comm s)) as [[o q]|] eqn:Er; [|discriminate]. injection E as <-.
    destruct (recv_waiting _ _ _ Er) as (Ew & Eb & Eo). rewrite Hw in Ew.
    assert (Hsig : signal o -> framed items (inform (VDrop o) (with_comm q s))).
    { intros Hs. destruct (wires_signal _ _ _ Ew Hs) as (x & rest' & -> & Ex & Ex' & El).
      exists (done ++ [x]), rest'. cbn. rewrite reached_app, H2, orders_app. cbn. rewrite Ex'. cbn.
      repeat split; auto; [now rewrite <- app_assoc|now apply unmixed_snoc|].
      rewrite Ep. split; [congruence|]. rewrite Eb. discriminate. }
    destruct o as [k|fs d|x|x].
    + destruct (wires_work _ _ _ Ew) as (fs & d & rest' & -> & El).
      assert (Hs : sendable (XOrder k fs d)) by (rewrite Forall_forall in Hsend; apply Hsend; rewrite H1; apply in_or_app; right; now left).
      cbn in Hs. destruct (match k_recv k with Some b0 => b0 && negb (k_persistent k) | None => false end) eqn:Ed.
      { exfalso. destruct (k_recv k) as [[]|]; try discriminate. cbn in Ed. destruct (k_persistent k); [discriminate|].
        specialize (Hs eq_refl). discriminate. }
      destruct (k_rows k) eqn:Ek.
      * eapply (framed_call items (done ++ [XOrder k fs d]) rest'); cbn [s_log s_comm with_comm]; auto.
        -- rewrite <- app_assoc. exact H1.
        -- rewrite H2, orders_app. cbn. now rewrite Ek.
        -- eauto.
      * exists done, (XOrder k fs d :: rest'). cbn. repeat split; auto; [congruence|]. exists fs, d, rest'. auto.
    + exfalso. exact (wires_rows _ _ _ _ Ew).
    + destruct (x =? SIG_FINISH).
      * exact (framed_left items done rest (with_comm q s) VEnd H1 H2 H3 eq_refl I).
      * destruct (x =? SIG_KILL); [now apply Hsig|].
        exact (framed_left items done rest (emit IErr (with_comm q s)) VFail H1 H2 H3 eq_refl I).
    + destruct (x =? SIG_FINISH).
      * exact (framed_left items done rest (with_comm q s) VEnd H1 H2 H3 eq_refl I).
      * destruct (x =? SIG_KILL); [now apply Hsig|].
        exact (framed_left items done rest (emit IErr (with_comm q s)) VFail H1 H2 H3 eq_refl I).
  - destruct H4 as (-> & Hne & Hb & fs & d & rest' & Hr & Hw).
    destruct (comm_recv (s_comm s)) as [[o q]|] eqn:Er; [|discriminate]. injection E as <-.
    destruct (recv_waiting _ _ _ Er) as (Ew & Eb & Eo). rewrite Hw in Ew. injection Ew as <- Ew.
    eapply (framed_call items (done ++ [XOrder k fs d]) rest'); cbn [s_log s_comm with_comm]; auto.
    + eapply snoc_done; eauto.
    + rewrite H2, orders_app. cbn. destruct (k_rows k); [congruence|reflexivity].
    + eauto.
  - destruct H4 as (Hw & Hb). specialize (Hnp u).
    destruct (ustep u) as [u'|v st keep u'|blocking c|c|r|] eqn:Eu; [| | |contradiction| |].
    + injection E as <-. exists done, rest. cbn. auto.
    + injection E as <-. exists done, rest. cbn. rewrite reached_app, H2. cbn. rewrite app_nil_r. repeat split; auto.
      now apply unmixed_snoc.
    + destruct Hrows as [Hrows|Hrows]; [specialize (Hrows u); now rewrite Eu in Hrows|].
      destruct (negb blocking && _).
      * injection E as <-. exists done, rest. cbn. rewrite reached_app, H2. cbn. rewrite app_nil_r. repeat split; auto.
        now apply unmixed_snoc.
      * destruct (comm_recv (s_comm s)) as [[o q]|] eqn:Er; [|discriminate]. injection E as <-.
        destruct (recv_waiting _ _ _ Er) as (Ew & Eb & Eo). rewrite Hw in Ew.
        destruct o as [k2|gs d2|x|x].
        -- destruct (wires_work _ _ _ Ew) as (fs & d & rest' & -> & El).
           assert (Hne : k_rows k2 <> []) by (rewrite Forall_forall in Hrows; apply (Hrows (XOrder k2 fs d)); rewrite H1; apply in_or_app; right; now left).
           exists done, (XOrder k2 fs d :: rest'). cbn. rewrite reached_app, H2. cbn. rewrite app_nil_r. repeat split; auto.
           ++ now apply unmixed_snoc.
           ++ exists fs, d, rest'. split; [reflexivity|]. destruct (k_rows k2); [congruence|exact El].
        -- exfalso. exact (wires_rows _ _ _ _ Ew).
        -- rewrite push_ok by exact Eb. exists done, rest. cbn. rewrite reached_app, H2. cbn. rewrite app_nil_r. repeat split; auto.
           ++ now apply unmixed_snoc.
           ++ unfold waiting in *. rewrite Eb in Ew. now rewrite Ew.
           ++ intros o Ho. injection Ho as <-. exact I.
        -- rewrite push_ok by exact Eb. exists done, rest. cbn. rewrite reached_app, H2. cbn. rewrite app_nil_r. repeat split; auto.
           ++ now apply unmixed_snoc.
           ++ unfold waiting in *. rewrite Eb in Ew. now rewrite Ew.
           ++ intros o Ho. injection Ho as <-. exact I.
    + injection E as <-. unfold returned.
      set (p := match q_buf (s_comm s) with Some o => _ | None => (s, 0) end).
      assert (Hp : exists done' rest', items = done' ++ rest' /\ orders_reached (s_log (fst p)) = orders_in done' /\
                     unmixed (s_log (fst p)) /\ waiting (s_comm (fst p)) = wires rest' /\ q_buf (s_comm (fst p)) = None).
      { subst p. unfold comm_recv. destruct (q_buf (s_comm s)) as [o|] eqn:Eb; cbn; [|exists done, rest; auto].
        assert (Ew := waiting_buf _ _ _ Eb Hw). destruct (wires_signal _ _ _ Ew (Hb _ eq_refl)) as (x & rest' & -> & Ex & Ex' & El).
        exists (done ++ [x]), rest'. rewrite reached_app, H2, orders_app. cbn. rewrite Ex'. cbn.
        repeat split; auto; [now rewrite <- app_assoc|now apply unmixed_snoc]. }
      destruct p as [s1 st0]. cbn [fst] in Hp. destruct Hp as (done' & rest' & H1' & H2' & H3' & H4' & H5').
      destruct (runner_check r) as [r'|]; [|exact (framed_left items done rest (emit IErr s) VFail H1 H2 H3 eq_refl I)].
      destruct (parse_out r' st0) as [[v st]|]; [|exact (framed_left items done' rest' (emit IErr s1) VFail H1' H2' H3' eq_refl I)].
      destruct (st =? SIG_FINISH); [exact (framed_left items done' rest' s1 VEnd H1' H2' H3' eq_refl I)|].
      exists done', rest'. cbn. rewrite reached_app, H2'. cbn. rewrite app_nil_r. repeat split; auto; [now apply unmixed_snoc|].
      rewrite H5'. discriminate.
    + injection E as <-. exact (framed_left items done rest (emit IErr s) VFail H1 H2 H3 eq_refl I).
  - destruct H4 as (Hne & Hb & fs & d & rest' & Hr & Hw).
    destruct (comm_recv (s_comm s)) as [[o q]|] eqn:Er; [|discriminate]. injection E as <-.
    destruct (recv_waiting _ _ _ Er) as (Ew & Eb & Eo). rewrite Hw in Ew. injection Ew as <- Ew.
    exists (done ++ [XOrder k2 fs d]), rest'. cbn. rewrite reached_app, H2, orders_app. cbn.
    repeat split; auto.
    + eapply snoc_done; eauto.
    + destruct (k_rows k2); [congruence|reflexivity].
    + now apply unmixed_snoc.
    + rewrite Eb. discriminate.
Qed.

Lemma framed_start items : framed items (worker_with U (wires items)).
Proof. exists [], items. cbn. repeat split; auto; [intros e []|discriminate]. Qed.

Lemma framed_run items s : no_poll ustep -> silent ustep \/ Forall with_rows items -> Forall sendable items ->
  wsteps (worker_with U (wires items)) s -> framed items s.
Proof.
  intros H1 H2 H3 H. remember (worker_with U (wires items)) as s0 eqn:E0. induction H as [s|b s s1 s2 Hs IH E].
  - subst. apply framed_start.
  - eapply framed_step; eauto.
Qed.

End Frames.

(** ** Return values *)

Lemma answer_step U ustart ustep kd b (s : wst U) k rows u r v st :
  s_place s = InCalc k rows u -> ustep u = AReturn r -> returns r v st -> ~ bare_pair r -> st <> Some SIG_FINISH ->
  q_buf (s_comm s) = None ->
  exists s', wstep ustart ustep kd b s = Some s' /\ s_place s' = AtTop /\
    q_out (s_comm s') = q_out (s_comm s) ++ [IData (mkAns (k_tag k) (match st with Some n => n | None => 0 end) (out_of v) rows false (k_persistent k))].
Proof.
  intros Ep Eu Hr Hb Hst Hq. unfold WorkerModel.wstep. rewrite Ep, Eu. unfold returned. rewrite Hq.
  assert (Hp : runner_check r = Some r /\ parse_out r 0 = Some (v, match st with Some n => n | None => 0 end)).
  { destruct Hr as [|A|v b' Hv Hb'|v n Hv|v b' n Hv]; cbn.
    - auto.
    - split; [reflexivity|]. destruct (length (a_rows A) =? 2) eqn:E; [|reflexivity]. exfalso. apply Hb. exists A. split; [reflexivity|].
      now apply Nat.eqb_eq.
    - split; [destruct v; congruence|]. destruct Hb' as [-> | ->]; reflexivity.
    - split; [destruct v; congruence|reflexivity].
    - split; [destruct v; congruence|reflexivity]. }
  destruct Hp as (-> & ->).
  destruct (match st with Some n => n | None => 0 end =? SIG_FINISH) eqn:Es.
  - exfalso. apply Nat.eqb_eq in Es. destruct st as [n|]; [congruence|discriminate].
  - eexists. split; [reflexivity|]. split; reflexivity.
Qed.
