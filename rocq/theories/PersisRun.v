(** The turns of a run driven by start_only_persistent. *)
From Coq Require Import Permutation.
From Verif Require Import Base BaseLemmas HistoryModel HistorySpec HistoryProofs HistoryXIn HistoryInv HistoryInv2 HistoryRun HistoryRun2 HistoryRun3 HistoryBack RsetModel RsetSpec WorkModel SchedModel SchedSpec AllocModel AllocSpec AllocProofs AllocLoops AllocFacts AllocPersis ManagerModel ManagerSpec ManagerProofs ManagerMsg ManagerRun ManagerInv ManagerFinal ManagerEnd ManagerRes DrivenModel DrivenSpec DrivenProofs DrivenInv DrivenPoints DrivenRes DrivenSets DrivenGens DrivenOrders DrivenTrace DrivenEnds DrivenEnds2 PersisEndsSpec PersisHist PersisTrace PersisEnds PersisCall PersisTurn PersisTurn2.

Lemma enough_plain n W : enough_workers n W -> exists r, In r W /\ w_gen r = false.
Proof.
  assert (G : forall r, In r W -> may_sim W r -> w_gen r = false) by (intros r X [_ B]; destruct (w_gen r) eqn:E; [|reflexivity]; apply B; exists r; auto).
  intros [_ [(r & R1 & R2 & _)|(ws & _ & L & R)]]; [eauto|]. destruct ws as [|w ws]; [cbn in L; lia|].
  destruct (R w (or_introl eq_refl)) as (r & R1 & _ & R2). eauto.
Qed.

Section Run.
Variables (c : mcfg) (single : bool) (a : asetup) (u : puser).
Let num := pu_num_gens u.
Let Jp := Jp c single num.
Let L := LT c (Qp single num (c_sim_max c)).
Let A := persistent_alloc c a u.
Hypotheses (Hman : u_manage a = false) (Hrecv : pu_recv u = false) (Halt : pu_alt u = false) (Hsingle : single = true -> pu_batch_give u = false) (Hnum : 1 <= num).
Hypotheses (Hsim : u_sim_in a <> []) (Hpin : u_persis_in a <> []) (Hkill : c_kill c = true -> pu_batch_give u = false).

Lemma Jp_receive p msgs : forall m m' e, Jp p m -> receive c msgs m = (m', e) -> L m' /\ (e = None -> Jp p m').
Proof.
  unfold receive. induction msgs as [|[[w i] t] msgs IH]; intros m m' e HJ; cbn [foldx].
  - intros [= <- <-]. split; auto. apply HJ.
  - destruct (poll c (w, i, t) m) as [m1 [e1|]] eqn:E; cbn [bindx]; destruct (Jp_poll c single num p w i t m m1 _ HJ E) as [E1 E2].
    + intros [= <- <-]. split; [auto|discriminate].
    + apply IH. exact (E2 eq_refl).
Qed.

Lemma idle_closedP p m : Jp p m -> fineP (m_log m) -> any_active m = false -> opens (m_log m) = [].
Proof.
  intros ((H1 & _ & _ & _ & _ & _ & _ & H8) & _) HF HA. destruct (H8 HF) as ((T1 & T2) & _). pose proof (Qp_fair _ _ _ _ (proj2 H1) HF) as FR.
  destruct (opens_spec _ FR) as [_ OS]. destruct (opens (m_log m)) as [|[w k] l]; auto. exfalso.
  assert (E : open_order w (m_log m) = Some k) by (apply OS; now left).
  destruct (in_dec Nat.eq_dec w (map w_id (m_W m))) as [Hin|Hn]; [|rewrite (T2 w Hn) in E; discriminate].
  apply in_map_iff in Hin as (r & <- & Hr). assert (X : any_active m = true); [|congruence]. apply any_active_true. exists r. split; auto.
  destruct (T1 r Hr) as (Y & _). rewrite E in Y. rewrite Y. destruct (open_kind _ _ _ FR E) as [Z|Z]; rewrite Z; discriminate.
Qed.
Lemma not_stalledP p t m : Jp p m -> fineP (m_log m) -> sim_max_given c m = true -> any_active m = false -> term_test c t m = Ok 0 -> False.
Proof.
  intros HJ HF HS HA HT. pose proof (idle_closedP p m HJ HF HA) as EO. pose proof HJ as ((H1 & (_ & _ & HE) & _ & _ & _ & HP & _) & _).
  pose proof (Qp_fair _ _ _ _ (proj2 H1) HF) as FR. destruct (balanceP (c_ret_sim c) _ FR (proj1 HF)) as (_ & B). rewrite EO in B. cbn in B.
  unfold sim_max_given in HS. unfold term_test in HT. destruct (c_sim_max c) as [N|] eqn:EN; [|discriminate]. apply Nat.leb_le in HS.
  assert (X : N + h_ended_off (m_h m) <=? h_ended (m_h m) = true) by (apply Nat.leb_le; lia). rewrite X in HT. destruct (match c_wall c with Some _ => _ | None => _ end); discriminate.
Qed.

(** ** One turn *)
Lemma persis_turn v s m m2 y : Jo c a True m -> (fineP (m_log m) -> Jp (snd s) m) -> set_order (v_ord v) ->
  iterate c (fst (turn_of A c v s m)) m = (m2, y) -> fineP (m_log m2) ->
  fineP (m_log m) /\ L m2 /\
  match y with
  | CGo => Jp (snd (snd (turn_of A c v s m))) m2
  | CStop => Jp (snd s) m2 /\ ((exists n, term_test c (v_elapsed v) m2 = Ok (S n)) \/ gen_ended (m_log m2))
  | CExc e => term_test c (v_elapsed v) m = Err e \/ snd (bindx (kill_cancelled c m) (receive c (v_msgs v))) = Some e \/ term_test c (v_elapsed2 v) m2 = Err e
  end.
Proof.
  intros HO HJ HV. unfold turn_of. destruct (bindx (kill_cancelled c m) (receive c (v_msgs v))) as [m1 e1] eqn:E1. cbn [fst snd].
  destruct (A v s m1) as [out s'] eqn:EA. unfold iterate. cbn [fst snd it_elapsed it_msgs it_alloc it_elapsed2].
  assert (T : table_ok c m) by (destruct HO as (((T & _) & _) & _); exact T).
  assert (LG : fineP (m_log m1) -> fineP (m_log m)).
  { destruct (kill_cancelled c m) as [mk [ek|]] eqn:EK; cbn [bindx] in E1.
    - injection E1 as <- _. apply kill_cancelled_spec in EK as (_ & (l & -> & _) & _). apply fineP_app.
    - assert (Tk : table_ok c mk) by (unfold table_ok; rewrite (kill_table _ _ _ _ EK); exact T).
      apply receive_log in E1 as (_ & l & ->); auto. apply kill_cancelled_spec in EK as (_ & (l0 & -> & _) & _). intros X. apply fineP_app in X. now apply fineP_app in X. }
  destruct (term_test c (v_elapsed v) m) as [[|n]|e0] eqn:E0.
  2:{ intros [= <- <-] HF. split; auto. split; [apply HJ, HF|]. split; eauto. }
  2:{ intros [= <- <-] HF. split; auto. split; [apply HJ, HF|]. auto. }
  rewrite E1. assert (J1 : fineP (m_log m1) -> L m1 /\ (e1 = None -> Jp (snd s) m1)).
  { intros HF. specialize (HJ (LG HF)). destruct (kill_cancelled c m) as [mk [ek|]] eqn:EK; cbn [bindx] in E1; destruct (Jp_kill c single num (snd s) m mk _ HJ EK) as [K1 K2].
    - injection E1 as <- <-. split; [auto|discriminate].
    - exact (Jp_receive (snd s) (v_msgs v) mk m1 None (K2 eq_refl) E1) || exact (Jp_receive (snd s) (v_msgs v) mk m1 _ (K2 eq_refl) E1). }
  destruct e1 as [e1|]. { intros [= <- <-] HF. split; [exact (LG HF)|]. split; [exact (proj1 (J1 HF))|]. auto. }
  assert (HO1 : Jo c a True m1) by (eapply Jo_turn; eauto). assert (T1 : table_ok c m1) by (destruct HO1 as (((X & _) & _) & _); exact X).
  assert (HF1 : forall m3 e3, give_orders c (stamped v (o_work out)) (edited m1 out) = (m3, e3) -> fineP (m_log m3) -> fineP (m_log m1)).
  { intros m3 e3 EG HF. apply orders_log in EG as (_ & l & El); [|exact T1]. rewrite El in HF. exact (fineP_app _ _ HF). }
  assert (HS1 : h_safe (m_h m1) = false) by (apply HO1; exact I).
  unfold alloc_work. cbn [it_edit it_alloc]. change (set_h m1 (alloc_edit (fun i r => nth i (o_rows out) r) (m_h m1))) with (edited m1 out).
  assert (PC : fineP (m_log m1) -> edited m1 out = m1 /\ o_err out = None /\ (o_flag out <> 0 -> over (snd s) m1 /\ snd s' = snd s) /\
    (o_flag out = 0 -> forall m2 e, give_orders c (stamped v (o_work out)) m1 = (m2, e) -> fineP (m_log m2) -> L m2 /\ (e = None -> Jp (snd s') m2)) /\
    (o_flag out = 0 -> sim_max_given c m1 = false -> o_work out <> [] \/ any_active m1 = true) /\ fit_all m1 (c_kill c) (o_work out)).
  { intros HF. destruct (J1 HF) as [_ J2]. specialize (J2 eq_refl).
    destruct (persis_call c single a u Hman Hrecv Halt Hsingle Hnum Hsim Hpin Hkill v s m1 out s' J2 HF) as (P1 & P2 & P3); auto; [apply HO1|apply HO1|].
    split; [|auto]. apply edited_same; auto. destruct J2 as ((_ & _ & _ & _ & _ & _ & _ & H8) & _). destruct (H8 HF) as (_ & HK & _). apply HK. }
  unfold result_of. destruct (o_err out) as [eo|] eqn:Eo.
  { intros [= <- <-] HF. exfalso. destruct (PC HF) as (_ & X & _). discriminate X. }
  rewrite HS1. destruct (Nat.eqb_spec (o_flag out) 0) as [Ef|Ef]; cbn [andb].
  2:{ intros [= <- <-] HF. change (fineP (m_log m1)) in HF. destruct (PC HF) as (-> & _ & P3 & _). destruct (P3 Ef) as [[_ P4] _]. destruct (J1 HF) as [J2 J3]. split; auto. }
  fold (stamped v (o_work out)). destruct (give_orders c (stamped v (o_work out)) (edited m1 out)) as [m3 e3] eqn:EG. specialize (HF1 m3 e3 eq_refl).
  destruct e3 as [e3|].
  { intros [= <- <-] HF. exfalso. destruct (PC (HF1 HF)) as (Ee & _ & _ & _ & _ & P6). rewrite Ee in EG.
    destruct (orders_taken_all c v (o_work out) m1 m3 _ T1 (proj1 (proj2 HO1)) P6 EG) as (X & _). discriminate. }
  assert (G : fineP (m_log m3) -> L m3 /\ Jp (snd s') m3).
  { intros HF. destruct (PC (HF1 HF)) as (Ee & _ & _ & P4 & _). rewrite Ee in EG. destruct (P4 Ef m3 None EG HF) as [X Y]. auto. }
  destruct (term_test c (v_elapsed2 v) m3) as [[|n]|e4] eqn:E4.
  - destruct (any_active m3) eqn:EX; intros [= <- <-] HF; destruct (G HF) as [G1 G2]; (split; [auto|]); (split; [auto|]); auto. exfalso.
    destruct (PC (HF1 HF)) as (Ee & _ & _ & _ & P5 & P6). rewrite Ee in EG.
    destruct (orders_taken_all c v (o_work out) m1 m3 _ T1 (proj1 (proj2 HO1)) P6 EG) as (_ & _ & _ & _ & A1 & A2).
    destruct (sim_max_given c m1) eqn:Es.
    + assert (o_work out = []) as Ew.
      { clear - EA Es. unfold A, persistent_alloc, only_persistent_gens, no_more_work in EA. rewrite Es in EA. cbn [orb] in EA. injection EA as <- _. reflexivity. }
      rewrite Ew in EG. cbn [stamped map give_orders] in EG. injection EG as <-. exact (not_stalledP _ _ m1 G2 HF Es EX E4).
    + destruct (P5 Ef eq_refl) as [D4|D4]; [rewrite (A1 D4 eq_refl) in EX|rewrite (A2 D4) in EX]; discriminate.
  - intros [= <- <-] HF. destruct (G HF) as [G1 G2]. split; auto.
  - intros [= <- <-] HF. destruct (G HF) as [G1 G2]. split; auto. 
Qed.

(** ** Runs *)
Lemma persis_loop vs : Forall (fun v => set_order (v_ord v)) vs -> forall s m m' x, Jo c a True m -> (fineP (m_log m) -> Jp (snd s) m) ->
  driven_loop A c vs s m = (m', x) -> fineP (m_log m') ->
  fineP (m_log m) /\ L m' /\
  match x with
  | CGo => exists p, Jp p m'
  | CStop => exists v, In v vs /\ (exists p, Jp p m') /\ ((exists n, term_test c (v_elapsed v) m' = Ok (S n)) \/ gen_ended (m_log m'))
  | CExc e => exists vs1 v vs2 s1 m1, vs = vs1 ++ v :: vs2 /\ driven_loop A c vs1 s m = (m1, CGo) /\ iterate c (fst (turn_of A c v s1 m1)) m1 = (m', CExc e) /\
      (term_test c (v_elapsed v) m1 = Err e \/ snd (bindx (kill_cancelled c m1) (receive c (v_msgs v))) = Some e \/ term_test c (v_elapsed2 v) m' = Err e)
  end.
Proof.
  induction 1 as [|v vs Hv Hvs IH]; intros s m m' x HO HJ; cbn [driven_loop].
  { intros [= <- <-] HF. split; auto. split; [apply HJ, HF|eauto]. }
  pose proof (persis_turn v s m) as PT. destruct (turn_of A c v s m) as [it s'] eqn:ET. cbn [fst snd] in PT. destruct (iterate c it m) as [m1 y] eqn:EI.
  specialize (PT m1 y HO HJ Hv eq_refl). destruct y as [| |e].
  - intros E HF. assert (HO1 : Jo c a True m1).
    { assert (E' : driven_loop A c [v] s m = (m1, CGo)) by (cbn [driven_loop]; rewrite ET, EI; reflexivity).
      refine (driven_orders c a True Hsim _ A _ [v] s m m1 CGo (passive_persistent c a u Hrecv) _ HO E' _); [constructor; auto|discriminate]. }
    destruct (IH s' m1 m' x HO1 (fun X => proj2 (proj2 (PT X))) E HF) as (F1 & F2 & F3). split; [now apply PT|]. split; auto.
    destruct x as [| |e]; auto.
    + destruct F3 as (v0 & X1 & X2). exists v0. split; auto. now right.
    + destruct F3 as (vs1 & v0 & vs2 & s1 & m0 & -> & X2 & X3). exists (v :: vs1), v0, vs2, s1, m0. split; auto. split; auto. cbn [driven_loop]. now rewrite ET, EI.
  - intros [= <- <-] HF. destruct (PT HF) as (F1 & F2 & F3 & F4). split; auto. split; auto. exists v. split; [now left|]. eauto.
  - intros [= <- <-] HF. destruct (PT HF) as (F1 & F2 & F3). split; auto. split; auto. exists [], v, vs, s, m. rewrite ET. cbn [fst]. auto.
Qed.
End Run.
