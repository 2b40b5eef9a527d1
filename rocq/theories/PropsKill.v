(** C75: a kill signal reaches the simulation it was meant for, or none. *)
From Coq Require Import String.
From Verif Require Import Base BaseLemmas HistoryModel HistorySpec HistoryProofs HistoryRun HistoryKill
  RsetModel WorkModel ManagerModel ManagerSpec ManagerProofs ManagerMsg ManagerRun ManagerInv
  CommsModel WorkerModel WorkerSpec WorkerProofs SystemModel SystemSpec SystemProofs KillSpec KillProofs
  HistoryExamples ManagerExamples SystemExamples.
Local Notation length := List.length.
Local Open Scope list_scope.
Local Open Scope nat_scope.

Lemma in_signals w o l : In o (signals_to w l) -> exists p q, l = p ++ Sent w o :: q.
Proof.
  unfold signals_to. intros H. apply filter_In in H as (H & _). unfold sent_to in H. apply in_flat_map in H as (e & He & H).
  destruct e as [v o'|]; [|destruct H]. destruct (Nat.eqb_spec v w); [|destruct H]. destruct H as [<-|[]]. subst v.
  apply in_split in He as (p & q & ->). eauto.
Qed.

Lemma running_timed {U} ustart ustep kd c h n zeros gens rm pin (y : sys U) w k rows u :
  plain ustep -> honest_status ustep ->
  yreach U ustart ustep kd c one_shot (init_manager c h n zeros gens rm pin) y -> In w (map w_id (m_W (y_m y))) ->
  s_place (y_w y w) = InCalc k rows u ->
  exists since, last_order w k (m_log (y_m y)) since /\ waiting (s_comm (y_w y w)) = signals_to w since /\ kills (signals_to w since).
Proof.
  intros H1 H2 Hy Hw Hp. destruct (T_reach U ustart ustep kd c H1 H2 _ _ _ _ _ _ _ Hy) as (_ & HT).
  apply in_map_iff in Hw as (r & <- & Hr). specialize (HT r Hr).
  destruct HT as [Q1 Q2|k0 fs d b1 x0 Q0 Q1 Q2 Q3 Q4 Q5|k0 fs d x0 Q0 Q1 Q2 Q3 Q4|k0 u0 x0 Q0 Q1 Q2 Q3 Q4|Q1]; rewrite Hp in Q1; try discriminate.
  injection Q1 as -> _ _. exists x0. auto.
Qed.

(** What waits for a running function is exactly the signals sent since its own
    order was: a signal sent for an earlier order never reaches it. All of them
    are kill signals. *)
Theorem C75_signals_since_the_order {U} ustart ustep kd c h n zeros gens rm pin (y : sys U) w k rows u :
  plain ustep -> honest_status ustep ->
  yreach U ustart ustep kd c one_shot (init_manager c h n zeros gens rm pin) y -> In w (map w_id (m_W (y_m y))) ->
  s_place (y_w y w) = InCalc k rows u ->
  exists since, last_order w k (m_log (y_m y)) since /\
    waiting (s_comm (y_w y w)) = signals_to w since /\ forall o, In o (signals_to w since) -> o = OStop SIG_KILL.
Proof. intros. eapply running_timed; eauto. Qed.
Print Assumptions C75_signals_since_the_order.

(** A poll of the manager never waits. It answers with nothing or with the kill
    signal, the latter only if one was sent since the function's order was. If
    one was and has arrived ([b = true]), then the poll reports it, unless the
    communicator is the queue and an earlier poll has reported it already. *)
Theorem C75_poll {U} ustart ustep kd c h n zeros gens rm pin (y : sys U) w k rows u g b :
  plain ustep -> honest_status ustep ->
  yreach U ustart ustep kd c one_shot (init_manager c h n zeros gens rm pin) y -> In w (map w_id (m_W (y_m y))) ->
  s_place (y_w y w) = InCalc k rows u -> ustep u = APoll g ->
  exists since s', last_order w k (m_log (y_m y)) since /\ wstep ustart ustep kd b (y_w y w) = Some s' /\
    (s_place s' = InCalc k rows (g None) \/
     s_place s' = InCalc k rows (g (Some SIG_KILL)) /\ In (OStop SIG_KILL) (signals_to w since)) /\
    (In (OStop SIG_KILL) (signals_to w since) -> kd = Mpi \/ q_buf (s_comm (y_w y w)) = None -> b = true ->
     s_place s' = InCalc k rows (g (Some SIG_KILL))).
Proof.
  intros H1 H2 Hy Hw Hp Hu. destruct (running_timed _ _ _ _ _ _ _ _ _ _ _ _ _ _ _ H1 H2 Hy Hw Hp) as (since & L1 & L2 & L3).
  exists since. unfold wstep. rewrite Hp, Hu.
  assert (Hq : comm_mail kd (s_comm (y_w y w)) = true -> exists o q, comm_recv (s_comm (y_w y w)) = Some (o, q)).
  { unfold comm_mail, comm_recv. destruct (q_buf _); [eauto|]. destruct (q_in _); [|eauto]. destruct kd; discriminate. }
  destruct (comm_mail kd (s_comm (y_w y w)) && b) eqn:Em.
  - apply andb_prop in Em as (Em & _). destruct (Hq Em) as (o & q & Er). rewrite Er.
    destruct (recv_waiting _ _ _ Er) as (Ew & Eb & _). rewrite L2 in Ew.
    assert (Hin : In o (signals_to w since)) by (rewrite Ew; now left). pose proof (L3 o Hin) as ->.
    eexists. split; [exact L1|]. split; [reflexivity|]. rewrite push_ok by exact Eb. cbn. auto.
  - eexists. split; [exact L1|]. split; [reflexivity|]. cbn. split; [auto|]. intros Hin Hb ->. exfalso.
    rewrite andb_true_r in Em. rewrite <- L2 in Hin. unfold comm_mail, waiting in *. destruct (q_buf (s_comm (y_w y w))) eqn:Eb.
    + destruct Hb as [->|Hb]; discriminate.
    + destruct (q_in (s_comm (y_w y w))); [destruct Hin|]. destruct kd; discriminate.
Qed.
Print Assumptions C75_poll.

(** The run starts with no points, or with those of an earlier run. *)
Section Meant.
Variable U : Type.
Variable ustart : work -> list field -> list (list val) -> U.
Variable ustep : U -> uact U.
Variable kd : kind.
Variable c : mcfg.
Variable m : nat.
Variable outs : dtype.
Variable H0 : sarr.
Variable n : nat.
Variables zeros gens : list nat.
Variable rm : option rman.
Variable pin : option (list field).
Hypothesis Hplain : plain ustep.
Hypothesis Hown : own_business ustep.
Hypothesis Hm : 0 < m.
Hypothesis Hscalar : H0_scalar H0.
Hypothesis Hdone : H0_finished H0.
Let m0 := init_manager c (init_history m outs H0 true) n zeros gens rm pin.
Notation ksteps := (KillSpec.ksteps U ustart ustep kd c one_shot).

Lemma own_honest : honest_status ustep.
Proof using Hown. clear - Hown. intros u r E H. destruct (Hown u r _ E H) as (N & _). now apply N. Qed.

Lemma all_reach y : ksteps (start_sys m0) y -> SystemProofs.J U c y /\ K U c y /\ Past U ustart ustep kd c m0 y /\ yreach U ustart ustep kd c one_shot m0 y.
Proof using Hplain Hown Hm Hscalar Hdone.
  intros H. destruct (K_reach U ustart ustep kd c Hplain own_honest Hown m outs H0 n zeros gens rm pin y Hm Hscalar Hdone H) as (A & _ & _ & B & D & E). auto.
Qed.

(** Every signal of a kill pass goes to a worker whose unanswered order is a
    simulation order with a point whose cancellation has been requested. *)
Theorem C75_pass_signals_the_right_worker y m' v o : ksteps (start_sys m0) y -> kill_cancelled c (y_m y) = (m', None) ->
  In (Sent v o) (new_events (y_m y) m') ->
  o = OStop SIG_KILL /\ c_kill c = true /\
  exists i rows, orders_to v (m_log (y_m y)) = answers_from v (m_log (y_m y)) ++ [(EVAL_SIM, rows)] /\ In i rows /\ cancelled (m_h (y_m y)) i.
Proof using Hplain Hown Hm Hscalar Hdone.
  intros Hy E Hin. destruct (all_reach y Hy) as (HJ & HK & _). destruct (kill_sends U c y m' v o HJ HK E Hin) as (A & B & i & rows & D1 & D2 & D3).
  repeat (split; [assumption|]). exists i, rows. auto.
Qed.

(** A signal that waits for a running function was sent for it: it runs a
    simulation order, and at some moment since that order was given, before any
    answer to it was taken, a point of the order was with its worker and had its
    cancellation requested. *)
Theorem C75_signal_was_meant_for_it y w k rows u o : ksteps (start_sys m0) y -> In w (map w_id (m_W (y_m y))) ->
  s_place (y_w y w) = InCalc k rows u -> In o (waiting (s_comm (y_w y w))) ->
  o = OStop SIG_KILL /\ k_tag k = EVAL_SIM /\
  exists y1 since i, ksteps (start_sys m0) y1 /\ ksteps y1 y /\ last_order w k (m_log (y_m y1)) since /\
    In i (k_rows k) /\ cancelled (m_h (y_m y1)) i.
Proof using Hplain Hown Hm Hscalar Hdone.
  intros Hy Hw Hp Ho. destruct (all_reach y Hy) as (_ & _ & HP & HR).
  destruct (running_timed _ _ _ _ _ _ _ _ _ _ _ _ _ _ _ Hplain own_honest HR Hw Hp) as (since & ((before & El) & L2 & L3) & Ew & Ek).
  rewrite Ew in Ho. pose proof (Ek o Ho) as ->. split; [reflexivity|].
  apply in_signals in Ho as (p & q & Es).
  assert (E : m_log (y_m y) = (before ++ Sent w (OWork k) :: p) ++ Sent w (OStop SIG_KILL) :: q) by (rewrite El, Es, <- app_assoc; reflexivity).
  destruct (HP _ _ _ E) as (y1 & l1 & i & rows1 & A1 & A2 & A3 & A4 & A5 & A6 & A7).
  symmetry in A3. apply split_at in A3 as [(r & A3 & Ep)|(p' & _ & Ep)].
  2:{ exfalso. destruct (A4 (Sent w (OWork k))) as (v & Hv); [rewrite Ep; apply in_or_app; right; now left|]. discriminate. }
  rewrite Es, Ep in L2, L3. rewrite !orders_to_app in L2. rewrite !answers_app in L3.
  apply app_eq_nil in L2 as (L2 & _). apply app_eq_nil in L2 as (L2 & _). apply app_eq_nil in L3 as (L3 & _). apply app_eq_nil in L3 as (L3 & _).
  unfold open in A5. rewrite A3, orders_to_app in A5. cbn in A5. rewrite Nat.eqb_refl in A5. cbn in A5. fold (orders_to w r) in A5. rewrite L2 in A5.
  apply app_inj_tail in A5 as (_ & A5). injection A5 as A5 <-.
  split; [exact A5|]. exists y1, r, i. repeat (split; [assumption|]). split; [|auto]. split; [exists before; exact A3|auto].
Qed.

(** Without kill_canceled_sims nothing ever waits for a running function. *)
Theorem C75_no_kills_unless_asked y w k rows u : c_kill c = false -> ksteps (start_sys m0) y -> In w (map w_id (m_W (y_m y))) ->
  s_place (y_w y w) = InCalc k rows u -> waiting (s_comm (y_w y w)) = [].
Proof using Hplain Hown Hm Hscalar Hdone.
  intros Hc Hy Hw Hp. destruct (all_reach y Hy) as (_ & _ & _ & HR).
  destruct (running_timed _ _ _ _ _ _ _ _ _ _ _ _ _ _ _ Hplain own_honest HR Hw Hp) as (since & ((before & El) & _) & Ew & Ek).
  rewrite Ew. destruct (signals_to w since) as [|o l] eqn:Es; [reflexivity|]. exfalso.
  assert (N : forall v, ~ In (Sent v (OStop SIG_KILL)) (m_log (y_m y))).
  { clear - Hy Hc Hplain Hown Hm Hscalar Hdone. induction Hy as [|y y' Hy IH E]; [intros v []|].
    destruct (all_reach y Hy) as (HJ & HK & _).
    destruct E as [t w k m' Hk E|t w i rest m' Hw Eq E|m' E|ed He|w b s' E|w]; cbn [y_m manager_moves set_h m_log]; try exact IH.
    - destruct (give_log U c _ _ _ _ _ HJ Hk E) as (r0 & k' & fs & d & _ & _ & _ & _ & El & _). rewrite El. intros v Hv.
      apply in_app_or in Hv as [Hv|Hv]; [now apply (IH v)|]. apply in_map_iff in Hv as (o & Ho & Hin). injection Ho as <- ->. cbn in Hin.
      destruct (k_rows k'); cbn in Hin; repeat destruct Hin as [Hin|Hin]; try discriminate; contradiction.
    - destruct HJ as (H1 & _). destruct (poll_spec _ _ _ _ _ _ _ H1 E) as [(Hn & _)|(r0 & _ & _ & _ & _ & _ & G4 & _)]; [contradiction|].
      destruct G4 as [(El & _)|(Bad & _)]; [|discriminate]. rewrite El. intros v Hv. apply in_app_or in Hv as [Hv|[Hv|[]]]; [now apply (IH v)|discriminate].
    - unfold kill_cancelled in E. rewrite Hc in E. injection E as <-. exact IH. }
  assert (Ho : In o (signals_to w since)) by (rewrite Es; now left). rewrite <- Es in Ek. pose proof (Ek o Ho) as ->.
  apply in_signals in Ho as (p & q & ->). apply (N w). rewrite El. apply in_or_app. right. right. apply in_or_app. right. now left.
Qed.

End Meant.
Print Assumptions C75_pass_signals_the_right_worker.
Print Assumptions C75_signal_was_meant_for_it.
Print Assumptions C75_no_kills_unless_asked.

(** ** Cases *)

(** Schedules for user functions of any kind, and the proof that one whose edits
    are [gentle] is a run of [kstep]. *)
Section Sched.
Variable U : Type.
Variable ustart : work -> list field -> list (list val) -> U.
Variable ustep : U -> uact U.
Variable kd : kind.
Variable c : mcfg.

Definition kexec1 (a : act) (y : sys U) : option (sys U) :=
  match a with
  | DGive t w k => match give_order c t w k (y_m y) with (m', None) => Some (manager_moves y m' (y_w y)) | _ => None end
  | DTake t w =>
      if memb w (map w_id (m_W (y_m y))) then
        match q_out (s_comm (y_w y w)) with
        | i :: rest => match poll c (w, i, t) (y_m y) with
                       | (m', None) => Some (manager_moves y m' (set_worker w (set_out rest (y_w y w)) (y_w y)))
                       | _ => None end
        | [] => None
        end
      else None
  | DKill => match kill_cancelled c (y_m y) with (m', None) => Some (manager_moves y m' (y_w y)) | _ => None end
  | DEdit ed => Some (mkSys (set_h (y_m y) (alloc_edit ed (m_h (y_m y)))) (y_w y))
  | DWork w => match wstep ustart ustep kd true (y_w y w) with
               | Some s => Some (mkSys (y_m y) (set_worker w s (y_w y))) | None => None end
  | DNote w => Some (mkSys (y_m y) (set_worker w (set_out (q_out (s_comm (y_w y w)) ++ [ILog]) (y_w y w)) (y_w y)))
  end.
Fixpoint kexec (l : list act) (y : sys U) : option (sys U) :=
  match l with [] => Some y | a :: l' => match kexec1 a y with Some y' => kexec l' y' | None => None end end.

Lemma kexec_ksteps l : forall y0 y y', gives_ok one_shot l -> (forall ed, In (DEdit ed) l -> gentle ed) ->
  KillSpec.ksteps U ustart ustep kd c one_shot y0 y -> kexec l y = Some y' -> KillSpec.ksteps U ustart ustep kd c one_shot y0 y'.
Proof.
  induction l as [|a l IH]; intros y0 y y' Hg He Hy E; cbn in E; [congruence|].
  destruct (kexec1 a y) as [y1|] eqn:E1; [|discriminate].
  apply (IH y0 y1 y'); auto; [intros t w k Hin; apply (Hg t w k); now right|intros ed Hin; apply He; now right|].
  eapply kt_step; [exact Hy|]. destruct a as [t w k|t w| |ed|w|w]; cbn in E1.
  - destruct (give_order c t w k (y_m y)) as [m' [e|]] eqn:Eg; [discriminate|]. injection E1 as <-.
    eapply k_give; [apply (Hg t w k); now left|exact Eg].
  - destruct (memb w (map w_id (m_W (y_m y)))) eqn:Em; [|discriminate].
    destruct (q_out (s_comm (y_w y w))) as [|i rest] eqn:Eq; [discriminate|].
    destruct (poll c (w, i, t) (y_m y)) as [m' [e|]] eqn:Ep; [discriminate|]. injection E1 as <-.
    eapply k_take; eauto. unfold memb in Em. apply existsb_exists in Em as (x & Hx & Ex). apply Nat.eqb_eq in Ex. now subst.
  - destruct (kill_cancelled c (y_m y)) as [m' [e|]] eqn:Ep; [discriminate|]. injection E1 as <-. now apply k_kill.
  - injection E1 as <-. apply k_edit. apply He. now left.
  - destruct (wstep ustart ustep kd true (y_w y w)) as [s|] eqn:Es; [|discriminate]. injection E1 as <-. eapply k_work. exact Es.
  - injection E1 as <-. apply k_note.
Qed.

End Sched.

Lemma cancel_gentle i : gentle (cancel_row i).
Proof. intros j r f [-> | [-> | ->]]; unfold cancel_row; destruct (j =? i); reflexivity. Qed.

Ltac schedule_ok := intros t w k Hin; cbn [In] in Hin;
  repeat (destruct Hin as [Hin|Hin]; [first [discriminate Hin | inversion Hin; subst t w k; split; [reflexivity|cbn; auto]]|]); destruct Hin.
Ltac edits_ok := intros ed Hin; cbn [In] in Hin;
  repeat (destruct Hin as [Hin|Hin]; [first [discriminate Hin | inversion Hin; apply cancel_gentle]|]); destruct Hin.

(** The functions of the example satisfy the hypotheses. *)
Inductive kprog := KPoll | KDone | KKilled | KGen.
Definition kstart (k : work) (fs : list field) (d : list (list val)) : kprog := if k_tag k =? EVAL_GEN then KGen else KPoll.
Definition kpstep (p : kprog) : uact kprog :=
  match p with
  | KPoll => APoll (fun o => match o with None => KDone | Some _ => KKilled end)
  | KDone => AReturn (RTuple [match outp [100%Z] with Some a => PArr a | None => PNone end; PDict; PInt 35])
  | KKilled => AReturn (RTuple [PNone; PDict; PInt 31])
  | KGen => AReturn (RTuple [PArr (pts [10; 20; 30]%Z); PDict])
  end.
Example C75_functions_ok : plain kpstep /\ own_business kpstep.
Proof.
  split; [intros []; exact I|]. intros u r n E H. destruct u; cbn in E; try discriminate E; injection E as <-;
    inversion H; subst; repeat split; discriminate.
Qed.
Example C75_start_ok : 0 < 2 /\ H0_scalar no_H0 /\ H0_finished no_H0.
Proof. repeat split; [lia|intros f sh []|intros _ _ r []]. Qed.

(** Two points are given to workers 1 and 2; point 1 is cancelled. The signal
    waits for worker 2 only, in the order for point 1, and its poll reports it. *)
Definition kill_run : list act :=
  [DGive 1 1 gen_order; DWork 1; DWork 1; DTake 2 1; DGive 4 1 (sim_order [0]); DGive 4 2 (sim_order [1]);
   DWork 1; DWork 1; DWork 2; DWork 2; DEdit (cancel_row 1); DKill].
Definition show_calc {U} (y : sys U) (w : nat) : list nat * list omsg :=
  (match s_place (y_w y w) with InCalc k _ _ => k_rows k | _ => [] end, waiting (s_comm (y_w y w))).
Example C75_case : option_map (fun y => (show_calc y 1, show_calc y 2)) (kexec kprog kstart kpstep Local c2 kill_run (start_sys (m3 c2))) =
  Some (([0], []), ([1], [OStop SIG_KILL])).
Proof. vm_compute. reflexivity. Qed.
Example C75_poll_case : option_map (fun y => match s_place (y_w y 2) with InCalc _ _ u => Some u | _ => None end)
  (kexec kprog kstart kpstep Local c2 (kill_run ++ [DWork 2]) (start_sys (m3 c2))) = Some (Some KKilled).
Proof. vm_compute. reflexivity. Qed.
Example C75_case_reached : forall y, kexec kprog kstart kpstep Local c2 kill_run (start_sys (m3 c2)) = Some y ->
  KillSpec.ksteps kprog kstart kpstep Local c2 one_shot (start_sys (m3 c2)) y.
Proof.
  intros y E. refine (kexec_ksteps _ _ _ _ _ kill_run _ _ y _ _ (kt_refl _ _ _ _ _ _ _) E); [unfold kill_run; schedule_ok|unfold kill_run; edits_ok].
Qed.

(** The simulation of point 1 ends before it looks: the signal goes unread, and
    the next simulation on that worker, of point 2, does not see it. *)
Definition late_run : list act :=
  [DGive 1 1 gen_order; DWork 1; DWork 1; DTake 2 1; DGive 4 2 (sim_order [1]); DWork 2; DWork 2; DWork 2; DWork 2;
   DEdit (cancel_row 1); DKill; DTake 5 2; DGive 6 2 (sim_order [2]); DWork 2; DWork 2; DWork 2].
Example C75_late_signal : option_map (fun y => (show_calc y 2, map show_wev (s_log (y_w y 2)))) (kexec kprog kstart kpstep Local c2 late_run (start_sys (m3 c2))) =
  Some (([2], []), [("call"%string, [1; 1]); ("answer"%string, [35; 1]); ("drop"%string, []); ("call"%string, [1; 2])]).
Proof. vm_compute. reflexivity. Qed.

(** A simulation that returns no output and gives itself the status kept for the
    end of a persistent simulation (FINISHED_PERSISTENT_SIM_TAG, 11) is never
    marked as ended. When
    its point is cancelled later, the signal goes to the worker that ran it and
    stops the simulation of another point, whose cancellation nobody asked for. *)
Definition kpstep11 (p : kprog) : uact kprog :=
  match p with
  | KDone => AReturn (RTuple [PNone; PDict; PInt FIN_PERSIS_SIM])
  | _ => kpstep p
  end.
Definition status11_run : list act :=
  [DGive 1 1 gen_order; DWork 1; DWork 1; DTake 2 1; DGive 4 1 (sim_order [0]); DWork 1; DWork 1; DWork 1; DWork 1; DTake 5 1;
   DGive 6 1 (sim_order [1]); DWork 1; DWork 1; DEdit (cancel_row 0); DKill].
Theorem C75_reserved_status_refuted :
  plain kpstep11 /\ honest_status kpstep11 /\ exists y k u, KillSpec.ksteps kprog kstart kpstep11 Local c2 one_shot (start_sys (m3 c2)) y /\
    s_place (y_w y 1) = InCalc k [1] u /\ waiting (s_comm (y_w y 1)) = [OStop SIG_KILL] /\
    ~ is_set (m_h (y_m y)) 1 F_cancel_requested.
Proof.
  split; [intros []; exact I|]. split; [intros [] r E H; cbn in E; try discriminate E; injection E as <-; inversion H|].
  destruct (kexec kprog kstart kpstep11 Local c2 status11_run (start_sys (m3 c2))) as [y|] eqn:E.
  2:{ apply (f_equal (option_map (fun y => show_calc y 1))) in E. vm_compute in E. discriminate. }
  assert (S0 : option_map (fun y => (match s_place (y_w y 1) with InCalc k r _ => Some r | _ => None end, waiting (s_comm (y_w y 1)),
     cell (h_rows (m_h (y_m y))) 1 F_cancel_requested)) (Some y) = Some (Some [1], [OStop SIG_KILL], Some (vbool false))).
  { rewrite <- E. vm_compute. reflexivity. }
  assert (Hk : KillSpec.ksteps kprog kstart kpstep11 Local c2 one_shot (start_sys (m3 c2)) y).
  { refine (kexec_ksteps _ _ _ _ _ status11_run _ _ y _ _ (kt_refl _ _ _ _ _ _ _) E); [unfold status11_run; schedule_ok|unfold status11_run; edits_ok]. }
  clear E. cbn [option_map] in S0.
  assert (S1 := f_equal (fun o => match o with Some (a, _, _) => a | None => None end) S0).
  assert (S2 := f_equal (fun o => match o with Some (_, a, _) => a | None => [] end) S0).
  assert (S3 := f_equal (fun o => match o with Some (_, _, a) => a | None => None end) S0). cbv beta iota in S1, S2, S3. clear S0.
  destruct (s_place (y_w y 1)) as [| |k r u| |] eqn:Ep; try discriminate. injection S1 as ->.
  exists y, k, u. split; [exact Hk|].
  split; [exact Ep|]. split; [exact S2|]. intros (v & Hv & Ht). rewrite S3 in Hv. injection Hv as <-. discriminate.
Qed.
Print Assumptions C75_reserved_status_refuted.
