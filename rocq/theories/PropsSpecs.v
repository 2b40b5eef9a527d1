(** C60: what libE checks before it starts, and what a run may rely on then. *)
From Coq Require Import String.
From Verif Require Import Base BaseLemmas HistoryModel HistorySpec HistoryProofs HistoryInv2 HistoryRun2 HistoryFacts RsetModel RsetSpec WorkModel SchedModel SchedSpec AllocModel AllocSpec ManagerModel ManagerSpec ManagerProofs ManagerRun DrivenModel DrivenSpec DrivenProofs DrivenInv DrivenPoints DrivenOrders HistoryExamples PropsResources ManagerExamples PropsDriven PropsDrivenRes PropsDrivenOrders PropsDrivenEnds SpecsModel SpecsSpec SpecsProofs.
Local Notation length := List.length.
Local Open Scope list_scope.
Local Open Scope nat_scope.

(** ** Exit criteria *)
(** If libE takes the exit criteria, testing them never fails during the run. *)
Theorem C60_stop_test_never_fails : forall c sim gen al H0 safe n zeros gens rm pin its m x,
  check_exit_criteria (c_stop c) sim gen = None ->
  main_loop c its (init_manager c (start_history c sim gen al H0 safe) n zeros gens rm pin) = (m, x) ->
  forall t e, term_test c t m <> Err e.
Proof.
  intros c sim gen al H0 safe n zeros gens rm pin its m x HC E t e. apply term_Ok. intros key v Ek.
  pose proof (accepted_stop _ _ _ key v HC Ek) as HK.
  eapply (keep_main c key) in E as [_ E]; [exact E|]. split; [apply init_table|]. apply start_column. tauto.
Qed.
Print Assumptions C60_stop_test_never_fails.

(** It refuses exactly the columns that neither function writes. *)
Theorem C60_stop_checked : forall stop sim gen,
  check_exit_criteria stop sim gen = None <-> forall key v, stop = Some (key, v) -> In key (names (sp_out sim)) \/ In key (names (sp_out gen)).
Proof.
  intros stop sim gen. split; [intros H key v E; eapply accepted_stop; eauto|]. destruct stop as [[key v]|]; [|reflexivity]. intros H. cbn.
  assert (E : has key (names (sp_out sim) ++ names (sp_out gen)) = true) by (apply has_In, in_app_iff; eauto). now rewrite E.
Qed.
Print Assumptions C60_stop_checked.

(** ** Fields *)
(** With an H0 that libE takes, every field that the specifications ask for is a
    column of the history. *)
Theorem C60_fields_with_H0 : forall c sim gen al H0 safe f,
  a_rows H0 <> [] -> check_H0 sim gen H0 = None ->
  In f (sp_in sim ++ sp_persis_in sim ++ sp_in gen ++ sp_persis_in gen) -> column (start_history c sim gen al H0 safe) f.
Proof. intros c sim gen al H0 safe f Hn HC Hf. destruct (accepted_H0 _ _ _ Hn HC) as [HA _]. apply start_column. destruct (HA f Hf) as [H|[H|[H|H]]]; auto 10. Qed.
Print Assumptions C60_fields_with_H0.

(** So the manager takes every order of the default allocation function. *)
Theorem C60_accepted_H0_orders_taken : forall c a u sim gen al H0 safe n zeros gens rm pin vs s m v s1 m1,
  a_rows H0 <> [] -> check_ensemble (c_stop c) sim gen H0 = None -> hands_out a sim gen -> sp_in sim <> [] ->
  table_new rm -> (rm <> None -> u_manage a = true) -> (c_kill c = true -> u_batch_give u = false) ->
  Forall (fun v => set_order (v_ord v)) vs -> set_order (v_ord v) ->
  driven_loop (default_alloc c a u) c vs s (init_manager c (start_history c sim gen al H0 safe) n zeros gens rm pin) = (m, CGo) ->
  bindx (kill_cancelled c m) (receive c (v_msgs v)) = (m1, None) ->
  order_error (default_alloc c a u) c v s1 m1 = None.
Proof.
  intros c a u sim gen al H0 safe n zeros gens rm pin vs s m v s1 m1 Hn HC (A1 & A2 & A3) Hs. unfold check_ensemble in HC. destruct (check_exit_criteria _ _ _); [discriminate|].
  apply C58_default_orders_taken. split; [congruence|]. intros f Hf. rewrite A1, A2, A3 in Hf. eapply C60_fields_with_H0; eauto. rewrite !in_app_iff in *. tauto.
Qed.
Print Assumptions C60_accepted_H0_orders_taken.

(** A run described by a VOCS alone is complete: sim_specs and gen_specs that name
    no fields get them from the VOCS, and then every field asked for is a column,
    with or without H0, for generator functions and for generator objects. *)
Theorem C60_vocs_fields : forall c a V gen gs al H0 safe sim g,
  v_variables V <> [] -> sim = validate_sim (Some V) no_attrs nothing_set -> validate_gen (Some V) gen gs no_attrs nothing_set = Ok g -> hands_out a sim g ->
  columns_asked a (start_history c sim g al H0 safe).
Proof.
  intros c a V gen gs al H0 safe sim g HV -> Eg (A1 & A2 & A3). unfold validate_gen in Eg.
  assert (EO : exists x, gen_from_vocs (Some V) gen nothing_set = x /\ sp_out x <> []).
  { eexists. split; [reflexivity|]. unfold gen_from_vocs, nothing_set. cbn [sp_in sp_persis_in sp_out if_unset empty].
    assert (HO : (v_variables V ++ v_constants V)%list <> []) by now apply app_ne. destruct gen as [[|]|]; cbn [sp_out]; auto. destruct (has F_uid _); [auto|now apply app_ne]. }
  destruct EO as (x & Ex & Hx). rewrite Ex in Eg. unfold from_generator in Eg. destruct (empty (sp_out x)) eqn:Ee; [destruct (sp_out x); [congruence|discriminate]|].
  cbn [bindr] in Eg. injection Eg as <-. unfold from_attrs in *. cbn [no_attrs at_in at_persis_in at_out from_attr] in *. subst x.
  unfold columns_asked. rewrite A1, A2, A3. split.
  - cbn. apply app_ne. destruct (v_variables V); [congruence|discriminate].
  - assert (HU : forall p f, In f (if has F_uid p then p else (p ++ [F_uid])%list) -> In f p \/ f = F_uid).
    { intros p f. destruct (has F_uid p); auto. rewrite in_app_iff. cbn. intuition auto. }
    assert (HW : forall o : dtype, In F_uid (names (if has F_uid (names o) then o else (o ++ [(F_uid, ShS)])%list))).
    { intros o. destruct (has F_uid (names o)) eqn:E; [now apply has_In|]. rewrite names_app, in_app_iff. right. now left. }
    assert (HV' : forall (o : dtype) f, In f (names o) -> In f (names (if has F_uid (names o) then o else (o ++ [(F_uid, ShS)])%list))).
    { intros o f Hf. destruct (has F_uid (names o)); auto. rewrite names_app, in_app_iff. now left. }
    intros f Hf. apply start_column. unfold validate_sim, from_attrs, sim_from_vocs, gen_from_vocs, nothing_set in *. clear A1 A2 A3 Ee Hx.
    destruct gen as [[|]|]; cbn [no_attrs at_in at_persis_in at_out from_attr sp_in sp_persis_in sp_out if_unset empty] in *; rewrite ?names_app, ?in_app_iff in *.
    + assert (Hx' : In f (names (v_variables V)) \/ In f (names (v_constants V)) \/ In f (names (v_objectives V)) \/ In f (names (v_observables V)) \/ In f (names (v_constraints V)) \/ f = F_uid).
      { destruct Hf as [Hf|[Hf|Hf]]; [tauto|tauto|apply HU in Hf as [Hf| ->]; [|tauto]]; rewrite ?in_app_iff in Hf; tauto. }
      specialize (HV' (v_variables V ++ v_constants V)%list f). specialize (HW (v_variables V ++ v_constants V)%list). rewrite names_app, in_app_iff in HV'. rewrite names_app in HW.
      destruct Hx' as [Hx'|[Hx'|[Hx'|[Hx'|[Hx'| ->]]]]]; tauto.
    + destruct Hf as [Hf|[Hf|Hf]]; tauto.
    + destruct Hf as [Hf|[Hf|Hf]]; cbn [In] in Hf; tauto.
Qed.
Print Assumptions C60_vocs_fields.

(** What the user sets is kept, whatever a VOCS or the user functions say: a list
    that is not empty stays as it is; only _id is added for an object that returns it. *)
Theorem C60_explicit_fields_kept : forall v a s,
  let s' := validate_sim v a s in
  (sp_in s <> [] -> sp_in s' = sp_in s) /\ (sp_persis_in s <> [] -> sp_persis_in s' = sp_persis_in s) /\ (sp_out s <> [] -> sp_out s' = sp_out s).
Proof.
  intros v a s. unfold validate_sim, from_attrs, sim_from_vocs. destruct v as [v|]; cbn [sp_in sp_persis_in sp_out]; split; [|split| |split]; intros H; rewrite ?set_kept by auto; now apply attr_kept.
Qed.
Print Assumptions C60_explicit_fields_kept.

Theorem C60_explicit_gen_fields_kept : forall v gen gs a s s', validate_gen v gen gs a s = Ok s' ->
  (sp_in s <> [] -> sp_in s' = sp_in s) /\
  (sp_persis_in s <> [] -> sp_persis_in s' = sp_persis_in s \/ (gen = Some true /\ sp_persis_in s' = sp_persis_in s ++ [F_uid])) /\
  (sp_out s <> [] -> sp_out s' = sp_out s \/ (gen = Some true /\ sp_out s' = sp_out s ++ [(F_uid, ShS)])).
Proof.
  intros v gen gs a s s'. unfold validate_gen. intros E.
  assert (G : (sp_in s <> [] -> sp_in (gen_from_vocs v gen s) = sp_in s) /\
    (sp_persis_in s <> [] -> sp_persis_in (gen_from_vocs v gen s) = sp_persis_in s \/ (gen = Some true /\ sp_persis_in (gen_from_vocs v gen s) = sp_persis_in s ++ [F_uid])) /\
    (sp_out s <> [] -> sp_out (gen_from_vocs v gen s) = sp_out s \/ (gen = Some true /\ sp_out (gen_from_vocs v gen s) = sp_out s ++ [(F_uid, ShS)]))).
  { unfold gen_from_vocs. destruct v as [v|]; [|auto]. destruct gen as [[|]|]; cbn [sp_in sp_persis_in sp_out]; (split; [intros H; now rewrite ?set_kept|split; intros H; rewrite set_kept by auto; auto]).
    - destruct (has F_uid (sp_persis_in s)); auto.
    - destruct (has F_uid (names (sp_out s))); auto. }
  destruct G as (G1 & G2 & G3). set (s1 := gen_from_vocs v gen s) in *.
  destruct (from_generator gen gs s1) as [s2|e] eqn:EF; [|discriminate]. cbn [bindr] in E. injection E as <-.
  assert (F : sp_in s2 = sp_in s1 /\ sp_persis_in s2 = sp_persis_in s1 /\ (sp_out s1 <> [] -> sp_out s2 = sp_out s1)).
  { unfold from_generator in EF. destruct (sp_out s1) eqn:Eo; cbn [empty] in EF; [|injection EF as <-; auto].
    destruct gen; [destruct gs; [|discriminate]|]; injection EF as <-; cbn [sp_in sp_persis_in sp_out]; rewrite ?Eo; auto. split; auto. split; auto. congruence. }
  destruct F as (F1 & F2 & F3). unfold from_attrs. cbn [sp_in sp_persis_in sp_out]. split; [|split]; intros H.
  - rewrite F1, G1 by auto. now apply attr_kept.
  - rewrite F2. destruct (G2 H) as [E|[E1 E2]]; [left; rewrite E; now apply attr_kept|right; split; auto; rewrite E2; apply attr_kept; now apply app_ne].
  - destruct (G3 H) as [E|[E1 E2]]; [left|right; split; auto].
    + rewrite F3 by now rewrite E. rewrite E. now apply attr_kept.
    + rewrite F3 by (rewrite E2; now apply app_ne). rewrite E2. apply attr_kept. now apply app_ne.
Qed.
Print Assumptions C60_explicit_gen_fields_kept.

(** ** H0 *)
(** With an H0 that libE takes no simulation is under way when the run starts, and
    the counters agree. *)
Theorem C60_H0_nothing_open : forall c sim gen al H0 safe,
  c_sim_max c <> Some 0 -> H0_scalar H0 -> check_H0 sim gen H0 = None ->
  let h := start_history c sim gen al H0 safe in nothing_open h /\ h_started h = h_ended h /\ H0_sound H0.
Proof.
  intros c sim gen al H0 safe Hm Hs HC h.
  assert (HA : In F_sim_ended (names (a_dtype H0)) -> a_rows H0 <> [] -> In F_sim_started (names (a_dtype H0)) /\ forall r, In r (a_rows H0) -> truthy (r F_sim_started) = truthy (r F_sim_ended)).
  { intros HE Hn. now apply (accepted_H0 sim gen H0). }
  unfold start_history, fresh_history in h. set (M := match c_sim_max c with Some n => n | None => 100 end) in h.
  assert (HM : 0 < M) by (unfold M; destruct (c_sim_max c) as [[|n]|]; [congruence|lia|lia]).
  destruct (init_rest M (sp_out sim ++ sp_out gen ++ al) H0 safe Hs) as (L1 & _ & L2). fold h in L1, L2.
  split; [|split].
  - intros k. destruct (Nat.lt_ge_cases k (length (a_rows H0))) as [Hk|Hk].
    2:{ destruct (Nat.lt_ge_cases k (length (a_rows H0) + M)) as [Hk2|Hk2].
        - destruct (L2 k (conj Hk Hk2)) as (_ & N1 & N2 & _). tauto.
        - assert (NN : forall f, ~ is_set h k f).
          { intros f (u & Hu & _). unfold cell in Hu. assert (EN : nth_error (h_rows h) k = None) by (apply nth_error_None; lia). now rewrite EN in Hu. }
          split; intros HX; now apply NN in HX. }
    destruct (nth_error (a_rows H0) k) as [r0|] eqn:E; [|apply nth_error_None in E; lia]. pose proof (nth_error_In _ _ E) as Hr.
    assert (Hne : a_rows H0 <> []) by (intros E0; rewrite E0 in Hr; destruct Hr).
    destruct (has F_sim_started (names (a_dtype H0))) eqn:ES.
    2:{ assert (NI : ~ In F_sim_started (names (a_dtype H0))) by (now apply has_false). destruct (init_H0_done M (sp_out sim ++ sp_out gen ++ al) H0 safe k HM Hk NI) as [D1 D2]. tauto. }
    pose proof (proj1 (has_In _ _) ES) as HS.
    pose proof (init_H0_kept M (sp_out sim ++ sp_out gen ++ al) H0 safe k r0 F_sim_started HM E HS ltac:(auto)) as C1. fold h in C1.
    destruct (has F_sim_ended (names (a_dtype H0))) eqn:EE.
    + pose proof (proj1 (has_In _ _) EE) as HE. destruct (HA HE Hne) as [_ HQ].
      pose proof (init_H0_kept M (sp_out sim ++ sp_out gen ++ al) H0 safe k r0 F_sim_ended HM E HE ltac:(auto)) as C2. fold h in C2.
      unfold is_set. rewrite C1, C2. cbn [cast]. rewrite (HQ r0 Hr). tauto.
    + assert (C2 : cell (h_rows h) k F_sim_ended = Some (vbool (truthy (r0 F_sim_started)))).
      { unfold cell, h. rewrite (init_nth _ _ _ _ _ _ HM E). cbn. f_equal.
        destruct (row_from_cells (a_dtype H0) (init_dtype (sp_out sim ++ sp_out gen ++ al) H0) k r0) as (_ & _ & R3 & _). now apply R3. }
      unfold is_set. rewrite C1, C2. cbn [cast]. tauto.
  - destruct (init_started M (sp_out sim ++ sp_out gen ++ al) H0 safe HM Hs) as [S1 S2]. fold h in S1, S2. rewrite S1, S2.
    destruct (has F_sim_started (names (a_dtype H0))) eqn:ES; auto. destruct (has F_sim_ended (names (a_dtype H0))) eqn:EE; auto.
    destruct (a_rows H0) as [|r l] eqn:ER; auto. rewrite <- ER. pose proof (proj1 (has_In _ _) EE) as HE. destruct (HA HE ltac:(discriminate)) as [_ HQ]. rewrite <- ER in HQ. clear -HQ.
    unfold num_set, countb. f_equal. apply filter_ext_in. exact HQ.
  - intros _ HE r Hr Ht. apply has_In in HE. destruct (HA HE ltac:(intros E0; rewrite E0 in Hr; destruct Hr)) as [_ HQ]. now rewrite HQ.
Qed.
Print Assumptions C60_H0_nothing_open.

(** ** libE_specs *)
Definition long_paths (E : lenv) : Prop := forall p, 1 < String.length (e_abs E p).

(** What the four steps of the validation of libE_specs give. *)
Lemma validated E v v' : validate_libE E v = Ok v' ->
  l_comms v' = Some (default_comms E v) /\ default_comms E v <> OtherComms /\ check_workers (default_comms E v) (l_nworkers v) (l_workers v) = None /\
  l_nworkers v' = l_nworkers v /\ l_workers v' = l_workers v /\ l_disable_rm v' = (match default_comms E v with Tcp => true | _ => l_disable_rm v end) /\
  l_save_sims v' = l_save_sims v /\ l_save_gens v' = l_save_gens v /\ l_save_end v' = (l_save_end v || (0 <? l_save_sims v)%Z || (0 <? l_save_gens v)%Z) /\
  set_workflow_dir E (l_use_wf v) (l_wf_path v) = Ok (l_use_wf v', l_wf_path v') /\
  check_dir E (l_sim_dir v) = Ok (l_sim_dir v') /\ l_sim_make v' = (given (l_sim_dir v') || l_sim_make v) /\
  check_dir E (l_gen_dir v) = Ok (l_gen_dir v') /\ l_gen_make v' = (given (l_gen_dir v') || l_gen_make v).
Proof.
  unfold validate_libE. destruct (default_comms E v) eqn:Ec; try discriminate;
  (destruct (check_dir E (l_sim_dir v)) as [sd|] eqn:Es; [|discriminate]; destruct (check_dir E (l_gen_dir v)) as [gd|] eqn:Eg; [|discriminate]; cbn [bindr];
   destruct (check_workers _ _ _) eqn:EW; [discriminate|]; destruct (set_workflow_dir E (l_use_wf v) (l_wf_path v)) as [[w1 w2]|] eqn:Ew; [|discriminate]; cbn [bindr fst snd];
   intros H; injection H as <-; cbn; repeat split; auto; discriminate).
Qed.
Lemma dir_given E d d' : check_dir E d = Ok d' -> d <> None -> given d' = true.
Proof.
  intros H Hd. unfold check_dir in H. destruct d as [d|]; [|congruence]. cbv zeta in H.
  destruct (negb _) in H; [discriminate|]. destruct (String.eqb _ _) in H; [discriminate|]. now injection H as <-.
Qed.

(** The settings agree with one another afterwards. *)
Theorem C60_settings_agree : forall E v v', long_paths E -> validate_libE E v = Ok v' ->
  (exists p, l_wf_path v' = Some p /\ (l_use_wf v' = true <-> 1 < String.length p)) /\
  (l_sim_dir v' <> None -> l_sim_make v' = true) /\ (l_gen_dir v' <> None -> l_gen_make v' = true) /\
  ((0 < l_save_sims v')%Z \/ (0 < l_save_gens v')%Z -> l_save_end v' = true) /\
  (l_comms v' = Some Tcp -> l_disable_rm v' = true).
Proof.
  intros E v v' HP HV. apply validated in HV as (A1 & A2 & A3 & A4 & A5 & A6 & A7 & A8 & A9 & A10 & A11 & A12 & A13 & A14).
  rewrite A1, A6, A7, A8, A9, A12, A14. split; [|split; [|split; [|split]]].
  - unfold set_workflow_dir in A10. destruct (l_wf_path v) as [q|]; [|discriminate]. destruct (l_use_wf v && (String.length q <=? 1)) eqn:E1.
    + injection A10 as <- <-. eexists. split; [reflexivity|]. split; auto.
    + destruct (Nat.ltb_spec 1 (String.length q)) as [H|H]; injection A10 as <- <-; eexists; (split; [reflexivity|split; auto]); intros H1; [|lia].
      rewrite H1 in E1. cbn in E1. apply Nat.leb_gt in E1. lia.
  - intros H. destruct (l_sim_dir v'); [reflexivity|congruence].
  - intros H. destruct (l_gen_dir v'); [reflexivity|congruence].
  - intros [H|H]; apply Z.ltb_lt in H; rewrite H, ?Bool.orb_true_r; reflexivity.
  - intros H. injection H as H. now rewrite H.
Qed.
Print Assumptions C60_settings_agree.

(** What the user set stays set. *)
Theorem C60_settings_kept : forall E v v', validate_libE E v = Ok v' ->
  (forall c, l_comms v = Some c -> l_comms v' = Some c) /\
  l_nworkers v' = l_nworkers v /\ l_workers v' = l_workers v /\ l_save_sims v' = l_save_sims v /\ l_save_gens v' = l_save_gens v /\
  (l_disable_rm v = true -> l_disable_rm v' = true) /\ (l_save_end v = true -> l_save_end v' = true) /\ (l_use_wf v = true -> l_use_wf v' = true) /\
  (l_sim_make v = true -> l_sim_make v' = true) /\ (l_gen_make v = true -> l_gen_make v' = true) /\
  (l_sim_dir v <> None -> l_sim_dir v' <> None) /\ (l_gen_dir v <> None -> l_gen_dir v' <> None).
Proof.
  intros E v v' HV. apply validated in HV as (A1 & A2 & A3 & A4 & A5 & A6 & A7 & A8 & A9 & A10 & A11 & A12 & A13 & A14).
  rewrite A1, A6, A9, A12, A14. split; [intros c H; unfold default_comms; now rewrite H|]. do 4 (split; [assumption|]).
  split; [intros ->; now destruct (default_comms E v)|]. split; [now intros ->|].
  split; [|split; [intros ->; now rewrite Bool.orb_true_r|split; [intros ->; now rewrite Bool.orb_true_r|split; intros H]]].
  - intros H. unfold set_workflow_dir in A10. destruct (l_wf_path v) as [q|]; [|discriminate]. rewrite H in A10. cbn [andb] in A10.
    destruct (Nat.leb_spec (String.length q) 1); [now injection A10|]. destruct (Nat.ltb_spec 1 (String.length q)); now injection A10.
  - apply (dir_given _ _ _ A11) in H. now destruct (l_sim_dir v').
  - apply (dir_given _ _ _ A13) in H. now destruct (l_gen_dir v').
Qed.
Print Assumptions C60_settings_kept.

(** The communication type that is picked when the user names none. *)
Theorem C60_comms_picked : forall E v v', l_comms v = None -> validate_libE E v = Ok v' ->
  (l_comms v' = Some Local <-> l_nworkers v <> None /\ forall z, In (Some z) (e_sizes E) -> (z <= 1)%Z) /\
  (l_comms v' = Some Mpi <-> l_nworkers v = None \/ exists z, In (Some z) (e_sizes E) /\ (1 < z)%Z).
Proof.
  intros E v v' Hc HV. apply validated in HV as (A1 & _). rewrite A1. unfold default_comms, detect_comms_env. rewrite Hc.
  destruct (l_nworkers v) as [n|].
  2:{ split; split; intros H; auto; try discriminate. destruct H; congruence. }
  destruct (existsb _ (e_sizes E)) eqn:EX.
  - apply existsb_exists in EX as ([z|] & Hi & Hz); [|discriminate]. apply Z.ltb_lt in Hz. split; split; intros H; eauto; try discriminate.
    destruct H as [_ H]. apply H in Hi. lia.
  - assert (HN : forall z, In (Some z) (e_sizes E) -> (z <= 1)%Z).
    { intros z Hi. destruct (Z.leb_spec z 1); auto. exfalso. assert (existsb (fun s => match s with Some z => (1 <? z)%Z | None => false end) (e_sizes E) = true) by (apply existsb_exists; exists (Some z); split; auto; now apply Z.ltb_lt). congruence. }
    split; split; intros H; auto; try discriminate. + split; [discriminate|auto]. + destruct H as [H|(z & Hi & Hz)]; [discriminate|]. apply HN in Hi. lia.
Qed.
Print Assumptions C60_comms_picked.

(** A number of workers other than zero is at least one; TCP without a number has hosts. *)
Theorem C60_workers : forall E v v', validate_libE E v = Ok v' ->
  (forall z, (l_comms v' = Some Local \/ l_comms v' = Some Tcp) -> l_nworkers v' = Some z -> z <> 0%Z -> (1 <= z)%Z) /\
  (l_comms v' = Some Tcp -> l_nworkers v' = None \/ l_nworkers v' = Some 0%Z -> l_workers v' <> []).
Proof.
  intros E v v' HV. apply validated in HV as (A1 & _ & A3 & A4 & A5 & _). rewrite A1, A4, A5. unfold check_workers in A3. split.
  - intros z Hc Hz Hn. rewrite Hz in A3. apply Z.eqb_neq in Hn. rewrite Hn in A3.
    destruct Hc as [Hc|Hc]; injection Hc as Hc; rewrite Hc in A3; destruct (Z.leb_spec 1 z); auto; discriminate.
  - intros Hc Hn. injection Hc as Hc. rewrite Hc in A3. destruct Hn as [Hn|Hn]; rewrite Hn in A3; destruct (l_workers v); discriminate.
Qed.
Print Assumptions C60_workers.

(** Validating once more changes nothing, so it does not matter how often it is
    done: at construction, on assignment and again by libE. *)
Theorem C60_validation_stable : forall v a s, validate_sim v a (validate_sim v a s) = validate_sim v a s.
Proof. intros. apply sim_stable. Qed.
Print Assumptions C60_validation_stable.
Theorem C60_gen_validation_stable : forall v gen gs a s s', (forall V, v = Some V -> v_variables V <> []) ->
  validate_gen v gen gs a s = Ok s' -> validate_gen v gen gs a s' = Ok s'.
Proof. intros v gen gs a s s'. apply gen_stable. Qed.
Print Assumptions C60_gen_validation_stable.
Theorem C60_libE_validation_stable : forall E E' v v', long_paths E -> e_abs E' = e_abs E -> e_exists E' = e_exists E -> (forall p, e_abs E (e_abs E p) = e_abs E p) ->
  validate_libE E v = Ok v' -> validate_libE E' v' = Ok v'.
Proof.
  intros E E' v v' HP HA HX HAA HV. apply validated in HV as (A1 & A2 & A3 & A4 & A5 & A6 & A7 & A8 & A9 & A10 & A11 & A12 & A13 & A14).
  assert (Ec : default_comms E' v' = default_comms E v) by (unfold default_comms at 1; now rewrite A1).
  assert (ED : forall d d', check_dir E d = Ok d' -> check_dir E' d' = Ok d').
  { intros d d' H. unfold check_dir in *. rewrite HA, HX. destruct d as [d|]; cbv zeta in H; [|now injection H as <-].
    destruct (negb _) eqn:E1 in H; [discriminate|]. destruct (String.eqb _ _) eqn:E2 in H; [discriminate|]. injection H as <-. cbv zeta. now rewrite E1, E2. }
  assert (EW : set_workflow_dir E' (l_use_wf v') (l_wf_path v') = Ok (l_use_wf v', l_wf_path v')).
  { assert (LP : forall u q, set_workflow_dir E' u (Some (e_abs E q)) = Ok (true, Some (e_abs E q))).
    { intros u q. unfold set_workflow_dir. rewrite HA, HAA. specialize (HP q). destruct (Nat.leb_spec (String.length (e_abs E q)) 1); [lia|]. rewrite Bool.andb_false_r.
      destruct (Nat.ltb_spec 1 (String.length (e_abs E q))); [reflexivity|lia]. }
    unfold set_workflow_dir in A10. destruct (l_wf_path v) as [q|]; [|discriminate]. destruct (l_use_wf v && (String.length q <=? 1)) eqn:E1.
    - injection A10 as <- <-. apply LP.
    - destruct (1 <? String.length q) eqn:E2; injection A10 as <- <-; [apply LP|]. unfold set_workflow_dir. now rewrite E1, E2. }
  unfold validate_libE. rewrite Ec, (ED _ _ A11), (ED _ _ A13), A4, A5, A3, EW. cbn [bindr fst snd].
  assert (R : v' = mkLS (l_comms v') (l_nworkers v') (l_workers v') (l_disable_rm v') (l_save_sims v') (l_save_gens v') (l_save_end v') (l_use_wf v') (l_wf_path v') (l_sim_dir v') (l_sim_make v') (l_gen_dir v') (l_gen_make v')) by now destruct v'.
  destruct (default_comms E v) eqn:Ed; [| | | |congruence]; f_equal; symmetry; (etransitivity; [exact R|]); f_equal; rewrite ?A1, ?A4, ?A5, ?A6, ?A7, ?A8, ?A9, ?A12, ?A14, ?Bool.orb_assoc; auto; try (now destruct (given _), (l_sim_make v)); try (now destruct (given _), (l_gen_make v)); try (now destruct (l_save_end v), (0 <? l_save_sims v)%Z, (0 <? l_save_gens v)%Z).
  all: now destruct (given (l_gen_dir v')).
Qed.
Print Assumptions C60_libE_validation_stable.

(** ** What an accepted run may still fail on *)
(** A run of the default allocation function without resource sets, batch mode or
    safe mode, whose specifications were accepted and whose fields are columns, ends
    in an error only if a kill signal cannot be sent or a message cannot be taken. *)
Theorem C60_only_messages_fail : forall c a u sim gen al H0 n zeros gens pin vs s m' e,
  let m0 := init_manager c (start_history c sim gen al H0 false) n zeros gens None pin in
  check_ensemble (c_stop c) sim gen H0 = None -> hands_out a sim gen -> sp_in sim <> [] ->
  (a_rows H0 = [] -> columns_asked a (start_history c sim gen al H0 false)) ->
  H0_scalar H0 -> u_manage a = false -> (c_kill c = true -> u_batch_give u = false) ->
  u_batch_mode u = false -> u_num_active_gens u <> Some 0 -> (exists r, In r (m_W m0) /\ w_gen r = false) ->
  Forall (fun v => set_order (v_ord v)) vs ->
  driven_loop (default_alloc c a u) c vs s m0 = (m', CExc e) ->
  answers_match (m_log m') -> cancels_nothing (m_log m') -> gens_deliver (m_log m') ->
  exists vs1 v vs2 m, vs = vs1 ++ v :: vs2 /\ driven_loop (default_alloc c a u) c vs1 s m0 = (m, CGo) /\
    snd (bindx (kill_cancelled c m) (receive c (v_msgs v))) = Some e.
Proof.
  intros c a u sim gen al H0 n zeros gens pin vs s m' e m0 HC Hh Hi Hcol Hs Hu Hk Hb Hg Hw HV E F1 F2 F3.
  assert (HCA : columns_asked a (start_history c sim gen al H0 false)).
  { destruct (ne_dec (a_rows H0)) as [H|H]; auto. destruct Hh as (A1 & A2 & A3). unfold check_ensemble in HC. destruct (check_exit_criteria _ _ _); [discriminate|].
    split; [congruence|]. intros f Hf. rewrite A1, A2, A3 in Hf. eapply C60_fields_with_H0; eauto. rewrite !in_app_iff in *. tauto. }
  assert (HX : check_exit_criteria (c_stop c) sim gen = None) by (unfold check_ensemble in HC; now destruct (check_exit_criteria _ _ _)).
  destruct (C59_default_never_stuck c a u _ H0 n zeros gens pin vs s m' e Hs HCA Hu Hk Hb Hg Hw HV E F1 F2 F3) as (vs1 & v & vs2 & m & Ev & E1 & HD).
  exists vs1, v, vs2, m. split; [exact Ev|]. split; [exact E1|].
  assert (HT : forall vs s m x t, driven_loop (default_alloc c a u) c vs s m0 = (m, x) -> forall e, term_test c t m <> Err e).
  { intros vs' s' m1 x t E' e'. destruct (driven_main (default_alloc c a u) c vs' s' m0) as (its & Ei & _). rewrite <- Ei in E'. eapply C60_stop_test_never_fails; eauto. }
  destruct HD as [HD|[HD|HD]]; [exfalso; exact (HT _ _ _ _ _ E1 _ HD)|exact HD|exfalso; exact (HT _ _ _ _ _ E _ HD)].
Qed.
Print Assumptions C60_only_messages_fail.

(** ** Cases *)
Definition sim_x : uspecs := mkSp [X; F_sim_id] [] [(FF, ShS)].
Definition gen_x : uspecs := mkSp [] [F_sim_id; FF] [(X, ShS)].
(** stop when some value of f is -5 or less *)
Definition stops : mcfg := mkC false true true true false false None None (Some (FF, SNum (-5))) None.

(** An H0 with one finished point, stop on a field the simulator writes: accepted,
    and a run that gets as far as giving out work. *)
Example C60_H0_case :
  check_ensemble (c_stop stops) sim_x gen_x H0_done = None /\ a_rows H0_done <> [] /\ hands_out plain_setup sim_x gen_x /\ H0_scalar H0_done /\
  let r := driven_loop (default_alloc stops plain_setup one_gen) stops [here 1 []; here 2 [(1, gen_answer [10; 20; 30]%Z)]] 0
             (init_manager stops (start_history stops sim_x gen_x [] H0_done false) 3 [] [] None None) in
  snd r = CGo /\ orders_sent (m_log (fst r)) = 4 /\ h_started (start_history stops sim_x gen_x [] H0_done false) = 1.
Proof.
  split; [reflexivity|]. split; [discriminate|]. split; [now split|]. split; [|split; [|split]; vm_compute; reflexivity].
  intros p q Hp _. cbn in Hp. destruct Hp as [E|[E|[E|[]]]]; now injection E as _ <-.
Qed.
(** A field that nobody writes is refused. *)
Example C60_stop_case : check_ensemble (Some (F_user "nobody"%string, SNum 0)) sim_x gen_x H0_done = Some EAssert /\
  check_ensemble None sim_x gen_x H0_one_done = None /\
  check_ensemble None sim_x gen_x (mkA [(X, ShS); (F_sim_started, ShS); (F_sim_ended, ShS)] [(fun f => if feqb F_sim_ended f then vbool false else vbool true)]) = Some EAssert.
Proof. now split; [|split]. Qed.

(** Everything from a VOCS, for a generator object that returns _id. *)
Definition V1 : vocs := mkVocs [(X, ShS)] [(F_user "k"%string, ShS)] [(FF, ShS)] [] [].
Example C60_vocs_case : exists g, validate_gen (Some V1) (Some true) None no_attrs nothing_set = Ok g /\
  sp_out g = [(X, ShS); (F_user "k"%string, ShS); (F_uid, ShS)] /\ sp_persis_in g = [X; F_user "k"%string; FF; F_uid] /\ sp_in g = [X; F_user "k"%string; FF] /\
  sp_in (validate_sim (Some V1) no_attrs nothing_set) = [X; F_user "k"%string] /\ sp_in (validate_sim (Some V1) no_attrs sim_x) = [X; F_sim_id].
Proof. eexists. repeat split. Qed.

(** libE_specs: a workflow directory, an input directory and saving every ten. *)
Definition E1 : lenv := mkEnv [Some 1%Z; None] (fun s => String.append "/run/" s) (fun _ => true) "ab12".
Definition L1 : lspecs := mkLS None (Some 4%Z) [] false 10 0 false true (Some ""%string) (Some (DStr "in"%string)) false None false.
Example C60_libE_case : long_paths E1 /\
  validate_libE E1 L1 = Ok (mkLS (Some Local) (Some 4%Z) [] false 10 0 true true (Some "/run/./workflow_ab12"%string) (Some (DPath "/run/in"%string)) true None false).
Proof. split; [|reflexivity]. intros p. cbn. lia. Qed.
(** Two ranks, nworkers ignored: MPI. *)
Example C60_comms_case : exists v', validate_libE (mkEnv [Some 2%Z] (e_abs E1) (e_exists E1) "") L1 = Ok v' /\ l_comms v' = Some Mpi.
Proof. eexists. now split. Qed.

(** ** What is not checked *)
(** Without H0 the inputs are not checked: a field nobody writes is accepted, and the
    run ends with the first order that asks for it. *)
Definition typo_sim : uspecs := mkSp [F_user "xx"%string] [] [(FF, ShS)].
Definition typo_setup : asetup := mkSetup false false false 1 0 0 None 0 0 [F_user "xx"%string] [] [F_sim_id; FF].
Theorem C60_inputs_without_H0_refuted :
  check_ensemble None typo_sim gen_x no_H0 = None /\ hands_out typo_setup typo_sim gen_x /\
  ~ columns_asked typo_setup (start_history noend typo_sim gen_x [] no_H0 false) /\
  snd (driven_loop (default_alloc noend typo_setup one_gen) noend [here 1 []; here 2 [(1, gen_answer [10; 20; 30]%Z)]] 0
        (init_manager noend (start_history noend typo_sim gen_x [] no_H0 false) 3 [] [] None None)) = CExc EAssert.
Proof.
  split; [reflexivity|]. split; [now split|]. split; [|vm_compute; reflexivity].
  intros [_ H]. specialize (H (F_user "xx"%string) ltac:(now left)). unfold column in H. cbn in H. intuition discriminate.
Qed.
Print Assumptions C60_inputs_without_H0_refuted.

(** With H0, a field that only alloc_specs["out"] defines is refused, although it
    would be a column. *)
Theorem C60_alloc_fields_refuted : exists sim gen al H0 f,
  check_H0 sim gen H0 = Some EAssert /\ In f (sp_in sim) /\
  (forall g, In g (sp_in sim ++ sp_persis_in sim ++ sp_in gen ++ sp_persis_in gen) -> column (start_history noend sim gen al H0 false) g) /\
  check_H0 sim (mkSp (sp_in gen) (sp_persis_in gen) (sp_out gen ++ al)) H0 = None.
Proof.
  exists (mkSp [X; F_user "a"%string] [] [(FF, ShS)]), gen_x, [(F_user "a"%string, ShS)], H0_done, (F_user "a"%string).
  split; [reflexivity|]. split; [now right; left|]. split; [|reflexivity]. intros g Hg. apply start_column. cbn in Hg. destruct Hg as [<-|[<-|[<-|[<-|[]]]]]; cbn; auto 20.
Qed.
Print Assumptions C60_alloc_fields_refuted.

(** The shapes of H0 are not compared with those of the specifications: an x of three
    components is accepted where gen_f returns two, and the first return ends the run. *)
Definition gen_2 : uspecs := mkSp [] [] [(X, ShV 2)].
Definition H0_wide : sarr :=
  mkA [(X, ShV 3); (F_sim_started, ShS); (F_sim_ended, ShS)] [(fun f => if feqb X f then VV [SNum 1; SNum 1; SNum 1] else vbool true)].
Definition pairs : imsg := IData (mkAns EVAL_GEN 35 (UArr (mkA [(X, ShV 2)] [(fun _ => VV [SNum 1; SNum 2])])) [] false false).
Theorem C60_shapes_refuted :
  let run H0 := snd (driven_loop (default_alloc noend plain_setup one_gen) noend [here 1 []; here 2 [(1, pairs)]] 0
                      (init_manager noend (start_history noend sim_x gen_2 [] H0 false) 3 [] [] None None)) in
  check_ensemble None sim_x gen_2 H0_wide = None /\ run H0_wide = CExc EValue /\ run no_H0 = CGo.
Proof. split; [reflexivity|]. split; vm_compute; reflexivity. Qed.
Print Assumptions C60_shapes_refuted.

(** No worker at all is accepted with local comms; the first turn of the run fails. *)
Theorem C60_no_worker_refuted : exists v',
  validate_libE E1 (mkLS (Some Local) (Some 0%Z) [] false 0 0 false false (Some ""%string) None false None false) = Ok v' /\
  l_comms v' = Some Local /\ l_nworkers v' = Some 0%Z /\
  snd (driven_loop (default_alloc noend plain_setup one_gen) noend [here 1 []] 0 (init_manager noend (start_history noend sim_x gen_x [] no_H0 false) 0 [] [] None None)) = CExc EAssert.
Proof. eexists. split; [reflexivity|]. split; [reflexivity|]. split; [reflexivity|]. vm_compute. reflexivity. Qed.
Print Assumptions C60_no_worker_refuted.

(** The current directory is refused as input directory when it is given as a Path,
    not when it is given as a string. *)
Theorem C60_current_dir_refuted :
  let L d := mkLS (Some Local) (Some 4%Z) [] false 0 0 false false (Some ""%string) (Some d) false None false in
  validate_libE E1 (L (DPath "."%string)) = Err EAssert /\ exists v', validate_libE E1 (L (DStr "."%string)) = Ok v'.
Proof. split; [reflexivity|]. eexists. reflexivity. Qed.
Print Assumptions C60_current_dir_refuted.
(** That run meets the hypotheses of [C60_only_messages_fail]. *)
Example C60_only_messages_case :
  let m0 := init_manager noend (start_history noend sim_x gen_2 [] H0_wide false) 3 [] [] None None in
  let a := mkSetup false false false 1 0 0 None 0 0 [X; F_sim_id] [] [] in
  let m' := fst (driven_loop (default_alloc noend a one_gen) noend [here 1 []; here 2 [(1, pairs)]] 0 m0) in
  check_ensemble (c_stop noend) sim_x gen_2 H0_wide = None /\ hands_out a sim_x gen_2 /\ H0_scalar H0_wide /\
  snd (driven_loop (default_alloc noend a one_gen) noend [here 1 []; here 2 [(1, pairs)]] 0 m0) = CExc EValue /\
  answers_match (m_log m') /\ cancels_nothing (m_log m') /\ gens_deliver (m_log m').
Proof.
  cbv zeta. split; [reflexivity|]. split; [now split|]. split.
  - intros p q Hp Hl. cbn in Hp. destruct Hp as [E|[E|[E|[]]]]; injection E as <- <-; auto. cbn in Hl. intuition discriminate.
  - split; [vm_compute; reflexivity|]. apply traffic_fine. vm_compute. reflexivity.
Qed.
