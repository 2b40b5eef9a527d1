(** C46: results go back to a generator object with the ids it gave. *)
From Coq Require Import Permutation.
From Verif Require Import Base BaseLemmas HistoryModel HistorySpec HistoryProofs RsetModel WorkModel ManagerModel ManagerSpec ManagerProofs ManagerMsg ManagerRun ManagerPin HistoryExamples PropsResources ManagerExamples.
Local Open Scope nat_scope.

(** The message brings new points that carry ids. *)
Definition own_ids (c : mcfg) (a : answer) : Prop :=
  exists D, n_out a = UArr D /\ a_rows D <> [] /\ In F_sim_id (names (a_dtype D)) /\
    ((n_status a <> FIN_PERSIS_SIM /\ n_status a <> FIN_PERSIS_GEN /\ n_type a = EVAL_GEN) \/
     (n_status a = FIN_PERSIS_GEN /\ c_ret_gen c = true)).
Definition ids_seen (c : mcfg) (m : mgr) : Prop :=
  c_generator c = true /\ exists w a, In (Got w (IData a)) (m_log m) /\ own_ids c a.
Definition listed (p : option (list field)) : list field := match p with Some l => l | None => [] end.

Lemma own_b_spec c a : own_b c a = true <-> c_generator c = true /\ own_ids c a.
Proof.
  unfold own_b, own_ids. rewrite !andb_true_iff. split.
  - intros [[G O] S]. split; auto. destruct (n_out a) as [|D|]; try discriminate. exists D. apply andb_true_iff in O as [O1 O2].
    split; auto. split; [intros E; rewrite E in O1; discriminate|]. split; [now apply has_In|].
    destruct (fin_status a) eqn:EF.
    + right. apply andb_true_iff in S as [S1 S2]. apply Nat.eqb_eq in S1. auto.
    + left. apply Nat.eqb_eq in S. assert (~ (n_status a = FIN_PERSIS_SIM \/ n_status a = FIN_PERSIS_GEN)) by (rewrite <- fin_status_spec, EF; discriminate). tauto.
  - intros [G (D&->&R&I&S)]. split; [split; auto|].
    + apply andb_true_iff. split; [destruct (a_rows D); [congruence|reflexivity]|now apply has_In].
    + destruct S as [(S1&S2&S3)|(S1&S2)].
      * destruct (fin_status a) eqn:EF; [apply fin_status_spec in EF; tauto|]. now rewrite S3.
      * assert (fin_status a = true) as -> by (apply fin_status_spec; auto). now rewrite S1, S2.
Qed.
Lemma seen_spec c m : existsb (own_event c) (m_log m) = true <-> ids_seen c m.
Proof.
  rewrite existsb_exists. unfold ids_seen. split.
  - intros ([w o|w [a| | |]]&H1&H2); try discriminate. apply own_b_spec in H2 as [H2 H3]. eauto.
  - intros [G (w&a&H1&H2)]. exists (Got w (IData a)). split; auto. now apply own_b_spec.
Qed.
Lemma start_pin c h n zeros gens rm pin : PinK c pin (init_manager c h n zeros gens rm pin).
Proof. split; [apply init_table|reflexivity]. Qed.
Lemma with_id_spec p : In F_sim_id (with_id p) /\ (NoDup (listed p) -> NoDup (with_id p)) /\
  (with_id p = listed p \/ with_id p = listed p ++ [F_sim_id] /\ ~ In F_sim_id (listed p)).
Proof.
  unfold with_id, listed. set (l := match p with Some l => l | None => [] end). destruct (has F_sim_id l) eqn:E.
  - apply has_In in E. auto.
  - assert (N : ~ In F_sim_id l) by (rewrite <- has_In, E; discriminate). split; [apply in_or_app; cbn; auto|]. split; [|auto].
    intros H. apply (Permutation_NoDup (Permutation_cons_append l F_sim_id)). now constructor.
Qed.

(** Once a generator object has sent points with ids, "sim_id" is among the fields
    that gen_specs["persis_in"] asks to be returned; it is added at the end, once,
    and nothing else changes. *)
Theorem C46_ids_listed c h n zeros gens rm pin its t rounds m o :
  run c its t rounds (init_manager c h n zeros gens rm pin) = (m, o) -> ids_seen c m ->
  exists l, m_persis_in m = Some l /\ In F_sim_id l /\ (NoDup (listed pin) -> NoDup l) /\
    (l = listed pin \/ l = listed pin ++ [F_sim_id] /\ ~ In F_sim_id (listed pin)).
Proof.
  intros H S. pose proof (pin_run _ _ _ _ _ _ _ _ (start_pin c h n zeros gens rm pin) H) as [_ K].
  apply seen_spec in S. rewrite S in K. exists (with_id pin). split; auto. apply with_id_spec.
Qed.
Print Assumptions C46_ids_listed.

(** If none of its messages brought ids, or the generator is a function, the list
    is the user's. *)
Theorem C46_otherwise_unchanged c h n zeros gens rm pin its t rounds m o :
  run c its t rounds (init_manager c h n zeros gens rm pin) = (m, o) -> ~ ids_seen c m -> m_persis_in m = pin.
Proof.
  intros H S. pose proof (pin_run _ _ _ _ _ _ _ _ (start_pin c h n zeros gens rm pin) H) as [_ K].
  destruct (existsb (own_event c) (m_log m)) eqn:E; auto. now apply seen_spec in E.
Qed.
Print Assumptions C46_otherwise_unchanged.

(** With final_gen_send, every last order to a generator then asks for the ids too. *)
Theorem C46_final_send c h n zeros gens rm pin its t m1 s m2 :
  main_loop c its (init_manager c h n zeros gens rm pin) = (m1, s) -> c_final_send c = true ->
  stop_all_persistent c t m1 = (m2, None) -> ids_seen c m1 ->
  exists l, m_log m2 = m_log m1 ++ l /\ forall w k, In (Sent w (OWork k)) l -> In F_sim_id (k_fields k).
Proof.
  intros H HF HS S. pose proof (pin_main _ _ _ _ _ _ (start_pin c h n zeros gens rm pin) H) as [T K].
  apply final_sends in HS as (l&L&F); auto. exists l. split; auto. intros w k Hin. apply F in Hin.
  apply seen_spec in S. rewrite S in K. rewrite K in Hin. injection Hin as <-. apply with_id_spec.
Qed.
Print Assumptions C46_final_send.

(** A persistent generator object sends points with ids, then ends by order; the
    user's list has only the result. *)
Definition cg (final_send : bool) : mcfg := mkC false false true true final_send true None None None None.
Definition id_pts : imsg := IData (mkAns EVAL_GEN 0 (UArr (mkA [(F_sim_id, ShS); (X, ShS)]
  [fun f => match f with F_sim_id => vint 0 | _ => vint 10 end; fun f => match f with F_sim_id => vint 1 | _ => vint 20 end])) [] false true).
Definition mg (c : mcfg) : mgr := init_manager c (fresh_history c [(X, ShS); (FF, ShS)] no_H0 true) 3 [] [] None (Some [FF]).
Definition id_its : list iter :=
  [turn 1 [] [(1, persis_gen_order)];
   turn 2 [(1, id_pts)] [(2, sim_order [0; 1])];
   turn 3 [(2, sim_answer [0; 1] [100; 101]%Z)] [(1, to_persis [0])];
   mkIt 4 [] keep_rows AStop 4].
Lemma id_pts_own c : c_generator c = true -> own_ids c (mkAns EVAL_GEN 0 (UArr (mkA [(F_sim_id, ShS); (X, ShS)]
  [fun f => match f with F_sim_id => vint 0 | _ => vint 10 end; fun f => match f with F_sim_id => vint 1 | _ => vint 20 end])) [] false true).
Proof. intros _. eexists. split; [reflexivity|]. cbn. split; [discriminate|]. split; [auto|]. left. repeat split; discriminate. Qed.
Example C46_used :
  let m1 := fst (main_loop (cg true) id_its (mg (cg true))) in
  m_persis_in (fst (run (cg true) id_its 9 [round 5 [(1, persis_end)]] (mg (cg true)))) = Some [FF; F_sim_id] /\
  snd (run (cg true) id_its 9 [round 5 [(1, persis_end)]] (mg (cg true))) = Returned 0 /\
  ids_seen (cg true) m1 /\ snd (stop_all_persistent (cg true) 9 m1) = None /\
  m_persis_in (fst (run c2 plain_its 9 [] (m3 c2))) = Some [F_sim_id; FF].
Proof.
  cbv zeta. split; [vm_compute; reflexivity|]. split; [vm_compute; reflexivity|]. split; [|split; vm_compute; reflexivity].
  split; [reflexivity|]. exists 1. eexists. split; [|apply (id_pts_own (cg true) eq_refl)].
  vm_compute. right. left. reflexivity.
Qed.
