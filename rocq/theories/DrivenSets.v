(** The sets named in the units of the shipped allocation functions. *)
From Coq Require Import Permutation.
From Verif Require Import Base BaseLemmas HistoryModel HistorySpec RsetModel RsetSpec RsetProofs WorkModel SchedModel SchedSpec AllocModel AllocSpec AllocProofs AllocLoops AllocFacts AllocFast AllocPersis ManagerModel ManagerSpec ManagerProofs ManagerMsg ManagerRun ManagerInv ManagerFinal ManagerEnd ManagerRes DrivenModel DrivenSpec DrivenProofs DrivenInv DrivenPoints DrivenRes.

Section Sets.
Variable x : actx.
Hypothesis Hr : resources_ok x.

Definition team_named (k : work) : Prop :=
  match ac_rm x with
  | None => team_of k = []
  | Some _ => if ac_manage x then k_team k <> None else k_team k = None
  end.
Definition known (w : nat) : Prop := In w (map w_id (ac_W x)).
Definition Ti (work : wdict) (s : ast) : Prop :=
  (exists handed rest, sinv x handed s /\ Permutation handed (sets_given work ++ rest)) /\
  forall w k, In (w, k) work -> known w /\ team_named k.

Lemma Ti_init g : Ti [] (support_init x g).
Proof. split; [|intros ? ? []]. exists [], []. split; [now apply support_init_sinv|constructor]. Qed.

Lemma team_in handed w q s t np ng s' : sinv x handed s -> update_team x w q s = (Ok (t, np, ng), s') ->
  match ac_rm x with None => match t with Some t => t | None => [] end = [] | Some _ => if ac_manage x then t <> None else t = None end.
Proof.
  intros Hs E. apply (update_team_spec x handed) in E as (_ & E1 & E2 & E3); auto. destruct (ac_rm x) as [rm|] eqn:Em.
  - destruct (ac_manage x); auto. destruct (E3 eq_refl) as (r & _ & H1 & H2). destruct (Nat.eq_dec (w_persis r) 0) as [Ep|Ep]; [|rewrite (H1 Ep); discriminate].
    destruct (H2 Ep) as (q' & _ & C). unfold covers in C. rewrite Em in C. destruct t; [discriminate|contradiction].
  - unfold sinv in E1. rewrite Em in E1. destruct (as_sched s'); [contradiction|]. now apply app_eq_nil in E1.
Qed.

Lemma Ti_set handed rest work w k s : known w -> team_named k -> sinv x (handed ++ team_of k) s -> Permutation handed (sets_given work ++ rest) ->
  (forall w k, In (w, k) work -> known w /\ team_named k) -> Ti (dict_set work w k) s.
Proof.
  intros Hw Ht Hs Hp Hk. split.
  - destruct (dict_set_sets work w k) as (r2 & P). exists (handed ++ team_of k), (r2 ++ rest). split; auto.
    rewrite app_assoc, <- P, Hp, <- !app_assoc. apply Permutation_app_head, Permutation_app_comm.
  - intros v k1 Hin. apply dict_set_In in Hin as [E|Hin]; [injection E as -> ->; auto|now apply Hk].
Qed.

Lemma Ti_sim d H w rows pers work s a s' : Ti work s -> known w -> sim_work x d H w rows pers s = (a, s') ->
  match a with Ok k => Ti (dict_set work w k) s' | Err _ => Ti work s' end.
Proof.
  intros [(handed & rest & Hs & Hp) Hk] Hw E. pose proof (sim_work_spec x d H handed _ _ _ _ _ _ Hr Hs E) as [_ X].
  destruct a as [k|e]; [|split; auto; exists handed, rest; tauto]. destruct X as (X1 & _).
  eapply Ti_set; eauto. revert E. unfold sim_work. destruct (update_team _ _ _ _) as [[[[t np] ng]|e0] s1] eqn:Eu; [|discriminate].
  intros [= <- <-]. exact (team_in _ _ _ _ _ _ _ _ Hs Eu).
Qed.

Lemma Ti_gen w fields rows pers recv work s a s' : Ti work s -> known w -> gen_work x w fields rows pers recv s = (a, s') ->
  match a with Ok k => Ti (dict_set work w k) s' | Err _ => Ti work s' end.
Proof.
  intros [(handed & rest & Hs & Hp) Hk] Hw E. pose proof (gen_work_spec x handed _ _ _ _ _ _ _ _ Hr Hs E) as X.
  destruct a as [k|e]; [|split; auto; exists handed, rest; tauto]. destruct X as (X1 & _).
  eapply Ti_set; eauto. revert E. unfold gen_work. destruct (update_team _ _ _ _) as [[[[t np] ng]|e0] s1] eqn:Eu; [|discriminate].
  destruct (wget _ _ _); [|discriminate]. destruct (avail_workers _ _ _ _ _); [|discriminate].
  intros [= <- <-]. exact (team_in _ _ _ _ _ _ _ _ Hs Eu).
Qed.

Lemma Ti_sims d H batch pers ws : (forall w, In w ws -> known w) -> forall pts work s work' s' pts' e, Ti work s ->
  sim_loop x d H batch pers ws pts work s = (work', s', pts', e) -> Ti work' s'.
Proof.
  induction ws as [|w ws IH]; intros Hw pts work s work' s' pts' e HT; cbn [sim_loop]; [intros [= <- <- <- <-]; auto|].
  destruct pts as [|i pts]; [intros [= <- <- <- <-]; auto|]. destruct (points_by_priority _ _ _ _) as [rows|e0]; [|intros [= <- <- <- <-]; auto].
  destruct (sim_work x d H w rows pers s) as [a s1] eqn:E. eapply Ti_sim in E; eauto; [|apply Hw; now left].
  destruct a as [k|er]; [apply IH; auto; intros; apply Hw; now right|]. destruct er; intros [= <- <- <- <-]; auto.
Qed.
Lemma Ti_gens H u ws : (forall w, In w ws -> known w) -> forall gc work s work' s' e, Ti work s ->
  gen_loop x H u ws gc work s = (work', s', e) -> Ti work' s'.
Proof.
  induction ws as [|w ws IH]; intros Hw gc work s work' s' e HT; cbn [gen_loop]; [intros [= <- <- <-]; auto|].
  destruct (match u_num_active_gens u with Some n => n <=? gc | None => false end); [intros [= <- <- <-]; auto|].
  destruct (_ && _); [intros [= <- <- <-]; auto|].
  destruct (gen_work _ _ _ _ _ _ s) as [a s1] eqn:E. eapply Ti_gen in E; eauto; [|apply Hw; now left].
  destruct a as [k|er]; [apply IH; auto; intros; apply Hw; now right|]. destruct er; intros [= <- <- <-]; auto.
Qed.
Lemma Ti_fast_sims d H ws : (forall w, In w ws -> known w) -> forall nx work s work' s' nx' e, Ti work s ->
  fast_sims x d H ws nx work s = (work', s', nx', e) -> Ti work' s'.
Proof.
  induction ws as [|w ws IH]; intros Hw nx work s work' s' nx' e HT; cbn [fast_sims]; [intros [= <- <- <- <-]; auto|].
  destruct (_ <? _); [|apply IH; auto; intros; apply Hw; now right].
  destruct (sim_work _ _ _ _ _ _ s) as [a s1] eqn:E. eapply Ti_sim in E; eauto; [|apply Hw; now left].
  destruct a as [k|er]; [apply IH; auto; intros; apply Hw; now right|]. destruct er; intros [= <- <- <- <-]; auto.
Qed.
Lemma Ti_fast_gens H num ws : (forall w, In w ws -> known w) -> forall gc calls work s work' s' calls' e, Ti work s ->
  fast_gens x H num ws gc calls work s = (work', s', calls', e) -> Ti work' s'.
Proof.
  induction ws as [|w ws IH]; intros Hw gc calls work s work' s' calls' e HT; cbn [fast_gens]; [intros [= <- <- <- <-]; auto|].
  destruct (_ && _); [|apply IH; auto; intros; apply Hw; now right].
  destruct (gen_work _ _ _ _ _ _ s) as [a s1] eqn:E. eapply Ti_gen in E; eauto; [|apply Hw; now left].
  destruct a as [k|er]; [apply IH; auto; intros; apply Hw; now right|]. destruct er; intros [= <- <- <- <-]; auto.
Qed.
Lemma Ti_next d H ws : (forall w, In w ws -> known w) -> forall nx work s work' s' nx' e, Ti work s ->
  next_sims x d H ws nx work s = (work', s', nx', e) -> Ti work' s'.
Proof.
  induction ws as [|w ws IH]; intros Hw nx work s work' s' nx' e HT; cbn [next_sims]; [intros [= <- <- <- <-]; auto|].
  destruct (sim_work _ _ _ _ _ _ s) as [a s1] eqn:E. eapply Ti_sim in E; eauto; [|apply Hw; now left].
  destruct a as [k|er]; [|destruct er; intros [= <- <- <- <-]; auto].
  destruct (_ <=? _); [intros [= <- <- <- <-]; auto|]. apply IH; auto; intros; apply Hw; now right.
Qed.
Lemma Ti_back H u async ws : (forall w, In w ws -> known w) -> forall work s work' s' e, Ti work s ->
  back_loop x H u async ws work s = (work', s', e) -> Ti work' s'.
Proof.
  induction ws as [|w ws IH]; intros Hw work s work' s' e HT; cbn [back_loop]; [intros [= <- <- <-]; auto|].
  assert (Hw' : forall v, In v ws -> known v) by (intros; apply Hw; now right).
  destruct (returned_for H w) as [|i ids]; [apply IH; auto|]. destruct (_ || _); [|apply IH; auto].
  destruct (gen_work _ _ _ _ _ _ s) as [a s1] eqn:E. eapply Ti_gen in E; eauto; [|apply Hw; now left].
  destruct a as [k|er]; [apply IH; auto|]. intros [= <- <- <-]; auto.
Qed.
Lemma Ti_start H u ws : (forall w, In w ws -> known w) -> forall gc st work s work' s' st' e, Ti work s ->
  start_loop x H u ws gc st work s = (work', s', st', e) -> Ti work' s'.
Proof.
  induction ws as [|w ws IH]; intros Hw gc st work s work' s' st' e HT; cbn [start_loop]; [intros [= <- <- <- <-]; auto|].
  destruct (_ <? _); [|apply IH; auto; intros; apply Hw; now right].
  destruct (gen_work _ _ _ _ _ _ s) as [a s1] eqn:E. eapply Ti_gen in E; eauto; [|apply Hw; now left].
  destruct a as [k|er]; [apply IH; auto; intros; apply Hw; now right|]. destruct er; intros [= <- <- <- <-]; auto.
Qed.

Lemma avail_known p a z g ws : avail_workers (ac_W x) p a z g = Ok ws -> forall w, In w ws -> known w.
Proof. intros E w Hin. destruct (avail_rows _ _ _ _ _ _ _ E Hin) as (r & H1 & <- & _). now apply in_map. Qed.
Lemma sims_known u ws : sim_workers x u = Ok ws -> forall w, In w ws -> known w.
Proof.
  unfold sim_workers. destruct (pu_alt u); [|apply avail_known].
  destruct (avail_workers (ac_W x) (Some 0) _ _ _) as [a|] eqn:E1; [|discriminate]. cbn [bindr].
  destruct (avail_workers (ac_W x) (Some EVAL_SIM) _ _ _) as [b|] eqn:E2; [|discriminate]. cbn [bindr].
  intros [= <-] w Hin. destruct Hr as [HO _]. apply (Permutation_in _ (HO _)) in Hin. apply nodup_In, in_app_iff in Hin as [Hin|Hin]; [exact (avail_known _ _ _ _ _ E1 w Hin)|exact (avail_known _ _ _ _ _ E2 w Hin)].
Qed.

Definition Td (work : wdict) : Prop := exists s, Ti work s.
Lemma Td_nil : Td [].
Proof. exists (support_init x 0). apply Ti_init. Qed.

Lemma Td_default d u now stop g H : Td (o_work (give_sim_work_first x d u now stop g H)).
Proof.
  unfold give_sim_work_first. destruct stop; [apply Td_nil|]. destruct (to_evaluate _).
  - destruct (avail_workers _ _ _ _ _) as [ws|] eqn:Ew; [|apply Td_nil]. destruct (gen_loop _ _ _ _ _ _ _) as [[wk s1] e] eqn:E.
    exists s1. exact (Ti_gens _ _ _ (avail_known _ _ _ _ _ Ew) _ _ _ _ _ _ (Ti_init g) E).
  - destruct (avail_workers _ _ _ _ _) as [ws|] eqn:Ew; [|apply Td_nil]. destruct (sim_loop _ _ _ _ _ _ _ _ _) as [[[wk s1] pp] e] eqn:E.
    exists s1. exact (Ti_sims _ _ _ _ _ (avail_known _ _ _ _ _ Ew) _ _ _ _ _ _ _ (Ti_init g) E).
Qed.
Lemma Td_fast d num stop g p H : Td (o_work (fst (fast_alloc x d num stop g p H))).
Proof.
  unfold fast_alloc. destruct stop; [apply Td_nil|]. destruct (avail_workers _ _ _ _ (Some false)) as [ws|] eqn:Ew; [|apply Td_nil].
  destruct (avail_workers _ _ _ _ (Some true)) as [gs|] eqn:Eg; [|apply Td_nil]. destruct (fast_sims _ _ _ _ _ _ _) as [[[wk s1] nx] e] eqn:E.
  assert (T1 : Ti wk s1) by exact (Ti_fast_sims _ _ _ (avail_known _ _ _ _ _ Ew) _ _ _ _ _ _ _ (Ti_init g) E).
  destruct e as [e|]; [now exists s1|]. destruct (_ <=? _); [|now exists s1]. destruct (fast_gens _ _ _ _ _ _ _ _) as [[[wk2 s2] calls] e2] eqn:E2.
  exists s2. exact (Ti_fast_gens _ _ _ (avail_known _ _ _ _ _ Eg) _ _ _ _ _ _ _ _ T1 E2).
Qed.
Lemma Td_pregenerated d stop g p H : Td (o_work (fst (give_pregenerated x d stop g p H))).
Proof.
  unfold give_pregenerated. destruct stop; [apply Td_nil|]. destruct (_ <=? _); [apply Td_nil|]. destruct (avail_workers _ _ _ _ _) as [ws|] eqn:Ew; [|apply Td_nil].
  destruct (next_sims _ _ _ _ _ _ _) as [[[wk s1] nx] e] eqn:E. exists s1. exact (Ti_next _ _ _ (avail_known _ _ _ _ _ Ew) _ _ _ _ _ _ _ (Ti_init g) E).
Qed.
Lemma Td_one_gen d stop g p H : Td (o_work (fst (ensure_one_active_gen x d stop g p H))).
Proof.
  unfold ensure_one_active_gen. destruct stop; [apply Td_nil|]. destruct (_ <? _).
  - destruct (avail_workers _ _ _ _ _) as [ws|] eqn:Ew; [|apply Td_nil].
    destruct (next_sims _ _ _ _ _ _ _) as [[[wk s1] nx] e] eqn:E. exists s1. exact (Ti_next _ _ _ (avail_known _ _ _ _ _ Ew) _ _ _ _ _ _ _ (Ti_init g) E).
  - destruct (negb _); [|apply Td_nil]. destruct (avail_workers _ _ _ _ _) as [[|w ws]|] eqn:Ew; try apply Td_nil. destruct (negb _); [apply Td_nil|].
    destruct (gen_work _ _ _ _ _ _ _) as [[k|er] s1] eqn:Eg; [|destruct er; apply Td_nil].
    exists s1. eapply (Ti_gen w _ _ _ _ []) in Eg; [exact Eg|apply Ti_init|]. apply (avail_known _ _ _ _ _ Ew). now left.
Qed.
Lemma Td_persistent d u stop g p H : Td (o_work (fst (only_persistent_gens x d u stop g p H))).
Proof.
  unfold only_persistent_gens. destruct stop; [apply Td_nil|]. destruct (_ <? _); [apply Td_nil|].
  destruct (avail_workers _ (Some EVAL_GEN) _ _ _) as [bs|] eqn:Eb; [|apply Td_nil].
  destruct (back_loop _ _ _ _ _ _ _) as [[wk1 s1] e1] eqn:E1.
  assert (T1 : Ti wk1 s1) by exact (Ti_back _ _ _ _ (avail_known _ _ _ _ _ Eb) _ _ _ _ _ (Ti_init g) E1).
  destruct e1 as [e1|]; [now exists s1|]. destruct (sim_workers x u) as [ws|] eqn:Ew; [|now exists s1].
  destruct (sim_loop _ _ _ _ _ _ _ _ _) as [[[wk2 s2] pts] e2] eqn:E2.
  assert (T2 : Ti wk2 s2) by exact (Ti_sims _ _ _ _ _ (sims_known _ _ Ew) _ _ _ _ _ _ _ T1 E2).
  destruct e2 as [e2|]; [now exists s2|]. destruct pts; [|now exists s2].
  destruct (avail_workers _ _ _ _ (Some true)) as [gs|] eqn:Eg; [|now exists s2].
  destruct (start_loop _ _ _ _ _ _ _ _) as [[[wk3 s3] st] e3] eqn:E3. exists s3. exact (Ti_start _ _ _ (avail_known _ _ _ _ _ Eg) _ _ _ _ _ _ _ _ T2 E3).
Qed.
End Sets.

Lemma Td_sets_ok c a v m wk : Td (call_context c a v m) wk -> sets_ok (u_manage a) m wk.
Proof.
  intros (s & (handed & rest & Hs & Hp) & Hk). split; [intros w k Hin; now apply (Hk w k)|].
  unfold team_named in Hk. cbn in Hk. destruct (m_res m) as [rm|] eqn:Er; [|intros w k Hin; now apply (Hk w k)].
  destruct (u_manage a); [|intros w k Hin; now apply (Hk w k)].
  destruct (sinv_free (call_context c a v m) handed s rm Er Hs) as [N F].
  split; [intros w k Hin; now apply (Hk w k)|]. rewrite Hp in N. split; [apply NoDup_app_iff in N; tauto|].
  intros i Hi. assert (G : is_free rm i) by (apply F, (Permutation_in _ (Permutation_sym Hp)), in_app_iff; auto).
  apply G.
Qed.

Lemma shipped_Td c a S (A : alloc_fn S) : shipped c a S A -> forall v s m out s', table_ok c m -> reach m -> set_order (v_ord v) -> A v s m = (out, s') ->
  Td (call_context c a v m) (o_work out).
Proof.
  intros HA v s m out s' T R O. destruct (call_ok c a v m T R O) as [_ Hr]. intros E. revert s out s' E.
  destruct HA; intros s out s'; unfold default_alloc, persistent_alloc, fast_alloc_fn, pregenerated_alloc, one_gen_alloc; cbn zeta.
  - intros [= <- _]. now apply Td_default.
  - pose proof (Td_persistent _ Hr (h_dtype (m_h m)) u (no_more_work c m) (fst s) (snd s) (trim_H (m_h m))) as H.
    destruct (only_persistent_gens _ _ _ _ _ _ _) as [o p]. intros [= <- _]. exact H.
  - pose proof (Td_fast _ Hr (h_dtype (m_h m)) num (no_more_work c m) (fst s) (snd s) (trim_H (m_h m))) as H.
    destruct (fast_alloc _ _ _ _ _ _ _) as [o p]. intros [= <- _]. exact H.
  - pose proof (Td_pregenerated _ Hr (h_dtype (m_h m)) (no_more_work c m) (fst s) (snd s) (trim_H (m_h m))) as H.
    destruct (give_pregenerated _ _ _ _ _ _) as [o p]. intros [= <- _]. exact H.
  - pose proof (Td_one_gen _ Hr (h_dtype (m_h m)) (no_more_work c m) (fst s) (snd s) (trim_H (m_h m))) as H.
    destruct (ensure_one_active_gen _ _ _ _ _ _) as [o p]. intros [= <- _]. exact H.
Qed.

Lemma shipped_sets c a S (A : alloc_fn S) : shipped c a S A -> forall v s m out s', table_ok c m -> reach m -> set_order (v_ord v) -> A v s m = (out, s') ->
  sets_ok (u_manage a) m (o_work out).
Proof. intros HA v s m out s' T R O E. eapply Td_sets_ok, shipped_Td; eauto. Qed.
Lemma Td_range c a v m wk rm : Td (call_context c a v m) wk -> m_res m = Some rm -> forall i, In i (sets_given wk) -> i < length (rm_rsets rm).
Proof.
  intros (s & (handed & rest & Hs & Hp) & _) Er i Hi. destruct (sinv_free (call_context c a v m) handed s rm Er Hs) as [_ F].
  assert (G : is_free rm i) by (apply F, (Permutation_in _ (Permutation_sym Hp)), in_app_iff; auto).
  apply G.
Qed.

Lemma driven_sets c a S (A : alloc_fn S) vs s m m' x : shipped c a S A -> Forall (fun v => set_order (v_ord v)) vs -> Jres c (u_manage a) m ->
  driven_loop A c vs s m = (m', x) -> Lres c m' /\ ((forall e, x <> CExc e) -> Jres c (u_manage a) m').
Proof.
  intros HA HV HJ E.
  eapply (driven_ind A c (fun _ => Jres c (u_manage a)) (Lres c) (fun v => set_order (v_ord v)) (fun _ _ => True)) in E as [E1 E2]; eauto.
  - split; auto. intros Hx. destruct (E2 Hx) as (_ & H). exact H.
  - intros _ m0 H. apply H.
  - intros _ m0 m1 e H E0. eapply Jres_kill; eauto.
  - intros _ w i t m0 m1 e H _ E0. eapply Jres_poll; eauto.
  - intros s0 s1 v m0 out H HO E0. pose proof (shipped_sets c a S A HA v s0 m0 out s1 (proj1 (proj1 H)) (proj1 (proj2 H)) HO E0) as HS.
    assert (HE : Jres c (u_manage a) (edited m0 out)) by exact H.
    split; [apply HE|]. split; [intros _ _; exact HE|]. intros _ _ m2 e EG. eapply Jres_orders; eauto.
Qed.

Lemma init_sets c b h n zeros gens rm pin : (forall r, rm = Some r -> reachable_table r /\ forall i, holder r i = None) -> (b = false -> c_gom c = false) ->
  Jres c b (init_manager c h n zeros gens rm pin).
Proof.
  intros Hrm Hb. split; [split; [apply init_table|apply shared_nil]|]. split; [unfold reach; cbn; destruct rm as [r|]; auto; now apply Hrm|]. split.
  - intros r E i w. cbn in E. destruct (Hrm r E) as [_ ->]. cbn. split; [discriminate|intros []].
  - intros Hf. split; [|intros r i w E Hh; cbn in E; destruct (Hrm r E) as [_ H]; rewrite H in Hh; discriminate].
    destruct (init_res c h n zeros gens None pin) as (_ & E & _); [discriminate|].
    change (m_W (init_manager c h n zeros gens rm pin)) with (m_W (init_manager c h n zeros gens None pin)). rewrite E. unfold worker_ids. rewrite (Hb Hf).
    intros Hin. apply in_seq in Hin. lia.
Qed.
