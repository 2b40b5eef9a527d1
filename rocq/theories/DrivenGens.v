(** The number of generators running at once in a driven run. *)
From Coq Require Import Permutation.
From Verif Require Import Base BaseLemmas HistoryModel HistorySpec RsetModel RsetSpec WorkModel SchedModel SchedSpec AllocModel AllocSpec AllocProofs AllocLoops AllocFacts AllocFast AllocPersis ManagerModel ManagerSpec ManagerProofs ManagerMsg ManagerRun ManagerInv ManagerFinal ManagerEnd ManagerRes DrivenModel DrivenSpec DrivenProofs DrivenInv DrivenPoints DrivenRes.

(** ** What the units of an allocation function start *)

Definition starts (pers : bool) (P : list nat) (p : nat * work) : bool :=
  (k_tag (snd p) =? EVAL_GEN) && (negb pers || k_persistent (snd p)) && negb (memb (fst p) P).

Lemma starts_set pers P d w k : countb (starts pers P) (dict_set d w k) <= countb (starts pers P) d + (if starts pers P (w, k) then 1 else 0).
Proof.
  induction d as [|[v x] d IH]; cbn [dict_set].
  - unfold countb. cbn [filter]. destruct (starts pers P (w, k)); cbn; lia.
  - destruct (Nat.eqb_spec v w) as [->|Hne]; unfold countb in *; cbn [filter].
    + destruct (starts pers P (w, k)), (starts pers P (w, x)); cbn [length]; lia.
    + destruct (starts pers P (v, x)); cbn [length]; lia.
Qed.

Lemma sim_work_tag x d H w rows pers s k s' : sim_work x d H w rows pers s = (Ok k, s') -> k_tag k = EVAL_SIM /\ k_persistent k = pers.
Proof. unfold sim_work. destruct (update_team _ _ _ _) as [[[[t np] ng]|e] s1]; [|discriminate]. intros [= <- _]. auto. Qed.
Lemma gen_work_tag x w fs rows pers recv s k s' : gen_work x w fs rows pers recv s = (Ok k, s') -> k_tag k = EVAL_GEN /\ k_persistent k = pers.
Proof.
  unfold gen_work. destruct (update_team _ _ _ _) as [[[[t np] ng]|e] s1]; [|discriminate].
  destruct (wget _ _ _); [|discriminate]. destruct (avail_workers _ _ _ _ _); [|discriminate]. intros [= <- _]. auto.
Qed.

Section Units.
Variables (x : actx) (pers : bool) (P : list nat) (base : nat).

(** orders are simulations or generator calls; those in P get only generator calls of the right kind *)
Definition known (w : nat) : Prop := In w (map w_id (ac_W x)).
Definition unit_fit (p : nat * work) : Prop :=
  known (fst p) /\ (k_tag (snd p) = EVAL_SIM \/ k_tag (snd p) = EVAL_GEN) /\
  (In (fst p) P -> k_tag (snd p) = EVAL_GEN /\ (negb pers || k_persistent (snd p)) = true).
Definition Gi (work : wdict) (gc : nat) : Prop := (forall p, In p work -> unit_fit p) /\ countb (starts pers P) work + base <= gc.

Lemma Gi_set work gc w k n : Gi work gc -> unit_fit (w, k) -> (if starts pers P (w, k) then 1 else 0) <= n -> Gi (dict_set work w k) (gc + n).
Proof.
  intros [H1 H2] Hu Hn. split; [intros p Hp; apply dict_set_In in Hp as [->|Hp]; auto|]. pose proof (starts_set pers P work w k). lia.
Qed.
Lemma Gi_sim work gc w d H rows pp s k s' : Gi work gc -> known w -> ~ In w P -> sim_work x d H w rows pp s = (Ok k, s') -> Gi (dict_set work w k) gc.
Proof.
  intros HG Hk Hw E. apply sim_work_tag in E as [E1 _]. replace gc with (gc + 0) by lia. apply Gi_set; auto.
  - split; [exact Hk|]. split; cbn; [auto|contradiction].
  - unfold starts. cbn. rewrite E1. cbn. lia.
Qed.
Lemma Gi_gen work gc w fs rows pp recv s k s' : Gi work gc -> known w -> (In w P -> (negb pers || pp) = true) -> gen_work x w fs rows pp recv s = (Ok k, s') ->
  Gi (dict_set work w k) (S gc).
Proof.
  intros HG Hk Hw E. apply gen_work_tag in E as [E1 E2]. replace (S gc) with (gc + 1) by lia. apply Gi_set; auto.
  - split; [exact Hk|]. split; cbn; auto. intros Hin. rewrite E2. auto.
  - destruct (starts _ _ _); lia.
Qed.
Lemma Gi_back work gc w fs rows recv s k s' : Gi work gc -> known w -> In w P -> gen_work x w fs rows true recv s = (Ok k, s') ->
  Gi (dict_set work w k) gc.
Proof.
  intros HG Hk Hw E. apply gen_work_tag in E as [E1 E2]. replace gc with (gc + 0) by lia. apply Gi_set; auto.
  - split; [exact Hk|]. split; cbn; auto. intros _. rewrite E2. split; auto. apply orb_true_r.
  - unfold starts. cbn [fst snd]. apply memb_In in Hw. rewrite Hw, andb_false_r. lia.
Qed.

Lemma Gi_sims d H batch pp ws : (forall w, In w ws -> known w /\ ~ In w P) -> forall gc pts work s work' s' pts' e, Gi work gc ->
  sim_loop x d H batch pp ws pts work s = (work', s', pts', e) -> Gi work' gc.
Proof.
  induction ws as [|w ws IH]; intros Hw gc pts work s work' s' pts' e HT; cbn [sim_loop]; [intros [= <- _ _ _]; auto|].
  destruct pts as [|i pts]; [intros [= <- _ _ _]; auto|]. destruct (points_by_priority _ _ _ _) as [rows|e0]; [|intros [= <- _ _ _]; auto].
  destruct (sim_work x d H w rows pp s) as [a s1] eqn:E. destruct a as [k|er]; [|destruct er; intros [= <- _ _ _]; auto].
  apply IH; [intros; apply Hw; now right|]. eapply Gi_sim; eauto; apply Hw; now left.
Qed.
Lemma Gi_next d H ws : (forall w, In w ws -> known w /\ ~ In w P) -> forall gc nx work s work' s' nx' e, Gi work gc ->
  next_sims x d H ws nx work s = (work', s', nx', e) -> Gi work' gc.
Proof.
  induction ws as [|w ws IH]; intros Hw gc nx work s work' s' nx' e HT; cbn [next_sims]; [intros [= <- _ _ _]; auto|].
  destruct (sim_work _ _ _ _ _ _ s) as [a s1] eqn:E. destruct a as [k|er]; [|destruct er; intros [= <- _ _ _]; auto].
  assert (G : Gi (dict_set work w k) gc) by (eapply Gi_sim; eauto; apply Hw; now left).
  destruct (_ <=? _); [intros [= <- _ _ _]; auto|]. apply IH; auto. intros; apply Hw; now right.
Qed.
Lemma Gi_fast_sims d H ws : (forall w, In w ws -> known w /\ ~ In w P) -> forall gc nx work s work' s' nx' e, Gi work gc ->
  fast_sims x d H ws nx work s = (work', s', nx', e) -> Gi work' gc.
Proof.
  induction ws as [|w ws IH]; intros Hw gc nx work s work' s' nx' e HT; cbn [fast_sims]; [intros [= <- _ _ _]; auto|].
  destruct (_ <? _); [|apply IH; auto; intros; apply Hw; now right].
  destruct (sim_work _ _ _ _ _ _ s) as [a s1] eqn:E. destruct a as [k|er]; [|destruct er; intros [= <- _ _ _]; auto].
  apply IH; [intros; apply Hw; now right|]. eapply Gi_sim; eauto; apply Hw; now left.
Qed.
Lemma Gi_gens H u n ws : u_num_active_gens u = Some n -> (forall w, In w ws -> known w /\ (In w P -> negb pers = true)) -> forall gc work s work' s' e, Gi work gc ->
  gen_loop x H u ws gc work s = (work', s', e) -> Gi work' (Nat.max n gc).
Proof.
  intros Hn. assert (Up : forall work gc, Gi work gc -> Gi work (Nat.max n gc)) by (intros work gc [G1 G2]; split; auto; lia).
  induction ws as [|w ws IH]; intros Hw gc work s work' s' e HT; cbn [gen_loop]; [intros [= <- _ _]; auto|].
  rewrite Hn. destruct (Nat.leb_spec n gc) as [L|L]; [intros [= <- _ _]; auto|]. destruct (_ && _); [intros [= <- _ _]; auto|].
  destruct (gen_work _ _ _ _ _ _ s) as [a s1] eqn:E. destruct a as [k|er]; [|destruct er; intros [= <- _ _]; auto].
  intros EG. apply IH in EG; [replace (Nat.max n gc) with (Nat.max n (S gc)) by lia; exact EG|intros; apply Hw; now right|].
  destruct (Hw w (or_introl eq_refl)) as [Hk Hp]. eapply Gi_gen; eauto. intros Hin. now rewrite Hp.
Qed.
Lemma Gi_fast_gens H n ws : (forall w, In w ws -> known w /\ (In w P -> negb pers = true)) -> forall gc calls work s work' s' calls' e, Gi work gc ->
  fast_gens x H (Some n) ws gc calls work s = (work', s', calls', e) -> Gi work' (Nat.max n gc).
Proof.
  assert (Up : forall work gc, Gi work gc -> Gi work (Nat.max n gc)) by (intros work gc [G1 G2]; split; auto; lia).
  induction ws as [|w ws IH]; intros Hw gc calls work s work' s' calls' e HT; cbn [fast_gens]; [intros [= <- _ _ _]; auto|].
  destruct (_ && _) eqn:Eb; [|apply IH; auto; intros; apply Hw; now right].
  apply andb_true_iff in Eb as [_ Eb]. apply Nat.ltb_lt in Eb.
  destruct (gen_work _ _ _ _ _ _ s) as [a s1] eqn:E. destruct a as [k|er]; [|destruct er; intros [= <- _ _ _]; auto].
  intros EG. apply IH in EG; [replace (Nat.max n gc) with (Nat.max n (S gc)) by lia; exact EG|intros; apply Hw; now right|].
  destruct (Hw w (or_introl eq_refl)) as [Hk Hp]. eapply Gi_gen; eauto. intros Hin. now rewrite Hp.
Qed.
Lemma Gi_backs H u async ws : (forall w, In w ws -> known w /\ In w P) -> forall gc work s work' s' e, Gi work gc ->
  back_loop x H u async ws work s = (work', s', e) -> Gi work' gc.
Proof.
  induction ws as [|w ws IH]; intros Hw gc work s work' s' e HT; cbn [back_loop]; [intros [= <- _ _]; auto|].
  assert (Hw' : forall v, In v ws -> known v /\ In v P) by (intros; apply Hw; now right).
  destruct (returned_for H w) as [|i ids]; [apply IH; auto|]. destruct (_ || _); [|apply IH; auto].
  destruct (gen_work _ _ _ _ _ _ s) as [a s1] eqn:E. destruct a as [k|er]; [|intros [= <- _ _]; auto].
  apply IH; auto. eapply Gi_back; eauto; apply Hw; now left.
Qed.
Lemma Gi_start H u ws : (forall w, In w ws -> known w) -> forall gc st work s work' s' st' e, Gi work gc ->
  start_loop x H u ws gc st work s = (work', s', st', e) -> Gi work' (Nat.max (pu_num_gens u) gc).
Proof.
  assert (Up : forall work gc, Gi work gc -> Gi work (Nat.max (pu_num_gens u) gc)) by (intros work gc [G1 G2]; split; auto; lia).
  induction ws as [|w ws IH]; intros Hw gc st work s work' s' st' e HT; cbn [start_loop]; [intros [= <- _ _ _]; auto|].
  assert (Hw' : forall v, In v ws -> known v) by (intros; apply Hw; now right).
  destruct (Nat.ltb_spec gc (pu_num_gens u)) as [L|L]; [|apply IH; auto].
  destruct (gen_work _ _ _ _ _ _ s) as [a s1] eqn:E. destruct a as [k|er]; [|destruct er; intros [= <- _ _ _]; auto].
  intros EG. apply IH in EG; [replace (Nat.max (pu_num_gens u) gc) with (Nat.max (pu_num_gens u) (S gc)) by lia; exact EG|auto|].
  eapply Gi_gen; eauto; [apply Hw; now left|]. intros Hin. apply orb_true_r.
Qed.
Lemma Gi_nil : Gi [] base.
Proof. split; [intros p []|]. cbn. lia. Qed.
Lemma Gi_up work gc gc' : gc <= gc' -> Gi work gc -> Gi work gc'.
Proof. intros L [H1 H2]. split; auto. lia. Qed.
End Units.

(** ** What each allocation function starts *)

Definition is_gen (pers : bool) (r : wrow) : bool := (if pers then w_persis r else w_active r) =? EVAL_GEN.
Definition already (pers : bool) (W : list wrow) : list nat := if pers then map w_id (filter (is_gen true) W) else [].
Definition call_limit (pers : bool) (n : nat) (x : actx) (wk : wdict) : Prop :=
  Gi x pers (already pers (ac_W x)) (countb (is_gen pers) (ac_W x)) wk (Nat.max n (countb (is_gen pers) (ac_W x))).

Lemma limit_nil pers n x : call_limit pers n x [].
Proof. eapply Gi_up; [|apply Gi_nil]. lia. Qed.
Lemma avail_known x p a z g ws : avail_workers (ac_W x) p a z g = Ok ws -> forall w, In w ws -> known x w.
Proof. intros E w Hin. destruct (avail_rows _ _ _ _ _ _ _ E Hin) as (r & H1 & <- & _). now apply in_map. Qed.
Lemma avail_plain x p a z g ws : avail_workers (ac_W x) p a z g = Ok ws -> forall w, In w ws -> known x w /\ ~ In w (already false (ac_W x)).
Proof. intros E w Hin. split; [eapply avail_known; eauto|intros []]. Qed.
Lemma avail_plain_gen x p a z g ws : avail_workers (ac_W x) p a z g = Ok ws -> forall w, In w ws -> known x w /\ (In w (already false (ac_W x)) -> negb false = true).
Proof. intros E w Hin. split; [eapply avail_known; eauto|intros []]. Qed.

Lemma limit_default x d u n now stop g H : u_num_active_gens u = Some n -> call_limit false n x (o_work (give_sim_work_first x d u now stop g H)).
Proof.
  intros Hn. unfold give_sim_work_first. destruct stop; [apply limit_nil|]. destruct (to_evaluate _).
  - destruct (avail_workers _ _ _ _ _) as [ws|] eqn:Ew; [|apply limit_nil]. destruct (gen_loop _ _ _ _ _ _ _) as [[wk s1] e] eqn:E.
    exact (Gi_gens x false _ _ _ _ _ _ Hn (avail_plain_gen _ _ _ _ _ _ Ew) _ _ _ _ _ _ (Gi_nil x false _ _) E).
  - destruct (avail_workers _ _ _ _ _) as [ws|] eqn:Ew; [|apply limit_nil]. destruct (sim_loop _ _ _ _ _ _ _ _ _) as [[[wk s1] pp] e] eqn:E.
    exact (Gi_sims x false _ _ _ _ _ _ _ (avail_plain _ _ _ _ _ _ Ew) _ _ _ _ _ _ _ _ (limit_nil false n x) E).
Qed.
Lemma limit_fast x d n stop g p H : call_limit false n x (o_work (fst (fast_alloc x d (Some n) stop g p H))).
Proof.
  unfold fast_alloc. destruct stop; [apply limit_nil|]. destruct (avail_workers _ _ _ _ (Some false)) as [ws|] eqn:Ew; [|apply limit_nil].
  destruct (avail_workers _ _ _ _ (Some true)) as [gs|] eqn:Eg; [|apply limit_nil]. destruct (fast_sims _ _ _ _ _ _ _) as [[[wk s1] nx] e] eqn:E.
  pose proof (Gi_fast_sims x false _ _ _ _ _ (avail_plain _ _ _ _ _ _ Ew) _ _ _ _ _ _ _ _ (Gi_nil x false _ (countb (is_gen false) (ac_W x))) E) as T1.
  assert (T2 : call_limit false n x wk) by (eapply Gi_up; [|exact T1]; lia).
  destruct e as [e|]; [exact T2|]. destruct (_ <=? _); [|exact T2]. destruct (fast_gens _ _ _ _ _ _ _ _) as [[[wk2 s2] calls] e2] eqn:E2.
  exact (Gi_fast_gens x false _ _ _ _ _ (avail_plain_gen _ _ _ _ _ _ Eg) _ _ _ _ _ _ _ _ T1 E2).
Qed.
Lemma limit_pregenerated x d n stop g p H : call_limit false n x (o_work (fst (give_pregenerated x d stop g p H))).
Proof.
  unfold give_pregenerated. destruct stop; [apply limit_nil|]. destruct (_ <=? _); [apply limit_nil|]. destruct (avail_workers _ _ _ _ _) as [ws|] eqn:Ew; [|apply limit_nil].
  destruct (next_sims _ _ _ _ _ _ _) as [[[wk s1] nx] e] eqn:E.
  exact (Gi_next x false _ _ _ _ _ (avail_plain _ _ _ _ _ _ Ew) _ _ _ _ _ _ _ _ (limit_nil false n x) E).
Qed.
Lemma limit_one_gen x d stop g p H : call_limit false 1 x (o_work (fst (ensure_one_active_gen x d stop g p H))).
Proof.
  unfold ensure_one_active_gen. destruct stop; [apply limit_nil|]. destruct (_ <? _).
  - destruct (avail_workers _ _ _ _ _) as [ws|] eqn:Ew; [|apply limit_nil].
    destruct (next_sims _ _ _ _ _ _ _) as [[[wk s1] nx] e] eqn:E.
    exact (Gi_next x false _ _ _ _ _ (avail_plain _ _ _ _ _ _ Ew) _ _ _ _ _ _ _ _ (limit_nil false 1 x) E).
  - destruct (test_any_gen (ac_W x)) eqn:Et; cbn [negb]; [apply limit_nil|].
    destruct (avail_workers _ _ _ _ _) as [[|w ws]|] eqn:Ew; try apply limit_nil. destruct (negb _); [apply limit_nil|].
    destruct (gen_work _ _ _ _ _ _ _) as [[k|er] s1] eqn:Eg; [|destruct er; apply limit_nil]. cbn [fst o_work].
    change [(w, k)] with (dict_set [] w k). unfold call_limit. eapply Gi_up; [|eapply (Gi_gen x false _ _ [] _ w); [apply Gi_nil| | |exact Eg]].
    + unfold countb. enough (filter (is_gen false) (ac_W x) = []) as -> by (cbn; lia).
      unfold test_any_gen in Et. clear - Et. induction (ac_W x) as [|r W IH]; auto. cbn [existsb filter] in *. unfold is_gen at 1.
      apply orb_false_iff in Et as [-> Et]. auto.
    + eapply avail_known; eauto. now left.
    + intros [].
Qed.

Lemma NoDup_map_inj {A B} (f : A -> B) l a b : NoDup (map f l) -> In a l -> In b l -> f a = f b -> a = b.
Proof.
  induction l as [|y l IH]; [intros _ []|]. cbn. intros N. inversion_clear N as [|? ? N1 N2]. intros [->|Ha] [->|Hb] E; auto.
  - destruct N1. rewrite E. now apply in_map.
  - destruct N1. rewrite <- E. now apply in_map.
Qed.
Lemma not_already x w r : NoDup (map w_id (ac_W x)) -> In r (ac_W x) -> w_id r = w -> w_persis r <> EVAL_GEN -> ~ In w (already true (ac_W x)).
Proof.
  intros N Hr <- Hp Hin. cbn in Hin. apply in_map_iff in Hin as (r' & E & Hr'). apply filter_In in Hr' as [Hr' Hg].
  assert (r' = r) by exact (NoDup_map_inj w_id _ _ _ N Hr' Hr E). subst r'. apply Nat.eqb_eq in Hg. contradiction.
Qed.
Lemma limit_persistent x d u stop g p H : NoDup (map w_id (ac_W x)) -> set_order (ac_ord x) ->
  call_limit true (pu_num_gens u) x (o_work (fst (only_persistent_gens x d u stop g p H))).
Proof.
  intros N HO. unfold only_persistent_gens. destruct stop; [apply limit_nil|]. destruct (_ <? _); [apply limit_nil|].
  destruct (avail_workers _ (Some EVAL_GEN) _ _ _) as [bs|] eqn:Eb; [|apply limit_nil].
  destruct (back_loop _ _ _ _ _ _ _) as [[wk1 s1] e1] eqn:E1.
  set (G := Gi x true (already true (ac_W x)) (countb (is_gen true) (ac_W x))).
  assert (U : forall wk, G wk (countb (is_gen true) (ac_W x)) -> call_limit true (pu_num_gens u) x wk) by (intros wk; apply Gi_up; lia).
  assert (T1 : G wk1 (countb (is_gen true) (ac_W x))).
  { eapply Gi_backs in E1; [exact E1| |apply Gi_nil]. intros w Hw. split; [eapply avail_known; eauto|].
    destruct (avail_rows _ _ _ _ _ _ _ Eb Hw) as (r & R1 & <- & _ & R2). cbn. apply in_map, filter_In. split; auto. unfold is_gen. now rewrite R2. }
  destruct e1 as [e1|]; [now apply U|]. destruct (sim_workers x u) as [ws|] eqn:Ew; [|now apply U].
  assert (Hs : forall w, In w ws -> known x w /\ ~ In w (already true (ac_W x))).
  { assert (K : forall t z g ws w, t <> EVAL_GEN -> avail_workers (ac_W x) (Some t) false z g = Ok ws -> In w ws -> known x w /\ ~ In w (already true (ac_W x))).
    { intros t z g0 ws0 w Ht E Hw. split; [eapply avail_known; eauto|]. destruct (avail_rows _ _ _ _ _ _ _ E Hw) as (r & R1 & R2 & _ & R3).
      eapply not_already; eauto. congruence. }
    unfold sim_workers in Ew. destruct (pu_alt u); [|intros w Hw; eapply K; [|exact Ew|exact Hw]; discriminate].
    destruct (avail_workers (ac_W x) (Some 0) _ _ _) as [a|] eqn:Ea; [|discriminate]. cbn [bindr] in Ew.
    destruct (avail_workers (ac_W x) (Some EVAL_SIM) _ _ _) as [b|] eqn:Eb1; [|discriminate]. cbn [bindr] in Ew. injection Ew as <-.
    intros w Hin. apply (Permutation_in _ (HO _)) in Hin. apply nodup_In, in_app_iff in Hin as [Hin|Hin]; [eapply K; [|exact Ea|exact Hin]|eapply K; [|exact Eb1|exact Hin]]; discriminate. }
  destruct (sim_loop _ _ _ _ _ _ _ _ _) as [[[wk2 s2] pts] e2] eqn:E2.
  assert (T2 : G wk2 (countb (is_gen true) (ac_W x))) by exact (Gi_sims x true _ _ _ _ _ _ _ Hs _ _ _ _ _ _ _ _ T1 E2).
  destruct e2 as [e2|]; [now apply U|]. destruct pts; [|now apply U].
  destruct (avail_workers _ _ _ _ (Some true)) as [gs|] eqn:Eg; [|now apply U].
  destruct (start_loop _ _ _ _ _ _ _ _) as [[[wk3 s3] st] e3] eqn:E3.
  exact (Gi_start x true _ _ _ _ _ (avail_known _ _ _ _ _ _ Eg) _ _ _ _ _ _ _ _ T2 E3).
Qed.

(** ** Over the run *)

Section Run.
Variables (c : mcfg) (pers : bool) (N : nat).
Definition tsk : nat -> list event -> nat := if pers then persis_task else task.
Definition attr (r : wrow) : nat := if pers then w_persis r else w_active r.
Definition hon (l : list event) : Prop := pers = true -> persis_honest l.

Definition isg (m : mgr) (w : nat) : Prop := exists r, In r (m_W m) /\ w_id r = w /\ attr r = EVAL_GEN.
Definition Bound (m : mgr) (k : nat) : Prop := forall ws, NoDup ws -> (forall w, In w ws -> isg m w) -> length ws + k <= N.
Definition link (m : mgr) : Prop := forall w, tsk w (m_log m) <> 0 -> exists r, In r (m_W m) /\ w_id r = w /\ attr r = tsk w (m_log m).
Definition few (l : list event) : Prop := at_most_gens tsk N l.

Definition Lg (m : mgr) : Prop := table_ok c m /\ (hon (m_log m) -> few (m_log m)).
Definition Jg (m : mgr) : Prop := table_ok c m /\ m_exc m = false /\ (hon (m_log m) -> few (m_log m) /\ link m /\ Bound m 0).

Lemma tsk_snoc w l e : tsk w (l ++ [e]) = (if pers then step_persis else step_task) w (tsk w l) e.
Proof. unfold tsk. destruct pers; unfold persis_task, task; now rewrite fold_left_app. Qed.
Lemma hon_app l l' : hon (l ++ l') -> hon l.
Proof. intros H Hp p w a q ->. apply (H Hp p w a (q ++ l')). now rewrite <- app_assoc. Qed.
Lemma few_snoc l e : few l -> (forall ws, NoDup ws -> (forall w, In w ws -> tsk w (l ++ [e]) = EVAL_GEN) -> length ws <= N) -> few (l ++ [e]).
Proof.
  intros H1 H2 p q E. destruct q as [|y q] using rev_ind.
  - rewrite app_nil_r in E. now subst p.
  - rewrite app_assoc in E. apply app_inj_tail in E as [E _]. exact (H1 p q E).
Qed.
Lemma quiet_tsk e w l : ~ is_order e -> tsk w (l ++ [e]) = tsk w l \/ tsk w (l ++ [e]) = 0.
Proof.
  intros Hq. rewrite tsk_snoc.
  destruct e as [v o|v i]; [destruct o as [k| | |]|destruct i]; try (destruct pers; cbn; auto; fail).
  - cbn in Hq. assert (Ek : (k_tag k =? PERSIS_STOP) = true) by (apply Nat.eqb_eq; destruct (Nat.eq_dec (k_tag k) PERSIS_STOP); [auto|destruct (Hq n)]).
    destruct pers; cbn; rewrite Ek; cbn; rewrite ?andb_false_r; auto.
  - destruct pers; cbn; destruct (_ && _); auto.
Qed.
Lemma few_quiet l l' : Forall (fun e => ~ is_order e) l' -> few l -> few (l ++ l').
Proof.
  revert l. induction l' as [|e l' IH]; intros l HF HL; [now rewrite app_nil_r|]. inversion_clear HF as [|? ? H1 H2].
  change (e :: l') with ([e] ++ l'). rewrite app_assoc. apply IH; auto. apply few_snoc; auto.
  intros ws Nd Hw. apply (HL l [] (eq_sym (app_nil_r _)) ws Nd). intros w Hin. specialize (Hw w Hin).
  destruct (quiet_tsk e w l H1) as [E|E]; rewrite E in Hw; [exact Hw|discriminate].
Qed.
Lemma Lg_ext m m' : Lg m -> table_ok c m' -> ext (fun e => ~ is_order e) m m' -> Lg m'.
Proof. intros (_ & H) T (l & El & F). split; auto. rewrite El. intros Hh. apply few_quiet; auto. apply H. eapply hon_app; eauto. Qed.
Lemma Jg_L m : Jg m -> Lg m.
Proof. intros (T & _ & H). split; auto. intros Hh. now apply H. Qed.

Lemma Bound_few m k l : Bound m k -> (forall w, tsk w l = EVAL_GEN -> isg m w) -> forall ws, NoDup ws -> (forall w, In w ws -> tsk w l = EVAL_GEN) -> length ws <= N.
Proof. intros HB Hl ws Nd Hw. specialize (HB ws Nd). assert (length ws + k <= N); [|lia]. auto. Qed.
Lemma Bound_one m k w0 ws : Bound m (S k) -> NoDup ws -> (forall w, In w ws -> w = w0 \/ isg m w) -> length ws + k <= N.
Proof.
  intros HB Nd Hw. destruct (in_dec Nat.eq_dec w0 ws) as [Hin|Hin].
  - apply in_split in Hin as (a & b & ->). specialize (HB (a ++ b) (NoDup_remove_1 _ _ _ Nd)). apply NoDup_remove_2 in Nd.
    assert (G : length (a ++ b) + S k <= N).
    { apply HB. intros w Hi. destruct (Hw w) as [->|G]; auto; [|contradiction]. apply in_app_iff in Hi. apply in_app_iff. cbn. tauto. }
    rewrite app_length in *. cbn [length]. lia.
  - specialize (HB ws Nd). assert (length ws + S k <= N); [|lia]. apply HB. intros w Hi. destruct (Hw w Hi) as [->|]; auto; contradiction.
Qed.
Lemma Bound_le m k k' : k' <= k -> Bound m k -> Bound m k'.
Proof. intros L HB ws Nd Hw. specialize (HB ws Nd Hw). lia. Qed.

(** the row of a worker is the one found *)
Lemma row_is m r r0 : table_ok c m -> In r (m_W m) -> In r0 (m_W m) -> w_id r = w_id r0 -> r = r0.
Proof. intros T. apply NoDup_map_inj. eapply table_nodup; eauto. Qed.
Lemma isg_touch w r0 r1 m m' v : touch c w r0 r1 m m' -> isg m' v -> v = w_id r0 /\ attr r1 = EVAL_GEN \/ isg m v.
Proof.
  intros (_ & _ & E & _ & H) (r & Hr & Hv & Hg). apply H in Hr as [->|[Hr _]]; [left; split; congruence|]. right. exists r. auto.
Qed.
Lemma touch_same w r0 r1 m m' k : table_ok c m -> touch c w r0 r1 m m' -> (attr r1 = EVAL_GEN -> attr r0 = EVAL_GEN) -> Bound m k -> Bound m' k.
Proof.
  intros T Tc Ha HB ws Nd Hw. apply HB; auto. intros v Hv. destruct (isg_touch _ _ _ _ _ _ Tc (Hw v Hv)) as [[-> G]|G]; auto.
  exists r0. split; [eapply wget_In; apply Tc|]. auto.
Qed.
Lemma touch_more w r0 r1 m m' k : touch c w r0 r1 m m' -> Bound m (S k) -> Bound m' k.
Proof.
  intros Tc HB ws Nd Hw. eapply (Bound_one m k (w_id r0)); eauto. intros v Hv. destruct (isg_touch _ _ _ _ _ _ Tc (Hw v Hv)) as [[-> G]|G]; auto.
Qed.

(** *** messages *)
Lemma Jg_kill m m' e : Jg m -> kill_cancelled c m = (m', e) -> Lg m' /\ (e = None -> Jg m').
Proof.
  intros HJ E. pose proof (kill_quiet _ _ _ _ E) as Q. apply kill_cancelled_spec in E as ((E1 & _ & E2 & _) & E3 & _).
  assert (T : table_ok c m') by (unfold table_ok; rewrite E1; apply HJ). split; [eapply Lg_ext; eauto; now apply Jg_L|]. intros _.
  destruct HJ as (_ & X & H). split; auto. split; [congruence|]. intros Hh. destruct E3 as (l & El & Fl). rewrite El in *.
  assert (Hs : forall w, tsk w (m_log m ++ l) = tsk w (m_log m)).
  { intros w. clear -Fl. induction l as [|e l IH] using rev_ind; [now rewrite app_nil_r|]. apply Forall_app in Fl as [F1 F2].
    rewrite app_assoc, tsk_snoc, IH by auto. inversion_clear F2 as [|? ? (v & _ & ->) _]. destruct pers; reflexivity. }
  destruct (H (hon_app _ _ Hh)) as (H1 & H2 & H3). split; [|split].
  - apply few_quiet; auto. eapply Forall_impl; [|exact Fl]. intros x (v & _ & ->). auto.
  - intros w. rewrite El, Hs, E1. apply H2.
  - intros ws Nd Hw. apply (H3 ws Nd). intros w Hin. destruct (Hw w Hin) as (r & Hr). rewrite E1 in Hr. exists r. auto.
Qed.

Lemma Jg_poll w i t m m' e : Jg m -> poll c (w, i, t) m = (m', e) -> Lg m' /\ (e = None -> Jg m').
Proof.
  intros HJ E. assert (T0 : table_ok c m) by apply HJ. pose proof (poll_quiet _ _ _ _ _ T0 E) as Q. pose proof (poll_table _ _ _ _ _ T0 E) as [T _].
  split; [eapply Lg_ext; eauto; now apply Jg_L|]. intros ->.
  apply poll_spec in E as [(_ & -> & _)|(r0 & R1 & R2 & _ & _ & _ & E1 & E2)]; auto. specialize (E2 eq_refl).
  destruct E1 as [(El & Ex & _)|(E1 & _)]; [|discriminate].
  assert (HS : m_W m' = m_W m -> (forall v, tsk v (m_log m') = tsk v (m_log m)) -> Jg m').
  { intros EW Et. destruct HJ as (_ & X & H). split; auto. split; [congruence|]. intros Hh. rewrite El in Hh. destruct (H (hon_app _ _ Hh)) as (H1 & H2 & H3).
    split; [|split].
    - rewrite El. apply few_quiet; auto.
    - intros v. rewrite Et, EW. apply H2.
    - intros ws Nd Hw. apply (H3 ws Nd). intros v Hin. destruct (Hw v Hin) as (r & Hr). rewrite EW in Hr. exists r. auto. }
  destruct i as [a| | |]; [|destruct E2 as (E2 & _); destruct HJ as (_ & X & _); congruence|
    apply HS; [subst m'; reflexivity|intros v; rewrite El, tsk_snoc; destruct pers; reflexivity]..].
  clear HS. destruct E2 as (Tc & _). destruct HJ as (_ & X & H). split; auto. split; [congruence|]. intros Hh. rewrite El in Hh.
  destruct (H (hon_app _ _ Hh)) as (H1 & H2 & H3).
  set (ended := (if pers then true else false) && fin_status a || (if pers then false else true) && (negb (n_keep a) || fin_status a)).
  assert (Et : forall v, tsk v (m_log m') = if (w =? v) && ended then 0 else tsk v (m_log m)).
  { intros v. rewrite El, tsk_snoc. unfold ended, fin_status. destruct pers; cbn; rewrite ?orb_false_r, ?orb_assoc; reflexivity. }
  set (r1 := after_msg (m_exc m) (memb w (m_pending m)) a r0) in *.
  assert (Ha : attr r1 = attr r0 \/ attr r1 = 0 /\ ended = true \/ attr r1 = 0 /\ tsk w (m_log m) = 0 \/ attr r1 = 0 /\ attr r0 = 0).
  { unfold attr, r1, after_msg, ended, act_after. rewrite X, orb_false_r. destruct pers eqn:Ep.
    - destruct (fin_status a); cbn; auto. destruct (n_persistent a) eqn:En; auto. destruct (Hh Ep (m_log m) w a [] eq_refl En) as [Ht Hp].
      left. rewrite <- Hp. unfold link, tsk, attr in H2. rewrite Ep in H2. destruct (H2 w) as (r & Hr & Hi & Hx); [congruence|].
      rewrite (row_is m r r0 T0 Hr R1) in Hx by congruence. congruence.
    - destruct (fin_status a); cbn.
      + rewrite orb_true_r. repeat match goal with |- context [if ?b then _ else _] => destruct b end; auto.
      + rewrite orb_false_r. destruct (n_keep a); cbn; [rewrite andb_false_r; auto|]. rewrite andb_true_r. match goal with |- context [if ?b then _ else _] => destruct b end; auto. }
  split; [rewrite El; apply few_quiet; auto|]. split.
  - intros v Hv. rewrite Et in Hv |- *. destruct (Nat.eqb_spec w v) as [->|Hne]; cbn [andb] in *.
    + destruct ended eqn:Ee; [congruence|]. destruct (H2 v Hv) as (r & Hr & Hi & Hx).
      rewrite (row_is m r r0 T0 Hr R1) in Hx by congruence. exists r1. split; [apply Tc; auto|]. split; [destruct Tc as (_ & _ & -> & _); auto|].
      destruct Ha as [->|[[_ Ha]|[[_ Ha]|[Ha Hb]]]]; congruence.
    + destruct (H2 v Hv) as (r & Hr & Hi & Hx). exists r. split; [|auto]. apply Tc. right. split; auto. congruence.
  - apply (touch_same w r0 r1 m m' 0 T0 Tc); [|exact H3]. intros Hg. destruct Ha as [<-|[[Ha _]|[[Ha _]|[Ha _]]]]; auto; rewrite Ha in Hg; discriminate.
Qed.

(** *** orders *)
Variable P : list nat.
Definition wants (wk : wdict) : nat := countb (starts pers P) wk.
Definition fits_table (m : mgr) (wk : wdict) : Prop :=
  (forall w, In w P -> isg m w) /\
  forall w k, In (w, k) wk -> In w (map w_id (m_W m)) /\ (k_tag k = EVAL_SIM \/ k_tag k = EVAL_GEN) /\
    (In w P -> k_tag k = EVAL_GEN /\ (negb pers || k_persistent k) = true).

Lemma wants_cons w k wk : wants ((w, k) :: wk) = (if starts pers P (w, k) then 1 else 0) + wants wk.
Proof. unfold wants, countb. cbn [filter]. now destruct (starts pers P (w, k)). Qed.

(** what an order does to the task of its worker *)
Lemma order_tsk w k k' l lg : as_sent k k' -> order_msgs w k' l -> k_tag k = EVAL_SIM \/ k_tag k = EVAL_GEN ->
  (exists l1, l = Sent w (OWork k') :: l1 /\ Forall (fun e => ~ is_order e) l1) /\
  forall v, tsk v (lg ++ l) = if (w =? v) && (negb pers || k_persistent k) then k_tag k else tsk v lg.
Proof.
  intros Hk Ho Ht. apply as_sent_same in Hk as (K1 & _ & _ & K2 & _).
  assert (Hn : (k_tag k' =? PERSIS_STOP) = false) by (rewrite K1; destruct Ht as [-> | ->]; reflexivity).
  assert (H1 : forall v, tsk v (lg ++ [Sent w (OWork k')]) = if (w =? v) && (negb pers || k_persistent k) then k_tag k else tsk v lg).
  { intros v. rewrite tsk_snoc. destruct pers; cbn; rewrite Hn, K1, ?K2; cbn [negb andb]; rewrite ?andb_true_r; reflexivity. }
  destruct Ho as [->|(d & ->)].
  - split; [exists []; auto|exact H1].
  - split; [exists [Sent w (ORows (k_fields k') d)]; split; auto|]. intros v.
    change [Sent w (OWork k'); Sent w (ORows (k_fields k') d)] with ([Sent w (OWork k')] ++ [Sent w (ORows (k_fields k') d)]).
    rewrite app_assoc, tsk_snoc, H1. destruct pers; reflexivity.
Qed.

Lemma set_as_sent m k k' : (match m_res m with Some rm => exists w, set_resources w k rm = Ok k' | None => k' = k end) -> as_sent k k'.
Proof. destruct (m_res m); [intros (w & H); eapply set_resources_as_sent; eauto|intros ->; now left]. Qed.

Lemma Lg_order t w k wk m m' e : Jg m -> (hon (m_log m) -> fits_table m ((w, k) :: wk) /\ Bound m (wants ((w, k) :: wk))) -> In w (map w_id (m_W m)) ->
  give_order c t w k m = (m', e) -> Lg m'.
Proof.
  intros HJ HB Hin E. assert (T : table_ok c m) by apply HJ. pose proof E as E0. apply give_order_spec in E0 as (_ & _ & _ & T1 & _); auto.
  split; auto. intros Hh. apply give_sent in E as [E|(r0 & k' & l & G & Ho & El & Hk)]; auto.
  { rewrite E in *. now apply HJ. }
  rewrite El in Hh |- *. apply hon_app in Hh. destruct HJ as (_ & X & H). destruct (H Hh) as (H1 & H2 & H3). destruct (HB Hh) as ((P1 & P2) & B).
  assert (Hw : w_id r0 = w) by exact (wget_same c m w r0 T Hin G). rewrite Hw in Ho.
  destruct (P2 w k (or_introl eq_refl)) as (_ & Ht & HP).
  assert (HS : as_sent k k') by (apply (set_as_sent m); destruct (m_res m); eauto).
  destruct (order_tsk w k k' l (m_log m) HS Ho Ht) as [(l1 & -> & Q) Et].
  change (Sent w (OWork k') :: l1) with ([Sent w (OWork k')] ++ l1). rewrite app_assoc. apply few_quiet; auto. apply few_snoc; auto.
  destruct (order_tsk w k k' _ (m_log m) HS (or_introl eq_refl) Ht) as [_ Es].
  assert (Hl : forall v, tsk v (m_log m) = EVAL_GEN -> isg m v).
  { intros v Hv. destruct (H2 v) as (r & Hr & Hi & Hx); [rewrite Hv; discriminate|]. exists r. rewrite Hv in Hx. auto. }
  rewrite wants_cons in B. intros ws Nd Hws. destruct (starts pers P (w, k)) eqn:Es0.
  - assert (length ws + wants wk <= N); [|lia]. eapply (Bound_one m _ w); eauto. intros v Hv. specialize (Hws v Hv). rewrite Es in Hws.
    destruct (Nat.eqb_spec w v) as [->|Hne]; auto.
  - refine (Bound_few m (wants wk) (m_log m ++ [Sent w (OWork k')]) B _ ws Nd Hws). intros v Hv. rewrite Es in Hv. destruct (Nat.eqb_spec w v) as [->|Hne]; auto.
    cbn [andb] in Hv. destruct (negb pers || k_persistent k) eqn:Ep; auto. unfold starts in Es0. cbn [fst snd] in Es0. rewrite Hv, Ep in Es0. cbn in Es0.
    apply negb_false_iff, memb_In in Es0. auto.
Qed.

Lemma Jg_order t w k wk m m' : Jg m -> (hon (m_log m) -> fits_table m ((w, k) :: wk) /\ Bound m (wants ((w, k) :: wk))) ->
  In w (map w_id (m_W m)) -> give_order c t w k m = (m', None) ->
  Jg m' /\ (hon (m_log m') -> fits_table m' wk /\ Bound m' (wants wk)) /\ map w_id (m_W m') = map w_id (m_W m).
Proof.
  intros HJ HB Hin E. pose proof (Lg_order _ _ _ _ _ _ _ HJ HB Hin E) as HL. assert (T : table_ok c m) by apply HJ.
  apply give_log in E as (r0 & k' & l & G & HS & Tc & _ & Ex & _ & El & Ho & _); auto.
  assert (Hw : w_id r0 = w) by exact (wget_same c m w r0 T Hin G). rewrite Hw in Ho. pose proof (wget_In _ _ _ _ G) as R0.
  assert (Hid : map w_id (m_W m') = map w_id (m_W m)) by apply Tc.
  assert (K : hon (m_log m') -> fits_table m' wk /\ link m' /\ Bound m' (wants wk)).
  { intros Hh. rewrite El in Hh. apply hon_app in Hh. destruct HJ as (_ & X & H). destruct (H Hh) as (H1 & H2 & H3). destruct (HB Hh) as ((P1 & P2) & B).
    destruct (P2 w k (or_introl eq_refl)) as (_ & Ht & HP). destruct (order_tsk w k k' l (m_log m) HS Ho Ht) as [_ Et].
    assert (Ha : attr (given t k r0) = if negb pers || k_persistent k then k_tag k else attr r0) by (unfold attr, given; destruct pers; reflexivity).
    split; [|split].
    - split.
      + intros v Hv. destruct (Nat.eq_dec v w) as [->|Hne].
        * destruct (HP Hv) as [G1 G2]. exists (given t k r0). split; [apply Tc; auto|]. split; [exact Hw|]. rewrite Ha, G2. auto.
        * destruct (P1 v Hv) as (r & Hr & Hi & Hx). exists r. split; [apply Tc; right; split; congruence|auto].
      + intros w1 k1 Hi. rewrite Hid. apply P2. now right.
    - intros v Hv. rewrite El, Et in Hv |- *. destruct (Nat.eqb_spec w v) as [E0|Hne]; cbn [andb] in *.
      + subst v. exists (given t k r0). split; [apply Tc; auto|]. split; [exact Hw|]. rewrite Ha. destruct (negb pers || k_persistent k); auto.
        destruct (H2 w Hv) as (r & Hr & Hi & Hx). rewrite (row_is m r r0 T Hr R0) in Hx by congruence. exact Hx.
      + destruct (H2 v Hv) as (r & Hr & Hi & Hx). exists r. split; [apply Tc; right; split; congruence|auto].
    - rewrite wants_cons in B. destruct (starts pers P (w, k)) eqn:Es0; [eapply touch_more; eauto|].
      apply (touch_same w r0 (given t k r0) m m' _ T Tc); [|exact B]. rewrite Ha. destruct (negb pers || k_persistent k) eqn:Ep; auto. intros Hg.
      unfold starts in Es0. cbn [fst snd] in Es0. rewrite Hg, Ep in Es0. cbn in Es0. apply negb_false_iff, memb_In in Es0.
      destruct (P1 w Es0) as (r & Hr & Hi & Hx). rewrite (row_is m r r0 T Hr R0) in Hx by congruence. exact Hx. }
  split; [|split; [|exact Hid]].
  - split; [apply HL|]. split; [rewrite Ex; apply HJ|]. intros Hh. destruct (K Hh) as (K1 & K2 & K3). split; [now apply HL|]. split; auto.
    eapply Bound_le; [|exact K3]. lia.
  - intros Hh. destruct (K Hh) as (K1 & K2 & K3). auto.
Qed.

Lemma Jg_orders v wk : forall m m' e, Jg m -> (forall w k, In (w, k) wk -> In w (map w_id (m_W m))) -> (hon (m_log m) -> fits_table m wk /\ Bound m (wants wk)) ->
  give_orders c (stamped v wk) m = (m', e) -> Lg m' /\ (e = None -> Jg m').
Proof.
  induction wk as [|[w k] wk IH]; intros m m' e HJ HK HS; cbn [stamped map give_orders].
  { intros [= <- <-]. split; auto. now apply Jg_L. }
  destruct (sim_max_given c m); [intros [= <- <-]; split; auto; now apply Jg_L|]. cbn [fst].
  destruct (give_order c (v_times v w) w k m) as [m1 [e1|]] eqn:E; cbn [bindx].
  - intros [= <- <-]. split; [|discriminate]. eapply Lg_order; eauto. apply (HK w k). now left.
  - destruct (Jg_order _ _ _ _ _ _ HJ HS (HK w k (or_introl eq_refl)) E) as (HJ1 & HS1 & Hid). apply IH; auto. rewrite Hid. intros; eapply HK; right; eauto.
Qed.

(** *** the end of the run *)
Lemma Lg_final t rounds m m' f : Lg m -> final_phase c t rounds m = (m', f) -> Lg m'.
Proof.
  intros HJ E. eapply (final_ind c Lg Lg (fun _ _ => True)) in E as [E _]; eauto.
  - intros a Ha. apply Ha.
  - intros w i t0 a a' e Ha _ E0. assert (Lg a'); [|auto]. pose proof (poll_table _ _ _ _ _ (proj1 Ha) E0) as [T _]. eapply Lg_ext; eauto. eapply poll_quiet; eauto. apply Ha.
  - intros t0 w a a' e Ha Hp E0. assert (Lg a'); [|auto]. pose proof (stop_quiet _ _ _ _ _ _ (proj1 Ha) E0) as Q.
    apply stop_persistent_spec in E0 as (T & _); [|apply Ha]. eapply Lg_ext; eauto.
  - intros a Ha. pose proof (kill_workers_spec a) as (E1 & _ & E2 & _). eapply Lg_ext; eauto; [unfold table_ok; rewrite E2; apply Ha|].
    eexists. split; [exact E1|]. apply finishes_quiet.
  - red. auto.
Qed.
End Run.

Definition limits {S} (c : mcfg) (a : asetup) (pers : bool) (n : nat) (A : alloc_fn S) : Prop :=
  forall v s m out s', table_ok c m -> set_order (v_ord v) -> A v s m = (out, s') -> call_limit pers n (call_context c a v m) (o_work out).

Lemma Bound_count c pers N m : table_ok c m -> (Bound pers N m 0 <-> countb (is_gen pers) (m_W m) <= N).
Proof.
  intros T. pose proof (table_nodup c m T) as Nd. assert (E : countb (is_gen pers) (m_W m) = length (map w_id (filter (is_gen pers) (m_W m)))) by (rewrite map_length; reflexivity).
  assert (Hg : forall w, isg pers m w <-> In w (map w_id (filter (is_gen pers) (m_W m)))).
  { intros w. rewrite in_map_iff. unfold isg, is_gen, attr. split.
    - intros (r & H1 & H2 & H3). exists r. rewrite filter_In, Nat.eqb_eq. auto.
    - intros (r & H1 & H2). apply filter_In in H2 as [H2 H3]. apply Nat.eqb_eq in H3. exists r. auto. }
  rewrite E. split.
  - intros HB. specialize (HB (map w_id (filter (is_gen pers) (m_W m)))). rewrite Nat.add_0_r in HB. apply HB; [|intros w Hw; now apply Hg].
    clear - Nd. induction (m_W m) as [|r W IH]; [constructor|]. cbn in *. inversion_clear Nd as [|? ? N1 N2]. destruct (is_gen pers r); auto.
    cbn. constructor; auto. intros Hin. apply N1. apply in_map_iff in Hin as (r' & <- & Hr). apply filter_In in Hr as [Hr _]. now apply in_map.
  - intros HL ws Nw Hw. apply (Nat.le_trans _ (length (map w_id (filter (is_gen pers) (m_W m))))); [|exact HL]. rewrite Nat.add_0_r.
    apply NoDup_incl_length; auto. intros w Hi. now apply Hg, Hw.
Qed.

Lemma Bound_need c pers N m k : table_ok c m -> countb (is_gen pers) (m_W m) + k <= N -> Bound pers N m k.
Proof.
  intros T H ws Nd Hw. assert (B : Bound pers (N - k) m 0) by (apply (Bound_count c); auto; lia). specialize (B ws Nd Hw). lia.
Qed.

Lemma driven_gens {S} c a pers n (A : alloc_fn S) vs s m m' x : limits c a pers n A -> Forall (fun v => set_order (v_ord v)) vs -> Jg c pers n m ->
  driven_loop A c vs s m = (m', x) -> Lg c pers n m'.
Proof.
  intros HA HV HJ E.
  eapply (driven_ind A c (fun _ => Jg c pers n) (Lg c pers n) (fun v => set_order (v_ord v)) (fun _ _ => True)) in E as [E1 _]; eauto.
  - intros _ m0. apply Jg_L.
  - intros _ m0 m1 e H E0. eapply Jg_kill; eauto.
  - intros _ w i t m0 m1 e H _ E0. eapply Jg_poll; eauto.
  - intros s0 s1 v m0 out H HO E0. pose proof (HA v s0 m0 out s1 (proj1 H) HO E0) as (L1 & L2).
    assert (HE : Jg c pers n (edited m0 out)) by exact H.
    split; [apply Jg_L, HE|]. split; [intros _ _; exact HE|]. intros _ _ m2 e EG.
    eapply (Jg_orders c pers n (already pers (m_W m0))); eauto; [intros w k Hi; apply (L1 (w, k) Hi)|].
    intros Hh. assert (B : Bound pers n m0 0) by (apply H, Hh). split.
    + split; [|intros w k Hi; destruct (L1 (w, k) Hi) as (K1 & K2 & K3); auto].
      intros w Hw. unfold already in Hw. destruct pers; [|destruct Hw]. apply in_map_iff in Hw as (r & E1 & Hr). apply filter_In in Hr as [Hr Hg].
      exists r. apply Nat.eqb_eq in Hg. auto.
    + apply (Bound_need c); [apply H|]. apply (Bound_count c) in B; [|apply H]. cbn [call_context ac_W] in L2. change (m_W (edited m0 out)) with (m_W m0).
      unfold wants. lia.
Qed.

Lemma init_gens c pers n h k zeros gens rm pin : Jg c pers n (init_manager c h k zeros gens rm pin).
Proof.
  split; [apply init_table|]. split; [reflexivity|]. intros _. split; [|split].
  - intros p q E ws Nd Hw. cbn in E. destruct p; [|discriminate]. destruct ws as [|w ws]; [cbn; lia|]. specialize (Hw w (or_introl eq_refl)).
    unfold tsk in Hw. destruct pers; discriminate.
  - intros w Hw. exfalso. apply Hw. unfold tsk. destruct pers; reflexivity.
  - intros ws Nd Hw. destruct ws as [|w ws]; [cbn; lia|]. destruct (Hw w (or_introl eq_refl)) as (r & Hr & _ & Hg). exfalso.
    cbn in Hr. unfold init_workers in Hr. apply in_map_iff in Hr as (j & <- & _). unfold attr in Hg. destruct pers; discriminate.
Qed.

Lemma default_limits c a u n : u_num_active_gens u = Some n -> limits c a false n (default_alloc c a u).
Proof. intros Hn v s m out s' T HO [= <- _]. now apply limit_default. Qed.
Lemma fast_limits c a n : limits c a false n (fast_alloc_fn c a (Some n)).
Proof.
  intros v s m out s' T HO. unfold fast_alloc_fn. pose proof (limit_fast (call_context c a v m) (h_dtype (m_h m)) n (no_more_work c m) (fst s) (snd s) (trim_H (m_h m))) as H.
  destruct (fast_alloc _ _ _ _ _ _ _). intros [= <- _]. exact H.
Qed.
Lemma one_gen_limits c a : limits c a false 1 (one_gen_alloc c a).
Proof.
  intros v s m out s' T HO. unfold one_gen_alloc. pose proof (limit_one_gen (call_context c a v m) (h_dtype (m_h m)) (no_more_work c m) (fst s) (snd s) (trim_H (m_h m))) as H.
  destruct (ensure_one_active_gen _ _ _ _ _ _). intros [= <- _]. exact H.
Qed.
Lemma pregenerated_limits c a n : limits c a false n (pregenerated_alloc c a).
Proof.
  intros v s m out s' T HO. unfold pregenerated_alloc. pose proof (limit_pregenerated (call_context c a v m) (h_dtype (m_h m)) n (no_more_work c m) (fst s) (snd s) (trim_H (m_h m))) as H.
  destruct (give_pregenerated _ _ _ _ _ _). intros [= <- _]. exact H.
Qed.
Lemma persistent_limits c a u : limits c a true (pu_num_gens u) (persistent_alloc c a u).
Proof.
  intros v s m out s' T HO. unfold persistent_alloc. pose proof (limit_persistent (call_context c a v m) (h_dtype (m_h m)) u (no_more_work c m) (fst s) (snd s) (trim_H (m_h m)) (table_nodup c m T) HO) as H.
  destruct (only_persistent_gens _ _ _ _ _ _ _). intros [= <- _]. exact H.
Qed.
