(** Property theorems about the allocation support code and the allocation
    functions: C20-C24. The proofs are in the Alloc files. *)
From Coq Require Import Permutation Sorted String.
From Verif Require Import Base BaseLemmas HistoryModel WorkModel RsetModel RsetSpec SchedModel SchedSpec AllocModel AllocSpec AllocProofs AllocLoops AllocFacts AllocFast AllocPersis AllocPrio PropsResources.
Local Notation length := List.length.
Local Open Scope string_scope.
Local Open Scope nat_scope.

(** ** C20: counts of processes or GPUs to resource sets *)

(** The least number of sets whose units together are at least [n]. *)
Theorem C20_least_sufficient_number : forall per n, 0 < per ->
  exists k, convert_to_rsets per n = Ok k /\ (n <= Z.of_nat (k * per))%Z /\ forall j : nat, (n <= Z.of_nat (j * per))%Z -> k <= j.
Proof. exact convert_ceiling. Qed.
Print Assumptions C20_least_sufficient_number.

(** Sets that hold none of the unit: an error exactly when some are asked for. *)
Theorem C20_none_per_set : forall n, ((0 < n)%Z -> convert_to_rsets 0 n = Err EInsufficientRes) /\ ((n <= 0)%Z -> convert_to_rsets 0 n = Ok 0).
Proof.
  intros n. rewrite convert_zero. split; intros H.
  - destruct (Z.ltb_spec 0 n); [reflexivity|lia].
  - destruct (Z.ltb_spec 0 n); [lia|reflexivity].
Qed.
Print Assumptions C20_none_per_set.

Example C20_cases : convert_to_rsets 4 9 = Ok 3 /\ convert_to_rsets 4 8 = Ok 2 /\ convert_to_rsets 4 (-3) = Ok 0 /\ convert_to_rsets 0 1 = Err EInsufficientRes.
Proof. vm_compute; repeat split; reflexivity. Qed.

(** ** Example data: 4 workers, worker 1 runs generators only, worker 3 is busy;
    6 points, of which 0 is done, 1 runs, 2 is cancelled. *)
Definition arow (id : Z) (started ended cancelled : bool) (prio : sc) : row := fun f =>
  match f with
  | F_sim_id => vint id | F_sim_started => vbool started | F_sim_ended => vbool ended | F_cancel_requested => vbool cancelled
  | F_sim_started_time => vint 10 | F_gen_worker => vint 1
  | F_user s => if String.eqb s "priority" then VS prio else vint 1
  | F_resource_sets => vint 2
  | _ => vint 0
  end.
Definition aH : list row :=
  [arow 0 true true false (SNum 1); arow 1 true false false (SNum 1); arow 2 false false true (SNum 9);
   arow 3 false false false (SNum 2); arow 4 false false false (SNum 5); arow 5 false false false (SNum 5)].
Definition ad : dtype := [(F_sim_id, ShS); (F_priority, ShS); (F_resource_sets, ShS)].
Definition aW : list wrow :=
  [mkW 1 true 0 0 false 0 false; mkW 2 false 0 0 false 0 false; mkW 3 false 1 0 false 0 false; mkW 4 false 0 0 false 0 false].
Definition actx_with (rm : option rman) (W : list wrow) : actx :=
  mkAC W false (match rm with Some _ => true | None => false end) rm true true (fun l => l) 4 1 0 None 0 0 [F_user "x"] [F_sim_id] [F_user "f"].
Definition ex_busy : rman := fst (rrun [RAssign [0;1] 1; RAssign [4] 2] ex_table).
Definition ac_free : actx := actx_with None aW.
Definition ac_managed : actx := actx_with (Some ex_busy) aW.
Lemma ac_free_ok : ids_distinct (ac_W ac_free) /\ resources_ok ac_free.
Proof. split; [repeat constructor; cbn; intuition discriminate|]. split; [intros l; apply Permutation_refl|exact I]. Qed.
Lemma ac_managed_ok : ids_distinct (ac_W ac_managed) /\ resources_ok ac_managed.
Proof. split; [repeat constructor; cbn; intuition discriminate|]. split; [intros l; apply Permutation_refl|exact ex_reachable]. Qed.
Definition no_opts : user_opts := mkUO None false None false.
(** What a Work dictionary says: worker, kind, rows, resource sets. *)
Definition show (d : wdict) := map (fun p => (fst p, k_tag (snd p), k_rows (snd p), k_team (snd p))) d.

(** ** C21: the default allocation function *)

(** Work goes to idle workers, at most one unit each; no point is given twice,
    and only points that are neither started nor cancelled are given. *)
Theorem C21_units_are_sound : forall c d u now stop g H, ids_distinct (ac_W c) -> resources_ok c ->
  let out := give_sim_work_first c d u now stop g H in
  (forall w k, In (w, k) (o_work out) -> idle (ac_W c) w) /\ NoDup (map fst (o_work out)) /\
  NoDup (sim_rows (o_work out)) /\ (forall i, In i (sim_rows (o_work out)) -> evaluable (o_rows out) i /\ evaluable H i).
Proof. intros c d u now stop g H Hi Hr out. exact (default_sound c d u now stop g H Hi Hr). Qed.
Print Assumptions C21_units_are_sound.

(** Each simulation unit has exactly one row, unless batches by priority were
    asked for; its fields are sim_specs["in"]; its resource sets are enough for
    its row; generator-only workers are never used for simulations and, when
    there are some, nobody else runs a generator; in batch mode a generator is
    called only when all simulations are done. *)
Theorem C21_unit_contents : forall c d u now stop g H, ids_distinct (ac_W c) -> resources_ok c ->
  let out := give_sim_work_first c d u now stop g H in
  forall w k, In (w, k) (o_work out) ->
  k_persistent k = false /\ k_recv k = None /\
  (k_tag k = EVAL_SIM /\ unit_served c d (o_rows out) w k /\ (forall f, In f (k_fields k) <-> In f (ac_sim_in c)) /\
     (u_batch_give u = false \/ ~ In F_priority (names d) -> length (k_rows k) = 1) /\
     (some_gen_only (ac_W c) -> ~ gen_only (ac_W c) w) \/
   k_tag k = EVAL_GEN /\ (forall f, In f (k_fields k) <-> In f (ac_gen_in c)) /\
     (ac_gen_in c = [] -> k_rows k = []) /\ (ac_gen_in c <> [] -> k_rows k = seq 0 (length H)) /\
     (u_batch_mode u = true -> forall i r, nth_error (o_rows out) i = Some r -> settled r) /\
     (some_gen_only (ac_W c) -> gen_only (ac_W c) w)).
Proof.
  intros c d u now stop g H Hi Hr out w k Hin. destruct (default_units c d u now stop g H Hi Hr (w, k) Hin) as (A & B & [(C1 & C2 & C3 & C4 & C5)|(C1 & C2 & C3 & C4 & C5)]); cbn [fst snd] in *.
  - split; auto. split; auto. left. split; auto. split; auto. split; [intros f; rewrite C3; apply nodup_fields_In|]. split; [intros [E|E]; apply C4; auto; right; now apply has_notin|exact C5].
  - split; auto. split; auto. right. split; auto. split; [intros f; rewrite C2; apply nodup_fields_In|]. split; [intros E; now rewrite E in C3|]. split; [intros E; rewrite C3; destruct (ac_gen_in c); congruence|].
    split; [|exact C5]. intros Hb i r Hn. apply (proj1 (all_ended_settled _ _ 0) (C4 Hb) i r); auto. lia.
Qed.
Print Assumptions C21_unit_contents.

(** No generator is called while a point waits, and never more than num_active_gens run. *)
Theorem C21_generators_last : forall c d u now stop g H, ids_distinct (ac_W c) -> resources_ok c ->
  let out := give_sim_work_first c d u now stop g H in
  ((exists i, evaluable (o_rows out) i) -> gens (o_work out) = []) /\
  (forall n, u_num_active_gens u = Some n ->
     length (filter (fun r => w_active r =? EVAL_GEN) (ac_W c)) <= n ->
     length (filter (fun r => w_active r =? EVAL_GEN) (ac_W c)) + length (gens (o_work out)) <= n).
Proof.
  intros c d u now stop g H Hi Hr out. split; [exact (default_kinds c d u now stop g H Hi Hr)|]. intros n Hn.
  pose proof (default_gen_limit c d u now stop g H Hi Hr n Hn) as L. rewrite <- countb_filter. change (countb (fun r => w_active r =? EVAL_GEN) (ac_W c)) with (count_gens (ac_W c)). fold out in L. lia.
Qed.
Print Assumptions C21_generators_last.

(** Nothing is given once sim_max simulations are started, or when nobody is idle. *)
Theorem C21_nothing_after_stop : forall c d u now g H, o_work (give_sim_work_first c d u now true g H) = [].
Proof. reflexivity. Qed.
Print Assumptions C21_nothing_after_stop.

(** The resource sets given in one round are free and all different. *)
Theorem C21_sets_disjoint_and_free : forall c d u now stop g H m, ids_distinct (ac_W c) -> resources_ok c -> ac_rm c = Some m ->
  let out := give_sim_work_first c d u now stop g H in
  NoDup (sets_given (o_work out)) /\ forall i, In i (sets_given (o_work out)) -> is_free m i.
Proof. intros c d u now stop g H m Hi Hr Hm out. exact (default_teams c d u now stop g H Hi Hr m Hm). Qed.
Print Assumptions C21_sets_disjoint_and_free.

(** No idle worker is left without work while points wait: with nothing else in
    the way (no resource management, one point per unit), the number of units is
    the smaller of the number of idle workers that may simulate and of waiting points. *)
Theorem C21_no_worker_left_idle : forall c d u now g H, ids_distinct (ac_W c) -> resources_ok c -> ac_manage c = false ->
  u_batch_give u = false \/ ~ In F_priority (names d) ->
  let out := give_sim_work_first c d u now false g H in
  forall ws pts, NoDup ws -> NoDup pts ->
  (forall w, In w ws <-> exists r, In r (ac_W c) /\ w_id r = w /\ w_active r = 0 /\ (some_gen_only (ac_W c) -> w_gen r = false)) ->
  (forall i, In i pts <-> evaluable (o_rows out) i) -> pts <> [] ->
  length (sims (o_work out)) = Nat.min (length ws) (length pts) /\ o_err out = None.
Proof.
  intros c d u now g H Hi Hr Hm Hb out ws pts Nw Np Hw Hp Hne.
  destruct (avail_workers (ac_W c) None false None (Some false)) as [ws'|] eqn:Ew; [|cbn in Ew; discriminate].
  assert (Pw : Permutation ws ws').
  { apply NoDup_Permutation; auto; [exact (avail_sub _ _ _ _ _ _ Ew Hi)|]. intros w. rewrite Hw. destruct (avail_ok _ _ _ _ _ _ Ew) as (ok & -> & Hok). rewrite in_map_iff. split.
    - intros (r & R1 & R2 & R3 & R4). exists r. split; auto. apply filter_In. split; auto. apply Hok. auto.
    - intros (r & <- & Hr'). apply filter_In in Hr'. destruct Hr' as [R1 R2]. apply Hok in R2. exists r. intuition. }
  assert (Pp : Permutation pts (to_evaluate (o_rows out))).
  { apply NoDup_Permutation; auto; [apply to_evaluate_nodup|]. intros i. now rewrite Hp, to_evaluate_spec. }
  destruct (default_all c d u now false g H Hi Hr ws' eq_refl Hm ltac:(destruct Hb as [?|?]; [now left|right; now apply has_notin]) Ew) as (A1 & A2 & A3).
  { intros E. apply Hne. apply Permutation_nil. rewrite <- E. symmetry. exact Pp. }
  fold out in A1, A2, A3. rewrite A3, A1. split; auto. now rewrite (Permutation_length Pw), (Permutation_length Pp).
Qed.
Print Assumptions C21_no_worker_left_idle.

(** The points left waiting never have a higher priority than those given. *)
Theorem C21_best_points_first : forall c d u now stop g H, ids_distinct (ac_W c) -> resources_ok c -> In F_priority (names d) ->
  let out := give_sim_work_first c d u now stop g H in
  forall i j, In i (sim_rows (o_work out)) -> evaluable (o_rows out) j -> ~ In j (sim_rows (o_work out)) ->
  sc_ge (priority_of (o_rows out) i) (priority_of (o_rows out) j).
Proof. exact default_best. Qed.
Print Assumptions C21_best_points_first.

(** The history is changed only by cancelling simulations that run longer than the limit. *)
Theorem C21_only_slow_sims_cancelled : forall c d u now stop g H,
  let out := give_sim_work_first c d u now stop g H in
  length (o_rows out) = length H /\
  forall i r, nth_error H i = Some r -> exists r', nth_error (o_rows out) i = Some r' /\
    (forall f, f <> F_cancel_requested -> r' f = r f) /\
    (r' F_cancel_requested <> r F_cancel_requested ->
       r' F_cancel_requested = vbool true /\ truthy (r F_sim_started) = true /\ truthy (r F_sim_ended) = false /\
       exists lim t, u_cancel_time u = Some lim /\ r F_sim_started_time = VS (SNum t) /\ (lim < now - t)%Z).
Proof.
  intros c d u now stop g H out. assert (E : o_rows out = cancel_slow u now H).
  { unfold out, give_sim_work_first. destruct stop; [reflexivity|]. destruct (to_evaluate _) as [|i0 l]; destruct (avail_workers _ _ _ _ _); try reflexivity.
    - destruct (gen_loop _ _ _ _ _ _ _) as [[? ?] ?]; reflexivity.
    - destruct (sim_loop _ _ _ _ _ _ _ _ _) as [[[? ?] ?] ?]; reflexivity. }
  rewrite E. unfold cancel_slow. destruct (u_cancel_time u) as [lim|].
  - split; [apply map_length|]. intros i r Hn. rewrite nth_error_map, Hn. cbn [option_map]. destruct (too_long now lim r) eqn:Et.
    + eexists. split; [reflexivity|]. unfold setf. split.
      * intros f Hf. unfold feqb. destruct (field_eq_dec F_cancel_requested f); congruence.
      * intros _. unfold too_long, flag in Et. rewrite !andb_true_iff, !negb_true_iff in Et. destruct Et as (((E1 & E2) & _) & E4). split.
        { unfold feqb. destruct (field_eq_dec F_cancel_requested F_cancel_requested); [reflexivity|congruence]. }
        split; auto. split; auto. destruct (r F_sim_started_time) as [[t| |]|]; try discriminate. exists lim, t. apply Z.ltb_lt in E4. auto.
    + exists r. split; auto. split; auto. congruence.
  - split; auto. intros i r Hn. exists r. split; auto. split; auto. congruence.
Qed.
Print Assumptions C21_only_slow_sims_cancelled.

Example C21_hypotheses_met :
  (ids_distinct (ac_W ac_free) /\ resources_ok ac_free) /\ (ids_distinct (ac_W ac_managed) /\ resources_ok ac_managed) /\
  show (o_work (give_sim_work_first ac_free ad no_opts 0 false 0 aH)) = [(2, 1, [4], None); (4, 1, [5], None)] /\
  show (o_work (give_sim_work_first ac_managed ad no_opts 0 false 0 aH)) = [(2, 1, [4], Some [2; 3]); (4, 1, [5], Some [6; 7])] /\
  show (o_work (give_sim_work_first ac_managed ad no_opts 0 false 0 (firstn 3 aH))) = [(1, 2, [0; 1; 2], Some [])] /\
  show (o_work (give_sim_work_first ac_managed ad (mkUO None false None true) 0 false 0 (firstn 3 aH))) = [] /\
  show (o_work (give_sim_work_first ac_free ad (mkUO None true None false) 0 false 0 aH)) = [(2, 1, [4; 5], None); (4, 1, [3], None)] /\
  map (fun r => truthy (r F_cancel_requested)) (o_rows (give_sim_work_first ac_free ad (mkUO (Some 4%Z) false None false) 15 false 0 aH)) = [false; true; true; false; false; false].
Proof. split; [exact ac_free_ok|]. split; [exact ac_managed_ok|]. vm_compute; repeat split; reflexivity. Qed.

(** A priority that is NaN with give_all_with_same_priority makes units with no
    rows at all: the worker is given an empty simulation. *)
Theorem C21_nan_priority_gives_empty_unit_refuted : exists c d u H w k,
  ids_distinct (ac_W c) /\ resources_ok c /\ In (w, k) (o_work (give_sim_work_first c d u 0 false 0 H)) /\ k_tag k = EVAL_SIM /\ k_rows k = [].
Proof.
  exists ac_free, ad, (mkUO None true None false), [arow 0 false false false SNaN], 2. eexists.
  split; [apply ac_free_ok|]. split; [apply ac_free_ok|]. split; [vm_compute; left; reflexivity|]. vm_compute; split; reflexivity.
Qed.
Print Assumptions C21_nan_priority_gives_empty_unit_refuted.

(** ** C22: the other allocation functions *)

(** fast_alloc: one call gives out, in order, exactly the rows not cancelled
    between the old and the new position; workers are idle and distinct; gens
    are called only when every row was passed, and within num_active_gens. *)
Theorem C22_fast_gives_next_points : forall c d num stop g p H out p', ids_distinct (ac_W c) -> resources_ok c -> pi_next p <= length H ->
  fast_alloc c d num stop g p H = (out, p') ->
  (forall w k, In (w, k) (o_work out) -> idle (ac_W c) w) /\ NoDup (map fst (o_work out)) /\
  pi_next p <= pi_next p' <= length H /\ sim_rows (o_work out) = wanted_between H (pi_next p) (pi_next p') /\
  (gens (o_work out) <> [] -> pi_next p' = length H) /\ pi_gen_calls p' = pi_gen_calls p + length (gens (o_work out)) /\
  (stop = true -> o_work out = [] /\ p' = p) /\ o_rows out = H /\
  (forall n, num = Some n -> length (filter (fun r => w_active r =? EVAL_GEN) (ac_W c)) <= n ->
     length (filter (fun r => w_active r =? EVAL_GEN) (ac_W c)) + length (gens (o_work out)) <= n) /\
  (forall m, ac_rm c = Some m -> NoDup (sets_given (o_work out)) /\ forall i, In i (sets_given (o_work out)) -> is_free m i) /\
  (forall q, In q (sims (o_work out)) -> unit_served c d H (fst q) (snd q)).
Proof.
  intros c d num stop g p H out p' Hi Hr Hn E. destruct (fast_facts c d num stop g p H out p' Hi Hr Hn E) as (A1 & A2 & A3 & A4 & A5 & A6 & A7 & A8 & A9 & A10 & A11).
  repeat (split; [assumption|]). split; [|split; assumption]. intros n Hnum Hle. specialize (A5 n Hnum). rewrite <- countb_filter in *. change (countb (fun r => w_active r =? EVAL_GEN) (ac_W c)) with (count_gens (ac_W c)) in *. lia.
Qed.
Print Assumptions C22_fast_gives_next_points.

(** Over any number of calls, with the history growing and points being
    cancelled in between, fast_alloc gives no row twice. *)
Theorem C22_fast_never_twice : forall d num l p p',
  calls (fun c p H => fast_alloc c d num false 0 p H) p l p' ->
  (forall c H out, In (c, H, out) l -> ids_distinct (ac_W c) /\ resources_ok c) ->
  (forall k c H out c' H' out', nth_error l k = Some (c, H, out) -> nth_error l (S k) = Some (c', H', out') -> length H <= length H') ->
  (forall c H out, nth_error l 0 = Some (c, H, out) -> pi_next p <= length H) ->
  NoDup (concat (map (fun x => sim_rows (o_work (snd x))) l)) /\
  (forall i, In i (concat (map (fun x => sim_rows (o_work (snd x))) l)) -> pi_next p <= i < pi_next p').
Proof.
  intros d num l p p' C. induction C as [p|p p1 p2 c H out l E C IH]; intros Hok Hgrow Hfirst.
  - cbn. split; [constructor|intros i []].
  - destruct (Hok c H out (or_introl eq_refl)) as [Hi Hr].
    destruct (fast_facts c d num false 0 p H out p1 Hi Hr (Hfirst c H out eq_refl) E) as (_ & _ & A3 & A4 & _).
    destruct IH as [I1 I2].
    + intros c0 H0 out0 Hin. apply (Hok c0 H0 out0). now right.
    + intros k c0 H0 o0 c' H' o' N1 N2. exact (Hgrow (S k) c0 H0 o0 c' H' o' N1 N2).
    + intros c0 H0 o0 N1. specialize (Hgrow 0 c H out c0 H0 o0 eq_refl N1). lia.
    + assert (Mono : pi_next p1 <= pi_next p2).
      { clear - C Hok Hgrow A3. assert (Hl : forall c0 H0 o0, nth_error l 0 = Some (c0, H0, o0) -> pi_next p1 <= length H0).
        { intros c0 H0 o0 N1. specialize (Hgrow 0 c H out c0 H0 o0 eq_refl N1). lia. }
        assert (Hg : forall k c H out c' H' out', nth_error l k = Some (c, H, out) -> nth_error l (S k) = Some (c', H', out') -> length H <= length H').
        { intros k c1 H1 o1 c2 H2 o2 N1 N2. exact (Hgrow (S k) c1 H1 o1 c2 H2 o2 N1 N2). }
        assert (Ho : forall c H out, In (c, H, out) l -> ids_distinct (ac_W c) /\ resources_ok c).
        { intros c1 H1 o1 Hin. apply (Hok c1 H1 o1). now right. }
        clear Hgrow Hok A3. revert Hl Hg Ho. induction C as [q|q q1 q2 c1 H1 o1 l E C IH]; intros Hl Hg Ho; [lia|]. destruct (Ho c1 H1 o1 (or_introl eq_refl)) as [Hi Hr].
        destruct (fast_facts c1 d num false 0 q H1 o1 q1 Hi Hr (Hl c1 H1 o1 eq_refl) E) as (_ & _ & A3 & _). enough (pi_next q1 <= pi_next q2) by lia. apply IH.
        - intros c0 H0 o0 N1. specialize (Hg 0 c1 H1 o1 c0 H0 o0 eq_refl N1). lia.
        - intros k c3 H3 o3 c4 H4 o4 N1 N2. exact (Hg (S k) c3 H3 o3 c4 H4 o4 N1 N2).
        - intros c0 H0 o0 Hin. apply (Ho c0 H0 o0). now right. }
      cbn [map concat snd]. rewrite A4. split.
      * apply SchedServe.NoDup_app_intro; auto; [apply wanted_NoDup|]. intros x Hx Hy. apply wanted_In in Hx. specialize (I2 x Hy). lia.
      * intros i Hin. apply in_app_or in Hin. destruct Hin as [Hin|Hin]; [apply wanted_In in Hin; lia|specialize (I2 i Hin); lia].
Qed.
Print Assumptions C22_fast_never_twice.

Definition p0 : pinfo := mkPI 0 0 0.
Example C22_fast_cases :
  show (o_work (fst (fast_alloc ac_free ad None false 0 (mkPI 2 0 0) aH))) = [(2, 1, [3], None); (4, 1, [4], None)] /\
  pi_next (snd (fast_alloc ac_free ad None false 0 (mkPI 2 0 0) aH)) = 5 /\
  show (o_work (fst (fast_alloc ac_free ad None false 0 (mkPI 5 0 0) aH))) = [(2, 1, [5], None); (1, 2, [0; 1; 2; 3; 4; 5], None)].
Proof. vm_compute; repeat split; reflexivity. Qed.

Example C22_calls_met : exists l p', calls (fun c p H => fast_alloc c ad None false 0 p H) p0 l p' /\ pi_next p' = 6 /\
  map (fun x => sim_rows (o_work (snd x))) l = [[0; 1]; [3; 4]; [5]] /\ map (fun x => length (snd (fst x))) l = [3; 5; 6].
Proof.
  eexists [(ac_free, firstn 3 aH, _); (ac_free, firstn 5 aH, _); (ac_free, aH, _)]. eexists. split.
  - eapply calls_more; [vm_compute; reflexivity|]. eapply calls_more; [vm_compute; reflexivity|]. eapply calls_more; [vm_compute; reflexivity|]. apply calls_none.
  - vm_compute; repeat split; reflexivity.
Qed.

(** give_pregenerated_sim_work: idle, distinct workers, sets free and disjoint;
    provided the last row is not cancelled, exactly the rows not cancelled
    between the old and the new position are given, in order, all of them inside
    the history. It asks for shutdown exactly when all rows were given. The
    proviso cannot be dropped, see the next theorem. *)
Theorem C22_pregenerated_gives_next_points : forall c d stop g p H out p', ids_distinct (ac_W c) -> resources_ok c ->
  give_pregenerated c d stop g p H = (out, p') ->
  (forall w k, In (w, k) (o_work out) -> idle (ac_W c) w) /\ NoDup (map fst (o_work out)) /\ pi_next p <= pi_next p' /\
  (forall m, ac_rm c = Some m -> NoDup (sets_given (o_work out)) /\ forall i, In i (sets_given (o_work out)) -> is_free m i) /\
  (forall q, In q (sims (o_work out)) -> unit_served c d H (fst q) (snd q)) /\
  (pi_next p <= length H -> (forall r, nth_error H (pred (length H)) = Some r -> truthy (r F_cancel_requested) = false) ->
     pi_next p' <= length H /\ sim_rows (o_work out) = wanted_between H (pi_next p) (pi_next p')) /\
  gens (o_work out) = [] /\ o_rows out = H /\ (o_flag out = 1 <-> stop = false /\ length H <= pi_next p).
Proof.
  intros c d stop g p H out p' Hi Hr E. destruct (pregenerated_facts c d stop g p H out p' Hi Hr E) as ((A1 & A2 & A3 & A4 & A5 & A6) & B & C & D & _).
  repeat (split; [assumption|]). assumption.
Qed.
Print Assumptions C22_pregenerated_gives_next_points.

(** When only cancelled rows remain, a row that does not exist is given. *)
Theorem C22_row_beyond_history_refuted : exists c d p H w k,
  ids_distinct (ac_W c) /\ resources_ok c /\ pi_next p < length H /\
  In (w, k) (o_work (fst (give_pregenerated c d false 0 p H))) /\ In (w, k) (o_work (fst (ensure_one_active_gen c d false 0 p H))) /\
  k_tag k = EVAL_SIM /\ k_rows k = [length H].
Proof.
  exists ac_free, ad, p0, [arow 0 false false true (SNum 1)], 2. eexists. split; [apply ac_free_ok|]. split; [apply ac_free_ok|]. split; [vm_compute; repeat constructor|].
  split; [vm_compute; left; reflexivity|]. split; [vm_compute; left; reflexivity|]. vm_compute; split; reflexivity.
Qed.
Print Assumptions C22_row_beyond_history_refuted.

(** ensure_one_active_gen: as above for simulations; a generator is called only
    alone, when no generator runs, every row was passed and every simulation is over. *)
Theorem C22_one_generator_at_a_time : forall c d stop g p H out p', ids_distinct (ac_W c) -> resources_ok c ->
  ensure_one_active_gen c d stop g p H = (out, p') ->
  (forall w k, In (w, k) (o_work out) -> idle (ac_W c) w) /\ NoDup (map fst (o_work out)) /\ pi_next p <= pi_next p' /\
  (forall m, ac_rm c = Some m -> NoDup (sets_given (o_work out)) /\ forall i, In i (sets_given (o_work out)) -> is_free m i) /\
  (forall q, In q (sims (o_work out)) -> unit_served c d H (fst q) (snd q)) /\
  (pi_next p <= length H -> (forall r, nth_error H (pred (length H)) = Some r -> truthy (r F_cancel_requested) = false) ->
     pi_next p' <= length H /\ sim_rows (o_work out) = wanted_between H (pi_next p) (pi_next p')) /\
  o_rows out = H /\ (stop = true -> o_work out = []) /\
  (gens (o_work out) <> [] -> length (o_work out) = 1 /\ pi_next p' = pi_next p /\ length H <= pi_next p /\
     (forall r, In r (ac_W c) -> w_active r <> EVAL_GEN) /\ (forall i r, nth_error H i = Some r -> settled r)) /\
  pi_gen_calls p' = pi_gen_calls p + length (gens (o_work out)).
Proof.
  intros c d stop g p H out p' Hi Hr E. destruct (one_gen_facts c d stop g p H out p' Hi Hr E) as ((A1 & A2 & A3 & A4 & A5 & A6) & B & C & D & F).
  repeat (split; [assumption|]). assumption.
Qed.
Print Assumptions C22_one_generator_at_a_time.

(** It fails (Python's IndexError) when somebody is idle but no worker that may run a generator is. *)
Theorem C22_one_generator_crash_refuted : exists c d p H, ids_distinct (ac_W c) /\ resources_ok c /\ (exists w, idle (ac_W c) w) /\
  o_err (fst (ensure_one_active_gen c d false 0 p H)) = Some EIndex.
Proof.
  exists (actx_with None [mkW 1 true 1 0 false 0 false; mkW 2 false 0 0 false 0 false]), ad, p0, [].
  split; [repeat constructor; cbn; intuition discriminate|]. split; [split; [intros l; apply Permutation_refl|exact I]|].
  split; [exists 2; eexists; split; [right; left; reflexivity|split; reflexivity]|]. vm_compute; reflexivity.
Qed.
Print Assumptions C22_one_generator_crash_refuted.

Example C22_counting_cases :
  show (o_work (fst (give_pregenerated ac_free ad false 0 (mkPI 2 0 0) aH))) = [(2, 1, [3], None); (4, 1, [4], None)] /\
  o_flag (fst (give_pregenerated ac_free ad false 0 (mkPI 6 0 0) aH)) = 1 /\
  show (o_work (fst (ensure_one_active_gen ac_free ad false 0 (mkPI 2 0 0) aH))) = [(2, 1, [3], None); (4, 1, [4], None)] /\
  show (o_work (fst (ensure_one_active_gen ac_free ad false 0 (mkPI 1 0 0) (firstn 1 aH)))) = [(1, 2, [0], None)] /\
  show (o_work (fst (ensure_one_active_gen ac_free ad false 0 (mkPI 3 0 0) (firstn 3 aH)))) = [].
Proof. vm_compute; repeat split; reflexivity. Qed.

(** only_persistent_gens. Every unit is one of three kinds: results handed back
    to a persistent generator that listens, namely all rows it generated that
    are ended and that it was not told about, either because results are
    returned asynchronously or because all its points are over; a simulation for
    an idle worker; or the start of a persistent generator on an idle worker. *)
Theorem C22_persistent_units : forall c d u g p H out p', ids_distinct (ac_W c) -> resources_ok c ->
  only_persistent_gens c d u false g p H = (out, p') ->
  NoDup (map fst (o_work out)) /\ o_rows out = H /\
  forall w k, In (w, k) (o_work out) ->
    (k_tag k = EVAL_GEN /\ listening_gen (ac_W c) w /\ k_persistent k = true /\ k_recv k = Some (pu_recv u) /\ k_rows k <> [] /\ NoDup (k_rows k) /\
       (forall i, In i (k_rows k) <-> exists r, nth_error H i = Some r /\ truthy (r F_sim_ended) = true /\ truthy (r F_gen_informed) = false /\ as_int (r F_gen_worker) = Z.of_nat w) /\
       (forall f, In f (k_fields k) <-> In f (ac_persis_in c)) /\
       (pu_async u = true /\ pu_init_sample u <= length (filter (flag F_sim_ended) H) \/
        forall i r, nth_error H i = Some r -> as_int (r F_gen_worker) = Z.of_nat w -> settled r)) \/
    (k_tag k = EVAL_SIM /\ idle (ac_W c) w /\ k_persistent k = pu_alt u /\ k_recv k = None /\ unit_served c d H w k /\ (forall f, In f (k_fields k) <-> In f (ac_sim_in c))) \/
    (k_tag k = EVAL_GEN /\ idle (ac_W c) w /\ k_persistent k = true /\ k_recv k = Some (pu_recv u) /\ k_rows k = seq 0 (length H) /\ (forall f, In f (k_fields k) <-> In f (ac_gen_in c)) /\
       exists r, In r (ac_W c) /\ w_id r = w /\ w_persis r = 0).
Proof.
  intros c d u g p H out p' Hi Hr E. destruct (persis_facts c d u g p p' H out Hi Hr E) as ((handed & s & (N & U & _) & _) & R & _).
  split; auto. split; auto. intros w k Hin. destruct (U _ Hin) as [[L B]|[[W S]|[W S]]]; cbn [fst snd] in *.
  - left. destruct B as (B1 & B2 & B3 & B4 & B5 & B6 & B7). cbn [fst snd] in *. split; auto. split; auto. split; auto. split; auto. split; auto.
    split; [rewrite B5; apply returned_NoDup|]. split; [intros i; rewrite B5; apply returned_spec|]. split; [intros f; rewrite B4; apply nodup_fields_In|].
    destruct B7 as [B7|B7].
    + left. apply andb_true_iff in B7. destruct B7 as [B7 B8]. split; auto. apply Nat.leb_le in B8. now rewrite <- countb_filter.
    + right. intros i r Hn Hg. apply (proj1 (all_ended_settled _ _ 0) B7 i r); auto; [lia|]. unfold gen_of. rewrite Hn. now apply Z.eqb_eq.
  - right. left. destruct S as (S1 & S2 & S3 & S4 & S5). cbn [fst snd] in *. destruct W as (r & W1 & W2 & W3 & _). split; auto. split; [exists r; auto|]. split; auto. split; auto. split; auto. intros f. rewrite S4. apply nodup_fields_In.
  - right. right. destruct S as (S1 & S2 & S3 & S4 & S5). destruct W as (r & W1 & W2 & W3 & W4). split; auto. split; [exists r; auto|]. split; auto. split; auto. split; auto. split; [intros f; rewrite S4; apply nodup_fields_In|]. exists r. auto.
Qed.
Print Assumptions C22_persistent_units.

(** Simulation rows are distinct, unstarted and not cancelled; resource sets
    free and disjoint; the number of persistent generators stays within
    num_active_gens; shutdown is asked for exactly when a started persistent
    generator has gone, and then nothing is given. *)
Theorem C22_persistent_discipline : forall c d u g p H out p', ids_distinct (ac_W c) -> resources_ok c ->
  only_persistent_gens c d u false g p H = (out, p') ->
  NoDup (sim_rows (o_work out)) /\ (forall i, In i (sim_rows (o_work out)) -> evaluable H i) /\
  (forall m, ac_rm c = Some m -> NoDup (sets_given (o_work out)) /\ forall i, In i (sets_given (o_work out)) -> is_free m i) /\
  (let running := length (filter (fun r => w_persis r =? EVAL_GEN) (ac_W c)) in
   pi_gens_started p <= pi_gens_started p' /\
   (running <= pu_num_gens u -> running + (pi_gens_started p' - pi_gens_started p) <= pu_num_gens u) /\
   (o_flag out = 1 <-> running < pi_gens_started p) /\ (o_flag out = 1 -> o_work out = [])).
Proof.
  intros c d u g p H out p' Hi Hr E. destruct (persis_facts c d u g p p' H out Hi Hr E) as ((handed & s & P & S) & _ & A & B & C & D & _).
  split; [apply P|]. split; [apply P|]. split; [intros m Hm; exact (pers_ok_teams c d u H (o_work out) handed s P S m Hm)|].
  rewrite <- countb_filter. change (countb (fun r => w_persis r =? EVAL_GEN) (ac_W c)) with (count_persis_gens (ac_W c)). cbn zeta. split; auto. split; [lia|]. auto.
Qed.
Print Assumptions C22_persistent_discipline.

(** With generator-only workers, a persistent generator is started only when
    every waiting point is given in the same call. *)
Theorem C22_persistent_points_first : forall c d u g p H out p', ids_distinct (ac_W c) -> resources_ok c ->
  only_persistent_gens c d u false g p H = (out, p') -> some_gen_only (ac_W c) -> pu_alt u = false ->
  pi_gens_started p < pi_gens_started p' -> forall i, evaluable H i -> In i (sim_rows (o_work out)).
Proof. intros c d u g p H out p' Hi Hr E. destruct (persis_facts c d u g p p' H out Hi Hr E) as (_ & _ & _ & _ & _ & _ & F). exact F. Qed.
Print Assumptions C22_persistent_points_first.

(** Without them, the start of a generator replaces the simulation just given to
    the same worker: its point is not given in this call although a worker was found. *)
Theorem C22_simulation_unit_overwritten_refuted : exists c d u p H out p', ids_distinct (ac_W c) /\ resources_ok c /\
  only_persistent_gens c d u false 0 p H = (out, p') /\ pi_gens_started p < pi_gens_started p' /\
  exists i, evaluable H i /\ ~ In i (sim_rows (o_work out)).
Proof.
  exists (actx_with None (init_workers 2 false [] [])), ad, (mkPU false 0 false false false 1), p0, [arow 0 false false false (SNum 1)]. eexists. eexists.
  split; [repeat constructor; cbn; intuition discriminate|]. split; [split; [intros l; apply Permutation_refl|exact I]|].
  split; [vm_compute; reflexivity|]. split; [vm_compute; repeat constructor|]. exists 0. split; [|vm_compute; tauto]. eexists. repeat split; reflexivity.
Qed.
Print Assumptions C22_simulation_unit_overwritten_refuted.

Definition pW : list wrow :=
  [mkW 1 false 0 2 false 0 false; mkW 2 false 0 0 false 0 false; mkW 3 false 1 0 false 0 false; mkW 4 false 0 0 false 0 false].
Example C22_persistent_cases :
  ids_distinct pW /\
  show (o_work (fst (only_persistent_gens (actx_with None pW) ad (mkPU false 0 false true false 1) false 0 (mkPI 0 0 1) aH))) =
    [(1, 2, [0], None); (2, 1, [4], None); (4, 1, [5], None)] /\
  show (o_work (fst (only_persistent_gens (actx_with None pW) ad (mkPU false 0 false false false 1) false 0 (mkPI 0 0 1) aH))) =
    [(2, 1, [4], None); (4, 1, [5], None)] /\
  show (o_work (fst (only_persistent_gens ac_free ad (mkPU false 0 false false false 1) false 0 p0 (firstn 4 aH)))) =
    [(2, 1, [3], None); (1, 2, [0; 1; 2; 3], None)] /\
  o_flag (fst (only_persistent_gens ac_free ad (mkPU false 0 false false false 1) false 0 (mkPI 0 0 1) aH)) = 1.
Proof. split; [repeat constructor; cbn; intuition discriminate|]. vm_compute; repeat split; reflexivity. Qed.

(** ** C23: point queries *)
Theorem C23_all_sim_ended : forall H sel lo, all_sim_ended H sel lo = true <->
  forall i r, lo <= i -> nth_error H i = Some r -> sel i = true -> settled r.
Proof. exact all_ended_settled. Qed.
Print Assumptions C23_all_sim_ended.

Theorem C23_all_sim_started : forall H sel lo, all_sim_started H sel lo = true <->
  forall i r, lo <= i -> nth_error H i = Some r -> sel i = true -> truthy (r F_sim_started) = true \/ truthy (r F_cancel_requested) = true.
Proof.
  intros H sel lo. unfold all_sim_started. rewrite all_selected_spec. unfold flag. split; intros A i r H1 H2 H3; specialize (A i r H1 H2 H3).
  - destruct (truthy (r F_cancel_requested)); auto.
  - intros E. destruct A as [A|A]; congruence.
Qed.
Print Assumptions C23_all_sim_started.

Theorem C23_all_gen_informed : forall H sel lo, all_gen_informed H sel lo = true <->
  forall i r, lo <= i -> nth_error H i = Some r -> sel i = true ->
  truthy (r F_gen_informed) = true \/ truthy (r F_cancel_requested) = true /\ truthy (r F_sim_started) = false.
Proof.
  intros H sel lo. unfold all_gen_informed. rewrite all_selected_spec. unfold given_up, flag. split; intros A i r H1 H2 H3; specialize (A i r H1 H2 H3).
  - destruct (truthy (r F_cancel_requested)), (truthy (r F_sim_started)); cbn in A; auto.
  - intros E. destruct A as [A|[A B]]; auto. rewrite A, B in E. discriminate.
Qed.
Print Assumptions C23_all_gen_informed.

(** Selecting by priority: only available points, none of them beaten by an
    available point; all the best ones if a batch is wanted, otherwise one. *)
Theorem C23_selection_is_best : forall d H pts batch rows, points_by_priority d H pts batch = Ok rows -> NoDup pts ->
  NoDup rows /\ incl rows pts /\
  (In F_priority (names d) -> forall i j, In i rows -> In j pts -> sc_ge (priority_of H i) (priority_of H j)) /\
  (batch = false \/ ~ In F_priority (names d) -> length rows = 1) /\
  (In F_priority (names d) -> batch = true -> (forall j, In j pts -> priority_of H j <> SNaN) ->
     forall i, In i rows <-> In i pts /\ forall j, In j pts -> sc_ge (priority_of H i) (priority_of H j)).
Proof.
  intros d H pts batch rows E Hn. destruct (points_sub d H pts batch rows E Hn) as (A & B & C & D). split; auto. split; auto.
  split; [intros Hp; exact (points_best d H pts batch rows Hp E)|]. split; [intros [?|?]; auto; apply D; now apply has_notin|].
  intros Hp -> Hnn. exact (points_batch d H pts rows Hp E Hnn).
Qed.
Print Assumptions C23_selection_is_best.

(** Something is always selected when points are available. *)
Theorem C23_selection_exists : forall d H pts batch, pts <> [] -> exists rows, points_by_priority d H pts batch = Ok rows.
Proof. intros d H [|i pts] batch Hne; [congruence|]. unfold points_by_priority. destruct (has _ _); [destruct batch|]; eauto. Qed.
Print Assumptions C23_selection_exists.

Example C23_cases : points_by_priority ad aH [3; 4; 5] false = Ok [4] /\ points_by_priority ad aH [3; 4; 5] true = Ok [4; 5] /\
  points_by_priority [] aH [3; 4; 5] true = Ok [3] /\
  all_sim_ended aH (fun _ => true) 0 = false /\ all_sim_ended aH (fun i => memb i [0; 2]) 0 = true /\
  all_sim_started aH (fun i => i <? 3)%nat 0 = true /\ all_gen_informed aH (fun i => i =? 2)%nat 1 = true /\ all_gen_informed aH (fun i => i =? 0)%nat 0 = false.
Proof. vm_compute; repeat split; reflexivity. Qed.

(** ** C24: available workers *)
(** Exactly the workers that meet the conditions, each once, in the order of the
    table; conditions on zero-resource and generator-only workers are ignored when there are none. *)
Theorem C24_exactly_the_matching_workers : forall W persistent active_recv zrw gens ws,
  avail_workers W persistent active_recv zrw gens = Ok ws ->
  forall w, In w ws <-> exists r, In r W /\ w_id r = w /\
    (if active_recv then w_recv r = true else w_active r = 0) /\
    match persistent with None => True | Some t => w_persis r = t end /\
    match zrw with None => True | Some b => (exists r', In r' W /\ w_zero r' = true) -> w_zero r = b end /\
    match gens with None => True | Some b => (exists r', In r' W /\ w_gen r' = true) -> w_gen r = b end.
Proof.
  intros W p a z g ws E w. destruct (avail_ok _ _ _ _ _ _ E) as (ok & -> & Hok). rewrite in_map_iff. split.
  - intros (r & <- & Hr). apply filter_In in Hr. destruct Hr as [R1 R2]. apply Hok in R2. exists r. tauto.
  - intros (r & R1 & <- & R2). exists r. split; auto. apply filter_In. split; auto. now apply Hok.
Qed.
Print Assumptions C24_exactly_the_matching_workers.

Theorem C24_once_and_in_order : forall W persistent active_recv zrw gens ws, avail_workers W persistent active_recv zrw gens = Ok ws ->
  (NoDup (map w_id W) -> NoDup ws) /\ (StronglySorted lt (map w_id W) -> StronglySorted lt ws).
Proof.
  intros W p a z g ws E. split; [exact (avail_sub _ _ _ _ _ _ E)|]. destruct (avail_ok _ _ _ _ _ _ E) as (ok & -> & _). clear E.
  induction W as [|r W IH]; cbn; intros S; auto. inversion S as [|? ? S1 S2]; subst. destruct (ok r); auto. cbn. constructor; auto.
  rewrite Forall_forall in *. intros x Hx. apply S2. apply in_map_iff in Hx. destruct Hx as (y & <- & Hy). apply filter_In in Hy. now apply in_map.
Qed.
Print Assumptions C24_once_and_in_order.

(** The table the manager starts with lists the workers in increasing order. *)
Theorem C24_initial_table_in_order : forall n gom zeros gens, StronglySorted lt (map w_id (init_workers n gom zeros gens)).
Proof.
  intros n gom zeros gens. unfold init_workers. rewrite map_map. cbn [w_id]. rewrite map_id.
  assert (X : forall k a, StronglySorted lt (seq a k)). { induction k as [|k IH]; intros a; cbn; constructor; auto. rewrite Forall_forall. intros x Hx. apply in_seq in Hx. lia. }
  destruct gom; apply X.
Qed.
Print Assumptions C24_initial_table_in_order.

(** The only error: active-receive workers that are not persistent are asked for. *)
Theorem C24_error_iff : forall W persistent active_recv zrw gens,
  (exists e, avail_workers W persistent active_recv zrw gens = Err e) <-> active_recv = true /\ (persistent = None \/ persistent = Some 0).
Proof.
  intros W p a z g. unfold avail_workers. destruct a, p as [[|t]|]; cbn [andb]; split; intros X; try (destruct X as (? & ?); discriminate); try (destruct X as [X [Y|Y]]; discriminate); eauto.
Qed.
Print Assumptions C24_error_iff.

Example C24_cases : avail_workers aW None false None (Some false) = Ok [2; 4] /\ avail_workers aW None false None (Some true) = Ok [1] /\
  avail_workers aW (Some 0) false (Some true) None = Ok [1; 2; 4] /\ avail_workers pW (Some 2) false None None = Ok [1] /\
  avail_workers aW None true None None = Err (EOther 1) /\ avail_workers [mkW 7 false 2 2 true 0 false] (Some 2) true None None = Ok [7].
Proof. vm_compute; repeat split; reflexivity. Qed.
