(** Property theorems about resource sets and the scheduler: C12-C19, C44.
    Statements only: the proofs are in the Rset and Sched files. *)
From Coq Require Import Permutation Sorted String.
From Verif Require Import Base RsetModel RsetSpec RsetProofs RsetLayout RsetWalk RsetGroups SchedModel SchedSpec SchedProofs SchedTeam SchedFacts SchedIdle.
Local Notation length := List.length.
Local Open Scope string_scope.

(** ** C12: resource sets are never double-booked and always returned *)

(** The free counters are right after any assignments and releases, and node
    groups and slots of the sets never change. *)
Theorem C12_free_counts_are_exact :
  forall nw p m0 os m, rman_init nw p = Ok m0 -> Forall no_repeats os -> rrun os m0 = (m, None) ->
  books_balanced m /\ length (rm_rsets m) = length (rm_rsets m0) /\ places (rm_rsets m) = places (rm_rsets m0).
Proof.
  intros nw p m0 os m Hi Hf Hr. destruct (rman_init_spec _ _ _ Hi) as (_&_&_&_&Hb&_).
  destruct (rrun_spec _ _ _ Hf Hb Hr) as [B S]. split; [exact B|]. split; [exact (same_layout_length _ _ S)|exact (same_layout_places _ _ S)].
Qed.
Print Assumptions C12_free_counts_are_exact.

(** An assignment gives the worker exactly the sets of the team that nobody held. *)
Theorem C12_assignment_gives_unheld_sets :
  forall nw p m0 os m team w m', rman_init nw p = Ok m0 -> Forall no_repeats os -> rrun os m0 = (m, None) ->
  NoDup team -> assign_rsets team w m = (m', None) ->
  forall i, (In i team -> holder m i = None -> holder m' i = Some w) /\
            (forall v, holder m i = Some v -> holder m' i = Some v) /\
            (~ In i team -> holder m' i = holder m i).
Proof.
  intros nw p m0 os m team w m' Hi Hf Hr Hn Ha i. destruct (rman_init_spec _ _ _ Hi) as (_&_&_&_&Hb&_).
  destruct (rrun_spec _ _ _ Hf Hb Hr) as [B _]. destruct (assign_rsets_spec _ _ _ _ Hn B Ha) as (_&_&H). rewrite H. split; [|split].
  - intros H1 H2. rewrite (proj2 (memb_In i team) H1), H2. reflexivity.
  - intros v Hv. rewrite Hv. destruct (memb i team); reflexivity.
  - intros H1. rewrite (proj2 (memb_false i team) H1). reflexivity.
Qed.
Print Assumptions C12_assignment_gives_unheld_sets.

(** Releasing a worker frees exactly what it held. *)
Theorem C12_release_frees_exactly_the_workers_sets :
  forall nw p m0 os m w, rman_init nw p = Ok m0 -> Forall no_repeats os -> rrun os m0 = (m, None) ->
  forall i, (holder m i = Some w -> holder (free_rsets w m) i = None) /\
            (holder m i <> Some w -> holder (free_rsets w m) i = holder m i).
Proof.
  intros nw p m0 os m w Hi Hf Hr i. destruct (rman_init_spec _ _ _ Hi) as (_&_&_&_&Hb&_).
  destruct (rrun_spec _ _ _ Hf Hb Hr) as [B _]. destruct (free_rsets_spec w m B) as (_&_&H). rewrite H. split.
  - intros ->. now rewrite Nat.eqb_refl.
  - destruct (holder m i) as [v|]; auto. intros Hv. destruct (Nat.eqb_spec v w); [congruence|reflexivity].
Qed.
Print Assumptions C12_release_frees_exactly_the_workers_sets.

(** Once every worker that received sets has been released, all sets are free. *)
Theorem C12_all_released_all_free :
  forall nw p m0 os m ws, rman_init nw p = Ok m0 -> Forall no_repeats os -> rrun os m0 = (m, None) ->
  (forall w, In w (receivers os) -> In w ws) ->
  let m' := fold_left (fun m w => free_rsets w m) ws m in
  (forall i, holder m' i = None) /\ rm_free m' = Z.of_nat (length (rm_rsets m0)) /\ books_balanced m'.
Proof.
  intros nw p m0 os m ws Hi Hf Hr Hw m'. destruct (rman_init_spec _ _ _ Hi) as (_&_&_&Hh&Hb&_).
  destruct (rrun_spec _ _ _ Hf Hb Hr) as [B S]. destruct (release_list ws m B) as (B' & S' & H). fold m' in B', S', H.
  assert (HN : forall i, holder m' i = None).
  { intros i. rewrite H. destruct (holder m i) as [v|] eqn:E; auto. destruct (rrun_receivers _ _ _ _ _ Hf Hb Hr E) as [G|G]; [|rewrite Hh in G; discriminate].
    now rewrite (proj2 (memb_In v ws) (Hw v G)). }
  split; [exact HN|]. split; [|exact B']. rewrite (proj1 B'). unfold unheld.
  rewrite <- (same_layout_length _ _ S), <- (same_layout_length _ _ S'). f_equal. f_equal.
  assert (A : forall r, In r (rm_rsets m') -> rs_owner r = None).
  { intros r Hin. apply In_nth_error in Hin. destruct Hin as [i Hi2]. specialize (HN i). unfold holder in HN. now rewrite Hi2 in HN. }
  clear - A. induction (rm_rsets m') as [|r l IH]; [reflexivity|]. cbn. rewrite (A r) by now left. f_equal. apply IH. intros; apply A; now right.
Qed.
Print Assumptions C12_all_released_all_free.

(** A machine used in the examples: 2 nodes, 8 sets, 2 GPUs per node. *)
Definition ex_plat := mkPlat ["n1"; "n2"] (Some 8) [] 2 None 8.
Definition ex_table : rman := match rman_init 4 ex_plat with Ok m => m | Err _ => mkRman [] [] 0 0 0 0 [] 0 0 0 end.
Example C12_hypotheses_met : rman_init 4 ex_plat = Ok ex_table /\
  Forall no_repeats [RAssign [0;1] 1; RAssign [4;5] 2; RFree 1] /\
  let m := fst (rrun [RAssign [0;1] 1; RAssign [4;5] 2; RFree 1] ex_table) in
  snd (rrun [RAssign [0;1] 1; RAssign [4;5] 2; RFree 1] ex_table) = None /\ holder m 4 = Some 2 /\ holder m 0 = None /\ rm_free m = 6%Z /\ rm_gpu_free m = 2%Z.
Proof.
  split; [vm_compute; reflexivity|]. split; [|vm_compute; repeat split; reflexivity].
  repeat constructor; cbn; intuition discriminate.
Qed.

(** If a team lists a set twice the counters go wrong for good. *)
Theorem C12_repeated_set_refuted :
  exists nw p m0 team w m, rman_init nw p = Ok m0 /\ assign_rsets team w m0 = (m, None) /\
  ~ books_balanced m /\ ~ books_balanced (free_rsets w m) /\ (forall i, holder (free_rsets w m) i = None).
Proof.
  exists 4, ex_plat, ex_table, [0;0], 1, (fst (assign_rsets [0;0] 1 ex_table)). split; [vm_compute; reflexivity|]. split; [vm_compute; reflexivity|].
  split; [intros (H&_); vm_compute in H; discriminate|]. split; [intros (H&_); vm_compute in H; discriminate|].
  intros i. do 8 (destruct i as [|i]; [vm_compute; reflexivity|]). destruct i; reflexivity.
Qed.
Print Assumptions C12_repeated_set_refuted.

(** ** C13: conflicting assignment *)

(** Refuted: assigning sets held by another worker raises nothing; the
    worker simply does not get them. *)
Theorem C13_conflict_detected_refuted :
  exists nw p m0 m1 m2, rman_init nw p = Ok m0 /\ assign_rsets [0;1] 1 m0 = (m1, None) /\ assign_rsets [1;2] 2 m1 = (m2, None) /\
  holder m2 1 = Some 1 /\ holder m2 2 = Some 2.
Proof.
  exists 4, ex_plat, ex_table, (fst (assign_rsets [0;1] 1 ex_table)), (fst (assign_rsets [1;2] 2 (fst (assign_rsets [0;1] 1 ex_table)))).
  split; [vm_compute; reflexivity|]. split; [vm_compute; reflexivity|]. split; [vm_compute; reflexivity|]. split; vm_compute; reflexivity.
Qed.
Print Assumptions C13_conflict_detected_refuted.

(** What does hold: an assignment raises exactly when a set does not exist, and
    it never takes a set away from a worker. *)
Theorem C13_assignment_error_partial :
  forall team w m, ((exists e, snd (assign_rsets team w m) = Some e) <-> exists i, In i team /\ length (rm_rsets m) <= i) /\
  (snd (assign_rsets team w m) <> None -> fst (assign_rsets team w m) = m).
Proof.
  intros team w m. split; [apply assign_rsets_raises|]. unfold assign_rsets. destruct (forallb _ team); cbn; congruence.
Qed.
Print Assumptions C13_assignment_error_partial.
Example C13_out_of_range : snd (assign_rsets [3; 8] 1 ex_table) = Some EIndex.
Proof. vm_compute; reflexivity. Qed.

(** ** C14: the scheduler only hands out free, distinct sets of the requested kind *)

(** All teams handed out in one allocation round are disjoint and free. *)
Theorem C14_teams_are_free_and_disjoint :
  forall ord m sp mt rqs ans s, reachable_table m -> set_order ord -> serve ord m (sched_init m sp mt) rqs = (ans, s) ->
  NoDup (concat (teams_of ans)) /\ (forall i, In i (concat (teams_of ans)) -> is_free m i) /\ length ans = length rqs.
Proof.
  intros ord m sp mt rqs ans s Hm Ho Hs. destruct (round_disjoint ord m sp mt rqs ans s Hm Ho Hs). split; auto. split; auto. exact (round_answers ord m sp mt rqs ans s Hm Ho Hs).
Qed.
Print Assumptions C14_teams_are_free_and_disjoint.

(** Each team is sorted, of the right kind, not handed out before, at least as
    large as requested, and exceeds the request by less than the number of node groups it uses. *)
Theorem C14_team_fits_request :
  forall ord m sp mt rqs ans s, reachable_table m -> set_order ord -> serve ord m (sched_init m sp mt) rqs = (ans, s) ->
  forall k rq team, nth_error rqs k = Some rq -> nth_error ans k = Some (Ok team) ->
  StronglySorted lt team /\
  (forall i, In i team -> is_free m i /\ of_kind m (rq_gpus rq) i /\ ~ In i (concat (teams_of (firstn k ans)))) /\
  rq_num rq <= length team <= rq_num rq + (length (used_groups m team) - 1).
Proof. intros ord m sp mt rqs ans s Hm Ho Hs k rq team H1 H2. destruct (round_team ord m sp mt rqs ans s Hm Ho Hs k rq team H1 H2) as (A & B & C & _). auto. Qed.
Print Assumptions C14_team_fits_request.

(** The team has exactly the requested size if the request divides evenly over
    some number of node groups that could hold it. *)
Theorem C14_exact_when_divisible :
  forall ord m sp mt rqs ans s, reachable_table m -> set_order ord -> serve ord m (sched_init m sp mt) rqs = (ans, s) ->
  forall k rq team t, nth_error rqs k = Some rq -> nth_error ans k = Some (Ok team) ->
  0 < t <= rm_num_groups m -> rq_num rq mod t = 0 -> rq_num rq <= t * max_grpsize m (rq_gpus rq) -> length team = rq_num rq.
Proof.
  intros ord m sp mt rqs ans s Hm Ho Hs k rq team t H1 H2 Ht Hd Hl. destruct (round_team ord m sp mt rqs ans s Hm Ho Hs k rq team H1 H2) as (_&_&_&_&_&H).
  apply H. exists t. split; [apply Ht|]. split; [exact Hl|]. split; [exact Hd|]. destruct Ht as [Ht _]. destruct t; [inversion Ht|discriminate].
Qed.
Print Assumptions C14_exact_when_divisible.

Lemma ex_reachable : reachable_table (fst (rrun [RAssign [0;1] 1; RAssign [4] 2] ex_table)).
Proof.
  exists 4, ex_plat, ex_table, [RAssign [0;1] 1; RAssign [4] 2].
  split; [repeat constructor; cbn; intuition discriminate|]. split; [discriminate|]. split; [vm_compute; reflexivity|].
  split; [repeat constructor; cbn; intuition discriminate|]. vm_compute; reflexivity.
Qed.
Example C14_hypotheses_met :
  let m := fst (rrun [RAssign [0;1] 1; RAssign [4] 2] ex_table) in
  reachable_table m /\ set_order (fun l => l) /\
  fst (serve (fun l => l) m (sched_init m true true) [mkReq 2 (Some false) []; mkReq 1 (Some true) []; mkReq 9 None []; mkReq 3 None []; mkReq 2 None []]) =
  [Ok [2; 3]; Ok [5]; Err EInsufficientRes; Err EInsufficientFree; Ok [6; 7]].
Proof. split; [exact ex_reachable|]. split; [intros l; apply Permutation_refl|]. vm_compute; reflexivity. Qed.

(** ** C15: teams are even over nodes, and slot-matched *)
Theorem C15_same_number_on_every_node :
  forall ord m sp mt rqs ans s, reachable_table m -> set_order ord -> serve ord m (sched_init m sp mt) rqs = (ans, s) ->
  forall k rq team, nth_error rqs k = Some rq -> nth_error ans k = Some (Ok team) ->
  forall i j, In i team -> In j team -> in_team_on m team (group_of m i) = in_team_on m team (group_of m j).
Proof. intros ord m sp mt rqs ans s Hm Ho Hs k rq team H1 H2. destruct (round_team ord m sp mt rqs ans s Hm Ho Hs k rq team H1 H2) as (_&_&_&D&_). exact D. Qed.
Print Assumptions C15_same_number_on_every_node.

Theorem C15_same_slots_on_every_node :
  forall ord m sp rqs ans s, reachable_table m -> set_order ord -> serve ord m (sched_init m sp true) rqs = (ans, s) ->
  forall k rq team, nth_error rqs k = Some rq -> nth_error ans k = Some (Ok team) ->
  forall i j, In i team -> In j team -> exists h, In h team /\ group_of m h = group_of m i /\ slot_of m h = slot_of m j.
Proof. intros ord m sp rqs ans s Hm Ho Hs k rq team H1 H2. destruct (round_team ord m sp true rqs ans s Hm Ho Hs k rq team H1 H2) as (_&_&_&_&E&_). exact (E eq_refl). Qed.
Print Assumptions C15_same_slots_on_every_node.

Example C15_hypotheses_met :
  let m := fst (rrun [RAssign [0;1] 1; RAssign [4] 2] ex_table) in
  reachable_table m /\
  fst (serve (fun l => l) m (sched_init m true true) [mkReq 4 None []]) = [Ok [2; 3; 6; 7]] /\
  map (fun i => (group_of m i, slot_of m i)) [2; 3; 6; 7] = [(1, 2); (1, 3); (2, 2); (2, 3)].
Proof. split; [exact ex_reachable|]. split; vm_compute; reflexivity. Qed.

(** Without match_slots the slots may differ between nodes. *)
Example C15_unmatched_slots :
  let m := fst (rrun [RAssign [0;1] 1; RAssign [5;6] 2] ex_table) in
  fst (serve (fun l => l) m (sched_init m true false) [mkReq 4 None []]) = [Ok [2; 3; 4; 7]] /\
  fst (serve (fun l => l) m (sched_init m true true) [mkReq 4 None []]) = [Err EInsufficientFree].
Proof. split; vm_compute; reflexivity. Qed.

(** ** C16: termination and completeness *)

(** Only the two documented exceptions are raised (in particular the search
    loops end), and the choice between them depends on whether enough sets exist at all. *)
Theorem C16_only_documented_errors :
  forall ord m sp mt rqs ans s, reachable_table m -> set_order ord -> serve ord m (sched_init m sp mt) rqs = (ans, s) ->
  forall k rq e, nth_error rqs k = Some rq -> nth_error ans k = Some (Err e) ->
  e = EInsufficientRes /\ existing m (rq_gpus rq) < rq_num rq \/
  e = EInsufficientFree /\ rq_num rq <= existing m (rq_gpus rq).
Proof. exact round_error. Qed.
Print Assumptions C16_only_documented_errors.

(** A request that the remaining free sets of one node can satisfy is granted,
    on one node, and no other node that could satisfy it has fewer free sets. *)
Theorem C16_fits_one_node_is_granted :
  forall ord m sp mt rqs ans s, reachable_table m -> set_order ord -> serve ord m (sched_init m sp mt) rqs = (ans, s) ->
  forall req use params g l, req <> 0 -> spare m use (concat (teams_of ans)) g l -> req <= length l ->
  exists team g' l', fst (assign_resources ord m s req use params) = Ok team /\
    spare m use (concat (teams_of ans)) g' l' /\ NoDup team /\ incl team l' /\ length team = req /\
    (forall g2 l2, spare m use (concat (teams_of ans)) g2 l2 -> req <= length l2 -> length l' <= length l2).
Proof. exact round_single. Qed.
Print Assumptions C16_fits_one_node_is_granted.

(** On an idle machine whose nodes have equal numbers of sets (or fewer sets than
    nodes), every request not larger than the machine is granted. *)
Theorem C16_idle_equal_nodes_grant_everything :
  forall ord nw p m sp mt req use params, set_order ord -> NoDup (p_nodes p) -> p_gpus_per_group p = None -> rman_init nw p = Ok m ->
  total_rsets nw p mod length (p_nodes p) = 0 \/ total_rsets nw p < length (p_nodes p) ->
  req <= existing m use -> exists team, fst (assign_resources ord m (sched_init m sp mt) req use params) = Ok team.
Proof. exact idle_served. Qed.
Print Assumptions C16_idle_equal_nodes_grant_everything.

Example C16_hypotheses_met :
  let m := fst (rrun [RAssign [0;1] 1; RAssign [4] 2] ex_table) in
  spare m None [] 1 [2; 3] /\ 2 <= length [2; 3] /\ fst (assign_resources (fun l => l) m (sched_init m true true) 2 None []) = Ok [2; 3] /\
  total_rsets 4 ex_plat mod length (p_nodes ex_plat) = 0 /\ existing ex_table (Some true) = 4 /\
  fst (assign_resources (fun l => l) ex_table (sched_init ex_table true true) 4 (Some true) []) = Ok [0; 1; 4; 5].
Proof.
  split; [|split; [auto|split; [vm_compute; reflexivity|split; [vm_compute; reflexivity|split; vm_compute; reflexivity]]]].
  split; [repeat constructor; cbn; intuition discriminate|].
  intros i. unfold is_free, of_kind. split.
  - intros [<-|[<-|[]]]; vm_compute; intuition (try lia; try reflexivity).
  - intros ((H1 & H2) & H3 & _). do 8 (destruct i as [|i]; [vm_compute in H2, H3; first [discriminate H2|discriminate H3|vm_compute; auto]|]).
    vm_compute in H1. lia.
Qed.

(** With unequal nodes this fails: on an idle machine with 3 + 3 + 2 sets a
    request for 7 is rounded up to 9 and can never be granted, yet the error says
    that not enough sets are free now. *)
Theorem C16_idle_unequal_nodes_refuted :
  exists nw p m, NoDup (p_nodes p) /\ rman_init nw p = Ok m /\ existing m None = 8 /\
  fst (assign_resources (fun l => l) m (sched_init m true true) 7 None []) = Err EInsufficientFree.
Proof.
  pose (p := mkPlat ["a"; "b"; "c"] (Some 8) [] 0 None 8).
  exists 4, p, (match rman_init 4 p with Ok m => m | Err _ => ex_table end). split; [repeat constructor; cbn; intuition discriminate|].
  split; [vm_compute; reflexivity|]. split; vm_compute; reflexivity.
Qed.
Print Assumptions C16_idle_unequal_nodes_refuted.

(** If a node is listed twice in the node list, the per-node sizes are wrong and
    an ordinary request fails with an IndexError. *)
Theorem C16_repeated_node_name_refuted :
  exists nw p m, rman_init nw p = Ok m /\ existing m None = 4 /\
  fst (assign_resources (fun l => l) m (sched_init m true true) 4 None []) = Err EIndex.
Proof.
  pose (p := mkPlat ["a"; "a"] (Some 4) [] 0 None 8).
  exists 4, p, (match rman_init 4 p with Ok m => m | Err _ => ex_table end). split; [vm_compute; reflexivity|]. split; vm_compute; reflexivity.
Qed.
Print Assumptions C16_repeated_node_name_refuted.

(** ** C17: even-group arithmetic *)
Theorem C17_even_groups :
  forall req maxgrp maxgroups r ng per, req <> 0 -> calc_even_grps req maxgrp maxgroups = Ok (r, ng, per) ->
  r = ng * per /\ req <= r /\ per <= maxgrp /\ r < req + ng /\
  (req <= maxgrp -> ng = 1 /\ r = req) /\
  (forall t, 0 < t <= maxgroups -> req mod t = 0 -> req <= t * maxgrp -> r = req).
Proof.
  intros req maxgrp maxgroups r ng per Hr H. destruct (calc_even_spec _ _ _ _ _ _ Hr H) as (A&B&C&D&E&F&G&I&J&K).
  split; [exact A|]. split; [exact B|]. split; [exact E|]. split; [exact G|]. split; [exact I|].
  intros t Ht Hd Hl. apply J. exists t. split; [|exact Hd]. split; [|apply Ht]. apply SchedRun.ceil_div_le; [|exact Hl]. lia.
Qed.
Print Assumptions C17_even_groups.

Theorem C17_even_groups_defined :
  forall req maxgrp maxgroups, (exists e, calc_even_grps req maxgrp maxgroups = Err e) <-> req <> 0 /\ maxgrp = 0.
Proof.
  intros req maxgrp maxgroups. unfold calc_even_grps. destruct (Nat.eqb_spec req 0) as [->|Hr].
  - split; [intros [e H]; discriminate|intros [H _]; congruence].
  - destruct (Nat.eqb_spec maxgrp 0) as [->|Hm]; [split; eauto|]. split; [|intros [_ H]; contradiction].
    intros [e H]. destruct (1 <? _)%nat; [destruct (even_search _ _ _)|]; discriminate.
Qed.
Print Assumptions C17_even_groups_defined.
Example C17_cases : calc_even_grps 8 6 3 = Ok (8, 2, 4) /\ calc_even_grps 9 6 3 = Ok (9, 3, 3) /\ calc_even_grps 9 6 2 = Ok (10, 2, 5).
Proof. repeat split; vm_compute; reflexivity. Qed.

(** ** C18: resource sets partition the nodes fairly *)
Theorem C18_sets_share_nodes_fairly :
  forall r nodes sl loc, NoDup nodes -> get_split_list r nodes = Ok (sl, loc) ->
  length sl = r /\ length loc = r /\
  (length nodes <= r ->
     (forall s, In s sl -> exists n, s = [n] /\ In n nodes) /\
     (forall n, In n nodes -> 1 <= sets_on sl n) /\
     (forall n n', In n nodes -> In n' nodes -> sets_on sl n <= S (sets_on sl n')) /\
     (forall i n, nth_error sl i = Some [n] -> nth_error loc i = Some (sets_on sl n))) /\
  (r < length nodes ->
     concat sl = nodes /\ (forall s, In s sl -> s <> []) /\
     (forall s s', In s sl -> In s' sl -> length s <= S (length s'))).
Proof. exact split_list_fair. Qed.
Print Assumptions C18_sets_share_nodes_fairly.

Theorem C18_split_fails_only_without_sets_or_nodes :
  forall r nodes, (exists e, get_split_list r nodes = Err e) <-> r = 0 \/ nodes = [].
Proof. exact split_list_error. Qed.
Print Assumptions C18_split_fails_only_without_sets_or_nodes.

(** No two sets share both node group and slot, and a node group never holds
    more sets than the advertised per-node maximum. *)
Theorem C18_places_are_distinct :
  forall nw p m, NoDup (p_nodes p) -> p_gpus_per_group p <> Some 0 -> rman_init nw p = Ok m ->
  NoDup (places (rm_rsets m)) /\ (forall g, countb (fun r => (rs_group r =? g)%nat) (rm_rsets m) <= rm_per_node m) /\
  unique_groups (rm_rsets m) = seq 1 (rm_num_groups m).
Proof.
  intros nw p m Hnd Hg Hi. assert (Hr : reachable_table m) by (exists nw, p, m, []; repeat (split; auto)).
  pose proof (reachable_table_ok m Hr) as T. split; [|split].
  - exact (walk_places _ _ _ (tk_walk _ T)).
  - exact (tk_size _ T).
  - exact (table_groups m T).
Qed.
Print Assumptions C18_places_are_distinct.
Example C18_cases : get_split_list 5 ["a"; "b"; "c"] = Ok ([["a"]; ["a"]; ["b"]; ["b"]; ["c"]], [2; 2; 2; 2; 1]) /\
  get_split_list 2 ["a"; "b"; "c"] = Ok ([["a"; "b"]; ["c"]], [1; 1]).
Proof. split; vm_compute; reflexivity. Qed.

(** ** C19: default worker to set mapping *)
Theorem C19_default_sets_in_worker_order :
  forall nw nr zero w, 1 <= w <= nw ->
  nth_error (get_index_list nw nr zero) (w - 1) = Some (
    if memb w zero then None
    else let k := length (filter (fun v => negb (memb v zero)) (seq 1 (w - 1))) in
         if (k <? nr)%nat then Some k else None).
Proof. exact index_list_spec. Qed.
Print Assumptions C19_default_sets_in_worker_order.
Theorem C19_default_sets_distinct :
  forall nw nr zero w w' k, 1 <= w <= nw -> 1 <= w' <= nw ->
  nth_error (get_index_list nw nr zero) (w - 1) = Some (Some k) ->
  nth_error (get_index_list nw nr zero) (w' - 1) = Some (Some k) -> w = w'.
Proof. exact index_list_injective. Qed.
Print Assumptions C19_default_sets_distinct.
Example C19_case : get_index_list 5 3 [2] = [Some 0; None; Some 1; Some 2; None].
Proof. vm_compute; reflexivity. Qed.

(** ** C44: workers see the slots the manager scheduled *)
Theorem C44_worker_slots_agree_on_equal_nodes :
  forall nw p m team nl d, NoDup (p_nodes p) -> p_gpus_per_group p = None -> rman_init nw p = Ok m ->
  total_rsets nw p mod length (p_nodes p) = 0 ->
  get_local_nodelist team (rm_split m) (rm_per_node m) = Ok (nl, d) ->
  (forall n, In n nl <-> exists i, In i team /\ nth_error (rm_split m) i = Some [n]) /\
  (forall n ss, In (n, ss) d ->
     map Some ss = map (fun i => option_map rs_slot (nth_error (rm_rsets m) i))
       (filter (fun i => match nth_error (rm_split m) i with Some [n'] => String.eqb n n' | _ => false end) team)).
Proof. exact slots_agree. Qed.
Print Assumptions C44_worker_slots_agree_on_equal_nodes.
Example C44_hypotheses_met : get_local_nodelist [2; 3; 6; 7] (rm_split ex_table) (rm_per_node ex_table) = Ok (["n1"; "n2"], [("n1", [2; 3]); ("n2", [2; 3])]).
Proof. vm_compute; reflexivity. Qed.

(** With 7 sets on 3 nodes, a worker given set 5 uses slot 2 of node c, while
    the manager scheduled slot 0 there. *)
Theorem C44_worker_slots_unequal_nodes_refuted :
  exists nw p m, NoDup (p_nodes p) /\ p_gpus_per_group p = None /\ rman_init nw p = Ok m /\
  get_local_nodelist [5] (rm_split m) (rm_per_node m) = Ok (["c"], [("c", [2])]) /\
  option_map rs_slot (nth_error (rm_rsets m) 5) = Some 0.
Proof.
  pose (p := mkPlat ["a"; "b"; "c"] (Some 7) [] 0 None 8).
  exists 4, p, (match rman_init 4 p with Ok m => m | Err _ => ex_table end). split; [repeat constructor; cbn; intuition discriminate|].
  split; [reflexivity|]. split; [vm_compute; reflexivity|]. split; vm_compute; reflexivity.
Qed.
Print Assumptions C44_worker_slots_unequal_nodes_refuted.
