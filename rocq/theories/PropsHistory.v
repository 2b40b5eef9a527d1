(** Property theorems about the history array: C01-C05, C10, C11, C42, C43.
    Statements only: the proofs are in the other History files. *)
From Coq Require Import String.
From Verif Require Import Base HistoryModel HistorySpec HistoryInv HistoryInv2 HistoryRun HistoryRun2 HistoryRun3 HistoryStore HistoryKill HistoryFacts HistoryExamples.
Local Notation length := List.length.

(** ** C01: points are appended in order; sim_id = row number *)

(** A batch without ids, in any reachable history. *)
Theorem C01_points_without_ids_are_appended :
  forall m outs H0 safe os h gw D gs t h',
  0 < m -> H0_ids H0 -> Forall ids_polite os -> hrun os (init_history m outs H0 safe) = (h, None) ->
  ~ In F_sim_id (names (a_dtype D)) -> update_history_x_in gw D gs t h = (h', None) ->
  h_index h' = h_index h + length (a_rows D) /\ h_index h' <= length (h_rows h') /\
  (forall i d, nth_error (a_rows D) i = Some d ->
     cell (h_rows h') (h_index h + i) F_sim_id = Some (vint (Z.of_nat (h_index h + i))) /\
     forall f, In f (names (a_dtype D)) -> stampf f = false -> cell (h_rows h') (h_index h + i) f = Some (cast f (d f))) /\
  (forall k f, k < h_index h -> column h f -> cell (h_rows h') k f = cell (h_rows h) k f).
Proof. exact reach_noids. Qed.
Print Assumptions C01_points_without_ids_are_appended.

(** Such a batch is always accepted unless its columns clash with the history's. *)
Theorem C01_points_without_ids_are_accepted :
  forall m outs H0 safe os h gw D gs t,
  0 < m -> H0_ids H0 -> Forall ids_polite os -> hrun os (init_history m outs H0 safe) = (h, None) ->
  ~ In F_sim_id (names (a_dtype D)) -> compatible h D ->
  snd (update_history_x_in gw D gs t h) = None.
Proof. exact reach_noids_accept. Qed.
Print Assumptions C01_points_without_ids_are_accepted.

(** A batch with ids: each point goes to the row of its id (the last one wins
    if an id is repeated), other rows stay, the size becomes max(old, max id + 1). *)
Theorem C01_points_with_ids_go_to_their_rows :
  forall m outs H0 safe os h gw D gs t h',
  0 < m -> H0_ids H0 -> Forall ids_polite os -> hrun os (init_history m outs H0 safe) = (h, None) ->
  0 < length (a_rows D) -> In F_sim_id (names (a_dtype D)) -> (forall d, In d (a_rows D) -> (0 <= sid d)%Z) ->
  update_history_x_in gw D gs t h = (h', None) ->
  let is := map (fun d => Z.to_nat (sid d)) (a_rows D) in
  h_index h' = Nat.max (h_index h) (S (maxl is)) /\
  (forall k d, last_for is (a_rows D) k = Some d ->
     cell (h_rows h') k F_sim_id = Some (vint (Z.of_nat k)) /\
     (forall f, In f (names (a_dtype D)) -> stampf f = false -> cell (h_rows h') k f = Some (cast f (d f))) /\
     (forall f, ~ In f (names (a_dtype D)) -> stampf f = false -> column h f -> k < length (h_rows h) ->
        cell (h_rows h') k f = cell (h_rows h) k f)) /\
  (forall k f, ~ In k is -> k < length (h_rows h) -> column h f -> cell (h_rows h') k f = cell (h_rows h) k f).
Proof. exact reach_ids. Qed.
Print Assumptions C01_points_with_ids_go_to_their_rows.

(** It is accepted exactly when no id is skipped. *)
Theorem C01_points_with_ids_accepted_iff_no_gap :
  forall m outs H0 safe os h gw D gs t,
  0 < m -> H0_ids H0 -> Forall ids_polite os -> hrun os (init_history m outs H0 safe) = (h, None) ->
  0 < length (a_rows D) -> In F_sim_id (names (a_dtype D)) -> compatible h D ->
  (forall d, In d (a_rows D) -> (0 <= sid d)%Z) ->
  (snd (update_history_x_in gw D gs t h) = None <->
   forall d z, In d (a_rows D) -> (Z.of_nat (h_index h) <= z <= sid d)%Z -> exists d', In d' (a_rows D) /\ sid d' = z).
Proof. exact reach_ids_accept. Qed.
Print Assumptions C01_points_with_ids_accepted_iff_no_gap.

(** In every reachable history the used rows carry their row number. *)
Theorem C01_sim_id_is_row_number :
  forall m outs H0 safe os h,
  0 < m -> H0_ids H0 -> Forall ids_polite os -> hrun os (init_history m outs H0 safe) = (h, None) ->
  h_index h <= length (h_rows h) /\
  (forall k, k < h_index h -> cell (h_rows h) k F_sim_id = Some (vint (Z.of_nat k))) /\
  (forall k, h_index h <= k < length (h_rows h) -> cell (h_rows h) k F_sim_id = Some (vint (-1))).
Proof. exact (fun m outs H0 safe os h a b c d => proj1 (reach_aligned m outs H0 safe os h a b c d)). Qed.
Print Assumptions C01_sim_id_is_row_number.

Example C01_hypotheses_met :
  H0_ids no_H0 /\ Forall ids_polite a_run /\ hrun a_run start = (after_run, None) /\
  h_index after_run = 5 /\ length (h_rows after_run) = 5 /\
  cell (h_rows after_run) 4 X = Some (vint 44) /\ compatible after_run (pts [1; 2]%Z) /\
  snd (update_history_x_in 1 (idpts [(6, 1)]%Z) 1 1 after_run) <> None.
Proof.
  split; [intros [] |]. split; [exact a_run_polite|]. split; [exact a_run_ok|].
  split; [vm_compute; reflexivity|]. split; [vm_compute; reflexivity|]. split; [vm_compute; reflexivity|]. split.
  - split; [repeat constructor; cbn; tauto|]. split.
    + intros f sh [E|[]] _. inversion E; subst. vm_compute. reflexivity.
    + intros _ (f & [<-|[]] & Hp). discriminate.
  - vm_compute. discriminate.
Qed.

(** Without politeness the property fails: a simulator may overwrite sim_id even in safe mode... *)
Theorem C01_sim_return_can_break_ids_refuted :
  exists os h, hrun os start = (h, None) /\ cell (h_rows h) 0 F_sim_id = Some (vint 77) /\ h_safe h = true.
Proof.
  exists bad_id_run, (after bad_id_run).
  split; [apply hrun_after; vm_compute; reflexivity|]. split; vm_compute; reflexivity.
Qed.

(** ... and a point with a negative id is accepted but lost: it is written to
    an unused row that the final history does not include. *)
Theorem C01_negative_id_point_is_lost_refuted :
  exists h, update_history_x_in 1 (idpts [(-1, 44)]%Z) 5 6 start = (h, None) /\ trim_H h = [].
Proof.
  exists (after [HXIn 1 (idpts [(-1, 44)]%Z) 5 6]).
  split; [apply (hstep_after (HXIn 1 (idpts [(-1, 44)]%Z) 5 6)); vm_compute; reflexivity|vm_compute; reflexivity].
Qed.

(** ** C02: growth keeps rows and makes room *)
Theorem C02_growth_keeps_rows :
  forall h k,
  firstn (length (h_rows h)) (h_rows (grow_H h k)) = h_rows h /\
  length (h_rows (grow_H h k)) = length (h_rows h) + k /\
  (scalar h F_sim_started -> scalar h F_sim_ended ->
   forall i, length (h_rows h) <= i < length (h_rows h) + k ->
     cell (h_rows (grow_H h k)) i F_sim_id = Some (vint (-1)) /\
     ~ is_set (grow_H h k) i F_sim_started /\ ~ is_set (grow_H h k) i F_sim_ended).
Proof. exact grow_keeps. Qed.
Print Assumptions C02_growth_keeps_rows.

Theorem C02_used_rows_fit_and_trim_is_exact :
  forall m outs H0 safe os h,
  0 < m -> H0_ids H0 -> Forall ids_polite os -> hrun os (init_history m outs H0 safe) = (h, None) ->
  h_index h <= length (h_rows h) /\ length (trim_H h) = h_index h /\
  (forall k f, k < h_index h -> cell (trim_H h) k f = cell (h_rows h) k f).
Proof. exact reach_trim. Qed.
Print Assumptions C02_used_rows_fit_and_trim_is_exact.

Example C02_growth_happens : length (h_rows start) = 2 /\ length (h_rows after_run) = 5 /\
  scalar start F_sim_started /\ scalar start F_sim_ended.
Proof. split; [|split; [|split]]; vm_compute; try reflexivity; tauto. Qed.

(** ** C03: counters *)
Theorem C03_counters_agree_with_flags :
  forall m outs H0 safe os h,
  0 < m -> H0_scalar H0 -> H0_sound H0 -> drun (init_history m outs H0 safe) os h ->
  h_started h = num_set F_sim_started (h_rows h) /\ h_ended h = num_set F_sim_ended (h_rows h) /\
  h_ended h <= h_started h /\ h_started h <= h_index h /\ h_index h <= length (h_rows h) /\
  (forall k, is_set h k F_sim_ended -> is_set h k F_sim_started) /\
  (forall k, is_set h k F_sim_started -> k < h_index h).
Proof. exact reach_counts. Qed.
Print Assumptions C03_counters_agree_with_flags.

Example C03_hypotheses_met :
  H0_scalar no_H0 /\ H0_sound no_H0 /\ drun start a_run after_run /\
  h_started after_run = 3 /\ h_ended after_run = 1.
Proof.
  split; [intros f sh []|]. split; [discriminate|]. split; [exact (irun_drun _ _ _ a_run_disciplined)|].
  split; vm_compute; reflexivity.
Qed.

(** The informed counter does not agree with the flags. *)
Theorem C03_informed_counter_refuted :
  exists os h, drun start os h /\ h_informed h = 2 /\ num_set F_gen_informed (h_rows h) = 0.
Proof.
  exists [HXIn 1 (pts [10]%Z) 5 6; HToGen [0] 7; HToGen [0] 8], (after [HXIn 1 (pts [10]%Z) 5 6; HToGen [0] 7; HToGen [0] 8]).
  split.
  - unfold after. cbn [fold_left].
    repeat (apply drun_step; [split; [first [now left|exact I]|exact I]|vm_compute; reflexivity|]). apply drun_nil.
  - split; vm_compute; reflexivity.
Qed.

(** ** C04: status flags are monotone; results only touch their own row and fields *)
Theorem C04_status_flags_never_cleared :
  forall os h k f,
  h_safe h = true -> column h f -> status f = true ->
  cell (h_rows h) k f = Some (vbool true) ->
  cell (h_rows (fst (hrun os h))) k f = Some (vbool true).
Proof. exact hrun_mono. Qed.
Print Assumptions C04_status_flags_never_cleared.

Theorem C04_result_changes_only_its_rows_and_fields :
  forall inds ret kill t h h',
  update_history_f inds ret kill t h = (h', None) ->
  forall k g, column h g ->
    ~ In k inds \/
    (~ In g (match ret with Some A => names (a_dtype A) | None => [] end) /\ g <> F_sim_ended /\ g <> F_sim_ended_time) ->
    cell (h_rows h') k g = cell (h_rows h) k g.
Proof. exact hf_only. Qed.
Print Assumptions C04_result_changes_only_its_rows_and_fields.

(** Row j of the result is stored in row inds[j], field by field; a shorter
    vector overwrites a prefix (see [stored] in HistorySpec). *)
Theorem C04_result_is_stored :
  forall inds A kill t h h',
  update_history_f inds (Some A) kill t h = (h', None) ->
  NoDup inds -> NoDup (names (a_dtype A)) ->
  forall j ind f r, nth_error inds j = Some ind -> nth_error (a_rows A) j = Some r ->
    In f (names (a_dtype A)) -> f <> F_sim_ended -> f <> F_sim_ended_time -> column h f ->
  exists old v, cell (h_rows h) ind f = Some old /\ stored old (r f) v /\
                cell (h_rows h') ind f = Some (cast f v) /\ (forall name, f = F_user name -> cast f v = v).
Proof. exact hf_stored. Qed.
Print Assumptions C04_result_is_stored.

Theorem C04_returned_rows_are_marked_ended :
  forall inds ret kill t h h',
  update_history_f inds ret kill t h = (h', None) ->
  h_safe h = true -> forall k, In k inds -> cell (h_rows h') k F_sim_ended = Some (vbool true).
Proof. exact hf_ended. Qed.
Print Assumptions C04_returned_rows_are_marked_ended.

Example C04_hypotheses_met :
  h_safe after_run = true /\ column after_run F_sim_ended /\
  cell (h_rows after_run) 0 F_sim_ended = Some (vbool true) /\
  cell (h_rows after_run) 0 FF = Some (vint 100) /\
  snd (update_history_f [2; 1] (outp [7; 8]%Z) true 9 after_run) = None.
Proof.
  split; [vm_compute; reflexivity|]. split; [vm_compute; tauto|]. split; [vm_compute; reflexivity|].
  split; vm_compute; reflexivity.
Qed.

(** ** C05: H0 *)
Theorem C05_H0_values_are_kept :
  forall m outs H0 safe k r0 f,
  0 < m -> nth_error (a_rows H0) k = Some r0 -> In f (names (a_dtype H0)) ->
  (f = F_sim_ended -> In F_sim_started (names (a_dtype H0))) ->
  cell (h_rows (init_history m outs H0 safe)) k f = Some (cast f (r0 f)).
Proof. exact init_H0_kept. Qed.
Print Assumptions C05_H0_values_are_kept.

Theorem C05_H0_without_status_counts_as_done :
  forall m outs H0 safe k,
  0 < m -> k < length (a_rows H0) -> ~ In F_sim_started (names (a_dtype H0)) ->
  is_set (init_history m outs H0 safe) k F_sim_started /\ is_set (init_history m outs H0 safe) k F_sim_ended.
Proof. exact init_H0_done. Qed.
Print Assumptions C05_H0_without_status_counts_as_done.

Theorem C05_rest_is_blank :
  forall m outs H0 safe,
  H0_scalar H0 ->
  length (h_rows (init_history m outs H0 safe)) = length (a_rows H0) + m /\
  h_index (init_history m outs H0 safe) = length (a_rows H0) /\
  forall k, length (a_rows H0) <= k < length (a_rows H0) + m ->
    cell (h_rows (init_history m outs H0 safe)) k F_sim_id = Some (vint (-1)) /\
    ~ is_set (init_history m outs H0 safe) k F_sim_started /\
    ~ is_set (init_history m outs H0 safe) k F_sim_ended /\
    ~ is_set (init_history m outs H0 safe) k F_gen_informed.
Proof. exact init_rest. Qed.
Print Assumptions C05_rest_is_blank.

Theorem C05_counters_start_at_H0 :
  forall m outs H0 safe,
  0 < m -> H0_scalar H0 ->
  h_started (init_history m outs H0 safe) =
  (if has F_sim_started (names (a_dtype H0)) then num_set F_sim_started (a_rows H0) else length (a_rows H0)) /\
  h_ended (init_history m outs H0 safe) =
  (if has F_sim_started (names (a_dtype H0)) then
     if has F_sim_ended (names (a_dtype H0)) then num_set F_sim_ended (a_rows H0)
     else num_set F_sim_started (a_rows H0)
   else length (a_rows H0)).
Proof. exact init_started. Qed.
Print Assumptions C05_counters_start_at_H0.

Definition some_H0 : sarr := mkA [(X, ShS); (F_sim_id, ShS)] [fun f => if feqb X f then vint 5 else vint 0; fun f => if feqb X f then vint 6 else vint 1].
Example C05_hypotheses_met :
  let h := init_history 3 [(FF, ShS)] some_H0 false in
  H0_scalar some_H0 /\ cell (h_rows h) 1 X = Some (vint 6) /\ h_started h = 2 /\ h_ended h = 2 /\ h_index h = 2 /\
  length (h_rows h) = 5.
Proof.
  split; [|vm_compute; repeat split].
  intros f sh [E|[E|[]]]; inversion E; subst; auto.
Qed.

(** With sim_max = 0 the blank values are written over H0 itself (Python's
    [-0:] is the whole array): the given sim_id is lost. *)
Theorem C05_sim_max_zero_overwrites_H0_refuted :
  exists H0 k r0, nth_error (a_rows H0) k = Some r0 /\ In F_sim_id (names (a_dtype H0)) /\
    r0 F_sim_id = vint 0 /\ cell (h_rows (init_history 0 [] H0 false)) k F_sim_id = Some (vint (-1)).
Proof. exists some_H0, 0. eexists. split; [reflexivity|]. split; [cbn; tauto|]. split; vm_compute; reflexivity. Qed.

(** With sim_ended but no sim_started in H0, the given sim_ended is overwritten. *)
Theorem C05_sim_ended_without_sim_started_overwritten_refuted :
  exists H0 k r0, nth_error (a_rows H0) k = Some r0 /\ In F_sim_ended (names (a_dtype H0)) /\
    r0 F_sim_ended = vbool false /\ cell (h_rows (init_history 3 [] H0 false)) k F_sim_ended = Some (vbool true).
Proof.
  exists (mkA [(F_sim_ended, ShS)] [fun _ => vbool false]), 0. eexists. split; [reflexivity|]. split; [cbn; tauto|].
  split; vm_compute; reflexivity.
Qed.

(** ** C10: the kill pass *)
Theorem C10_kill_pass_signals_exactly_the_cancelled_running :
  forall m outs H0 safe os h,
  0 < m -> H0_scalar H0 -> H0_sound H0 -> H0_ids H0 -> Forall ids_polite os ->
  drun (init_history m outs H0 safe) os h ->
  exists h', kill_pass h = ((h', None),
      map (fun k => match cell (h_rows h) k F_sim_worker with Some v => as_int v | None => 0%Z end) (kill_rows h)) /\
    NoDup (kill_rows h) /\
    (forall k, In k (kill_rows h) <->
       (h_last_ended h < Z.of_nat k <= h_last_started h)%Z /\
       is_set h k F_sim_started /\ is_set h k F_cancel_requested /\ ~ is_set h k F_sim_ended /\ ~ is_set h k F_kill_sent) /\
    (forall k, In k (kill_rows h) -> is_set h' k F_kill_sent) /\
    (forall k f, f <> F_kill_sent \/ ~ In k (kill_rows h) -> cell (h_rows h') k f = cell (h_rows h) k f).
Proof. exact reach_kill_pass. Qed.
Print Assumptions C10_kill_pass_signals_exactly_the_cancelled_running.

Theorem C10_no_row_is_signalled_twice :
  forall m outs H0 safe os h,
  0 < m -> H0_ids H0 -> Forall ids_polite os -> drun (init_history m outs H0 safe) os h ->
  NoDup (signalled os (init_history m outs H0 safe)).
Proof. exact reach_signalled. Qed.
Print Assumptions C10_no_row_is_signalled_twice.

Example C10_a_row_is_signalled : signalled a_run start = [2] /\ snd (kill_pass (fst (hrun (firstn 4 a_run) start))) = [3%Z].
Proof. split; vm_compute; reflexivity. Qed.

(** ** C11: the window covers all running simulations when rows are given out in increasing order *)
Theorem C11_window_covers_running :
  forall m outs H0 safe os h,
  0 < m -> H0_scalar H0 -> H0_sound H0 ->
  (In F_sim_started (names (a_dtype H0)) -> In F_sim_ended (names (a_dtype H0)) ->
     forall r, In r (a_rows H0) -> truthy (r F_sim_started) = true -> truthy (r F_sim_ended) = true) ->
  irun (init_history m outs H0 safe) os h ->
  forall k, is_set h k F_sim_started -> ~ is_set h k F_sim_ended ->
    (h_last_ended h < Z.of_nat k <= h_last_started h)%Z.
Proof. exact reach_window. Qed.
Print Assumptions C11_window_covers_running.

Example C11_hypotheses_met : irun start a_run after_run /\ is_set after_run 1 F_sim_started /\ ~ is_set after_run 1 F_sim_ended.
Proof. split; [exact a_run_disciplined|]. split; [setyes|setno]. Qed.

(** Out of order: row 1 runs, is cancelled, and no kill signal is sent for it. *)
Theorem C11_window_misses_running_refuted :
  exists os h k, drun start os h /\ is_set h k F_sim_started /\ ~ is_set h k F_sim_ended /\
    is_set h k F_cancel_requested /\ snd (kill_pass h) = [].
Proof.
  exists out_of_order_run, (after out_of_order_run), 1. split.
  - unfold after, out_of_order_run. cbn [fold_left].
    repeat (apply drun_step; [split; [first [now left|exact I]|]|vm_compute; reflexivity|]).
    5: apply drun_nil. all: try exact I.
    + split; [repeat constructor; cbn; tauto|]. intros k [<-|[]]. split; [vm_compute; lia|setno].
    + split; [repeat constructor; cbn; tauto|]. intros k [<-|[]]. split; [vm_compute; lia|setno].
  - split; [setyes|]. split; [setno|]. split; [setyes|]. vm_compute. reflexivity.
Qed.

(** ** C42: protected fields in safe mode *)
Theorem C42_generator_cannot_set_protected :
  forall gw D gs t h,
  h_safe h = true -> 0 < length (a_rows D) -> touches_protected D ->
  snd (update_history_x_in gw D gs t h) <> None /\
  forall k g, k < length (h_rows h) -> column h g -> protected g = true ->
    cell (h_rows (fst (update_history_x_in gw D gs t h))) k g = cell (h_rows h) k g.
Proof. exact x_in_safe_full. Qed.
Print Assumptions C42_generator_cannot_set_protected.

Theorem C42_simulator_cannot_set_protected :
  forall inds A kill t h,
  h_safe h = true -> inds <> [] -> touches_protected A ->
  snd (update_history_f inds (Some A) kill t h) <> None /\
  forall k g, column h g -> protected g = true -> g <> F_sim_ended -> g <> F_sim_ended_time ->
    cell (h_rows (fst (update_history_f inds (Some A) kill t h))) k g = cell (h_rows h) k g.
Proof. exact f_safe_full. Qed.
Print Assumptions C42_simulator_cannot_set_protected.

(** Over whole runs with arbitrary user data: a protected cell of a kind a
    given operation does not own never changes in that operation. *)
Theorem C42_only_bookkeeping_changes_protected :
  forall o h k f,
  h_safe h = true -> k < length (h_rows h) -> column h f -> protected f = true ->
  cell (h_rows (fst (hstep o h))) k f <> cell (h_rows h) k f ->
  match o with
  | HXIn _ _ _ _ => f = F_gen_worker \/ f = F_gen_started_time \/ f = F_gen_ended_time
  | HF inds _ _ _ => In k inds /\ (f = F_sim_ended \/ f = F_sim_ended_time)
  | HXOut inds _ _ _ => In k inds /\ (f = F_sim_started \/ f = F_sim_worker \/ f = F_sim_started_time)
  | HToGen inds _ => In k inds /\ (f = F_gen_informed \/ f = F_gen_informed_time)
  | HKill => f = F_kill_sent
  end.
Proof. exact hstep_owner. Qed.
Print Assumptions C42_only_bookkeeping_changes_protected.

Example C42_hypotheses_met :
  touches_protected (mkA [(F_sim_started, ShS)] [fun _ => vint 1]) /\ h_safe after_run = true /\
  cell (h_rows (fst (hstep (HXOut [3] 4 false 20) after_run))) 3 F_sim_started <> cell (h_rows after_run) 3 F_sim_started.
Proof. split; [exists F_sim_started; cbn; auto|]. split; vm_compute; [reflexivity|discriminate]. Qed.

(** ** C43: provenance of generated rows *)
Theorem C43_generated_rows_keep_their_provenance :
  forall m outs H0 os1 h1 gw D gs t h2 os2 h3 k,
  0 < m -> H0_scalar H0 -> H0_ids H0 -> Forall ids_polite os1 -> ids_polite (HXIn gw D gs t) -> Forall ids_polite os2 ->
  hrun os1 (init_history m outs H0 true) = (h1, None) ->
  update_history_x_in gw D gs t h1 = (h2, None) -> t <> 0%Z ->
  hrun os2 h2 = (h3, None) ->
  h_index h1 <= k < h_index h2 ->
  cell (h_rows h3) k F_gen_worker = Some (vint (Z.of_nat gw)) /\
  cell (h_rows h3) k F_gen_started_time = Some (vint gs) /\
  cell (h_rows h3) k F_gen_ended_time = Some (vint t).
Proof. exact reach_prov. Qed.
Print Assumptions C43_generated_rows_keep_their_provenance.

Example C43_example :
  cell (h_rows after_run) 1 F_gen_worker = Some (vint 1) /\ cell (h_rows after_run) 1 F_gen_ended_time = Some (vint 6) /\
  cell (h_rows after_run) 4 F_gen_ended_time = Some (vint 12).
Proof. split; [|split]; vm_compute; reflexivity. Qed.
