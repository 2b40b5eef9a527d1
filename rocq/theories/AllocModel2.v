(** Model of the remaining allocation functions of libensemble/alloc_funcs:
    start_fd_persistent, persistent_aposmm_alloc, inverse_bayes_allocf,
    start_persistent_local_opt_gens and fast_alloc_and_pausing. The columns these
    functions read are assumed to be in the history (NumPy raises ValueError for a
    missing column). *)
From Coq Require Import String.
From Verif Require Import Base HistoryModel WorkModel RsetModel SchedModel AllocModel.
Local Notation length := List.length.
Local Open Scope list_scope.
Local Open Scope nat_scope.

(** Columns read or written by the functions below. *)
Definition F_x_ind := F_user "x_ind".
Definition F_f_ind := F_user "f_ind".
Definition F_local_pt := F_user "local_pt".
Definition F_local_min := F_user "local_min".
Definition F_started_run := F_user "started_run".
Definition F_active_runs := F_user "num_active_runs".
Definition F_batch := F_user "batch".
Definition F_subbatch := F_user "subbatch".
Definition F_weight := F_user "weight".
Definition F_like := F_user "like".
Definition F_pt_id := F_user "pt_id".
Definition F_paused := F_user "paused".
Definition F_obj := F_user "f".
Definition F_comp := F_user "f_i".

(** Row numbers of the rows that satisfy [q] (np.where / np.nonzero of a mask). *)
Definition rows_where (H : list row) (q : row -> bool) : list nat :=
  filter (fun i => match nth_error H i with Some r => q r | None => false end) (seq 0 (length H)).
Definition intcol (H : list row) (f : field) (i : nat) : Z :=
  match nth_error H i with Some r => as_int (r f) | None => 0%Z end.
Definition scol (H : list row) (f : field) (i : nat) : sc :=
  match nth_error H i with Some r => scalar_of (r f) | None => SNum 0 end.

(** The loop that gives the waiting points [pts] to the idle workers [ws]:
    start_fd_persistent.py:49-60, inverse_bayes_allocf.py:44-59 and
    start_persistent_local_opt_gens.py:80-94. [pick] selects the rows of one unit
    from the points that are still waiting. *)
Fixpoint pick_sims (c : actx) (d : dtype) (H : list row) (pick : list nat -> list nat) (ws pts : list nat) (work : wdict) (s : ast) : lres :=
  match ws with
  | [] => (work, s, pts, None)
  | w :: ws' =>
      match pts with
      | [] => (work, s, pts, None)
      | _ =>
          let rows := pick pts in
          match sim_work c d H w rows false s with
          | (Ok k, s1) => pick_sims c d H pick ws' (filter (fun i => negb (memb i rows)) pts) (dict_set work w k) s1
          | (Err EInsufficientFree, s1) => (work, s1, pts, None)
          | (Err e, s1) => (work, s1, pts, Some e)
          end
      end
  end.

(** The loop over the idle persistent generators: [f w H] says which rows go back
    to [w] (None: nothing is given to it now), what the loop body does to the
    history, or the exception it raises. *)
Fixpoint back_each (c : actx) (fields : list field) (f : nat -> list row -> res (option (list nat) * list row))
         (ws : list nat) (H : list row) (work : wdict) (s : ast) : list row * wdict * ast * option err :=
  match ws with
  | [] => (H, work, s, None)
  | w :: ws' =>
      match f w H with
      | Err e => (H, work, s, Some e)
      | Ok (None, H1) => back_each c fields f ws' H1 work s
      | Ok (Some ids, H1) =>
          match gen_work c w fields ids true None s with
          | (Ok k, s1) => back_each c fields f ws' H1 (dict_set work w k) s1
          | (Err e, s1) => (H1, work, s1, Some e)
          end
      end
  end.

(** Work[avail[0]] = gen_work(...): IndexError when no worker is available; no
    exception of gen_work is caught (start_fd_persistent.py:62-65,
    inverse_bayes_allocf.py:61-63, start_persistent_local_opt_gens.py:96-100).
    The last of these passes rset_team=[], which _update_rset_team
    (alloc_support.py:204) does not tell from no team at all. *)
Definition start_first (c : actx) (ws : list nat) (pers : bool) (work : wdict) (s : ast) : wdict * ast * option err :=
  match ws with
  | [] => (work, s, Some EIndex)
  | w :: _ =>
      match gen_work c w (ac_gen_in c) [] pers None s with
      | (Ok k, s1) => (dict_set work w k, s1, None)
      | (Err e, s1) => (work, s1, Some e)
      end
  end.

Definition none_if_empty (l : list nat) : option (list nat) := match l with [] => None | _ => Some l end.

(** ** start_fd_persistent.py *)

(** gen_specs["user"] entries. *)
Record fd_user := mkFD { fd_n : nat; fd_p : nat; fd_nf : nat }.

(** start_fd_persistent.py:36-44: the finished evaluations of one (x_ind, f_ind)
    pair that have not gone back yet, and the sim_ids to send. *)
Definition fd_group (H : list row) (x f : nat) : list nat :=
  rows_where H (fun r => negb (flag F_gen_informed r) && (as_int (r F_x_ind) =? Z.of_nat x)%Z && (as_int (r F_f_ind) =? Z.of_nat f)%Z && flag F_sim_ended r).
Definition fd_send (u : fd_user) (H : list row) : list nat :=
  flat_map (fun x => flat_map (fun f =>
    let l := fd_group H x f in
    if length l =? fd_nf u then map (fun i => Z.to_nat (intcol H F_sim_id i)) l else [])
    (seq 0 (fd_p u))) (seq 0 (fd_n u)).

(** start_fd_persistent.py:19-67 finite_diff_alloc *)
Definition finite_diff_alloc (c : actx) (d : dtype) (u : fd_user) (stop : bool) (gens : nat) (H : list row) : aout :=
  if stop then mkAO H [] 0 gens None
  else
    let gen_count := count_persis_gens (ac_W c) in
    if negb (length H =? 0) && (gen_count =? 0) then mkAO H [] 1 gens None
    else
      match avail_workers (ac_W c) (Some EVAL_GEN) false None None,
            avail_workers (ac_W c) (Some 0) false None (Some false),
            avail_workers (ac_W c) (Some 0) false None (Some true) with
      | Ok bs, Ok ws, Ok gs =>
          let '(_, wk1, s1, e1) := back_each c (ac_persis_in c) (fun _ H => Ok (none_if_empty (fd_send u H), H)) bs H [] (support_init c gens) in
          match e1 with
          | Some _ => mkAO H wk1 0 (as_gens s1) e1
          | None =>
              let '(wk2, s2, _, e2) := pick_sims c d H (firstn 1) ws (to_evaluate H) wk1 s1 in
              match e2 with
              | Some _ => mkAO H wk2 0 (as_gens s2) e2
              | None =>
                  if gen_count =? 0 then
                    let '(wk3, s3, e3) := start_first c gs true wk2 s2 in mkAO H wk3 0 (as_gens s3) e3
                  else mkAO H wk2 0 (as_gens s2) None
              end
          end
      | _, _, _ => mkAO H [] 0 gens (Some (EOther 1))
      end.

(** ** persistent_aposmm_alloc.py *)

(** The entries kept in persis_info: first_call, samples_in_H0, next_to_give,
    sample_done and gen_started. *)
Record ap_state := mkAP { ap_first : bool; ap_samples : nat; ap_next : nat; ap_done : bool; ap_started : bool }.

(** persistent_aposmm_alloc.py:49-62 *)
Definition ap_returned (H : list row) : list nat := rows_where H (fun r => flag F_sim_ended r && negb (flag F_gen_informed r)).

(** persistent_aposmm_alloc.py:64-77. The break after the last point changes
    nothing, since the other workers find no point. *)
Definition ap_sims := fast_sims.

(** persistent_aposmm_alloc.py:49-92, after the checks of the first call. The
    assignment persis_info.get(wid)["nworkers"] = len(W) is left out. *)
Definition aposmm_rest (c : actx) (d : dtype) (init_sample : nat) (gens : nat) (p1 : ap_state) (H : list row) : aout * ap_state :=
  match avail_workers (ac_W c) (Some EVAL_GEN) false None None,
        avail_workers (ac_W c) (Some 0) false None (Some false),
        avail_workers (ac_W c) (Some 0) false None (Some true) with
  | Ok bs, Ok ws, Ok gs =>
      let enough := ap_done p1 || (init_sample + ap_samples p1 <=? countb (flag F_sim_ended) H) in
      let done := match bs with [] => ap_done p1 | _ => enough end in
      let '(_, wk1, s1, e1) := back_each c (ac_persis_in c) (fun _ H => Ok (if enough then none_if_empty (ap_returned H) else None, H)) bs H [] (support_init c gens) in
      match e1 with
      | Some _ => (mkAO H wk1 0 (as_gens s1) e1, mkAP (ap_first p1) (ap_samples p1) (ap_next p1) done (ap_started p1))
      | None =>
          let '(wk2, s2, nx, e2) := ap_sims c d H ws (ap_next p1) wk1 s1 in
          let p2 := mkAP (ap_first p1) (ap_samples p1) nx done (ap_started p1) in
          match e2, ap_started p1, gs with
          | Some _, _, _ => (mkAO H wk2 0 (as_gens s2) e2, p2)
          | None, false, w :: _ =>
              match gen_work c w (ac_gen_in c) (seq 0 (length H)) true None s2 with
              | (Ok k, s3) => (mkAO H (dict_set wk2 w k) 0 (as_gens s3) None, mkAP (ap_first p2) (ap_samples p2) nx done true)
              | (Err EInsufficientFree, s3) => (mkAO H wk2 0 (as_gens s3) None, p2)
              | (Err e, s3) => (mkAO H wk2 0 (as_gens s3) (Some e), p2)
              end
          | None, _, _ => (mkAO H wk2 0 (as_gens s2) None, p2)
          end
      end
  | _, _, _ => (mkAO H [] 0 gens (Some (EOther 1)), p1)
  end.

(** persistent_aposmm_alloc.py:21-47 and the rest. *)
Definition persistent_aposmm_alloc (c : actx) (d : dtype) (init_sample : nat) (stop : bool) (gens : nat) (p : ap_state) (H : list row) : aout * ap_state :=
  if stop then (mkAO H [] 0 gens None, p)
  else if ap_first p then
    if all_sim_started H (fun _ => true) 0 && all_sim_ended H (fun _ => true) 0 && all_gen_informed H (fun _ => true) 0
    then aposmm_rest c d init_sample gens (mkAP false (countb (fun r => negb (flag F_local_pt r)) H) (length H) (ap_done p) (ap_started p)) H
    else (mkAO H [] 0 gens (Some EAssert), p)
  else if count_persis_gens (ac_W c) =? 0 then (mkAO H [] 1 gens None, p)
  else aposmm_rest c d init_sample gens p H.

(** ** inverse_bayes_allocf.py *)

(** gen_specs["user"] entries: subbatch_size * num_subbatches. *)
Definition by_worker (H : list row) (w : nat) : list nat := rows_where H (fun r => (as_int (r F_gen_worker) =? Z.of_nat w)%Z).
Definition max_of (x : Z) (l : list Z) : Z := fold_right Z.max x l.
Definition min_of (x : Z) (l : list Z) : Z := fold_right Z.min x l.

(** inverse_bayes_allocf.py:36-39: the copy of weights between slices. Slices are
    clipped to the array; lengths that differ raise ValueError unless the source
    has length one. *)
Definition shift_weights (n k : nat) (H : list row) : res (list row) :=
  let lo := n * (k - 1) in let mid := n * k in let hi := n * S k in
  let L := length H in
  let llen := Nat.min mid L - Nat.min lo L in
  let rlen := Nat.min hi L - Nat.min mid L in
  let from i := if rlen =? llen then i + n else mid in
  if (rlen =? llen) || (rlen =? 1) then
    Ok (map (fun p => if (lo <=? fst p) && (fst p <? lo + llen) then
                        match nth_error H (from (fst p)) with Some q => setf F_weight (q F_weight) (snd p) | None => snd p end
                      else snd p) (combine (seq 0 L) H))
  else Err EValue.

(** inverse_bayes_allocf.py:27-41, the body of the loop: the rows of the last
    batch of this generator. The mask of the last batch ranges over the rows of
    the generator, the other mask over the whole history; NumPy joins them only
    when they have the same length (or one of them has length one). *)
Definition bayes_back (n w : nat) (H : list row) : res (option (list nat) * list row) :=
  let mine := by_worker H w in
  if all_sim_ended H (gen_of H w) 0 then
    match mine with
    | [] => Err EValue
    | i :: rest =>
        if (length mine =? length H) || (length mine =? 1) then
          let m := max_of (intcol H F_batch i) (map (intcol H F_batch) rest) in
          let ids := filter (fun i => (intcol H F_batch i =? m)%Z) mine in
          let k := intcol H F_batch (pred (length H)) in
          if (0 <? k)%Z then bindr (shift_weights n (Z.to_nat k) H) (fun H1 => Ok (Some ids, H1))
          else Ok (Some ids, H)
        else Err EValue
    end
  else Ok (None, H).

(** inverse_bayes_allocf.py:47-50: the waiting points of the smallest subbatch. *)
Definition bayes_pick (H : list row) (pts : list nat) : list nat :=
  match pts with
  | [] => []
  | i :: rest => let m := min_of (intcol H F_subbatch i) (map (intcol H F_subbatch) rest) in
                 filter (fun i => (intcol H F_subbatch i =? m)%Z) pts
  end.

(** inverse_bayes_allocf.py:8-65 only_persistent_gens_for_inverse_bayes *)
Definition inverse_bayes_alloc (c : actx) (d : dtype) (n : nat) (stop : bool) (gens : nat) (H : list row) : aout :=
  if stop then mkAO H [] 0 gens None
  else
    let gen_count := count_persis_gens (ac_W c) in
    match avail_workers (ac_W c) (Some EVAL_GEN) false None None,
          avail_workers (ac_W c) (Some 0) false None (Some false),
          avail_workers (ac_W c) (Some 0) false None (Some true) with
    | Ok bs, Ok ws, Ok gs =>
        let '(H1, wk1, s1, e1) := back_each c [F_like] (fun w H => bayes_back n w H) bs H [] (support_init c gens) in
        match e1 with
        | Some _ => mkAO H1 wk1 0 (as_gens s1) e1
        | None =>
            match to_evaluate H1 with
            | [] =>
                if gen_count =? 0 then
                  let '(wk3, s3, e3) := start_first c gs true wk1 s1 in mkAO H1 wk3 0 (as_gens s3) e3
                else mkAO H1 wk1 0 (as_gens s1) None
            | pts =>
                let '(wk2, s2, _, e2) := pick_sims c d H1 (bayes_pick H1) ws pts wk1 s1 in mkAO H1 wk2 0 (as_gens s2) e2
            end
        end
    | _, _, _ => mkAO H [] 0 gens (Some (EOther 1))
    end.

(** ** start_persistent_local_opt_gens.py *)

(** What the calculations that are not modelled decide: the bookkeeping of
    finished runs (lines 39-47: an exception, or the new contents of num_active_runs
    and local_min), and for each idle worker the distances (update_history_dist)
    and the starting points (decide_where_to_start_localopt). *)
Record lo_oracle := mkLO {
  lo_err : option err; lo_runs : nat -> field -> val;
  lo_dist : nat -> nat -> field -> val; lo_starts : nat -> list nat }.
Definition lo_run_cols : list field := [F_active_runs; F_local_min].
Definition lo_dist_cols : list field :=
  [F_user "known_to_aposmm"; F_user "dist_to_unit_bounds"; F_user "dist_to_better_l"; F_user "dist_to_better_s";
   F_user "ind_of_better_l"; F_user "ind_of_better_s"].
Definition overlay (cols : list field) (v : nat -> field -> val) (H : list row) : list row :=
  map (fun p => fun f => if has f cols then v (fst p) f else snd p f) (combine (seq 0 (length H)) H).

(** np.argmin: the first minimum, or the first NaN. *)
Fixpoint argmin_from (best : nat * sc) (l : list (nat * sc)) : nat :=
  match l with
  | [] => fst best
  | p :: l' => argmin_from (if is_nan (snd best) then best
                            else if is_nan (snd p) then p
                            else if sc_lt (snd p) (snd best) then p else best) l'
  end.

(** start_persistent_local_opt_gens.py:49-56: the point of this run that was
    started last (ValueError from np.argmax when the run has no point). The
    update of run_order is left out. *)
Definition lo_back (w : nat) (H : list row) : res (option (list nat) * list row) :=
  if all_sim_ended H (gen_of H w) 0 then
    match by_worker H w with
    | [] => Err EValue
    | i :: rest => Ok (Some [argmax_from (i, scol H F_sim_started_time i) (map (fun j => (j, scol H F_sim_started_time j)) rest)], H)
    end
  else Ok (None, H).

(** start_persistent_local_opt_gens.py:58-78: starting local optimisation runs.
    The third argument of np.logical_and (line 60) is its output array, so
    cancelled points count. [started] counts the runs recorded as started. *)
Fixpoint lo_start (c : actx) (o : lo_oracle) (ws : list nat) (gen_count : nat) (H : list row) (work : wdict) (s : ast)
  : list row * wdict * ast * nat * option err :=
  match ws with
  | [] => (H, work, s, gen_count, None)
  | w :: ws' =>
      let any := existsb (fun r => negb (flag F_local_pt r) && flag F_sim_ended r) H in
      let H1 := if any then overlay lo_dist_cols (lo_dist o w) H else H in
      let inds := if any then filter (fun i => i <? length H) (lo_starts o w) else [] in
      match inds with
      | [] => lo_start c o ws' gen_count H1 work s
      | i :: rest =>
          if S gen_count <? length (ac_W c) then
            let ind := argmin_from (i, scol H1 F_obj i) (map (fun j => (j, scol H1 F_obj j)) rest) in
            match gen_work c w (ac_persis_in c) [ind] true None s with
            | (Ok k, s1) =>
                let H2 := upd H1 ind (fun r => setf F_started_run (vint 1) (setf F_active_runs (vint (as_int (r F_active_runs) + 1)) r)) in
                lo_start c o ws' (S gen_count) H2 (dict_set work w k) s1
            | (Err EInsufficientFree, s1) => (H1, work, s1, gen_count, None)
            | (Err e, s1) => (H1, work, s1, gen_count, Some e)
            end
          else lo_start c o ws' gen_count H1 work s
      end
  end.

(** start_persistent_local_opt_gens.py:83-87: the oldest point of a run, or else the oldest point. *)
Definition lo_pick (H : list row) (pts : list nat) : list nat :=
  match filter (fun i => match nth_error H i with Some r => flag F_local_pt r | None => false end) pts with
  | [] => firstn 1 pts
  | i :: _ => [i]
  end.

(** start_persistent_local_opt_gens.py:7-102 *)
Definition local_opt_alloc (c : actx) (d : dtype) (o : lo_oracle) (stop : bool) (gens : nat) (H0 : list row) : aout :=
  if stop then mkAO H0 [] 0 gens None
  else
    match lo_err o with
    | Some e => mkAO (overlay lo_run_cols (lo_runs o) H0) [] 0 gens (Some e)
    | None =>
        let H := overlay lo_run_cols (lo_runs o) H0 in
        match avail_workers (ac_W c) (Some EVAL_GEN) false None None,
              avail_workers (ac_W c) (Some 0) false None (Some false),
              avail_workers (ac_W c) (Some 0) false None (Some true) with
        | Ok bs, Ok ws, Ok gs =>
            let '(_, wk1, s1, e1) := back_each c (ac_persis_in c) (fun w H => lo_back w H) bs H [] (support_init c gens) in
            match e1 with
            | Some _ => mkAO H wk1 0 (as_gens s1) e1
            | None =>
                let '(H2, wk2, s2, gen_count, e2) := lo_start c o gs (count_persis_gens (ac_W c)) H wk1 s1 in
                match e2 with
                | Some _ => mkAO H2 wk2 0 (as_gens s2) e2
                | None =>
                    let '(wk3, s3, _, e3) := pick_sims c d H2 (lo_pick H2) ws (to_evaluate H2) wk2 s2 in
                    match e3 with
                    | Some _ => mkAO H2 wk3 0 (as_gens s3) e3
                    | None =>
                        if (gen_count =? 0) && negb (existsb (fun r => (w_active r =? EVAL_GEN) && (w_persis r =? 0)) (ac_W c)) then
                          let '(wk4, s4, e4) := start_first c gs false wk3 s3 in mkAO H2 wk4 0 (as_gens s4) e4
                        else mkAO H2 wk3 0 (as_gens s3) None
                    end
                end
            end
        | _, _, _ => mkAO H [] 0 gens (Some (EOther 1))
        end
    end.

(** ** fast_alloc_and_pausing.py *)

(** The entries kept in persis_info: H_len, need_to_give, already_paused,
    last_size and total_gen_calls (pt_ids and inds_of_pt_ids can be computed from
    the history; last_worker is left out). *)
Record ps_state := mkPS { ps_len : nat; ps_need : list nat; ps_paused : list Z; ps_last : option nat; ps_calls : nat }.

(** alloc_specs["user"] entries. [pz_partial]: the pt_ids to pause because of a
    partial evaluation (lines 57-94, which call the user's
    combine_component_func), for each turn of the loop. *)
Record ps_user := mkPZ { pz_nans : bool; pz_partial : nat -> list Z; pz_num_gens : option nat; pz_batch : bool }.

(** fast_alloc_and_pausing.py:54-55 *)
Definition nan_ids (H : list row) : list Z :=
  map (fun r => as_int (r F_pt_id)) (filter (fun r => is_nan (scalar_of (r F_comp))) H).

Definition zmemb (z : Z) (l : list Z) : bool := existsb (Z.eqb z) l.

(** fast_alloc_and_pausing.py:96-102: pausing the points with the given pt_ids. *)
Definition pause_points (ids paused : list Z) (need : list nat) (H : list row) : list Z * list nat * list row :=
  if forallb (fun z => zmemb z paused) ids then (paused, need, H)
  else
    let hit r := zmemb (as_int (r F_pt_id)) ids in
    (paused ++ ids,
     filter (fun i => negb match nth_error H i with Some r => hit r | None => false end) need,
     map (fun r => if hit r then setf F_paused (vbool true) r else r) H).

(** fast_alloc_and_pausing.py:45-115: the sim loop; [j] counts its turns. A turn
    that empties need_to_give is followed by one that ends the loop. The point is
    taken by set.pop(), the first in the order of the set. *)
Fixpoint pause_sims (c : actx) (d : dtype) (u : ps_user) (ws : list nat) (j : nat) (need : list nat) (paused : list Z) (H : list row) (work : wdict) (s : ast)
  : list row * wdict * ast * (list nat * list Z) * option err :=
  match ws with
  | [] => (H, work, s, (need, paused), None)
  | w :: ws' =>
      match need with
      | [] => (H, work, s, (need, paused), None)
      | _ =>
          let ids := (if pz_nans u then nan_ids H else []) ++ pz_partial u j in
          let '(paused1, need1, H1) := pause_points ids paused need H in
          match ac_ord c need1 with
          | [] => (H1, work, s, (need1, paused1), None)
          | i :: _ =>
              match sim_work c d H1 w [i] false s with
              | (Ok k, s1) => pause_sims c d u ws' (S j) (filter (fun n => negb (n =? i)) need1) paused1 H1 (dict_set work w k) s1
              | (Err EInsufficientFree, s1) => (H1, work, s1, (need1, paused1), None)
              | (Err e, s1) => (H1, work, s1, (filter (fun n => negb (n =? i)) need1, paused1), Some e)
              end
          end
      end
  end.

(** fast_alloc_and_pausing.py:117-146: the gen loop. *)
Fixpoint pause_gens (c : actx) (u : ps_user) (H : list row) (ws : list nat) (gen_count calls : nat) (last : option nat) (work : wdict) (s : ast)
  : wdict * ast * nat * option nat * option err :=
  match ws with
  | [] => (work, s, calls, last, None)
  | w :: ws' =>
      if match pz_num_gens u with Some n => gen_count <? n | None => true end then
        if negb (length H =? 0) && pz_batch u
           && negb (forallb (fun r => flag F_sim_ended r || flag F_paused r) (skipn (match last with Some n => n | None => 0 end) H))
        then (work, s, calls, last, None)
        else
          match gen_work c w (ac_gen_in c) (seq 0 (length H)) false None s with
          | (Ok k, s1) => pause_gens c u H ws' (S gen_count) (S calls) (Some (length H)) (dict_set work w k) s1
          | (Err EInsufficientFree, s1) => (work, s1, calls, last, None)
          | (Err e, s1) => (work, s1, calls, last, Some e)
          end
      else (work, s, calls, last, None)
  end.

(** fast_alloc_and_pausing.py:6-148 give_sim_work_first. The assertion about
    single_component_at_a_time (lines 35-36) is left out. *)
Definition pausing_alloc (c : actx) (d : dtype) (u : ps_user) (stop : bool) (gens : nat) (p : ps_state) (H : list row) : aout * ps_state :=
  if stop then (mkAO H [] 0 gens None, p)
  else
    let need := if length H =? ps_len p then ps_need p
                else ps_need p ++ filter (fun i => negb (memb i (ps_need p))) (map (fun r => Z.to_nat (as_int (r F_sim_id))) (skipn (ps_len p) H)) in
    match avail_workers (ac_W c) None false None (Some false), avail_workers (ac_W c) None false None (Some true) with
    | Ok ws, Ok gs =>
        let '(H1, wk1, s1, (need1, paused1), e1) := pause_sims c d u ws 0 need (ps_paused p) H [] (support_init c gens) in
        match e1 with
        | Some _ => (mkAO H1 wk1 0 (as_gens s1) e1, mkPS (length H) need1 paused1 (ps_last p) (ps_calls p))
        | None =>
            let '(wk2, s2, calls, last, e2) := pause_gens c u H1 gs (count_gens (ac_W c)) (ps_calls p) (ps_last p) wk1 s1 in
            (mkAO H1 wk2 0 (as_gens s2) e2, mkPS (length H) need1 paused1 last calls)
        end
    | _, _ => (mkAO H [] 0 gens (Some (EOther 1)), mkPS (length H) need (ps_paused p) (ps_last p) (ps_calls p))
    end.

(** ** Successive calls *)

(** What one call leaves for the next, in the class attribute gen_counter of
    AllocSupport and in persis_info (alloc_support.py:30, 278-279, manager.py:676-694). *)
Definition aposmm_call (d : dtype) (init : nat) : actx -> nat * ap_state -> list row -> aout * (nat * ap_state) :=
  fun c s H => let (out, p) := persistent_aposmm_alloc c d init false (fst s) (snd s) H in (out, (o_gens out, p)).
(** [part n j]: the points that call number [n] pauses at turn [j] because of their partial evaluations. *)
Definition pausing_call (d : dtype) (nans : bool) (part : nat -> nat -> list Z) (num : option nat) (batch : bool)
  : actx -> nat * ps_state * nat -> list row -> aout * (nat * ps_state * nat) :=
  fun c s H => let '(g, p, n) := s in
    let (out, p') := pausing_alloc c d (mkPZ nans (part n) num batch) false g p H in (out, (o_gens out, p', S n)).
