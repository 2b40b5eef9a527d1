(** Model of libensemble/tools/alloc_support.py (AllocSupport) and of the
    allocation functions give_sim_work_first, fast_alloc, give_pregenerated_work,
    only_one_gen_alloc and start_only_persistent. *)
From Coq Require Import String.
From Verif Require Import Base HistoryModel WorkModel RsetModel SchedModel.
Local Notation length := List.length.

(** Optional columns of the history the allocation code reads. *)
Definition F_priority := F_user "priority".
Definition F_num_procs := F_user "num_procs".
Definition F_num_gpus := F_user "num_gpus".
Definition F_use_gpus := F_user "use_gpus".

(** What does not change during one call of an allocation function: the worker
    table, the resource manager (None when libEnsemble manages no resources),
    the scheduler options, units per resource set, and the generator's resource
    requests (persis_info / libE_specs entries, alloc_support.py:178-200).
    [ac_ord] is the iteration order of Python sets (see SchedModel). *)
Record actx := mkAC {
  ac_W : list wrow; ac_gom : bool; ac_manage : bool;
  ac_rm : option rman; ac_split2fit : bool; ac_match : bool; ac_ord : list nat -> list nat;
  ac_procs_per : nat; ac_gpus_per : nat;
  ac_gen_resources : nat; ac_gen_use_gpus : option bool; ac_gen_procs : Z; ac_gen_gpus : Z;
  ac_sim_in : list field; ac_gen_in : list field; ac_persis_in : list field }.

(** What changes: the scheduler (alloc_support.py:55-60, created for each call)
    and the class-level generator counter (alloc_support.py:30). *)
Record ast := mkAS { as_sched : option sched; as_gens : nat }.

(** alloc_support.py:32-60 __init__ *)
Definition support_init (c : actx) (gens : nat) : ast :=
  mkAS (option_map (fun m => sched_init m (ac_split2fit c) (ac_match c)) (ac_rm c)) gens.

Definition insufficient (e : err) : bool :=
  match e with EInsufficientFree | EInsufficientRes => true | _ => false end.

(** alloc_support.py:62-88 assign_resources. None: no resources are managed. *)
Definition support_assign (c : actx) (req : nat) (use_gpus : option bool) (params : list nat) (s : ast)
  : res (option (list nat)) * ast :=
  match ac_rm c, as_sched s with
  | Some m, Some sc =>
      let direct (sc0 : sched) :=
        let (a, sc1) := assign_resources (ac_ord c) m sc0 req use_gpus params in
        (match a with Ok t => Ok (Some t) | Err e => Err e end, mkAS (Some sc1) (as_gens s)) in
      match use_gpus with
      | Some _ => direct sc
      | None =>
          let (a, sc1) := assign_resources (ac_ord c) m sc req (Some false) params in
          match a with
          | Ok t => (Ok (Some t), mkAS (Some sc1) (as_gens s))
          | Err e => if insufficient e then direct sc1 else (Err e, mkAS (Some sc1) (as_gens s))
          end
      end
  | _, _ => (Ok None, s)
  end.

(** alloc_support.py:90-137 avail_worker_ids. *)
Definition avail_workers (W : list wrow) (persistent : option nat) (active_recv : bool)
           (zrw gens : option bool) : res (list nat) :=
  if active_recv && match persistent with None | Some 0 => true | _ => false end then Err (EOther 1)
  else
    let no_zrw := negb (existsb w_zero W) in
    let no_gen := negb (existsb w_gen W) in
    let ok r :=
      (if active_recv then w_recv r else w_active r =? 0)
      && match persistent with None => true | Some p => w_persis r =? p end
      && (if no_zrw then true else match zrw with None => true | Some b => Bool.eqb (w_zero r) b end)
      && (if no_gen then true else match gens with None => true | Some b => Bool.eqb (w_gen r) b end) in
    Ok (map w_id (filter ok W)).

(** alloc_support.py:139-149 *)
Definition count_gens (W : list wrow) : nat := countb (fun r => w_active r =? EVAL_GEN) W.
Definition test_any_gen (W : list wrow) : bool := existsb (fun r => w_active r =? EVAL_GEN) W.
Definition count_persis_gens (W : list wrow) : nat := countb (fun r => w_persis r =? EVAL_GEN) W.

(** alloc_support.py:413-426 _convert_to_rsets (the value; the two recorded
    entries are returned by the callers). *)
Definition convert_to_rsets (per : nat) (n : Z) : res nat :=
  if (0 <? n)%Z then
    (if per =? 0 then Err EInsufficientRes
     else Ok (Z.to_nat (n / Z.of_nat per + (if (0 <? n mod Z.of_nat per)%Z then 1 else 0))%Z))
  else Ok 0.

(** np.max(H[H_rows][f]): IndexError outside the array, ValueError when empty. *)
Fixpoint col_values (H : list row) (f : field) (rows : list nat) : option (list Z) :=
  match rows with
  | [] => Some []
  | i :: rows' => match nth_error H i, col_values H f rows' with
                  | Some r, Some l => Some (as_int (r f) :: l)
                  | _, _ => None
                  end
  end.
Definition col_max (H : list row) (f : field) (rows : list nat) : res Z :=
  match col_values H f rows with
  | None => Err EIndex
  | Some [] => Err EValue
  | Some (x :: l) => Ok (fold_right Z.max x l)
  end.

(** The outcome of a resource-requirement calculation: sets, kind, recorded
    num_procs and num_gpus, and user_params in the order they are appended. *)
Record req := mkRq { q_num : nat; q_gpus : option bool; q_procs : option Z; q_ngpus : option Z; q_params : list nat }.

(** alloc_support.py:151-176 _req_resources_sim. A negative resource_sets entry
    is taken as 0. The AttributeError for unit counts without resources is EOther 2. *)
Definition req_sim (c : actx) (d : dtype) (H : list row) (rows : list nat) : res req :=
  let step1 :=
    if has F_resource_sets (names d) then
      bindr (col_max H F_resource_sets rows) (fun z => Ok (mkRq (Z.to_nat z) None None None []))
    else if has F_num_procs (names d) then
      match ac_rm c with
      | None => Err (EOther 2)
      | Some _ => bindr (col_max H F_num_procs rows) (fun z =>
                  bindr (convert_to_rsets (ac_procs_per c) z) (fun k => Ok (mkRq k None (Some z) None [Z.to_nat z])))
      end
    else Ok (mkRq 1 None None None []) in
  bindr step1 (fun q1 =>
    bindr (if has F_use_gpus (names d) then
             match col_values H F_use_gpus rows with
             | None => Err EIndex
             | Some l => Ok (mkRq (q_num q1) (Some (existsb (fun z => negb (Z.eqb z 0)) l)) (q_procs q1) None (q_params q1))
             end
           else Ok q1) (fun q2 =>
      if has F_num_gpus (names d) then
        match ac_rm c with
        | None => Err (EOther 2)
        | Some _ => bindr (col_max H F_num_gpus rows) (fun z =>
                    bindr (convert_to_rsets (ac_gpus_per c) z) (fun k =>
                      Ok (mkRq (Nat.max (q_num q2) k) (if 0 <? k then Some true else q_gpus q2)
                               (q_procs q2) (Some z) (q_params q2 ++ [Z.to_nat z]))))
        end
      else Ok q2)).

(** alloc_support.py:178-200 _req_resources_gen *)
Definition req_gen (c : actx) : res req :=
  if ac_gen_resources c =? 0 then
    bindr (if (ac_gen_procs c =? 0)%Z then Ok (mkRq 0 (ac_gen_use_gpus c) None None [])
           else match ac_rm c with
                | None => Err (EOther 2)
                | Some _ => bindr (convert_to_rsets (ac_procs_per c) (ac_gen_procs c)) (fun k =>
                            Ok (mkRq k (ac_gen_use_gpus c) (Some (ac_gen_procs c)) None [Z.to_nat (ac_gen_procs c)]))
                end) (fun q1 =>
      if (ac_gen_gpus c =? 0)%Z then Ok q1
      else match ac_rm c with
           | None => Err (EOther 2)
           | Some _ => bindr (convert_to_rsets (ac_gpus_per c) (ac_gen_gpus c)) (fun k =>
                       Ok (mkRq (Nat.max (q_num q1) k) (if 0 <? k then Some true else q_gpus q1)
                                (q_procs q1) (Some (ac_gen_gpus c)) (q_params q1 ++ [Z.to_nat (ac_gen_gpus c)])))
           end)
  else Ok (mkRq (ac_gen_resources c) (ac_gen_use_gpus c) None None []).

(** alloc_support.py:202-217 _update_rset_team; [q] is the requirement, computed
    only when needed. Callers here never pass rset_team. *)
Definition update_team (c : actx) (wid : nat) (q : res req) (s : ast)
  : res (option (list nat) * option Z * option Z) * ast :=
  if ac_manage c then
    match wget (ac_gom c) (ac_W c) wid with
    | None => (Err EIndex, s)
    | Some r =>
        if negb (w_persis r =? 0) then (Ok (Some [], None, None), s)
        else match q with
             | Err e => (Err e, s)
             | Ok q => let (t, s1) := support_assign c (q_num q) (q_gpus q) (q_params q) s in
                       (match t with Ok t => Ok (t, q_procs q, q_ngpus q) | Err e => Err e end, s1)
             end
    end
  else (Ok (None, None, None), s).

(** alloc_support.py:397-404 _check_H_fields: duplicates removed (the order of
    the result is that of a Python set; the first-occurrence order is used here). *)
Fixpoint nodup_fields (l : list field) : list field :=
  match l with
  | [] => []
  | f :: l' => if has f l' then nodup_fields l' else f :: nodup_fields l'
  end.

(** alloc_support.py:219-253 sim_work *)
Definition sim_work (c : actx) (d : dtype) (H : list row) (wid : nat) (rows : list nat) (persistent : bool) (s : ast) : res work * ast :=
  let (t, s1) := update_team c wid (req_sim c d H rows) s in
  (match t with
   | Err e => Err e
   | Ok (team, np, ng) =>
       Ok (mkWork EVAL_SIM (nodup_fields (ac_sim_in c)) rows persistent None team np ng None None)
   end, s1).

(** alloc_support.py:255-293 gen_work; [recv] is the active_recv argument if given. *)
Definition gen_work (c : actx) (wid : nat) (fields : list field) (rows : list nat) (persistent : bool) (recv : option bool) (s : ast) : res work * ast :=
  let (t, s1) := update_team c wid (req_gen c) s in
  match t with
  | Err e => (Err e, s1)
  | Ok (team, np, ng) =>
      match wget (ac_gom c) (ac_W c) wid, avail_workers (ac_W c) None false None (Some false) with
      | Some r, Ok idle =>
          let fresh := w_persis r =? 0 in
          let n := if fresh then S (as_gens s1) else as_gens s1 in
          (Ok (mkWork EVAL_GEN (nodup_fields fields) rows persistent recv team np ng
                 (if fresh then Some n else None) (Some (length idle))), mkAS (as_sched s1) n)
      | None, _ => (Err EIndex, s1)
      | _, Err e => (Err e, s1)
      end
  end.

(** alloc_support.py:316-353: the three status queries. [sel] is pt_filter
    (indexed by row), [lo] is low_bound (0 when None). *)
Definition all_selected (bad : row -> bool) (st : field) (H : list row) (sel : nat -> bool) (lo : nat) : bool :=
  forallb (fun p => flag st (snd p))
          (filter (fun p => sel (fst p) && negb (bad (snd p))) (skipn lo (combine (seq 0 (length H)) H))).
Definition all_sim_started := all_selected (flag F_cancel_requested) F_sim_started.
Definition given_up (r : row) : bool := flag F_cancel_requested r && negb (flag F_sim_started r).
Definition all_sim_ended := all_selected given_up F_sim_ended.
Definition all_gen_informed := all_selected given_up F_gen_informed.

(** NumPy comparison of scalars; comparisons with NaN are false. *)
Definition sc_lt (a b : sc) : bool :=
  match a, b with
  | SNum x, SNum y => (x <? y)%Z
  | SNum _, SInf => true
  | _, _ => false
  end.
Definition sc_eqb (a b : sc) : bool :=
  match a, b with SNum x, SNum y => (x =? y)%Z | SInf, SInf => true | _, _ => false end.
Definition is_nan (a : sc) : bool := match a with SNaN => true | _ => false end.
Definition scalar_of (v : val) : sc := match v with VS s => s | VV _ => SNum 0 end.

(** np.max of a nonempty list: NaN if there is one. *)
Fixpoint sc_max (a : sc) (l : list sc) : sc :=
  match l with
  | [] => a
  | b :: l' => sc_max (if is_nan a then a else if is_nan b then b else if sc_lt a b then b else a) l'
  end.
(** np.argmax: the first maximum, or the first NaN. [best] is (point, value). *)
Fixpoint argmax_from (best : nat * sc) (l : list (nat * sc)) : nat :=
  match l with
  | [] => fst best
  | p :: l' => argmax_from (if is_nan (snd best) then best
                            else if is_nan (snd p) then p
                            else if sc_lt (snd best) (snd p) then p else best) l'
  end.

(** alloc_support.py:355-370 points_by_priority; [pts] are the available points
    in increasing order (np.nonzero of the mask). *)
Definition prio (H : list row) (i : nat) : sc :=
  match nth_error H i with Some r => scalar_of (r F_priority) | None => SNum 0 end.
Definition points_by_priority (d : dtype) (H : list row) (pts : list nat) (batch : bool) : res (list nat) :=
  match pts with
  | [] => Err (if has F_priority (names d) then EValue else EIndex)
  | i :: pts' =>
      if has F_priority (names d) then
        if batch then
          let m := sc_max (prio H i) (map (prio H) pts') in
          Ok (filter (fun k => sc_eqb (prio H k) m) pts)
        else Ok [argmax_from (i, prio H i) (map (fun k => (k, prio H k)) pts')]
      else Ok [i]
  end.

(** alloc_support.py:372-377 skip_canceled_points, over the rows from [nx] on. *)
Fixpoint skip_cancelled (rs : list row) (nx : nat) : nat :=
  match rs with
  | r :: rs' => if flag F_cancel_requested r then skip_cancelled rs' (S nx) else nx
  | [] => nx
  end.
Definition skip_canceled_points (H : list row) (nx : nat) : nat := skip_cancelled (skipn nx H) nx.

(** ~H["sim_started"] & ~H["cancel_requested"] as a list of row numbers. *)
Definition to_evaluate (H : list row) : list nat :=
  map fst (filter (fun p => negb (flag F_sim_started (snd p)) && negb (flag F_cancel_requested (snd p)))
                  (combine (seq 0 (length H)) H)).

(** How a loop over workers ends: normally (or by break), or by an exception. *)
Definition lres := (wdict * ast * list nat * option err)%type.

(** The loop that gives points to idle workers, give_sim_work_first.py:66-76 and
    start_only_persistent.py:104-124. InsufficientFreeResources ends the loop. *)
Fixpoint sim_loop (c : actx) (d : dtype) (H : list row) (batch persistent : bool) (ws pts : list nat) (work : wdict) (s : ast) : lres :=
  match ws with
  | [] => (work, s, pts, None)
  | w :: ws' =>
      match pts with
      | [] => (work, s, pts, None)
      | _ =>
          match points_by_priority d H pts batch with
          | Err e => (work, s, pts, Some e)
          | Ok rows =>
              match sim_work c d H w rows persistent s with
              | (Ok k, s1) => sim_loop c d H batch persistent ws' (filter (fun i => negb (memb i rows)) pts) (dict_set work w k) s1
              | (Err EInsufficientFree, s1) => (work, s1, pts, None)
              | (Err e, s1) => (work, s1, pts, Some e)
              end
          end
      end
  end.

(** alloc_specs["user"] entries of give_sim_work_first. *)
Record user_opts := mkUO {
  u_cancel_time : option Z; u_batch_give : bool; u_num_active_gens : option nat; u_batch_mode : bool }.

(** give_sim_work_first.py:45-52: cancel simulations running too long. *)
Definition too_long (now limit : Z) (r : row) : bool :=
  flag F_sim_started r && negb (flag F_sim_ended r) && negb (flag F_cancel_requested r)
  && match r F_sim_started_time with VS (SNum t) => (limit <? now - t)%Z | _ => false end.
Definition cancel_slow (u : user_opts) (now : Z) (H : list row) : list row :=
  match u_cancel_time u with
  | None => H
  | Some lim => map (fun r => if too_long now lim r then setf F_cancel_requested (vbool true) r else r) H
  end.

(** give_sim_work_first.py:78-93: the loop that starts generators. *)
Fixpoint gen_loop (c : actx) (H : list row) (u : user_opts) (ws : list nat) (gen_count : nat) (work : wdict) (s : ast)
  : wdict * ast * option err :=
  match ws with
  | [] => (work, s, None)
  | w :: ws' =>
      if match u_num_active_gens u with Some n => n <=? gen_count | None => false end then (work, s, None)
      else if u_batch_mode u && negb (all_sim_ended H (fun _ => true) 0) then (work, s, None)
      else
        let rows := match ac_gen_in c with [] => [] | _ => seq 0 (length H) end in
        match gen_work c w (ac_gen_in c) rows false None s with
        | (Ok k, s1) => gen_loop c H u ws' (S gen_count) (dict_set work w k) s1
        | (Err EInsufficientFree, s1) => (work, s1, None)
        | (Err e, s1) => (work, s1, Some e)
        end
  end.

(** What an allocation function returns: the (possibly modified) rows, the
    Work dictionary, the flag, the generator counter, or an exception. *)
Record aout := mkAO { o_rows : list row; o_work : wdict; o_flag : nat; o_gens : nat; o_err : option err }.

(** give_sim_work_first.py:43-95, the default allocation function. [stop] is
    sim_max_given or not any_idle_workers. *)
Definition give_sim_work_first (c : actx) (d : dtype) (u : user_opts) (now : Z) (stop : bool) (gens : nat) (H0 : list row) : aout :=
  let H := cancel_slow u now H0 in
  if stop then mkAO H [] 0 gens None
  else
    let s := support_init c gens in
    match to_evaluate H with
    | [] =>
        match avail_workers (ac_W c) None false None (Some true) with
        | Err e => mkAO H [] 0 gens (Some e)
        | Ok ws => let '(wk, s1, e) := gen_loop c H u ws (count_gens (ac_W c)) [] s in mkAO H wk 0 (as_gens s1) e
        end
    | pts =>
        match avail_workers (ac_W c) None false None (Some false) with
        | Err e => mkAO H [] 0 gens (Some e)
        | Ok ws => let '(wk, s1, _, e) := sim_loop c d H (u_batch_give u) false ws pts [] s in mkAO H wk 0 (as_gens s1) e
        end
    end.

(** persis_info entries used by the counting allocation functions. *)
Record pinfo := mkPI { pi_next : nat; pi_gen_calls : nat; pi_gens_started : nat }.

(** fast_alloc.py:36-45: the sim loop. *)
Fixpoint fast_sims (c : actx) (d : dtype) (H : list row) (ws : list nat) (nx : nat) (work : wdict) (s : ast) : wdict * ast * nat * option err :=
  match ws with
  | [] => (work, s, nx, None)
  | w :: ws' =>
      let nx := skip_canceled_points H nx in
      if nx <? length H then
        match sim_work c d H w [nx] false s with
        | (Ok k, s1) => fast_sims c d H ws' (S nx) (dict_set work w k) s1
        | (Err EInsufficientFree, s1) => (work, s1, nx, None)
        | (Err e, s1) => (work, s1, nx, Some e)
        end
      else fast_sims c d H ws' nx work s
  end.

(** fast_alloc.py:47-55: the gen loop. *)
Fixpoint fast_gens (c : actx) (H : list row) (num : option nat) (ws : list nat) (gen_count calls : nat) (work : wdict) (s : ast)
  : wdict * ast * nat * option err :=
  match ws with
  | [] => (work, s, calls, None)
  | w :: ws' =>
      if negb (in_dict work w) && match num with Some n => gen_count <? n | None => true end then
        let rows := match ac_gen_in c with [] => [] | _ => seq 0 (length H) end in
        match gen_work c w (ac_gen_in c) rows false None s with
        | (Ok k, s1) => fast_gens c H num ws' (S gen_count) (S calls) (dict_set work w k) s1
        | (Err EInsufficientFree, s1) => (work, s1, calls, None)
        | (Err e, s1) => (work, s1, calls, Some e)
        end
      else fast_gens c H num ws' gen_count calls work s
  end.

(** fast_alloc.py:23-57 *)
Definition fast_alloc (c : actx) (d : dtype) (num : option nat) (stop : bool) (gens : nat) (p : pinfo) (H : list row) : aout * pinfo :=
  if stop then (mkAO H [] 0 gens None, p)
  else
    match avail_workers (ac_W c) None false None (Some false), avail_workers (ac_W c) None false None (Some true) with
    | Ok ws, Ok gs =>
        let '(wk, s1, nx, e) := fast_sims c d H ws (pi_next p) [] (support_init c gens) in
        match e with
        | Some _ => (mkAO H wk 0 (as_gens s1) e, mkPI nx (pi_gen_calls p) (pi_gens_started p))
        | None =>
            if length H <=? nx then
              let '(wk2, s2, calls, e2) := fast_gens c H num gs (count_gens (ac_W c)) (pi_gen_calls p) wk s1 in
              (mkAO H wk2 0 (as_gens s2) e2, mkPI nx calls (pi_gens_started p))
            else (mkAO H wk 0 (as_gens s1) None, mkPI nx (pi_gen_calls p) (pi_gens_started p))
        end
    | _, _ => (mkAO H [] 0 gens (Some (EOther 1)), p)
    end.

(** give_pregenerated_work.py:27-37 and only_one_gen_alloc.py:27-36: the loop
    gives row [nx] after skipping, without testing that it exists. *)
Fixpoint next_sims (c : actx) (d : dtype) (H : list row) (ws : list nat) (nx : nat) (work : wdict) (s : ast) : wdict * ast * nat * option err :=
  match ws with
  | [] => (work, s, nx, None)
  | w :: ws' =>
      let nx := skip_canceled_points H nx in
      match sim_work c d H w [nx] false s with
      | (Ok k, s1) =>
          if length H <=? S nx then (dict_set work w k, s1, S nx, None)
          else next_sims c d H ws' (S nx) (dict_set work w k) s1
      | (Err EInsufficientFree, s1) => (work, s1, nx, None)
      | (Err e, s1) => (work, s1, nx, Some e)
      end
  end.

(** give_pregenerated_work.py:13-39 *)
Definition give_pregenerated (c : actx) (d : dtype) (stop : bool) (gens : nat) (p : pinfo) (H : list row) : aout * pinfo :=
  if stop then (mkAO H [] 0 gens None, p)
  else if length H <=? pi_next p then (mkAO H [] 1 gens None, p)
  else match avail_workers (ac_W c) None false None (Some false) with
       | Err e => (mkAO H [] 0 gens (Some e), p)
       | Ok ws => let '(wk, s1, nx, e) := next_sims c d H ws (pi_next p) [] (support_init c gens) in
                  (mkAO H wk 0 (as_gens s1) e, mkPI nx (pi_gen_calls p) (pi_gens_started p))
       end.

(** only_one_gen_alloc.py:14-50 *)
Definition ensure_one_active_gen (c : actx) (d : dtype) (stop : bool) (gens : nat) (p : pinfo) (H : list row) : aout * pinfo :=
  if stop then (mkAO H [] 0 gens None, p)
  else if pi_next p <? length H then
    match avail_workers (ac_W c) None false None (Some false) with
    | Err e => (mkAO H [] 0 gens (Some e), p)
    | Ok ws => let '(wk, s1, nx, e) := next_sims c d H ws (pi_next p) [] (support_init c gens) in
               (mkAO H wk 0 (as_gens s1) e, mkPI nx (pi_gen_calls p) (pi_gens_started p))
    end
  else if negb (test_any_gen (ac_W c)) then
    match avail_workers (ac_W c) None false None (Some true) with
    | Err e => (mkAO H [] 0 gens (Some e), p)
    | Ok [] => (mkAO H [] 0 gens (Some EIndex), p)
    | Ok (w :: _) =>
        if negb (all_sim_ended H (fun _ => true) 0) then (mkAO H [] 0 gens None, p)
        else
          let rows := match ac_gen_in c with [] => [] | _ => seq 0 (length H) end in
          match gen_work c w (ac_gen_in c) rows false None (support_init c gens) with
          | (Ok k, s1) => (mkAO H [(w, k)] 0 (as_gens s1) None, mkPI (pi_next p) (S (pi_gen_calls p)) (pi_gens_started p))
          | (Err EInsufficientFree, s1) => (mkAO H [] 0 (as_gens s1) None, p)
          | (Err e, s1) => (mkAO H [] 0 (as_gens s1) (Some e), p)
          end
    end
  else (mkAO H [] 0 gens None, p).

(** alloc_specs["user"] entries of only_persistent_gens. *)
Record puser := mkPU { pu_recv : bool; pu_init_sample : nat; pu_batch_give : bool; pu_async : bool; pu_alt : bool; pu_num_gens : nat }.

Definition gen_of (H : list row) (w : nat) (i : nat) : bool :=
  match nth_error H i with Some r => (as_int (r F_gen_worker) =? Z.of_nat w)%Z | None => false end.

(** start_only_persistent.py:80-82: ended, not informed, generated by [w]. *)
Definition returned_for (H : list row) (w : nat) : list nat :=
  filter (fun i => match nth_error H i with
                   | Some r => flag F_sim_ended r && negb (flag F_gen_informed r) && (as_int (r F_gen_worker) =? Z.of_nat w)%Z
                   | None => false end) (seq 0 (length H)).

(** start_only_persistent.py:79-93: results back to the generators. *)
Fixpoint back_loop (c : actx) (H : list row) (u : puser) (async : bool) (ws : list nat) (work : wdict) (s : ast) : wdict * ast * option err :=
  match ws with
  | [] => (work, s, None)
  | w :: ws' =>
      match returned_for H w with
      | [] => back_loop c H u async ws' work s
      | ids =>
          if async || all_sim_ended H (gen_of H w) 0 then
            match gen_work c w (ac_persis_in c) ids true (Some (pu_recv u)) s with
            | (Ok k, s1) => back_loop c H u async ws' (dict_set work w k) s1
            | (Err e, s1) => (work, s1, Some e)
            end
          else back_loop c H u async ws' work s
      end
  end.

(** start_only_persistent.py:126-140: start persistent generators. *)
Fixpoint start_loop (c : actx) (H : list row) (u : puser) (ws : list nat) (gen_count started : nat) (work : wdict) (s : ast)
  : wdict * ast * nat * option err :=
  match ws with
  | [] => (work, s, started, None)
  | w :: ws' =>
      if gen_count <? pu_num_gens u then
        match gen_work c w (ac_gen_in c) (seq 0 (length H)) true (Some (pu_recv u)) s with
        | (Ok k, s1) => start_loop c H u ws' (S gen_count) (S started) (dict_set work w k) s1
        | (Err EInsufficientFree, s1) => (work, s1, started, None)
        | (Err e, s1) => (work, s1, started, Some e)
        end
      else start_loop c H u ws' gen_count started work s
  end.

(** start_only_persistent.py:98-103: the workers that may get simulations. With
    alt_type the two lists are joined as Python sets, iterated in the order [ac_ord]. *)
Definition sim_workers (c : actx) (u : puser) : res (list nat) :=
  if pu_alt u then
    bindr (avail_workers (ac_W c) (Some 0) false (Some false) None) (fun a =>
    bindr (avail_workers (ac_W c) (Some EVAL_SIM) false (Some false) None) (fun b => Ok (ac_ord c (nodup Nat.eq_dec (a ++ b)))))
  else avail_workers (ac_W c) (Some 0) false (Some false) (Some false).

(** start_only_persistent.py:55-142 *)
Definition only_persistent_gens (c : actx) (d : dtype) (u : puser) (stop : bool) (gens : nat) (p : pinfo) (H : list row) : aout * pinfo :=
  if stop then (mkAO H [] 0 gens None, p)
  else
    let gen_count := count_persis_gens (ac_W c) in
    let async := pu_async u && (pu_init_sample u <=? countb (flag F_sim_ended) H) in
    if gen_count <? pi_gens_started p then (mkAO H [] 1 gens None, p)
    else
      match avail_workers (ac_W c) (Some EVAL_GEN) (pu_recv u) None None with
      | Err e => (mkAO H [] 0 gens (Some e), p)
      | Ok bs =>
          let '(wk1, s1, e1) := back_loop c H u async bs [] (support_init c gens) in
          match e1 with
          | Some _ => (mkAO H wk1 0 (as_gens s1) e1, p)
          | None =>
              match sim_workers c u with
              | Err e => (mkAO H wk1 0 (as_gens s1) (Some e), p)
              | Ok ws =>
                  let '(wk2, s2, pts, e2) := sim_loop c d H (pu_batch_give u) (pu_alt u) ws (to_evaluate H) wk1 s1 in
                  match e2, pts with
                  | Some _, _ => (mkAO H wk2 0 (as_gens s2) e2, p)
                  | None, _ :: _ => (mkAO H wk2 0 (as_gens s2) None, p)
                  | None, [] =>
                      match avail_workers (ac_W c) (Some 0) false (Some true) (Some true) with
                      | Err e => (mkAO H wk2 0 (as_gens s2) (Some e), p)
                      | Ok gs =>
                          let '(wk3, s3, st, e3) := start_loop c H u gs gen_count (pi_gens_started p) wk2 s2 in
                          (mkAO H wk3 0 (as_gens s3) e3, mkPI (pi_next p) (pi_gen_calls p) st)
                      end
                  end
              end
          end
      end.
