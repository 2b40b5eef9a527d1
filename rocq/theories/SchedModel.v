(** Model of libensemble/resources/scheduler.py: ResourceScheduler.
    Python dictionaries keyed by group are association lists in insertion order
    (np.unique gives increasing groups). Python sets of slots are duplicate-free
    lists; the order in which a set is iterated is the parameter [ord].
    The number of requested sets is a nat (negative requests are not modelled). *)
From Verif Require Import Base RsetModel.

Definition groups := list (nat * list nat).

(** Scheduler object state (scheduler.py:62-74). *)
Record sched := mkSched {
  sc_free : Z; sc_gpu_free : Z; sc_nongpu_free : Z;
  sc_avail : option groups;       (* avail_rsets_by_group cache *)
  sc_split2fit : bool; sc_match : bool
}.

(** scheduler.py:34-74 __init__: counters are copied from the resource manager. *)
Definition sched_init (m : rman) (split2fit match_slots : bool) : sched :=
  mkSched (rm_free m) (rm_gpu_free m) (rm_nongpu_free m) None split2fit match_slots.

(** scheduler.py:243 np.unique(rsets["group"]): distinct groups, increasing. *)
Fixpoint insert_uniq (x : nat) (l : list nat) : list nat :=
  match l with
  | [] => [x]
  | y :: l' => if x <? y then x :: l else if x =? y then l else y :: insert_uniq x l'
  end.
Definition unique_groups (rs : list rset) : list nat := fold_right (fun r l => insert_uniq (rs_group r) l) [] rs.

Definition is_unassigned (r : rset) : bool := match rs_owner r with None => true | Some _ => false end.

(** scheduler.py:247-250: indices of the free resource sets of group g, in order. *)
Definition free_in (rs : list rset) (g : nat) : list nat :=
  map fst (filter (fun p => is_unassigned (snd p) && (rs_group (snd p) =? g)) (combine (seq 0 (length rs)) rs)).

(** scheduler.py:231-251 get_avail_rsets_by_group. *)
Definition get_avail (m : rman) (s : sched) : groups :=
  match sc_avail s with
  | Some g => g
  | None => map (fun g => (g, free_in (rm_rsets m) g)) (unique_groups (rm_rsets m))
  end.

Definition gpu_of (m : rman) (i : nat) : bool :=
  match nth_error (rm_rsets m) i with Some r => rs_gpu r | None => false end.
Definition slot_of (m : rman) (i : nat) : nat :=
  match nth_error (rm_rsets m) i with Some r => rs_slot r | None => 0 end.
Definition group_of (m : rman) (i : nat) : nat :=
  match nth_error (rm_rsets m) i with Some r => rs_group r | None => 0 end.

(** scheduler.py:253-274 filter_for_rset_type. *)
Definition filter_type (m : rman) (use_gpus : option bool) (gs : groups) : groups :=
  match use_gpus with
  | None => gs
  | Some b => map (fun p => (fst p, filter (fun i => Bool.eqb (gpu_of m i) b) (snd p))) gs
  end.

(** scheduler.py:276-284 filter_out_rset_team. *)
Definition filter_out (team : list nat) (gs : groups) : groups :=
  map (fun p => (fst p, filter (fun i => negb (memb i team)) (snd p))) gs.

(** scheduler.py:316-320: the search for an even partition; [n] bounds the
    number of iterations and is max_groups + 1 - tmp. *)
Fixpoint even_search (n tmp req : nat) : option nat :=
  match n with
  | 0 => None
  | S n' => if req mod tmp =? 0 then Some tmp else even_search n' (tmp + 1) req
  end.

(** scheduler.py:304-339 calc_rsets_even_grps with extend=True (its only use,
    through calc_req_split 298-302): (rsets_req, num_groups_req, rsets_per_group). *)
Definition calc_even_grps (req maxgrp maxgroups : nat) : res (nat * nat * nat) :=
  if req =? 0 then Ok (0, 0, 0)
  else if maxgrp =? 0 then Err EZeroDiv
  else
    let ng := ceil_div req maxgrp in
    if 1 <? ng then
      match even_search (maxgroups + 1 - ng) ng req with
      | Some t => Ok (req, t, req / t)
      | None => let per := ceil_div req ng in Ok (ng * per, ng, per)
      end
    else Ok (req, ng, req).

(** scheduler.py:374-377 get_sorted_lens: lengths, decreasing. *)
Fixpoint insert_desc (x : nat) (l : list nat) : list nat :=
  match l with [] => [x] | y :: l' => if y <=? x then x :: l else y :: insert_desc x l' end.
Definition sorted_lens (gs : groups) : list nat := fold_right insert_desc [] (map (fun p => length (snd p)) gs).

(** sorted(list): increasing. *)
Fixpoint insert_asc (x : nat) (l : list nat) : list nat :=
  match l with [] => [x] | y :: l' => if x <=? y then x :: l else y :: insert_asc x l' end.
Definition sort_asc (l : list nat) : list nat := fold_right insert_asc [] l.

(** scheduler.py:291-296 get_avail_slots_by_group: set of slots per group. *)
Definition avail_slots (m : rman) (gs : groups) : groups :=
  map (fun p => (fst p, nodup Nat.eq_dec (map (slot_of m) (snd p)))) gs.

(** itertools.combinations(l, n): in lexicographic order of positions. *)
Fixpoint combs {A} (n : nat) (l : list A) : list (list A) :=
  match n, l with
  | 0, _ => [[]]
  | S n', [] => []
  | S n', x :: l' => map (cons x) (combs n' l') ++ combs n l'
  end.

(** scheduler.py:393-396: intersection of the slot sets of the groups of a combination. *)
Definition common_slots (c : groups) : list nat :=
  match c with
  | [] => []
  | p :: c' => filter (fun s => forallb (fun q => memb s (snd q)) c') (snd p)
  end.

(** scheduler.py:392-404: the loop over combinations, with early exit on an exact fit. *)
Fixpoint match_loop (cs : list groups) (per upper : nat) (cand : option (groups * list nat)) : option (groups * list nat) :=
  match cs with
  | [] => cand
  | c :: cs' =>
      let com := common_slots c in
      if length com =? per then Some (c, com)
      else if (per <? length com) && (length com <? upper) then match_loop cs' per (length com) (Some (c, com))
      else match_loop cs' per upper cand
  end.

(** scheduler.py:379-409 get_matching_slots: chosen groups and common slots. *)
Definition get_matching (slots : groups) (ng per : nat) : option (list nat * list nat) :=
  let viable := filter (fun p => per <=? length (snd p)) slots in
  if length viable <? ng then None
  else
    let upper := maxl (map (fun p => length (snd p)) viable) + 1 in
    option_map (fun c => (map fst (fst c), snd c)) (match_loop (combs ng viable) per upper None).

(** scheduler.py:341-346 check_params; ngroups > 0 here. *)
Definition check_params (params : list nat) (ng : nat) : bool := forallb (fun p => p mod ng =? 0) params.

(** scheduler.py:350-352: the inner part of the while loop that only decreases
    rsets_per_grp while the product exceeds the request. *)
Fixpoint descend (per ng req : nat) : nat :=
  match per with
  | 0 => 0
  | S p => if req <? per * ng then descend p ng req else per
  end.

(** scheduler.py:348-358 calc_even_split_uneven_groups; [n] is max_grps - ngroups,
    the number of times ngroups can still be incremented. *)
Fixpoint even_split (n per ng req : nat) (lens params : list nat) : res (nat * nat) :=
  let p := descend per ng req in
  if (p * ng =? req) && check_params params ng then Ok (ng, p)
  else
    match n with
    | 0 => Err EInsufficientFree
    | S n' => match nth_error lens ng with
              | Some l => even_split n' l (ng + 1) req lens params
              | None => Err EIndex
              end
    end.

(** scheduler.py:136-151: the outer loop with match_slots; [fuel] bounds the iterations. *)
Fixpoint split_loop (fuel maxeven ng req : nat) (lens params : list nat) (maxgroups : nat) (slots : groups)
  : res (nat * nat * (list nat * list nat)) :=
  match fuel with
  | 0 => Err EFuel
  | S fuel' =>
      bindr (even_split (maxgroups - ng) maxeven ng req lens params) (fun r =>
        let (ng1, per1) := r in
        match get_matching slots ng1 per1 with
        | Some c => Ok (ng1, per1, c)
        | None => split_loop fuel' maxeven (ng1 + 1) req lens params maxgroups slots
        end)
  end.

(** scheduler.py:368-370: index of the first resource set with this group and slot
    (IndexError if there is none). *)
Fixpoint find_rset_from (i : nat) (rs : list rset) (g s : nat) : option nat :=
  match rs with
  | [] => None
  | r :: rs' => if (rs_group r =? g) && (rs_slot r =? s) then Some i else find_rset_from (S i) rs' g s
  end.
Fixpoint collect (l : list (option nat)) : option (list nat) :=
  match l with
  | [] => Some []
  | Some x :: l' => option_map (cons x) (collect l')
  | None :: _ => None
  end.

(** scheduler.py:360-372 assign_team_from_slots. *)
Definition team_from_slots (ord : list nat -> list nat) (m : rman) (cg cs : list nat) (per : nat) : res (list nat) :=
  match collect (flat_map (fun g => map (fun s => find_rset_from 0 (rm_rsets m) g s) (firstn per (ord cs))) cg) with
  | Some t => Ok (sort_asc t)
  | None => Err EIndex
  end.

(** scheduler.py:211-229 find_candidate. *)
Fixpoint find_cand (gs : groups) (used : list nat) (per upper : nat) (cand : option (nat * list nat)) : option (nat * list nat) :=
  match gs with
  | [] => cand
  | (g, l) :: gs' =>
      if memb g used then find_cand gs' used per upper cand
      else if length l =? per then Some (g, l)
      else if (per <? length l) && (length l <? upper) then find_cand gs' used per (length l) (Some (g, firstn per l))
      else find_cand gs' used per upper cand
  end.

(** scheduler.py:183-209 find_rsets_any_slots. The removal of the chosen sets
    from the copied dictionary is not observable because the group is skipped from then on. *)
Fixpoint any_loop (n : nat) (gs : groups) (used : list nat) (per upper : nat) (acc : list nat) : list nat :=
  match n with
  | 0 => acc
  | S n' => match find_cand gs used per upper None with
            | Some (g, t) => any_loop n' gs (used ++ [g]) per upper (acc ++ t)
            | None => any_loop n' gs used per upper acc
            end
  end.
Definition find_any (gs : groups) (maxgrp req ng per : nat) : res (list nat) :=
  let acc := any_loop ng gs [] per (maxgrp + 1) [] in
  if length acc =? req then Ok (sort_asc acc) else Err EInsufficientFree.

(** scheduler.py:411-436 check_total_rsets: the exception raised, if any. *)
Definition check_total (m : rman) (s : sched) (req : nat) (use_gpus : option bool) : option err :=
  let tot := match use_gpus with
             | None => length (rm_rsets m)
             | Some true => countb rs_gpu (rm_rsets m)
             | Some false => countb (fun r => negb (rs_gpu r)) (rm_rsets m) end in
  let free := match use_gpus with None => sc_free s | Some true => sc_gpu_free s | Some false => sc_nongpu_free s end in
  if tot <? req then Some EInsufficientRes
  else if (free <? Z.of_nat req)%Z then Some EInsufficientFree
  else None.

(** scheduler.py:98-103 *)
Definition max_grpsize (m : rman) (use_gpus : option bool) : nat :=
  match use_gpus with None => rm_per_node m | Some true => rm_gpu_per_node m | Some false => rm_nongpu_per_node m end.

(** scheduler.py:110-163: choosing a team from the valid sets by group. *)
Definition choose (ord : list nat -> list nat) (m : rman) (s : sched) (req : nat) (use_gpus : option bool)
           (params : list nat) (valid : groups) : res (list nat) :=
  bindr (calc_even_grps req (max_grpsize m use_gpus) (rm_num_groups m)) (fun t =>
    let '(req1, ng, per) := t in
    let lens := sorted_lens valid in
    match nth_error lens (ng - 1) with
    | None => Err EIndex
    | Some maxeven =>
        if (maxeven <? per) && (negb (sc_split2fit s) || (maxeven =? 0)) then Err EInsufficientFree
        else if sc_match s then
          let slots := avail_slots m valid in
          match get_matching slots ng per with
          | Some (cg, cs) => team_from_slots ord m cg cs per
          | None =>
              if negb (sc_split2fit s) then Err EInsufficientFree
              else if maxeven <? per then
                bindr (split_loop (S (S (req1 + rm_num_groups m))) maxeven ng req1 lens params (rm_num_groups m) slots) (fun r =>
                  let '(ng1, per1, (cg, cs)) := r in team_from_slots ord m cg cs per1)
              else Err EInsufficientFree
          end
        else if sc_split2fit s && (maxeven <? per) then
          bindr (even_split (rm_num_groups m - ng) maxeven ng req1 lens params) (fun r =>
            let (ng1, per1) := r in find_any valid (max_grpsize m use_gpus) req1 ng1 per1)
        else find_any valid (max_grpsize m use_gpus) req1 ng per
    end).

(** scheduler.py:76-181 assign_resources. When an exception is raised the cache
    of available sets stays (it is only read before that point). *)
Definition assign_resources (ord : list nat -> list nat) (m : rman) (s : sched) (req : nat) (use_gpus : option bool) (params : list nat)
  : res (list nat) * sched :=
  if req =? 0 then (Ok [], s)
  else match check_total m s req use_gpus with
  | Some e => (Err e, s)
  | None =>
      let avail := get_avail m s in
      let s1 := mkSched (sc_free s) (sc_gpu_free s) (sc_nongpu_free s) (Some avail) (sc_split2fit s) (sc_match s) in
      match choose ord m s req use_gpus params (filter_type m use_gpus avail) with
      | Err e => (Err e, s1)
      | Ok team =>
          let n := Z.of_nat (length team) in
          (Ok team, mkSched (sc_free s - n)
             (match use_gpus with Some true => sc_gpu_free s - n | _ => sc_gpu_free s end)%Z
             (match use_gpus with Some false => sc_nongpu_free s - n | _ => sc_nongpu_free s end)%Z
             (Some (filter_out team avail)) (sc_split2fit s) (sc_match s))
      end
  end.
