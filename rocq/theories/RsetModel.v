(** Model of libensemble/resources/rset_resources.py and worker_resources.py:
    splitting nodes into resource sets, and the manager's table of who holds which set. *)
From Coq Require Import String.
From Verif Require Import Base.
Local Notation length := List.length.

(** Host names. *)
Definition node := string.

(** ceil(a/b), written in the code as a // b + (a % b > 0)
    (rset_resources.py:83,126; scheduler.py:310,327). *)
Definition ceil_div (a b : nat) : nat := a / b + (if 0 <? a mod b then 1 else 0).

(** Python slice a[lo:hi] for 0 <= lo. *)
Definition slice {A} (a : list A) (lo hi : nat) : list A := firstn (hi - lo) (skipn lo a).

(** rset_resources.py:112-116 best_split(a, n); n > 0 (divmod by 0 is excluded
    by the caller, see [get_split_list]). *)
Definition best_split {A} (a : list A) (n : nat) : list (list A) :=
  let k := length a / n in
  let m := length a mod n in
  map (fun i => slice a (i * k + Nat.min i m) ((i + 1) * k + Nat.min (i + 1) m)) (seq 0 n).

(** rset_resources.py:144-159 expand_list(nnodes, nworkers, nodelist); nnodes > 0. *)
Definition expand_list {A} (nnodes nworkers : nat) (nodelist : list A) : list A * list nat :=
  let k := nworkers / nnodes in
  let m := nworkers mod nnodes in
  let reps := fun i => if i <? m then k + 1 else k in
  (flat_map (fun p : nat * A => repeat (snd p) (reps (fst p))) (combine (seq 0 (length nodelist)) nodelist),
   flat_map (fun p : nat * A => repeat (reps (fst p)) (reps (fst p))) (combine (seq 0 (length nodelist)) nodelist)).

(** rset_resources.py:161-183 get_split_list. even_assignment (135-142) raises
    ZeroDivisionError for no resource sets; with no nodes expand_list's divmod does.
    The warning about uneven assignment is dropped. *)
Definition get_split_list (num_rsets : nat) (nodes : list node) : res (list (list node) * list nat) :=
  let nn := length nodes in
  if num_rsets =? 0 then Err EZeroDiv
  else if nn =? 0 then Err EZeroDiv
  else if nn <=? num_rsets then
    let (dup, loc) := expand_list nn num_rsets nodes in Ok (best_split dup num_rsets, loc)
  else Ok (best_split nodes num_rsets, repeat 1 num_rsets).

(** One resource set as the manager's table stores it (rset_resources.py:32-37,
    worker_resources.py:32). [rs_owner] is the "assigned" column, None for -1. *)
Record rset := mkRset { rs_group : nat; rs_slot : nat; rs_gpu : bool; rs_owner : option nat }.

Definition node_list_eqb (a b : list node) : bool := if list_eq_dec string_dec a b then true else false.

(** rset_resources.py:92-110 get_group_list: the loop body, with the loop state
    (node, group, slot). [gpg] is gpus_per_group (None: never equal to a slot). *)
Fixpoint group_loop (sl : list (list node)) (nd : list node) (group slot gpn : nat) (gpg : option nat) : list rset :=
  match sl with
  | [] => []
  | s :: sl' =>
      if negb (node_list_eqb s nd) || (match gpg with Some g => slot =? g | None => false end)
      then mkRset (group + 1) 0 (0 <? gpn) None :: group_loop sl' s (group + 1) 1 gpn gpg
      else mkRset group slot (slot <? gpn) None :: group_loop sl' nd group (slot + 1) gpn gpg
  end.

(** rset_resources.py:92-98: the loop starts with the first entry, group 1, slot 0. *)
Definition get_group_list (sl : list (list node)) (gpn : nat) (gpg : option nat) : list rset :=
  match sl with [] => [] | s :: _ => group_loop sl s 1 0 gpn gpg end.

(** What the resource classes read from the detected platform
    (resources.py GlobalResources attributes). *)
Record platform := mkPlat {
  p_nodes : list node;            (* global_nodelist *)
  p_num_rsets : option nat;       (* num_resource_sets, None or 0: not set *)
  p_zero : list nat;              (* zero_resource_workers *)
  p_gpus_per_node : nat;          (* gpus_avail_per_node *)
  p_gpus_per_group : option nat;  (* gpus_per_group *)
  p_cores : nat                   (* physical_cores_avail_per_node *)
}.

(** ResourceManager (worker_resources.py:28-71) with the RSetResources
    attributes it uses (rset_resources.py:57-75). *)
Record rman := mkRman {
  rm_rsets : list rset;
  rm_split : list (list node);
  rm_per_node : nat;              (* rsets_per_node *)
  rm_gpu_per_node : nat;
  rm_nongpu_per_node : nat;
  rm_num_groups : nat;
  rm_index : list (option nat);   (* index_list *)
  rm_free : Z;
  rm_gpu_free : Z;
  rm_nongpu_free : Z
}.

(** worker_resources.py:104-119 get_index_list, loop over workers [w ..]. *)
Fixpoint index_loop (ws : list nat) (index num_rsets : nat) (zero : list nat) : list (option nat) :=
  match ws with
  | [] => []
  | w :: ws' =>
      if memb w zero then None :: index_loop ws' index num_rsets zero
      else (if num_rsets <=? index then None else Some index) :: index_loop ws' (index + 1) num_rsets zero
  end.
Definition get_index_list (num_workers num_rsets : nat) (zero : list nat) : list (option nat) :=
  index_loop (seq 1 num_workers) 0 num_rsets zero.

(** rset_resources.py:58-59,129-133: the number of resource sets. The
    subtraction is truncated at 0 (more zero-resource workers than workers
    gives a negative number in Python, which then fails in np.zeros). *)
Definition total_rsets (num_workers : nat) (p : platform) : nat :=
  match p_num_rsets p with
  | Some (S n) => S n
  | _ => num_workers - length (p_zero p)
  end.

(** RSetResources.__init__ (rset_resources.py:39-75) and
    ResourceManager.__init__ (worker_resources.py:34-65). Core counts do not
    affect the table and are modelled in [procs_per_rset]. *)
Definition rman_init (num_workers : nat) (p : platform) : res rman :=
  let total := total_rsets num_workers p in
  bindr (get_split_list total (p_nodes p)) (fun sl =>
    let rs := get_group_list (fst sl) (p_gpus_per_node p) (p_gpus_per_group p) in
    let per_node := ceil_div total (length (p_nodes p)) in
    let gpu_pn := Nat.min (p_gpus_per_node p) per_node in
    Ok (mkRman rs (fst sl) per_node gpu_pn (per_node - gpu_pn)
               (match rev rs with r :: _ => rs_group r | [] => 0 end)
               (get_index_list num_workers total (p_zero p))
               (Z.of_nat total)
               (Z.of_nat (countb rs_gpu rs))
               (Z.of_nat (countb (fun r => negb (rs_gpu r)) rs)))).

Definition own (w : option nat) (r : rset) : rset := mkRset (rs_group r) (rs_slot r) (rs_gpu r) w.
Definition set_rsets (m : rman) rs f g n : rman :=
  mkRman rs (rm_split m) (rm_per_node m) (rm_gpu_per_node m) (rm_nongpu_per_node m) (rm_num_groups m) (rm_index m) f g n.

(** worker_resources.py:77-88: one iteration of the assignment loop; [old] is
    the owner read before the loop (fancy indexing copies). The exception object
    in the conflict branch is built but not raised, so nothing happens. *)
Definition assign_one (w : nat) (p : nat * option nat) (m : rman) : rman :=
  let (i, old) := p in
  match old with
  | None =>
      let rs := upd (rm_rsets m) i (own (Some w)) in
      match nth_error (rm_rsets m) i with
      | Some r => if rs_gpu r
                  then set_rsets m rs (rm_free m - 1) (rm_gpu_free m - 1) (rm_nongpu_free m)
                  else set_rsets m rs (rm_free m - 1) (rm_gpu_free m) (rm_nongpu_free m - 1)
      | None => m
      end
  | Some _ => m
  end.

(** worker_resources.py:73-88 assign_rsets; an index beyond the table raises
    IndexError before anything is changed. *)
Definition assign_rsets (team : list nat) (w : nat) (m : rman) : ex rman :=
  if forallb (fun i => i <? length (rm_rsets m)) team
  then (fold_left (fun m p => assign_one w p m)
          (map (fun i => (i, match nth_error (rm_rsets m) i with Some r => rs_owner r | None => None end)) team) m, None)
  else (m, Some EIndex).

Definition owned_by (w : nat) (r : rset) : bool :=
  match rs_owner r with Some v => v =? w | None => false end.

(** worker_resources.py:97-102 free_rsets(worker). *)
Definition free_rsets (w : nat) (m : rman) : rman :=
  set_rsets m
    (map (fun r => if owned_by w r then own None r else r) (rm_rsets m))
    (rm_free m + Z.of_nat (countb (owned_by w) (rm_rsets m)))
    (rm_gpu_free m + Z.of_nat (countb (fun r => owned_by w r && rs_gpu r) (rm_rsets m)))
    (rm_nongpu_free m + Z.of_nat (countb (fun r => owned_by w r && negb (rs_gpu r)) (rm_rsets m))).

(** worker_resources.py:92-96 free_rsets(): everything; the totals are those
    counted at initialisation (rset_resources.py:74-75), which do not change. *)
Definition free_all (m : rman) : rman :=
  set_rsets m (map (own None) (rm_rsets m)) (Z.of_nat (length (rm_rsets m)))
    (Z.of_nat (countb rs_gpu (rm_rsets m))) (Z.of_nat (countb (fun r => negb (rs_gpu r)) (rm_rsets m))).

(** worker_resources.py:352-382 get_local_nodelist: nodes of a team in order of
    first appearance, and for each node the slots used on it. The dictionary is
    an association list in insertion order. *)
Definition mem_node (x : node) (l : list node) : bool := existsb (String.eqb x) l.
Fixpoint uniq (seen l : list node) : list node :=
  match l with
  | [] => []
  | x :: l' => if mem_node x seen then uniq seen l' else x :: uniq (x :: seen) l'
  end.
Definition push_slot (n : node) (s : nat) (d : list (node * list nat)) : list (node * list nat) :=
  map (fun p => if String.eqb (fst p) n then (fst p, snd p ++ [s]) else p) d.
Definition team_slots (sl : list (list node)) (per_node : nat) (d : list (node * list nat)) (i : nat) :=
  let ns := nth i sl [] in
  match ns with
  | [n] => push_slot n (i mod per_node) d
  | [] => d
  | _ => fold_left (fun d n => push_slot n 0 d) ns d
  end.
Definition get_local_nodelist (team : list nat) (sl : list (list node)) (per_node : nat)
  : res (list node * list (node * list nat)) :=
  if forallb (fun i => i <? length sl) team then
    let nl := uniq [] (flat_map (fun i => nth i sl []) team) in
    Ok (nl, fold_left (team_slots sl per_node) team (map (fun n => (n, [])) nl))
  else Err EIndex.

(** worker_resources.py:329-350 set_slot_count, for non-empty slots: (even_slots,
    matching_slots, slots_on_node, slot_count). The break at the first node of a
    different length makes both flags False. *)
Fixpoint slot_flags (first : list nat) (l : list (node * list nat)) (mtch : bool) : bool * bool :=
  match l with
  | [] => (true, mtch)
  | (_, s) :: l' =>
      if negb (length s =? length first) then (false, false)
      else slot_flags first l' (mtch && (if list_eq_dec Nat.eq_dec s first then true else false))
  end.
Definition set_slot_count (d : list (node * list nat)) : option (bool * bool * option (list nat) * option nat) :=
  match d with
  | [] => None
  | (_, first) :: _ =>
      let (e, m) := slot_flags first d true in
      Some (e, m, if m then Some first else None, if e then Some (length first) else None)
  end.

(** rset_resources.py:77-90: processes per resource set. *)
Definition procs_per_rset (per_node cores nodes_in_rset : nat) : nat :=
  let c := cores / per_node in
  (if c =? 0 then cores * ceil_div per_node cores else c) * nodes_in_rset.
