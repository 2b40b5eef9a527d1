(** The manager's worker table and work units (libensemble/manager.py,
    libensemble/tools/alloc_support.py, libensemble/utils/misc.py). *)
From Verif Require Import Base HistoryModel.

(** libensemble/message_numbers.py:4-14 *)
Definition EVAL_SIM : nat := 1.
Definition EVAL_GEN : nat := 2.
Definition STOP_TAG : nat := 3.
Definition PERSIS_STOP : nat := 4.

(** One row of the worker table, manager.py:158-166. *)
Record wrow := mkW {
  w_id : nat; w_gen : bool; w_active : nat; w_persis : nat;
  w_recv : bool; w_gstart : Z; w_zero : bool }.

(** manager.py:234-262: the table at start. [gom] is gen_on_manager (worker 0 is
    added), [zeros] and [gens] the zero-resource and generator-only workers. *)
Definition init_workers (n : nat) (gom : bool) (zeros gens : list nat) : list wrow :=
  map (fun i => mkW i (memb i gens || (gom && (i =? 0))) 0 0 false 0 (memb i zeros))
      (if gom then seq 0 (S n) else seq 1 n).

(** Position in the table of worker [w]: utils/misc.py:30-42 (_WorkerIndexer).
    Without a worker on the manager, key 0 becomes Python's index -1, the last row. *)
Definition wpos (gom : bool) (n w : nat) : option nat :=
  if gom then (if w <? n then Some w else None)
  else match w with
       | 0 => match n with 0 => None | S m => Some m end
       | S k => if k <? n then Some k else None
       end.

Definition wget (gom : bool) (W : list wrow) (w : nat) : option wrow :=
  match wpos gom (length W) w with Some i => nth_error W i | None => None end.

(** A work unit: the entries of the dictionaries built at alloc_support.py:244-249
    and 284-289 (H_fields, tag, libE_info). [k_recv] is the active_recv entry of
    libE_info, None when the key is absent; [k_persistent] says whether the key
    "persistent" is present; persis_info is not modelled. *)
Record work := mkWork {
  k_tag : nat; k_fields : list field; k_rows : list nat;
  k_persistent : bool; k_recv : option bool; k_team : option (list nat);
  k_procs : option Z; k_gpus : option Z; k_gen_count : option nat; k_batch : option nat }.

(** A Work dictionary keyed by worker, in insertion order. *)
Definition wdict := list (nat * work).

(** Work[w] = k *)
Fixpoint dict_set (d : wdict) (w : nat) (k : work) : wdict :=
  match d with
  | [] => [(w, k)]
  | (v, x) :: d' => if v =? w then (w, k) :: d' else (v, x) :: dict_set d' w k
  end.
Definition in_dict (d : wdict) (w : nat) : bool := memb w (map fst d).
