(** Vocabulary for the scheduler properties. *)
From Coq Require Import Permutation Sorted.
From Verif Require Import Base RsetModel RsetSpec SchedModel.

(** A resource table the manager can have: initialised for some platform with
    distinct node names, then any assignments and releases. *)
Definition reachable_table (m : rman) : Prop :=
  exists nw p m0 os, NoDup (p_nodes p) /\ p_gpus_per_group p <> Some 0 /\
    rman_init nw p = Ok m0 /\ Forall no_repeats os /\ rrun os m0 = (m, None).

(** Set i is of the requested kind (None: any kind). *)
Definition of_kind (m : rman) (use_gpus : option bool) (i : nat) : Prop :=
  match use_gpus with None => True | Some b => option_map rs_gpu (nth_error (rm_rsets m) i) = Some b end.

(** One request to the scheduler. *)
Record request := mkReq { rq_num : nat; rq_gpus : option bool; rq_params : list nat }.

(** A set's iteration order is some arrangement of its elements. *)
Definition set_order (ord : list nat -> list nat) : Prop := forall l, Permutation (ord l) l.

(** A sequence of requests in one allocation round, with the answers. *)
Fixpoint serve (ord : list nat -> list nat) (m : rman) (s : sched) (rqs : list request) : list (res (list nat)) * sched :=
  match rqs with
  | [] => ([], s)
  | rq :: rqs' =>
      let (a, s1) := assign_resources ord m s (rq_num rq) (rq_gpus rq) (rq_params rq) in
      let (l, s2) := serve ord m s1 rqs' in (a :: l, s2)
  end.

(** The teams handed out in a list of answers. *)
Fixpoint teams_of (l : list (res (list nat))) : list (list nat) :=
  match l with [] => [] | Ok t :: l' => t :: teams_of l' | Err _ :: l' => teams_of l' end.

(** Number of team members in node group g. *)
Definition in_team_on (m : rman) (team : list nat) (g : nat) : nat :=
  length (filter (fun i => group_of m i =? g) team).

(** Free sets of the kind on node group g that have not been handed out. *)
Definition spare (m : rman) (use_gpus : option bool) (handed : list nat) (g : nat) (l : list nat) : Prop :=
  NoDup l /\ forall i, In i l <-> is_free m i /\ group_of m i = g /\ of_kind m use_gpus i /\ ~ In i handed.

(** The node groups a team uses. *)
Definition used_groups (m : rman) (team : list nat) : list nat := nodup Nat.eq_dec (map (group_of m) team).

(** How many sets of the kind exist at all. *)
Definition existing (m : rman) (use_gpus : option bool) : nat :=
  length (filter (fun i => match use_gpus with None => true | Some b => Bool.eqb (gpu_of m i) b end) (seq 0 (length (rm_rsets m)))).
