(** Vocabulary for the MPI properties. *)
From Coq Require Import String.
From Verif Require Import Base RsetModel MpiModel.
Local Notation length := List.length.
Local Open Scope Z_scope.

(** The user set this count. Zero stands for "not set", as in the code. *)
Definition isset (x : option Z) : Prop := exists z, x = Some z /\ z <> 0.
Definition honours (x : option Z) (v : Z) : Prop := forall z, x = Some z -> z <> 0 -> v = z.
Definition sane (x : option Z) : Prop := forall z, x = Some z -> 0 <= z.

(** A consistent decomposition that keeps what the user set. *)
Definition completes (p n k : option Z) (P N K : Z) : Prop := P = N * K /\ honours p P /\ honours n N /\ honours k K.

(** Cores on a node for all slots of this worker. *)
Definition core_share (w : wres) (cores : Z) (c : nat) : Z := cores / Z.of_nat (w_sets w) * Z.of_nat c.

(** The worker has nodes, and the same number [c] of slots on each of them. *)
Definition usable (w : wres) (c : nat) : Prop := w_nodes w <> [] /\ w_sets w <> 0%nat /\ w_count w = Some c /\ w_even w = true.
(** The number of nodes the worker has. *)
Definition local (w : wres) : Z := Z.of_nat (length (w_nodes w)).
(** GPUs on each node for all slots of this worker. *)
Definition gpu_share (w : wres) (c : nat) : Z := if w_has_gpus w then Z.of_nat (c * w_gpus w) else 0.

(** The smallest multiple of [n] that is at least [x]. *)
Definition rounded_up (x n y : Z) : Prop := (exists q, y = n * q) /\ x <= y < x + n.

(** How often a host occurs. *)
Definition occurs (x : node) (l : list node) : nat := length (filter (String.eqb x) l).

(** The number of ranks that a task with these specifications puts on host [x]:
    the lines of the machine file, or procs_per_node on each host listed. *)
Definition ranks (x : node) (s : specs) : Z :=
  match s_mfile s with
  | Some (Some l) => Z.of_nat (occurs x l)
  | _ => match s_hosts s, s_ppn s with
         | Some h, Some k => if existsb (String.eqb x) h then k else 0
         | _, _ => 0
         end
  end.
Definition all_ranks (x : node) (l : list specs) : Z := fold_right (fun s t => ranks x s + t) 0 l.

(** [s] is a task of a worker that holds the sets [team]: either the core bounds
    are enforced, or the user left the number of processes to libEnsemble. *)
Definition bounded_task (num_workers : nat) (p : platform) (cores : Z) (team : list nat) (s : specs) : Prop :=
  exists w r enforce procs nodes ppn gpus auto matching,
    worker_view num_workers p team = Ok w /\ sane procs /\ sane nodes /\ sane ppn /\ sane gpus /\
    get_mpi_specs r (Some w) cores enforce procs nodes ppn gpus None false auto matching = Ok s /\
    (enforce = true \/ auto = false /\ gpus = None /\ ~ isset procs /\ ~ isset ppn).

(** A worker that holds the sets [team] and sees the resources [w] may launch
    the task [s] (any runner, any valid request). *)
Definition task_on (num_workers : nat) (p : platform) (team : list nat) (w : wres) (s : specs) : Prop :=
  worker_view num_workers p team = Ok w /\
  exists r cores enforce procs nodes ppn gpus auto matching,
    sane procs /\ sane nodes /\ sane ppn /\ sane gpus /\
    get_mpi_specs r (Some w) cores enforce procs nodes ppn gpus None false auto matching = Ok s.

(** The task is given exactly these GPUs, [per] of them, on each of its nodes. *)
Definition visible_gpus (s : specs) (per : Z) (ids : list nat) : Prop := s_gpus s = Some (per, Some (GEnv ids)).
