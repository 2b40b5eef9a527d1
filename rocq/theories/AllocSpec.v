(** Vocabulary for the allocation properties. *)
From Verif Require Import Base HistoryModel WorkModel RsetModel RsetSpec SchedModel SchedSpec AllocModel.

(** Worker [w] is in the table and is not doing anything. *)
Definition idle (W : list wrow) (w : nat) : Prop :=
  exists r, In r W /\ w_id r = w /\ w_active r = 0.

(** A persistent generator that is waiting for results, or listens while it works. *)
Definition listening_gen (W : list wrow) (w : nat) : Prop :=
  exists r, In r W /\ w_id r = w /\ w_persis r = EVAL_GEN /\ (w_active r = 0 \/ w_recv r = true).

(** Row i has not been given out and nobody asked for it to be cancelled. *)
Definition evaluable (H : list row) (i : nat) : Prop :=
  exists r, nth_error H i = Some r /\ truthy (r F_sim_started) = false /\ truthy (r F_cancel_requested) = false.

(** The simulation (generator) units of a Work dictionary. *)
Definition sims (d : wdict) : wdict := filter (fun p => k_tag (snd p) =? EVAL_SIM) d.
Definition gens (d : wdict) : wdict := filter (fun p => k_tag (snd p) =? EVAL_GEN) d.

(** The rows sent to simulations, and the resource sets of all units. *)
Definition sim_rows (d : wdict) : list nat := concat (map (fun p => k_rows (snd p)) (sims d)).
Definition sets_given (d : wdict) : list nat :=
  concat (map (fun p => match k_team (snd p) with Some t => t | None => [] end) d).

(** Workers reserved for generators are used for nothing else, and only they run
    generators, when there are any. *)
Definition gen_only (W : list wrow) (w : nat) : Prop := exists r, In r W /\ w_id r = w /\ w_gen r = true.
Definition some_gen_only (W : list wrow) : Prop := exists r, In r W /\ w_gen r = true.

(** Worker ids in the table are distinct. *)
Definition ids_distinct (W : list wrow) : Prop := NoDup (map w_id W).

(** The resource sets [t] of a simulation unit are enough for row [r]: the
    demand columns of the history are met, and GPUs come from GPU sets. *)
Definition demand_met (c : actx) (d : dtype) (m : rman) (t : list nat) (r : row) : Prop :=
  (In F_resource_sets (names d) -> (as_int (r F_resource_sets) <= Z.of_nat (length t))%Z) /\
  (~ In F_resource_sets (names d) -> In F_num_procs (names d) -> (as_int (r F_num_procs) <= Z.of_nat (length t * ac_procs_per c))%Z) /\
  (In F_num_gpus (names d) -> (as_int (r F_num_gpus) <= Z.of_nat (length t * ac_gpus_per c))%Z) /\
  (In F_num_gpus (names d) -> (0 < as_int (r F_num_gpus))%Z -> forall i, In i t -> of_kind m (Some true) i) /\
  (In F_use_gpus (names d) -> as_int (r F_use_gpus) <> 0%Z -> forall i, In i t -> of_kind m (Some true) i).

(** The unit for worker [w] has the resource sets its rows ask for (workers
    already in persistent mode keep what they have and get none). *)
Definition unit_served (c : actx) (d : dtype) (H : list row) (w : nat) (k : work) : Prop :=
  match ac_manage c, ac_rm c, wget (ac_gom c) (ac_W c) w with
  | true, Some m, Some wr =>
      exists t, k_team k = Some t /\
        (w_persis wr = 0 -> forall i r, In i (k_rows k) -> nth_error H i = Some r -> demand_met c d m t r) /\
        (w_persis wr <> 0 -> t = [])
  | _, _, _ => k_team k = None \/ k_team k = Some []
  end.

(** Rows from [lo] up to (not including) [hi] that nobody asked to cancel. *)
Definition wanted_between (H : list row) (lo hi : nat) : list nat :=
  filter (fun i => match nth_error H i with Some r => negb (truthy (r F_cancel_requested)) | None => false end) (seq lo (hi - lo)).

(** The row needs no more simulation work: it ended, or it was cancelled before it started. *)
Definition settled (r : row) : Prop :=
  truthy (r F_sim_ended) = true \/ truthy (r F_cancel_requested) = true /\ truthy (r F_sim_started) = false.

(** [a] is not exceeded by [b] (NumPy's order of floats, NaN on top). *)
Definition sc_ge (a b : sc) : Prop :=
  match a, b with
  | SNaN, _ => True
  | _, SNaN => False
  | SInf, _ => True
  | SNum _, SInf => False
  | SNum x, SNum y => (y <= x)%Z
  end.
(** The value of column "priority" in row [i]. *)
Definition priority_of (H : list row) (i : nat) : sc :=
  match nth_error H i with Some r => match r F_priority with VS s => s | VV _ => SNum 0 end | None => SNum 0 end.

(** Successive calls of a counting allocation function, persis_info threaded
    through: the contexts, histories and outcomes of the calls. *)
Inductive calls (f : actx -> pinfo -> list row -> aout * pinfo) : pinfo -> list (actx * list row * aout) -> pinfo -> Prop :=
| calls_none : forall p, calls f p [] p
| calls_more : forall p p1 p2 c H out l, f c p H = (out, p1) -> calls f p1 l p2 -> calls f p ((c, H, out) :: l) p2.
