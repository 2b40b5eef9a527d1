(** Vocabulary for the resource-set properties. *)
From Coq Require Import String.
From Verif Require Import Base RsetModel.
Local Notation length := List.length.

(** Who holds resource set i (None: nobody, or no such set). *)
Definition holder (m : rman) (i : nat) : option nat :=
  match nth_error (rm_rsets m) i with Some r => rs_owner r | None => None end.

(** Set i exists and nobody holds it. *)
Definition is_free (m : rman) (i : nat) : Prop := i < length (rm_rsets m) /\ holder m i = None.

(** Numbers of resource sets with a given property that nobody holds. *)
Definition unheld (p : rset -> bool) (m : rman) : Z :=
  Z.of_nat (length (filter (fun r => match rs_owner r with None => p r | Some _ => false end) (rm_rsets m))).

(** The published numbers of free sets are the true ones. *)
Definition books_balanced (m : rman) : Prop :=
  rm_free m = unheld (fun _ => true) m /\
  rm_gpu_free m = unheld rs_gpu m /\
  rm_nongpu_free m = unheld (fun r => negb (rs_gpu r)) m.

(** What the manager does with the table. *)
Inductive rop := RAssign (team : list nat) (w : nat) | RFree (w : nat) | RFreeAll.
Definition rstep (o : rop) (m : rman) : ex rman :=
  match o with
  | RAssign team w => assign_rsets team w m
  | RFree w => (free_rsets w m, None)
  | RFreeAll => (free_all m, None)
  end.
Definition rrun (os : list rop) (m : rman) : ex rman := foldx rstep os m.

(** Teams do not list a set twice. *)
Definition no_repeats (o : rop) : Prop := match o with RAssign team _ => NoDup team | _ => True end.

(** The workers that receive resource sets in a run. *)
Definition receivers (os : list rop) : list nat :=
  flat_map (fun o => match o with RAssign _ w => [w] | _ => [] end) os.

(** The layout part of the table: (node group, slot) of each set. *)
Definition places (rs : list rset) : list (nat * nat) := map (fun r => (rs_group r, rs_slot r)) rs.

(** number of resource sets on a node *)
Definition sets_on (sl : list (list node)) (n : node) : nat := length (filter (mem_node n) sl).
