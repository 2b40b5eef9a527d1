(** Vocabulary for what the calibration function promises (CalibModel). *)
From Verif Require Import Base SamplerModel CalibModel.
Local Open Scope nat_scope.

Section CalibSpec.
Context {V : Type}.
(** Read off what happened: all rows sent (the position is the sim_id), the results
    recorded, the columns given up and the numbers cancelled. *)
Fixpoint sent_rows (l : list (event V)) : list (nat * nat) :=
  match l with [] => [] | Sent r :: l' => r ++ sent_rows l' | _ :: l' => sent_rows l' end.
Fixpoint recorded (l : list (event V)) : list (nat * V) :=
  match l with [] => [] | Recorded id f :: l' => (id, f) :: recorded l' | _ :: l' => recorded l' end.
Fixpoint given_up (l : list (event V)) : list nat :=
  match l with [] => [] | GaveUp c _ :: l' => c ++ given_up l' | _ :: l' => given_up l' end.
Fixpoint cancelled (l : list (event V)) : list nat :=
  match l with [] => [] | GaveUp _ i :: l' => i ++ cancelled l' | _ :: l' => cancelled l' end.
(** The value recorded last for a number. *)
Fixpoint latest (id : nat) (l : list (nat * V)) : option V :=
  match l with
  | [] => None
  | (i, f) :: l' => match latest id l' with Some g => Some g | None => if i =? id then Some f else None end
  end.
(** The number that the arrays' cell in row [r] and column [c] stands for. *)
Definition number_of (n_x r c : nat) : nat := n_x + c * n_x + r.
(** The arrays in an outcome of the loop. *)
Definition state_of (o : outcome V) : option (calib V) :=
  match o with Next c => Some (arrays c) | Ended s | Waits s => Some s | Raises _ => None end.
(** Only results of rows beyond the first [n_x] come in the loop. *)
Definition later_ids (n_x : nat) (ms : list (mail (nat * V))) : Prop :=
  Forall (fun m => forall l, rows m = Some l -> Forall (fun p => n_x <= fst p) l) ms.
(** How many parameters are added in the first [k] selections. *)
Fixpoint added (suggest : nat -> nat * list nat) (k : nat) : nat :=
  match k with 0 => 0 | S k' => added suggest k' + fst (suggest k') end.
End CalibSpec.
