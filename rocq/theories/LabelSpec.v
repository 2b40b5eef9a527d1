(** How to read a row label: parts separated by "_", each a number or a range
    "first-last". *)
From Coq Require Import Ascii String.
From Verif Require Import Base TextModel.
Local Open Scope nat_scope.

Definition read_part (t : text) : list nat :=
  match split "-" t with
  | [a] => [number a]
  | [a; b] => seq (number a) (number b + 1 - number a)
  | _ => []
  end.
Definition read_label (t : text) : list nat := flat_map read_part (split "_" t).
