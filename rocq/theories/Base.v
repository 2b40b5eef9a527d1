(** Shared definitions: exceptions as values, state-with-error, list updates. *)
From Coq Require Export List Arith ZArith Lia Bool.
From Coq Require Export ZifyBool ZifyNat.
Export ListNotations.

(** Python exceptions that the modelled code can raise (tags only). *)
Inductive err :=
| EAssert        (* AssertionError *)
| EIndex         (* IndexError *)
| EValue         (* ValueError *)
| EType          (* TypeError *)
| EKey           (* KeyError *)
| EZeroDiv       (* ZeroDivisionError *)
| EInsufficientRes   (* InsufficientResourcesError *)
| EInsufficientFree  (* InsufficientFreeResources *)
| EOther (n : nat)
| EFuel.         (* not a Python exception: model fuel exhausted *)

Inductive res (A : Type) := Ok (a : A) | Err (e : err).
Arguments Ok {A} a.
Arguments Err {A} e.

Definition bindr {A B} (m : res A) (k : A -> res B) : res B :=
  match m with Ok a => k a | Err e => Err e end.

(** A stateful computation that may raise; the state at the point of the
    exception is kept (it is what a later handler or dump would see). *)
Definition ex (S : Type) := (S * option err)%type.

Definition bindx {S} (m : ex S) (k : S -> ex S) : ex S :=
  match m with (s, None) => k s | (s, Some e) => (s, Some e) end.

Fixpoint foldx {A S} (f : A -> S -> ex S) (l : list A) (s : S) : ex S :=
  match l with
  | [] => (s, None)
  | a :: l' => bindx (f a s) (foldx f l')
  end.

(** Replace element [i] of [l] by its image under [f]; no effect out of range. *)
Fixpoint upd {A} (l : list A) (i : nat) (f : A -> A) : list A :=
  match l, i with
  | [], _ => []
  | x :: l', 0 => f x :: l'
  | x :: l', S i' => x :: upd l' i' f
  end.

Definition countb {A} (p : A -> bool) (l : list A) : nat := length (filter p l).

(** Membership test on nat lists. *)
Definition memb (x : nat) (l : list nat) : bool := existsb (Nat.eqb x) l.

Fixpoint maxl (l : list nat) : nat :=
  match l with [] => 0 | x :: l' => Nat.max x (maxl l') end.

Fixpoint suml (l : list nat) : nat :=
  match l with [] => 0 | x :: l' => x + suml l' end.
