(** What a scheduler's node list means. *)
From Coq Require Import Ascii String.
From Verif Require Import Base TextModel EnvModel.
Local Notation length := List.length.
Local Open Scope nat_scope.

(** The numbers in brackets: "07" or "07-12". *)
Inductive idrange := One (t : text) | Range (a b : text).
(** A node or a group of nodes: "login1" or "nid[001-003,07]-ib". *)
Inductive host := Plain (name : text) | Group (prefix : text) (ids : list idrange) (suffix : text).

Definition show_range (r : idrange) : text := match r with One t => t | Range a b => a ++ minus :: b end.
Definition show_ids (l : list idrange) : text := join comma (map show_range l).
Definition show_host (h : host) : text :=
  match h with Plain n => n | Group p ids s => p ++ lbr :: show_ids ids ++ rbr :: s end.
Definition show (l : list host) : text := join comma (map show_host l).

(** Well-formed lists. *)
Definition numeral (t : text) : Prop := t <> [] /\ forallb is_digit t = true.
Definition good_range (r : idrange) : Prop := match r with One t => numeral t | Range a b => numeral a /\ numeral b end.
Definition plain (t : text) : Prop := ~ In comma t /\ ~ In lbr t /\ ~ In rbr t.
Definition good_host (h : host) : Prop :=
  match h with
  | Plain n => plain n /\ n <> []
  | Group p ids s => plain p /\ plain s /\ ids <> [] /\ forall r, In r ids -> good_range r
  end.

(** The numbers denoted, and how they are written: a single number as it stands,
    the members of a range with at least as many digits as its first number. *)
Definition between (a b : nat) : list nat := seq (Nat.min a b) (Nat.max a b + 1 - Nat.min a b).
Definition written (r : idrange) : list text :=
  match r with
  | One t => [t]
  | Range a b => map (fun n => zfill (length a) (dec n)) (between (number a) (number b))
  end.
Definition names (h : host) : list text :=
  match h with
  | Plain n => [n]
  | Group p ids s => map (fun x => p ++ x ++ s) (flat_map written ids)
  end.
Definition values (r : idrange) : list nat := match r with One t => [number t] | Range a b => between (number a) (number b) end.

(** [r] lists the entries of [l] once each, in the order of first appearance: the
    entries of every initial part of [l] come first in [r]. *)
Definition first_appearance (l r : list text) : Prop :=
  NoDup r /\ forall l1 l2, l = l1 ++ l2 -> exists r1 r2, r = r1 ++ r2 /\ forall x, In x r1 <-> In x l1.

(** The order of names in a sorted list. *)
Inductive text_le : text -> text -> Prop :=
| le_nil b : text_le [] b
| le_lt c d a b : nat_of_ascii c < nat_of_ascii d -> text_le (c :: a) (d :: b)
| le_eq c a b : text_le a b -> text_le (c :: a) (c :: b).

(** [x] is the name [s] up to its first dot. *)
Definition short_of (s x : text) : Prop := ~ In dot x /\ (s = x \/ exists rest, s = x ++ dot :: rest).

(** [r] is [l] without the entries that are not [P], in order. *)
Inductive kept (P : text -> Prop) : list text -> list text -> Prop :=
| kept_nil : kept P [] []
| kept_in x l r : P x -> kept P l r -> kept P (x :: l) (x :: r)
| kept_out x l r : ~ P x -> kept P l r -> kept P (x :: l) r.

(** A word: no white space in it. *)
Definition word (w : text) : Prop := w <> [] /\ forall c, In c w -> is_space c = false.
Definition mentions (p t : text) : Prop := exists u v, t = u ++ p ++ v.
