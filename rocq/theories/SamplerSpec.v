(** Vocabulary for what the sampling functions promise (SamplerModel). *)
From Verif Require Import Base SamplerModel.
Local Open Scope nat_scope.

(** How many results have come. *)
Fixpoint received {R} (ms : list (mail R)) : nat :=
  match ms with
  | [] => 0
  | Go l :: ms' | Last l :: ms' => length l + received ms'
  | Stop :: ms' => received ms'
  end.
(** None of the mails asks to stop. *)
Definition going {R} (ms : list (mail R)) : Prop := Forall (fun m => exists l, m = Go l) ms.
(** Some mail is the first that asks to stop. *)
Definition stopped {R} (ms : list (mail R)) : Prop :=
  exists before m after, ms = before ++ m :: after /\ going before /\ (m = Stop \/ exists l, m = Last l).

(** The points among what was sent, and the numbers to be cancelled. *)
Fixpoint points {X} (l : list (sent X)) : list X :=
  match l with [] => [] | Points p :: l' => p ++ points l' | Cancel _ :: l' => points l' end.
Fixpoint cancelled {X} (l : list (sent X)) : list nat :=
  match l with [] => [] | Points _ :: l' => cancelled l' | Cancel c :: l' => c ++ cancelled l' end.

(** All results of a run, in order. *)
Fixpoint results {R} (ms : list (mail R)) : list R :=
  match ms with [] => [] | Go l :: ms' | Last l :: ms' => l ++ results ms' | Stop :: ms' => results ms' end.
(** The numbers reported for corner [k]. *)
Definition at_corner (k : nat) (l : list (nat * value)) : list value :=
  map snd (filter (fun p => fst p =? k) l).
Fixpoint sum (l : list value) : Z :=
  match l with [] => 0%Z | Some a :: l' => (a + sum l')%Z | None :: l' => sum l' end.
(** No value is nan. *)
Definition numbers (l : list (nat * value)) : Prop := Forall (fun p => exists z, snd p = Some z) l.
(** The mean of some values, as a sum and a count; nan if there is none. *)
Definition mean (l : list value) : option (Z * nat) :=
  match l with [] => None | _ => Some (sum l, length l) end.
