(** Vocabulary for C73: what can be seen of a run of the finite-difference generator. *)
From Coq Require Import QArith Permutation.
From Verif Require Import Base PointsModel FdModel.
Local Open Scope nat_scope.

Section Spec.
Context {V : Type}.
(** The batches sent and the calls made, in order. *)
Definition sent (ev : list (fd_event V)) : list (list fd_row) := flat_map (fun e => match e with FSent r => [r] | FCalled _ => [] end) ev.
Definition calls (ev : list (fd_event V)) : list (fd_call V) := flat_map (fun e => match e with FCalled c => [c] | FSent _ => [] end) ev.
(** The batch sent last, and the calls made since. *)
Fixpoint after_last (ev : list (fd_event V)) (b : list fd_row) (cs : list (fd_call V)) : list fd_row * list (fd_call V) :=
  match ev with
  | [] => (b, cs)
  | FSent r :: ev' => after_last ev' r []
  | FCalled c :: ev' => after_last ev' b (cs ++ [c])
  end.
Definition last_batch ev := fst (after_last ev [] []).
Definition recent_calls ev := snd (after_last ev [] []).
(** The batch has points for variable [i] and function [j]. *)
Definition has_pair (i j : nat) (b : list fd_row) : bool := existsb (fun r => (r_i r =? i) && (r_j r =? j)) b.
(** How often points for a pair were sent. *)
Definition times (ev : list (fd_event V)) (i j : nat) : nat := length (filter (has_pair i j) (sent ev)).
(** The step for a pair after the answers so far: each time it was too large (3) or too
    small (2) it was divided or multiplied by 100. *)
Definition step_after (h : Q) (ev : list (fd_event V)) (i j : nat) : Q :=
  fold_left (fun h c => if (c_i c =? i) && (c_j c =? j) then (if c_inform c =? 3 then h / 100 else h * 100)%Q else h) (calls ev) h.
(** The result of evaluating function [r_j] at the point of a row *)
Definition answer (f : nat -> list Q -> V) (r : fd_row) : fd_result V := mkres (r_i r) (r_j r) (r_k r) (f (r_j r) (r_x r)).
(** Each message with results has the results of the batch sent last, in any order. *)
Definition answered (f : nat -> list Q -> V) (batches : list (list fd_row)) (msgs : list (fd_msg V)) : Prop :=
  forall n calc_in b, nth_error msgs n = Some (FResults calc_in) -> nth_error batches n = Some b -> Permutation calc_in (map (answer f) b).
End Spec.
