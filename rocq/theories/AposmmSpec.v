(** Vocabulary for what APOSMM promises (AposmmModel): where runs may start, which
    answers the manager gives, and the states that can be reached. *)
From Verif Require Import Base AposmmModel.
Local Open Scope nat_scope.

(** [a] is a smaller function value than [b]; nan is neither smaller nor larger. *)
Inductive less : fl -> fl -> Prop :=
| less_val u v : (u < v)%Z -> less (Val u) (Val v)
| less_ninf u : less NegInf (Val u)
| less_pinf u : less (Val u) PosInf
| less_infs : less NegInf PosInf.

(** A distance [z] is larger than the radius [e]; no distance is larger than infinity. *)
Definition beyond (e : ext) (z : Z) : Prop := match e with Dist r => (r < z)%Z | Far => False end.

(** Row [i] of the history is [r]. *)
Definition at_row {X} (H : list (row X)) (i : nat) (r : row X) : Prop := nth_error H i = Some r.

(** The conditions the documentation gives for a starting point (docstring of
    decide_where_to_start_localopt), with radius [e]: it is evaluated and its value is
    a number; it is at least mu away from the boundary and at least nu away from
    every known minimum; no evaluated point within the radius has a smaller value. *)
Definition promising {X} (c : conf X) (e : ext) (H : list (row X)) (r : row X) : Prop :=
  ended r = true /\ (exists z, f r = Val z) /\
  (mu c <= rim c (x r))%Z /\
  ((0 < nu c)%Z -> forall j m, at_row H j m -> lmin m = true -> (nu c <= dist c (x r) (x m))%Z) /\
  (forall j b, at_row H j b -> ended b = true -> less (f b) (f r) -> beyond e (dist c (x r) (x b))).

(** No other evaluated point has exactly the same value. *)
Definition no_tie {X} (H : list (row X)) (i : nat) (r : row X) : Prop :=
  forall j b, at_row H j b -> ended b = true -> f b = f r -> j = i.

(** Distances do not depend on the direction. *)
Definition symmetric {X} (c : conf X) : Prop := forall a b, dist c a b = dist c b a.

(** Points given at the start are numbered from zero and belong to no run; they are
    new to APOSMM. *)
Definition given_ok {X} (given : list (row X)) : Prop :=
  forall i r, at_row given i r -> sid r = i /\ known r = false /\ active r = 0%Z.

(** The manager's answers: results of points that were sent and have no result yet,
    each once, with the point as it was sent. *)
Definition answers {X} (l : list (inc X)) (H : list (row X)) : Prop :=
  NoDup (map i_id l) /\
  forall a, In a l -> exists r, at_row H (i_id a) r /\ ended r = false /\ i_x a = x r.

(** The states in which APOSMM waits for results. *)
Inductive Reach {X} (c : conf X) (given : list (row X)) (size : nat) : st X -> Prop :=
| Reach_boot s out : boot c given size = Ok (s, out) -> Reach c given size s
| Reach_pass s l s1 out :
    Reach c given size s -> answers l (hist s) -> pass c l s = Ok (s1, out) -> Reach c given size s1.

(** Where run [r] started, and the points it has asked for, in order. *)
Definition origin {X} (r : run X) : nat := hd 0 (pts r).
Definition asked {X} (r : run X) : list nat := tl (pts r).
(** Point [i] belongs to a run that has not ended. *)
Definition in_live_run {X} (s : st X) (i : nat) : Prop :=
  exists k r, nth_error (runs s) k = Some r /\ live r = true /\ In i (pts r).
(** How many points are out for evaluation. *)
Definition out_now {X} (H : list (row X)) : nat := countb (fun r => negb (ended r)) H.

(** Run [k] has ended, and [i] is the point of the run closest to where its optimizer
    said it converged; if the optimizer called it optimal, it is marked a minimum. *)
Definition found {X} (c : conf X) (s : st X) (k i : nat) : Prop :=
  exists u p b r, nth_error (runs s) k = Some u /\ live u = false /\
    opt c k (fed u) = Converged p b /\ In i (pts u) /\ at_row (hist s) i r /\
    (forall j q, In j (pts u) -> at_row (hist s) j q -> (dist c (x r) p <= dist c (x q) p)%Z) /\
    (b = true -> lmin r = true).
(** Point [i] is the optimum of an ended run whose optimizer called it optimal, or it
    is a better point of the run within the tolerance of where it converged. *)
Definition optimum {X} (c : conf X) (s : st X) (i : nat) : Prop :=
  exists k u p r o q, nth_error (runs s) k = Some u /\ live u = false /\
    opt c k (fed u) = Converged p true /\ In i (pts u) /\ at_row (hist s) i r /\
    found c s k o /\ at_row (hist s) o q /\
    (i = o \/ (less (f r) (f q) /\ (dist c (x r) p < tol c)%Z)).
(** The sample points, in the order in which they were added. *)
Definition sample {X} (H : list (row X)) : list (row X) := filter (fun r => negb (local r)) H.
