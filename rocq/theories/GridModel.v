(** Model of how the gpCAM generators choose points and keep their data
    (gen_funcs/persistent_gpCAM.py and gen_classes/gpCAM.py). Numbers are exact rationals;
    distances and variances are arguments, the Gaussian process is what it is told. *)
From Coq Require Import QArith.
From Verif Require Import Base PointsModel.
Local Open Scope nat_scope.

(** ** The mesh (persistent_gpCAM.py:74-94) *)
(** np.linspace(l, u, num): [num] is at least 2 *)
Definition linspace (l u : Q) (num : nat) : list Q :=
  map (fun i => (l + Qn i * ((u - l) / Qn (num - 1)))%Q) (seq 0 num).
(** All combinations, the first list slowest *)
Fixpoint product {A} (grids : list (list A)) : list (list A) :=
  match grids with
  | [] => [[]]
  | g :: gs => flat_map (fun a => map (cons a) (product gs)) g
  end.
(** np.meshgrid with its default indexing puts the second dimension first. *)
Definition swap {A} (p : list A) : list A := match p with a :: b :: p' => b :: a :: p' | _ => p end.
Definition mesh {A} (grids : list (list A)) : list (list A) := map swap (product (swap grids)).
Definition generate_mesh (lb ub : list Q) (num : nat) : list (list Q) :=
  mesh (map (fun '(l, u) => linspace l u num) (combine lb ub)).
(** _calculate_grid_distances (123-129), the minimum; [None] without dimensions (min of an
    empty list raises). *)
Definition Qmin2 (a b : Q) : Q := if Qle_bool a b then a else b.
Definition min_distance (lb ub : list Q) (num : nat) : option Q :=
  match map (fun '(l, u) => ((u - l) / Qn (num - 1))%Q) (combine lb ub) with
  | [] => None
  | a :: l => Some (fold_left Qmin2 l a)
  end.

(** ** Points at a distance (132-160) *)
Section Eligible.
Context {P : Type}.
Variable dist : P -> P -> Q.
Definition far_enough (p : P) (chosen : list P) (r : Q) : bool :=
  forallb (fun e => Qle_bool r (dist p e)) chosen.
(** [candidates]: the points in the order of sorted_indices. *)
Fixpoint eligible (candidates chosen : list P) (r : Q) (b : nat) : list P :=
  match candidates with
  | [] => chosen
  | p :: l =>
      if far_enough p chosen r then
        let chosen1 := chosen ++ [p] in
        if length chosen1 =? b then chosen1 else eligible l chosen1 r b
      else eligible l chosen r b
  end.
Definition find_eligible (candidates : list P) (r : Q) (b : nat) : list P := eligible candidates [] r b.
(** The loop over radii (gen_funcs 254-263, gen_classes 120-131): [fuel] passes; [None] if
    it has not come to an end. *)
Fixpoint search (fuel : nat) (candidates : list P) (b : nat) (r_low r_high r_cand : Q) (x_new : list P) : option (list P) :=
  if length x_new <? b then
    match fuel with
    | 0 => None
    | S fuel' =>
        let x1 := find_eligible candidates r_cand b in
        let high := if length x1 <? b then r_cand else r_high in
        search fuel' candidates b r_low high ((high + r_low) / 2)%Q x1
    end
  else Some x_new.
Definition grid_points (fuel : nat) (candidates : list P) (b : nat) (r_low r_high : Q) : option (list P) :=
  search fuel candidates b r_low r_high r_high [].
End Eligible.

(** ** Points with the largest variance (gen_classes 118, gen_funcs 251-252) *)
(** [sorted]: np.argsort(var_vals). The slice [-b:] of a list is all of it for b = 0; the
    points are then assigned to [b] rows, which fails for another number than 1 or [b]. *)
Definition last_of {A} (b : nat) (l : list A) : list A := if b =? 0 then l else skipn (length l - b) l.
Definition assign_rows {A} (b : nat) (l : list A) : res (list A) :=
  if length l =? b then Ok l else match l with [x] => Ok (repeat x b) | _ => Err EValue end.
Definition largest {X} (b : nat) (sorted : list nat) (pts : list X) : res (list X) :=
  bindr (take_points pts (last_of b sorted)) (assign_rows b).
(** GP_CAM_Covar: the points whose variances were evaluated (gen_classes 138-148) are those
    chosen from. *)
Definition class_choice {X} (b : nat) (pts : list X) (sorted : list nat) : res (list X) := largest b sorted pts.
(** persistent_gpCAM_covar (250-252): new points are drawn before the choice. [drawn]: the
    points the variances are of; [drawn_again]: those chosen from. *)
Definition gen_choice {X} (b : nat) (drawn drawn_again : list X) (sorted : list nat) : res (list X) :=
  largest b sorted drawn_again.

(** ** Variances in groups (97-118) *)
(** The rows of range(0, n, g), each with the rows up to min(start + g, n). *)
Fixpoint group_starts (fuel start g n : nat) : list nat :=
  match fuel with
  | 0 => []
  | S fuel' => if start <? n then start :: group_starts fuel' (start + g) g n else []
  end.
Definition eval_var {X W} (posterior : list X -> list W) (g : nat) (pts : list X) : res (list W) :=
  let n := length pts in
  let vals := flat_map (fun start => posterior (firstn (Nat.min (start + g) n - start) (skipn start pts))) (group_starts n 0 g n) in
  if length vals =? n then Ok vals else Err EAssert.

(** ** What the process is told *)
(** Rows with a value that is nan are deleted from both arrays (gen_classes 79-85). *)
Definition without_nan {X} (x : list X) (y : list (option Z)) : list X * list Z :=
  (flat_map (fun '(a, v) => match v with Some _ => [a] | None => [] end) (combine x y),
   flat_map (fun v => match v with Some z => [z] | None => [] end) y).
(** ingest_numpy (76-95): the results carry the points; all data are told again. State:
    all_x, all_y; gives what the process knows. *)
Definition ingest {X} (st : list X * list Z) (calc_in : list (X * option Z)) : list X * list Z :=
  let '(x, y) := without_nan (map fst calc_in) (map snd calc_in) in
  (fst st ++ x, snd st ++ y).
Definition ingest_all {X} (l : list (list (X * option Z))) : list X * list Z := fold_left ingest l ([], []).
(** persistent_gpCAM_covar (271-276): the points sent are paired with the values that came
    back. Simplified: as many values as points. *)
Definition gen_told {X} (sent : list X) (f : list (option Z)) : list X * list Z := without_nan sent f.
