(** Model of what the provided sampling functions put into the points they send
    (gen_funcs/sampling.py, persistent_sampling_var_resources.py, persistent_sampling.py
    and persistent_inverse_bayes.py). Numbers are exact rationals or integers: rounding is
    not modelled. Random draws and permutations are arguments. *)
From Coq Require Import QArith Qround Permutation.
From Verif Require Import Base SamplerModel.
Local Open Scope nat_scope.

Definition Qn (n : nat) : Q := inject_Z (Z.of_nat n).

(** ** latin_hypercube_sample (sampling.py:156-201) *)
(** intervals[i] of np.linspace(0, 1, k + 1), line 185 *)
Definition interval (k i : nat) : Q := (Qn i / Qn k)%Q.
(** Lines 191-194; [r i j]: rand_source. *)
Definition rand_pt (k : nat) (r : nat -> nat -> Q) (i j : nat) : Q :=
  (r i j * (interval k (S i) - interval k i) + interval k i)%Q.
(** Lines 197-198 and 178; [perm j]: the permutation drawn for column [j]. *)
Definition lhs_row (k : nat) (r : nat -> nat -> Q) (perm : nat -> list nat) (lb ub : list Q) (i : nat) : list Q :=
  map (fun '(j, (l, u)) => (rand_pt k r (nth i (perm j) 0%nat) j * (u - l) + l)%Q)
      (combine (seq 0 (length lb)) (combine lb ub)).
Definition latin_hypercube (k : nat) (r : nat -> nat -> Q) (perm : nat -> list nat) (lb ub : list Q) : list (list Q) :=
  map (lhs_row k r perm lb ub) (seq 0 k).

(** ** uniform_random_sample_obj_components (sampling.py:101-128) *)
(** One row; the priorities are random and left out. *)
Record crow (X : Type) := mkcrow { c_x : X; c_component : nat; c_pt_id : nat }.
Arguments mkcrow {X}. Arguments c_x {X}. Arguments c_component {X}. Arguments c_pt_id {X}.
(** [m] components, [b] points, [H] rows in the history, [draw i] the i-th point of the call.
    len(H) // 0 raises, if there is a point. *)
Definition obj_components {X} (m b H : nat) (draw : nat -> X) : res (list (crow X)) :=
  if (m =? 0) && negb (b =? 0) then Err EZeroDiv
  else Ok (flat_map (fun i => map (fun c => mkcrow (draw i) c (H / m + i)) (seq 0 m)) (seq 0 b)).
(** A run in which each call gets the history with all rows of the calls before. *)
Fixpoint component_calls {X} (m : nat) (calls : list (nat * (nat -> X))) (H : list (crow X)) : res (list (crow X)) :=
  match calls with
  | [] => Ok H
  | (b, draw) :: calls' =>
      match obj_components m b (length H) draw with
      | Ok l => component_calls m calls' (H ++ l)
      | Err e => Err e
      end
  end.

(** ** uniform_sample_with_var_gpus (persistent_sampling_var_resources.py:85-91) *)
(** int(): towards zero *)
Definition trunc (q : Q) : Z := if Qle_bool 0 q then Qfloor q else (- Qfloor (- q))%Z.
Definition ngpus (max_gpus : positive) (lb ub x : Q) : Z :=
  let bucket_size := ((ub - lb) / inject_Z (Zpos max_gpus))%Q in
  (trunc ((x - lb) / bucket_size) + 1)%Z.

(** ** batched_history_matching (persistent_sampling.py:240-244) *)
(** The points from which the next mean and covariance are made: [sorted] is what
    np.argsort gives for the values, [q] the number of best values. *)
Fixpoint take_points {X} (pts : list X) (inds : list nat) : res (list X) :=
  match inds with
  | [] => Ok []
  | i :: inds' =>
      match nth_error pts i with
      | None => Err EIndex
      | Some x => bindr (take_points pts inds') (fun l => Ok (x :: l))
      end
  end.
Definition best_points {X} (q : nat) (sorted : list nat) (pts : list X) : res (list X) :=
  take_points pts (firstn q sorted).
(** np.argsort: some order of the positions in which the values do not decrease (ties are
    broken in any way: the default is not a stable sort). *)
Definition is_argsort (f : list Z) (p : list nat) : Prop :=
  Permutation p (seq 0 (length f)) /\
  forall a b i j, a < b -> nth_error p a = Some i -> nth_error p b = Some j -> (nth i f 0 <= nth j f 0)%Z.

(** ** persistent_updater_after_likelihood (persistent_inverse_bayes.py:11-43) *)
Record brow := mkbrow { b_batch : nat; b_subbatch : nat; b_weight : Z }.
(** Lines 29-37: the rows of one batch. The weights are set if none is nan; an array of
    another length cannot be assigned, unless it has one element. *)
Definition all_numbers (w : list value) : bool := forallb (fun v => match v with Some _ => true | None => false end) w.
Definition weight_of (w : list value) (row : nat) : Z :=
  match (match w with [v] => Some v | _ => nth_error w row end) with Some (Some z) => z | _ => 0%Z end.
Definition bayes_batch (size num batch : nat) (w : list value) : res (list brow) :=
  let rows := flat_map (fun j => map (fun i => size * j + i) (seq 0 size)) (seq 0 num) in
  if all_numbers w then
    if (length w =? size * num) || (length w =? 1)
    then Ok (map (fun row => mkbrow batch (row / size) (weight_of w row)) rows)
    else Err EValue
  else Ok (map (fun row => mkbrow batch (row / size) 0%Z) rows).
(** Line 41: w = prior + like - prop, with numpy's broadcasting of arrays of one element. *)
Definition add_nan (a b : value) : value := match a, b with Some x, Some y => Some (x + y)%Z | _, _ => None end.
Definition new_weights (N : nat) (prior prop : nat -> Z) (like : list value) : res (list value) :=
  let d i := Some (prior i - prop i)%Z in
  if length like =? N then Ok (map (fun i => add_nan (d i) (nth i like None)) (seq 0 N))
  else if length like =? 1 then Ok (map (fun i => add_nan (d i) (nth 0 like None)) (seq 0 N))
  else if N =? 1 then Ok (map (add_nan (d 0)) like)
  else Err EValue.
(** The loop, lines 26-43; [prior k i] and [prop k i] are drawn for row [i] of batch [k]. *)
Fixpoint bayes (size num : nat) (prior prop : nat -> nat -> Z) (batch : nat) (w : list value) (ms : list (mail value))
  : list (list brow) * option (res unit) :=
  match bayes_batch size num batch w with
  | Err e => ([], Some (Err e))
  | Ok out =>
      match ms with
      | [] => ([out], None)
      | m :: ms' =>
          match match rows m with Some l => new_weights (size * num) (prior batch) (prop batch) l | None => Ok w end with
          | Err e => ([out], Some (Err e))
          | Ok w1 =>
              if stops m then ([out], Some (Ok tt))
              else let '(o, r) := bayes size num prior prop (S batch) w1 ms' in (out :: o, r)
          end
      end
  end.
(** w starts as a single nan, line 25 *)
Definition run_bayes (size num : nat) (prior prop : nat -> nat -> Z) (ms : list (mail value)) :=
  bayes size num prior prop 0 [None] ms.
