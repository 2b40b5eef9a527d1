(** Model of the sampling generator objects: libensemble/gen_classes/sampling.py
    and libensemble/gen_classes/external/sampling.py. Numbers are exact rationals.
    The random numbers are an arbitrary sequence [u] in which the generator's seed
    determines everything: [u seed i] is the i-th number that default_rng(seed)
    draws; a draw between two bounds takes one number (numpy's uniform). *)
From Coq Require Import QArith String.
From Verif Require Import Base.
Local Open Scope Q_scope.

(** vocs.variables: names with their domains, in order. *)
Definition variables := list (string * (Q * Q)).

(** Generator objects: the variables, the seed, how many numbers were drawn. *)
Record sampler := mkSampler { s_vars : variables; s_seed : Z; s_drawn : nat }.

(** numpy: uniform(low, high) is low + (high - low) * (number in [0, 1)). *)
Definition between (lo hi x : Q) : Q := lo + (hi - lo) * x.

(** rng.uniform(lb, ub, n): one number for each coordinate, in order. *)
Fixpoint uniform (u : nat -> Q) (lb ub : list Q) (k : nat) : list Q :=
  match lb, ub with
  | lo :: lb', hi :: ub' => between lo hi (u k) :: uniform u lb' ub' (S k)
  | _, _ => []
  end.

(** gen_classes/sampling.py:23-30. *)
Definition new_sampler (vs : variables) (seed : Z) : sampler := mkSampler vs seed 0.

(** gen_classes/sampling.py:32-38: the loop of suggest_numpy; the rows of out["x"]. *)
Fixpoint suggest_rows (u : nat -> Q) (lb ub : list Q) (n : nat) (k : nat) : list (list Q) :=
  match n with
  | O => []
  | S n' => uniform u lb ub k :: suggest_rows u lb ub n' (k + length lb)
  end.
Definition suggest_numpy (u : Z -> nat -> Q) (n : nat) (s : sampler) : list (list Q) * sampler :=
  let lb := map (fun v => fst (snd v)) (s_vars s) in
  let ub := map (fun v => snd (snd v)) (s_vars s) in
  (suggest_rows (u (s_seed s)) lb ub n (s_drawn s), mkSampler (s_vars s) (s_seed s) (s_drawn s + n * length lb)).

(** gen_classes/external/sampling.py:18-24: _validate_vocs refuses no variables. The seed is 1. *)
Definition new_external (vs : variables) : res sampler :=
  match vs with [] => Err EAssert | _ => Ok (mkSampler vs 1 0) end.

(** gen_classes/external/sampling.py:26-33: a dictionary for each trial. *)
Fixpoint trial (u : nat -> Q) (vs : variables) (k : nat) : list (string * Q) :=
  match vs with
  | [] => []
  | (name, (lo, hi)) :: vs' => (name, between lo hi (u k)) :: trial u vs' (S k)
  end.
Fixpoint trials (u : nat -> Q) (vs : variables) (n k : nat) : list (list (string * Q)) :=
  match n with
  | O => []
  | S n' => trial u vs k :: trials u vs n' (k + length vs)
  end.
Definition suggest (u : Z -> nat -> Q) (n : nat) (s : sampler) : list (list (string * Q)) * sampler :=
  (trials (u (s_seed s)) (s_vars s) n (s_drawn s), mkSampler (s_vars s) (s_seed s) (s_drawn s + n * length (s_vars s))).

(** gen_classes/external/sampling.py:40-62, UniformSampleArray: one variable, whose
    domain is a list of bounds. _validate_vocs refuses any other number. *)
Record array_sampler := mkArr { r_key : string; r_domain : list (Q * Q); r_drawn : nat }.
Definition new_array (vs : list (string * list (Q * Q))) : res array_sampler :=
  match vs with [(key, dom)] => Ok (mkArr key dom 0) | _ => Err EAssert end.
Fixpoint array_of (u : nat -> Q) (dom : list (Q * Q)) (k : nat) : list Q :=
  match dom with [] => [] | b :: dom' => between (fst b) (snd b) (u k) :: array_of u dom' (S k) end.
Fixpoint arrays (u : nat -> Q) (key : string) (dom : list (Q * Q)) (n k : nat) : list (list (string * list Q)) :=
  match n with O => [] | S n' => [(key, array_of u dom k)] :: arrays u key dom n' (k + length dom) end.
Definition suggest_array (u : Z -> nat -> Q) (n : nat) (s : array_sampler) : list (list (string * list Q)) * array_sampler :=
  (arrays (u 1%Z) (r_key s) (r_domain s) n (r_drawn s), mkArr (r_key s) (r_domain s) (r_drawn s + n * length (r_domain s))).
