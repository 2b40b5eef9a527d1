(** Model of the generator that finds finite-difference parameters
    (gen_funcs/persistent_fd_param_finder.py). Points are exact rationals; values of the
    functions are of any type; the octave program that estimates the noise is a function
    of the values it is given. *)
From Coq Require Import QArith.
From Verif Require Import Base PointsModel.
Local Open Scope nat_scope.

Section Fd.
Context {V : Type}.
(** user parameters (46-52): x0, p, nf, the first values of noise_h_mat, maxnoiseits, f0 *)
Record fd_user := mkuser { u_x0 : list Q; u_p : nat; u_nf : nat; u_h : nat -> nat -> Q; u_maxits : nat; u_f0 : nat -> V }.
(** A row sent: x, x_ind, f_ind, n_ind. *)
Record fd_row := mkrow { r_x : list Q; r_i : nat; r_j : nat; r_k : nat }.
(** A row received: x_ind, f_ind, n_ind, f_val. *)
Record fd_result := mkres { s_i : nat; s_j : nat; s_k : nat; s_v : V }.
(** Arrays over pairs, as functions. *)
Definition set2 {A} (a : nat -> nat -> A) (i j : nat) (v : A) : nat -> nat -> A :=
  fun i' j' => if (i' =? i) && (j' =? j) then v else a i' j'.

(** build_H0 (10-32): x0 + (k - nf/2) * h[i, j] * E[i] *)
Definition shifted (x0 : list Q) (i : nat) (d : Q) : list Q := upd x0 i (fun x => (x + d)%Q).
Definition build_pair (u : fd_user) (h : nat -> nat -> Q) (ij : nat * nat) : list fd_row :=
  let '(i, j) := ij in
  flat_map (fun k => if k =? u_nf u / 2 then [] else [mkrow (shifted (u_x0 u) i ((Qn k - Qn (u_nf u) / 2) * h i j)%Q) i j k])
    (seq 0 (u_nf u + 1)).
Definition build (u : fd_user) (h : nat -> nat -> Q) (pairs : list (nat * nat)) : list fd_row :=
  flat_map (build_pair u h) pairs.

(** State of the loop: noise_h_mat, inform, Fnoise, Fhist0, iters (50-62, 69). Fnoise is
    [None] where it has not been set (0 in the code). *)
Record fd_state := mkfd {
  g_h : nat -> nat -> Q; g_inform : nat -> nat -> nat; g_noise : nat -> nat -> option V;
  g_hist : nat -> nat -> nat -> option V; g_iters : nat -> nat -> nat }.
(** 54-62: zeros ([None]), with f0 in the middle. *)
Definition fd_start (u : fd_user) : fd_state :=
  mkfd (u_h u) (fun _ _ => 0) (fun _ _ => None) (fun _ j k => if k =? u_nf u / 2 then Some (u_f0 u j) else None) (fun _ _ => 1).
(** 64: all pairs; for another number of dimensions than 2 the rows of the reshaped array
    are not pairs, and the loop of build_H0 raises. *)
Definition all_pairs (n p : nat) : list (nat * nat) := flat_map (fun i => map (pair i) (seq 0 p)) (seq 0 n).
Definition first_pairs (u : fd_user) : res (list (nat * nat)) :=
  if length (u_x0 u) =? 2 then Ok (all_pairs 2 (u_p u)) else Err EValue.

(** 74: np.unique of the pairs received. Simplified: a row with indices outside the arrays
    raises before any pair is looked at (in the code: when its pair is). *)
Definition in_range (u : fd_user) (r : fd_result) : bool := (s_i r <? length (u_x0 u)) && (s_j r <? u_p u).
Definition unique_pairs (u : fd_user) (calc_in : list fd_result) : list (nat * nat) :=
  filter (fun '(i, j) => existsb (fun r => (s_i r =? i) && (s_j r =? j)) calc_in) (all_pairs (length (u_x0 u)) (u_p u)).
(** 81-82: the first value with these indices *)
Definition first_value (calc_in : list fd_result) (i j k : nat) : res V :=
  match find (fun r => (s_i r =? i) && (s_j r =? j) && (s_k r =? k)) calc_in with
  | Some r => Ok (s_v r)
  | None => Err EIndex
  end.
(** 79-82: the loop over k, from [k] on. The comparison is with nf / 2, not nf // 2. *)
Fixpoint read_values (u : fd_user) (calc_in : list fd_result) (i j : nat) (ks : list nat) (hist : nat -> nat -> nat -> option V) : res (nat -> nat -> nat -> option V) :=
  match ks with
  | [] => Ok hist
  | k :: ks' =>
      if 2 * k =? u_nf u then read_values u calc_in i j ks' hist
      else bindr (first_value calc_in i j k) (fun v =>
        read_values u calc_in i j ks' (fun i' j' k' => if (i' =? i) && (j' =? j) && (k' =? k) then Some v else hist i' j' k'))
  end.
(** A call of octave: the pair, the values given, and what came back *)
Record fd_call := mkcall { c_i : nat; c_j : nat; c_data : list (option V); c_inform : nat; c_noise : V }.
Variable ecnoise : list (option V) -> nat * V.
(** 78-117, one pair. Gives the call and whether the pair needs more points. *)
Definition do_pair (u : fd_user) (calc_in : list fd_result) (i j : nat) (g : fd_state) : res (fd_state * fd_call * bool) :=
  bindr (read_values u calc_in i j (seq 0 (u_nf u + 1)) (g_hist g)) (fun hist =>
  let data := map (hist i j) (seq 0 (u_nf u + 1)) in
  let '(inform, noise) := ecnoise data in
  let c := mkcall i j data inform noise in
  let inform' := set2 (g_inform g) i j inform in
  if 2 <=? inform then
    if g_iters g i j <? u_maxits u then
      Ok (mkfd (set2 (g_h g) i j (if inform =? 3 then g_h g i j / 100 else g_h g i j * 100)%Q) inform' (g_noise g) hist
            (set2 (g_iters g) i j (g_iters g i j + 1)), c, true)
    else Ok (mkfd (g_h g) inform' (g_noise g) hist (g_iters g), c, false)
  else Ok (mkfd (g_h g) inform' (set2 (g_noise g) i j (Some noise)) hist (g_iters g), c, false)).
Fixpoint do_pairs (u : fd_user) (calc_in : list fd_result) (pairs : list (nat * nat)) (g : fd_state) : res (fd_state * list fd_call * list (nat * nat)) :=
  match pairs with
  | [] => Ok (g, [], [])
  | (i, j) :: pairs' =>
      bindr (do_pair u calc_in i j g) (fun '(g1, c, more) =>
      bindr (do_pairs u calc_in pairs' g1) (fun '(g2, cs, new) => Ok (g2, c :: cs, if more then (i, j) :: new else new)))
  end.
(** 119: np.all(inform == 1) *)
Definition all_found (u : fd_user) (g : fd_state) : bool :=
  forallb (fun '(i, j) => g_inform g i j =? 1) (all_pairs (length (u_x0 u)) (u_p u)).

Inductive fd_msg := FStop | FResults (calc_in : list fd_result).
Inductive fd_event := FSent (rows : list fd_row) | FCalled (c : fd_call).
(** The end: still waiting, returned (Fnoise; the last batch) or raised. *)
Inductive fd_end := FWaiting | FReturned (h0 : list fd_row) (noise : nat -> nat -> option V) | FRaised (e : err).
(** The loop (73-126). [h0]: the batch sent last. *)
Fixpoint fd_loop (u : fd_user) (g : fd_state) (h0 : list fd_row) (msgs : list fd_msg) : list fd_event * fd_end :=
  match msgs with
  | [] => ([], FWaiting)
  | FStop :: _ => ([], FReturned h0 (g_noise g))
  | FResults calc_in :: msgs' =>
      if forallb (in_range u) calc_in then
        match do_pairs u calc_in (unique_pairs u calc_in) g with
        | Err e => ([], FRaised e)
        | Ok (g1, cs, new) =>
            if all_found u g1 then (map FCalled cs, FReturned h0 (g_noise g1))
            else
              let h1 := build u (g_h g1) new in
              let '(ev, e) := fd_loop u g1 h1 msgs' in
              (map FCalled cs ++ FSent h1 :: ev, e)
        end
      else ([], FRaised EIndex)
  end.
(** fd_param_finder (35-126) *)
Definition fd_run (u : fd_user) (msgs : list fd_msg) : list fd_event * fd_end :=
  match first_pairs u with
  | Err e => ([], FRaised e)
  | Ok pairs =>
      let h0 := build u (u_h u) pairs in
      let '(ev, e) := fd_loop u (fd_start u) h0 msgs in
      (FSent h0 :: ev, e)
  end.
End Fd.
Arguments fd_user : clear implicits.
Arguments fd_state : clear implicits.
Arguments fd_result : clear implicits.
Arguments fd_call : clear implicits.
Arguments fd_event : clear implicits.
Arguments fd_end : clear implicits.
Arguments fd_msg : clear implicits.
