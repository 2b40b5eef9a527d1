(** Model of gen_funcs/persistent_aposmm.py: the generator function of APOSMM, which
    samples a unit cube, starts local optimization runs from promising points and
    passes each evaluated point to the run that asked for it.

    Numbers. The code only compares distances and function values, and takes
    minima; it never adds them. Distances are integers here, since any finite set of
    floats maps to integers with the same order, plus infinity. The metric, the
    distance to the boundary and the radius r_k are arbitrary functions, so nothing
    depends on floating-point rounding or on the dimension. *)
From Verif Require Import Base.
Local Open Scope nat_scope.

(** A float as a function value, with the comparisons of IEEE 754: nothing is less
    than, greater than or equal to nan. *)
Inductive fl := Nan | NegInf | Val (z : Z) | PosInf.
Definition isnan (a : fl) : bool := match a with Nan => true | _ => false end.
Definition isinf (a : fl) : bool := match a with NegInf | PosInf => true | _ => false end.
Definition flt (a b : fl) : bool :=
  match a, b with
  | Nan, _ | _, Nan => false
  | Val x, Val y => (x <? y)%Z
  | NegInf, NegInf => false
  | NegInf, _ => true
  | _, PosInf => match a with PosInf => false | _ => true end
  | _, _ => false
  end.
Definition feq (a b : fl) : bool :=
  match a, b with
  | NegInf, NegInf | PosInf, PosInf => true
  | Val x, Val y => (x =? y)%Z
  | _, _ => false
  end.

(** A distance, or np.inf. *)
Inductive ext := Dist (z : Z) | Far.
Definition elt (a b : ext) : bool :=
  match a, b with
  | Dist x, Dist y => (x <? y)%Z
  | Dist _, Far => true
  | Far, _ => false
  end.
Definition finite (a : ext) : bool := match a with Dist _ => true | Far => false end.

Section Aposmm.
Context {X : Type}.                 (* points of the unit cube *)

(** A row of local_H (persistent_aposmm.py:669-687). [better_l], [better_s]:
    dist_to_better_l with ind_of_better_l, and the same for _s; None is -1. The
    columns x, grad and fvec go with x_on_cube and f and are left out. *)
Record row := mkrow {
  x : X;                            (* x_on_cube *)
  f : fl;
  local : bool;                     (* local_pt *)
  known : bool;                     (* known_to_aposmm *)
  ended : bool;                     (* sim_ended *)
  started : bool;                   (* started_run *)
  active : Z;                       (* num_active_runs *)
  lmin : bool;                      (* local_min *)
  paused : bool;
  sid : nat;                        (* sim_id *)
  edge : ext;                       (* dist_to_unit_bounds *)
  dl : ext; il : option nat;
  ds : ext; is : option nat }.

Definition set_result (i : nat) (a : X) (b : fl) r :=
  mkrow a b (local r) (known r) true (started r) (active r) (lmin r) (paused r) i (edge r) (dl r) (il r) (ds r) (is r).
Definition set_known (e : ext) r :=
  mkrow (x r) (f r) (local r) true (ended r) (started r) (active r) (lmin r) (paused r) (sid r) e (dl r) (il r) (ds r) (is r).
Definition set_l (e : ext) (i : option nat) r :=
  mkrow (x r) (f r) (local r) (known r) (ended r) (started r) (active r) (lmin r) (paused r) (sid r) (edge r) e i (ds r) (is r).
Definition set_s (e : ext) (i : option nat) r :=
  mkrow (x r) (f r) (local r) (known r) (ended r) (started r) (active r) (lmin r) (paused r) (sid r) (edge r) (dl r) (il r) e i.
Definition set_started r :=
  mkrow (x r) (f r) (local r) (known r) (ended r) true (active r) (lmin r) (paused r) (sid r) (edge r) (dl r) (il r) (ds r) (is r).
Definition set_lmin r :=
  mkrow (x r) (f r) (local r) (known r) (ended r) (started r) (active r) true (paused r) (sid r) (edge r) (dl r) (il r) (ds r) (is r).
Definition set_active (z : Z) r :=
  mkrow (x r) (f r) (local r) (known r) (ended r) (started r) z (lmin r) (paused r) (sid r) (edge r) (dl r) (il r) (ds r) (is r).

(** What a local optimizer gives back: the next point, its result with opt_flag, or
    an exception (aposmm_localopt_support.py:144-186). *)
Inductive move := Next (a : X) | Converged (a : X) (flag : bool) | Fails.

(** The user's settings and everything outside the model: the metric, the radius
    formula, random draws (the draw for row [i] of the history) and the optimizers.
    What optimizer [k] does depends on [k] and on all results passed to it so far,
    so it may have any memory, and each run its own method. *)
Record conf := mkconf {
  dist : X -> X -> Z;               (* cdist, Euclidean *)
  rim : X -> Z;                     (* smallest distance to a bound, lines 390-392 *)
  store : X -> X;                   (* identity, or modulo 1 if periodic, lines 352-353 *)
  mu : Z;
  nu : Z;
  tol : Z;                          (* tol_x2, line 484 *)
  ld : nat;                         (* lhs_divisions *)
  big : ext;                        (* 1e8, line 636 *)
  radius : nat -> ext;              (* rk_const * (log k / k) ** (1 / n) *)
  max_runs : option nat;            (* max_active_runs, None is infinity *)
  k_minima : option nat;            (* stop_after_k_minima *)
  k_runs : option nat;              (* stop_after_k_runs *)
  nworkers : nat;
  user_pts : list X;                (* sample_points, scaled to the cube *)
  draw : nat -> X;
  opt : nat -> list (X * fl) -> move }.
Variable c : conf.

(** Rows that can be used: evaluated, value not nan (line 382). *)
Definition usable r : bool := ended r && negb (isnan (f r)).
Definition apart (a b : row) : Z := dist c (x a) (x b).

(** Lines 416-424: the closest of the given rows (np.argmin takes the first). *)
Fixpoint closest (n : row) (l : list row) : option row :=
  match l with
  | [] => None
  | r :: l' => match closest n l' with
               | Some b => if (apart n b <? apart n r)%Z then Some b else Some r
               | None => Some r
               end
  end.

(** Lines 394-407: other points learn that [n] (row [i]) is closer and better. *)
Definition teach (i : nat) (n r : row) : row :=
  if usable r && flt (f n) (f r) then
    if local n then if elt (Dist (apart n r)) (dl r) then set_l (Dist (apart n r)) (Some i) r else r
    else if elt (Dist (apart n r)) (ds r) then set_s (Dist (apart n r)) (Some i) r else r
  else r.
(** Lines 412-413: better than, or as good as, [n]; not [n] itself. *)
Definition as_good (i : nat) (n : row) (loc : bool) (r : row) : bool :=
  usable r && negb (flt (f n) (f r)) && Bool.eqb (local r) loc && negb (sid r =? i).

(** Lines 384-424: the body of the loop over points not known yet. [usable] does not
    change in the loop, so the mask computed before it (line 382) is the same. *)
Definition learn (H : list row) (i : nat) : list row :=
  match nth_error H i with
  | Some n =>
      if usable n then
        let H1 := upd H i (set_known (Dist (rim c (x n)))) in
        let H2 := map (teach i n) H1 in
        let H3 := match closest n (filter (as_good i n true) H2) with
                  | Some b => upd H2 i (set_l (Dist (apart n b)) (Some (sid b)))
                  | None => H2 end in
        match closest n (filter (as_good i n false) H3) with
        | Some b => upd H3 i (set_s (Dist (apart n b)) (Some (sid b)))
        | None => H3 end
      else H
  | None => H
  end.
Definition unknown (H : list row) : list nat :=
  map fst (filter (fun p => negb (known (snd p))) (combine (seq 0 (length H)) H)).

(** np.min: nan if there is one *)
Fixpoint fmin (l : list fl) : fl :=
  match l with
  | [] => PosInf
  | [a] => a
  | a :: l' => let m := fmin l' in
               if isnan a || isnan m then Nan else if flt m a then m else a
  end.
(** Lines 437-444: the best sample point, if several are equally good. Asking for
    the first of no points raises IndexError. *)
Definition settle (H : list row) : res (list row) :=
  let S := filter (fun r => negb (local r)) H in
  match S with
  | [] => Ok H
  | _ => if forallb (fun r => finite (ds r)) S then
           if length S <? 2 then Err EAssert
           else match filter (fun r => feq (f r) (fmin (map f S))) S with
                | [] => Err EIndex
                | b :: _ => Ok (upd H (sid b) (set_s Far None))
                end
         else Ok H
  end.
(** update_history_dist, lines 372-444 *)
Definition update_dist (H : list row) : res (list row) :=
  settle (fold_left learn (unknown H) H).

(** calc_rk, lines 632-646: log 0 raises ValueError. *)
Definition calc_rk (ns : nat) : res ext :=
  if ld c =? 0 then
    if ns =? 1 then Ok (big c) else if ns =? 0 then Err EValue else Ok (radius c ns)
  else let k := ns / ld c in if k <=? 1 then Ok Far else Ok (radius c k).

(** Lines 559-579: conditions 2 to 5 *)
Definition test_2_to_5 (H : list row) (rk : ext) (r : row) : bool :=
  ended r && elt rk (ds r) && negb (started r) && negb (elt (edge r) (Dist (mu c))) &&
  (negb (0 <? nu c)%Z || forallb (fun m => negb (lmin m) || (nu c <=? apart r m)%Z) H).
(** Lines 588-596, 602-603 and 621-622 *)
Definition sample_seed (H : list row) (rk : ext) (r : row) : bool :=
  negb (local r) && negb (isinf (f r)) && negb (isnan (f r)) && test_2_to_5 H rk r &&
  elt rk (dl r) && negb (paused r).
(** Lines 606-616 *)
Definition local_seed (H : list row) (rk : ext) (r : row) : bool :=
  local r && elt rk (dl r) && negb (isinf (f r)) && negb (isnan (f r)) && test_2_to_5 H rk r &&
  (active r =? 0)%Z && negb (lmin r).

(** np.argsort. Its order among equal values is not specified; here the one found
    first comes first. *)
Fixpoint insert (p : nat * row) (l : list (nat * row)) : list (nat * row) :=
  match l with
  | [] => [p]
  | q :: l' => if flt (f (snd q)) (f (snd p)) then q :: insert p l' else p :: q :: l'
  end.
Definition sort_by_f (l : list (nat * row)) : list (nat * row) := fold_right insert [] l.

(** decide_where_to_start_localopt, lines 505-629 *)
Definition decide (H : list row) (ns : nat) : res (list nat) :=
  bindr (calc_rk ns) (fun rk =>
  let P := combine (seq 0 (length H)) H in
  Ok (map fst (sort_by_f (filter (fun p => sample_seed H rk (snd p)) P ++
                          filter (fun p => local_seed H rk (snd p)) P)))).

(** add_to_local_H, lines 330-361, with initialize_dists_and_inds, 364-369. Rows
    start as zeros; a point of a run is in one active run. *)
Definition fresh_row (loc : bool) (i : nat) (a : X) : row :=
  mkrow (store c a) (Val 0) loc false false false (if loc then 1 else 0)%Z false false i Far Far None Far None.
Definition add_pts (H : list row) (pts : list X) (loc : bool) : list row :=
  H ++ map (fun p => fresh_row loc (fst p) (snd p)) (combine (seq (length H) (length pts)) pts).

(** add_k_sample_points_to_local_H, lines 766-779 *)
Definition add_samples (k : nat) (H : list row) : list row :=
  let v := countb (fun r => negb (local r)) H in
  let u := firstn k (skipn v (user_pts c)) in
  let H1 := add_pts H u false in
  add_pts H1 (map (fun j => draw c (length H1 + j)) (seq 0 (k - length u))) false.

(** A local optimization run: run_order, what its optimizer was given, and whether it
    is in local_opters (is_running is true of all of those). *)
Record run := mkrun { pts : list nat; fed : list (X * fl); live : bool }.
(** The variables of aposmm. total_runs is the length of [runs]; [kids] is
    sim_id_to_child_inds; [quit] is ended_runs. *)
Record st := mkst {
  hist : list row;
  n_s : nat;
  runs : list run;
  kids : list (nat * nat);
  quit : list nat;
  first : bool }.

(** A row of calc_in: sim_id, x_on_cube and f. The other columns of persis_in are
    taken to come back as they were sent. *)
Record inc := mkinc { i_id : nat; i_x : X; i_f : fl }.

(** Lines 317-320: results are written to the rows they name. *)
Fixpoint write (l : list inc) (H : list row) : res (list row) :=
  match l with
  | [] => Ok H
  | a :: l' => if i_id a <? length H then write l' (upd H (i_id a) (set_result (i_id a) (i_x a) (i_f a)))
               else Err EIndex
  end.
Definition is_sample (H : list row) (i : nat) : bool :=
  match nth_error H i with Some r => negb (local r) | None => false end.
(** update_local_H_after_receiving, lines 306-327 *)
Definition receive (l : list inc) (s : st) : res st :=
  bindr (write l (hist s)) (fun H =>
  bindr (update_dist H) (fun H' =>
  Ok (mkst H' (n_s s + countb (fun a => is_sample H (i_id a)) l) (runs s) (kids s) (quit s) (first s)))).

(** update_history_optimal, lines 456-502. The points of a run are in increasing
    order and differ, so np.unique changes nothing. *)
Definition rows_of (H : list row) (l : list nat) : list (nat * row) :=
  flat_map (fun i => match nth_error H i with Some r => [(i, r)] | None => [] end) l.
Fixpoint nearest (a : X) (l : list (nat * row)) : option (nat * row) :=
  match l with
  | [] => None
  | p :: l' => match nearest a l' with
               | Some b => if (dist c (x (snd b)) a <? dist c (x (snd p)) a)%Z then Some b else Some p
               | None => Some p
               end
  end.
Definition mark_optimal (a : X) (flag : bool) (H : list row) (l : list nat) : res (list row * nat) :=
  match nearest a (rows_of H l) with
  | None => Err EValue                  (* argmin of an empty array *)
  | Some (o, b) =>
      let also := filter (fun p => flt (f (snd p)) (f b) && (dist c (x (snd p)) a <? tol c)%Z) (rows_of H l) in
      let marks := if flag then map fst also ++ [o] else [] in
      let H1 := fold_left (fun H i => upd H i set_lmin) marks H in
      Ok (fold_left (fun H i => upd H i (fun r => set_active (active r - 1) r)) l H1, o)
  end.

(** Lines 232-249: one run is given the result it waits for. [nw], [op]:
    new_inds_to_send_mgr and new_opt_inds_to_send_mgr. *)
Definition feed (k : nat) (a : inc) (s : st) (nw op : list nat) : res (st * list nat * list nat) :=
  match nth_error (runs s) k with
  | Some r =>
      if live r then
        let fd := fed r ++ [(i_x a, i_f a)] in
        match opt c k fd with
        | Next p =>
            let j := length (hist s) in
            Ok (mkst (add_pts (hist s) [p] true) (n_s s)
                     (upd (runs s) k (fun _ => mkrun (pts r ++ [j]) fd true))
                     (kids s ++ [(j, k)]) (quit s) (first s), nw ++ [j], op)
        | Converged p flag =>
            bindr (mark_optimal p flag (hist s) (pts r)) (fun '(H, o) =>
            Ok (mkst H (n_s s) (upd (runs s) k (fun _ => mkrun (pts r) fd false))
                     (kids s) (quit s ++ [k]) (first s), nw, op ++ [o]))
        | Fails => Err (EOther 1)
        end
      else Err EKey
  | None => Err EKey
  end.
Definition kids_of (i : nat) (s : st) : list nat :=
  map snd (filter (fun p => fst p =? i) (kids s)).
Fixpoint feed_all (ks : list nat) (a : inc) (s : st) (nw op : list nat) : res (st * list nat * list nat) :=
  match ks with
  | [] => Ok (s, nw, op)
  | k :: ks' => bindr (feed k a s nw op) (fun '(s1, n1, o1) => feed_all ks' a s1 n1 o1)
  end.
(** Lines 228-249 *)
Fixpoint advance (l : list inc) (s : st) (nw op : list nat) : res (st * list nat * list nat) :=
  match l with
  | [] => Ok (s, nw, op)
  | a :: l' => bindr (feed_all (kids_of (i_id a) s) a s nw op) (fun '(s1, n1, o1) => advance l' s1 n1 o1)
  end.

(** Line 254 *)
Definition room (s : st) : bool :=
  match max_runs c with None => true | Some m => countb live (runs s) <? m end.
(** Lines 255-280. If the run has converged at once, len() of the message raises
    TypeError in add_to_local_H. *)
Definition start (i : nat) (s : st) (nw : list nat) : res (st * list nat) :=
  match nth_error (hist s) i with
  | Some r =>
      let k := length (runs s) in
      let fd := [(x r, f r)] in
      match opt c k fd with
      | Next p =>
          let H := upd (hist s) i set_started in
          let j := length H in
          Ok (mkst (add_pts H [p] true) (n_s s) (runs s ++ [mkrun [i; j] fd true])
                   (kids s ++ [(j, k)]) (quit s) (first s), nw ++ [j])
      | Converged _ _ => Err EType
      | Fails => Err (EOther 1)
      end
  | None => Err EIndex
  end.
(** Lines 253-280 *)
Fixpoint start_all (l : list nat) (s : st) (nw : list nat) : res (st * list nat) :=
  match l with
  | [] => Ok (s, nw)
  | i :: l' => if room s then bindr (start i s nw) (fun '(s1, n1) => start_all l' s1 n1)
               else start_all l' s nw
  end.

(** Lines 251-296, after results were received ([nr] of them): runs are started, the
    batch is filled with sample points and sent. *)
Definition finish (nr : nat) (s : st) (nw op : list nat) : res (st * list nat) :=
  bindr (decide (hist s) (n_s s)) (fun l =>
  bindr (start_all l s nw) (fun '(s1, n1) =>
  let want := if first s then nworkers c - 1 else nr in
  let k := want - length n1 in
  let H := add_samples k (hist s1) in
  Ok (mkst H (n_s s1) (runs s1) (kids s1) (quit s1) false,
      n1 ++ seq (length (hist s1)) k ++ op))).
(** One pass of the loop with results (lines 203-296): the state and the rows sent. *)
Definition pass (l : list inc) (s : st) : res (st * list nat) :=
  bindr (receive l s) (fun s1 =>
  bindr (advance l s1 [] []) (fun '(s2, nw, op) => finish (length l) s2 nw op)).

(** Lines 218-220: enough minima or ended runs *)
Definition enough (s : st) : bool :=
  match k_minima c with None => false | Some k => k <=? countb lmin (hist s) end ||
  match k_runs c with None => false | Some k => k <=? length (quit s) end.

(** initialize_APOSMM, lines 653-733: history given by the manager. *)
Definition reset (r : row) : row :=
  mkrow (x r) (f r) (local r) (known r) (ended r) (started r) (active r) (lmin r) (paused r) (sid r) Far Far None Far None.
Definition initialize (given : list row) (size : nat) : res st :=
  bindr (match given with [] => Ok [] | _ => update_dist (map reset given) end) (fun H =>
  let ns := countb (fun r => negb (local r)) H in
  if (ns =? 0) && (size =? 0) then Err EAssert
  else Ok (mkst H ns [] [] [] true)).
(** Lines 163-199 and, without an initial sample, the first pass: the state when the
    function waits for results for the first time, and the rows it has sent. *)
Definition boot (given : list row) (size : nat) : res (st * list nat) :=
  bindr (initialize given size) (fun s =>
  if size =? 0 then finish 0 s [] []
  else let n := length (hist s) in
       Ok (mkst (add_samples size (hist s)) (n_s s) (runs s) (kids s) (quit s) (first s),
           seq n size)).

(** A message of the manager: results or a stop signal. *)
Inductive msg := Results (l : list inc) | Stop.
Inductive outcome := Waiting | Returned | Raised (e : err).
(** The loop, lines 203-298: what is sent, the last state, and how it stands. *)
Fixpoint serve (ms : list msg) (s : st) : list (list nat) * st * outcome :=
  match ms with
  | [] => ([], s, Waiting)
  | Stop :: _ => ([], s, Returned)
  | Results l :: ms' =>
      if enough s then ([], s, Returned)
      else match pass l s with
           | Ok (s1, out) => let '(outs, s2, o) := serve ms' s1 in (out :: outs, s2, o)
           | Err e => ([], s, Raised e)
           end
  end.

(** Lines 181-188: with generate_sample_points False, the function first waits for
    the user's sample. A stop signal is not looked at, and it is put back into the
    queue (tools/persistent_support.py:77-81), so that the next receive gives it
    again. Each batch replaces the rows kept so far (local_H.resize, line 314).
    None: still waiting after [fuel] receives; Some None: an exception. *)
Fixpoint gather (fuel size : nat) (ms : list msg) (s : st) : option (res st * list msg) :=
  if size <=? n_s s then Some (Ok s, ms)
  else match fuel with
       | 0 => None
       | S n => match ms with
                | [] => None
                | Stop :: _ => gather n size ms s
                | Results l :: ms' =>
                    let H0 := firstn (length l) (hist s) ++
                              map (fun a => fresh_row false 0 (i_x a)) (skipn (length (hist s)) l) in
                    match receive l (mkst (map reset H0) (n_s s) (runs s) (kids s) (quit s) (first s)) with
                    | Ok s1 => gather n size ms' s1
                    | Err e => Some (Err e, ms')
                    end
                end
       end.
End Aposmm.
Arguments row X : clear implicits.
Arguments conf X : clear implicits.
Arguments move X : clear implicits.
Arguments inc X : clear implicits.
Arguments run X : clear implicits.
Arguments st X : clear implicits.
Arguments msg X : clear implicits.
