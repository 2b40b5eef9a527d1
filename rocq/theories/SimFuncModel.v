(** Model of the test simulators in libensemble/sim_funcs: six_hump_camel.py and
    rosenbrock.py. Numbers are exact rationals: rounding is not modelled. *)
From Coq Require Import QArith List.
From Verif Require Import Base.
Import ListNotations.
Local Open Scope Q_scope.

(** x[i] on a vector. *)
Definition at_ (x : list Q) (i : nat) : res Q := match nth_error x i with Some v => Ok v | None => Err EIndex end.

(** six_hump_camel.py:110-120. *)
Definition six_hump_camel_func (x : list Q) : res Q :=
  bindr (at_ x 0) (fun x1 => bindr (at_ x 1) (fun x2 =>
  let term1 := (4 - (21 # 10) * x1 ^ 2 + x1 ^ 4 / 3) * x1 ^ 2 in
  let term2 := x1 * x2 in
  let term3 := (-4 + 4 * x2 ^ 2) * x2 ^ 2 in
  Ok (term1 + term2 + term3))).

(** six_hump_camel.py:123-135. *)
Definition six_hump_camel_grad (x : list Q) : res (Q * Q) :=
  bindr (at_ x 0) (fun x1 => bindr (at_ x 1) (fun x2 =>
  Ok (2 * (x1 ^ 5 - (42 # 10) * x1 ^ 3 + 4 * x1 + (1 # 2) * x2), x1 + 16 * x2 ^ 3 - 8 * x2))).

(** A row of the output; the field "grad" is there if sim_specs["out"] has it. *)
Record out_row := mkRow { o_f : Q; o_grad : option (Q * Q) }.

(** six_hump_camel.py:41-48: the loop over the rows of H["x"]; [i] is the
    number of the row, [out] is H_o. *)
Fixpoint camel_loop (want : bool) (i : nat) (xs : list (list Q)) (out : list out_row) : res (list out_row) :=
  match xs with
  | [] => Ok out
  | x :: xs' =>
      bindr (six_hump_camel_func x) (fun v =>
      let out1 := upd out i (fun r => mkRow v (o_grad r)) in
      if want
      then bindr (six_hump_camel_grad x) (fun g => camel_loop want (S i) xs' (upd out1 i (fun r => mkRow (o_f r) (Some g))))
      else camel_loop want (S i) xs' out1)
  end.

(** six_hump_camel.py:25-53; the pauses are left out. *)
Definition six_hump_camel (want : bool) (xs : list (list Q)) : res (list out_row) :=
  camel_loop want 0 xs (repeat (mkRow 0 (if want then Some (0, 0) else None)) (length xs)).

(** What the manager sends a persistent simulator: points, or a stop. *)
Inductive sim_msg := SimWork (xs : list (list Q)) | SimStop | SimPersisStop.

(** six_hump_camel.py:93-103: [first] is the work at hand (None: wait for a
    message); the list is what the manager sends. The result: what was sent to
    the manager, and whether the function returned (it waits for ever if the
    messages run out). *)
Fixpoint persis_loop (want : bool) (msgs : list sim_msg) : res (list (list out_row) * bool) :=
  match msgs with
  | [] => Ok ([], false)
  | SimStop :: _ | SimPersisStop :: _ => Ok ([], true)
  | SimWork xs :: ms =>
      bindr (six_hump_camel want xs) (fun o =>
      bindr (persis_loop want ms) (fun r => Ok (o :: fst r, snd r)))
  end.

(** six_hump_camel.py:77-114: [first] is H. With replace_final_fields the
    function evaluates the point (1, 1) and returns it as its final result. *)
Definition persistent_six_hump_camel (want replace : bool) (first : list (list Q)) (msgs : list sim_msg)
  : res (list (list out_row) * option (option (list out_row))) :=
  bindr (persis_loop want (match first with [] => msgs | _ => SimWork first :: msgs end)) (fun r =>
  if snd r
  then if replace
       then bindr (six_hump_camel want [[1; 1]]) (fun o => Ok (fst r, Some (Some o)))
       else Ok (fst r, Some None)
  else Ok (fst r, None)).

(** x[::2] and x[1::2]. *)
Fixpoint evens (x : list Q) : list Q := match x with [] => [] | [a] => [a] | a :: _ :: x' => a :: evens x' end.
Definition odds (x : list Q) : list Q := match x with [] => [] | _ :: x' => evens x' end.
Fixpoint zip2 (f : Q -> Q -> Q) (a b : list Q) : list Q :=
  match a, b with x :: a', y :: b' => f x y :: zip2 f a' b' | _, _ => [] end.
Definition qsum (l : list Q) : Q := fold_left Qplus l 0.

(** rosenbrock.py:12-47. *)
Definition EvaluateFunction (x : list Q) (component : option nat) : res Q :=
  if negb (Nat.even (length x)) then Err EAssert else
  let n := Nat.div2 (length x) in
  match component with
  | None =>
      let f1 := map (fun v => 100 * v ^ 2) (zip2 (fun a b => a ^ 2 - b) (evens x) (odds x)) in
      let f2 := map (fun v => v ^ 2) (zip2 Qminus (evens x) (repeat 1 n)) in
      Ok (qsum f1 + qsum f2)
  | Some i =>
      bindr (at_ x (2 * i)) (fun x1 => bindr (at_ x (2 * i + 1)) (fun x2 =>
      Ok (100 * (x1 ^ 2 - x2) ^ 2 + (x1 - 1) ^ 2)))
  end.

(** df[::2] = a; df[1::2] = b. *)
Fixpoint interleave (a b : list Q) : list Q :=
  match a, b with x :: a', y :: b' => x :: y :: interleave a' b' | _, _ => [] end.

(** rosenbrock.py:50-85; None is the NaN component: all components. *)
Definition EvaluateJacobian (x : list Q) (component : option nat) (const : Q) : res (list Q) :=
  if negb (Nat.even (length x)) then Err EAssert else
  let n := Nat.div2 (length x) in
  let scale l := if Qeq_bool const 0 then Err EZeroDiv else Ok (map (fun d => 1 / const * d) l) in
  match component with
  | None =>
      let u := zip2 (fun a b => a ^ 2 - b) (evens x) (odds x) in
      scale (interleave
        (zip2 Qplus (map (Qmult 400) (zip2 Qmult (evens x) u)) (map (Qmult 2) (zip2 Qminus (evens x) (repeat 1 n))))
        (map (Qmult (-(200))) u))
  | Some i =>
      bindr (at_ x (2 * i)) (fun x1 => bindr (at_ x (2 * i + 1)) (fun x2 =>
      scale (upd (upd (repeat 0 (length x)) (2 * i) (fun _ => 400 * x1 * (x1 ^ 2 - x2) + 2 * (x1 - 1)))
               (2 * i + 1) (fun _ => -(200) * (x1 ^ 2 - x2)))))
  end.

(** What rosenbrock_eval reads from persis_info: "params" (and "const" in it), and "get_grad". *)
Record rosen_info := mkInfo { i_params : option (option Q); i_get_grad : bool }.

(** A row of H_o: "f" and "grad", or "f_i" and "gradf_i" if the points have a component. *)
Record rosen_row := mkRR { rr_f : Q; rr_grad : list Q }.

(** rosenbrock.py:108-111. *)
Definition rosen_const (info : rosen_info) : Q :=
  match i_params info with Some (Some c) => c | _ => 1000 end.

(** rosenbrock.py:116-127: the loop; each point comes with its obj_component,
    None if H has no such field. *)
Fixpoint rosen_loop (info : rosen_info) (i : nat) (pts : list (list Q * option nat)) (out : list rosen_row) : res (list rosen_row) :=
  match pts with
  | [] => Ok out
  | (x, c) :: pts' =>
      bindr (EvaluateFunction x c) (fun v =>
      let out1 := upd out i (fun r => mkRR v (rr_grad r)) in
      if i_get_grad info
      then bindr (EvaluateJacobian x c (rosen_const info)) (fun g =>
           rosen_loop info (S i) pts' (upd out1 i (fun r => mkRR (rr_f r) g)))
      else rosen_loop info (S i) pts' out1)
  end.

(** rosenbrock.py:88-129; [dim] is the length of the gradient field in
    sim_specs["out"]. H["obj_component"] is given for all points or for none. *)
Definition rosenbrock_eval (info : rosen_info) (dim : nat) (xs : list (list Q)) (comps : option (list nat)) : res (list rosen_row) :=
  let pts := match comps with None => map (fun x => (x, None)) xs | Some cs => combine xs (map Some cs) end in
  rosen_loop info 0 pts (repeat (mkRR 0 (repeat 0 dim)) (length pts)).
