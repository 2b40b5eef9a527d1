(** Model of libensemble/sim_funcs/chwirut1.py: a simulation that evaluates all
    residuals of a fit, or one of them. Numbers are exact rationals; exp is any
    function [E], and the data [y] and [t] are any lists (214 numbers in the code). *)
From Coq Require Import QArith.
From Verif Require Import Base.
Local Open Scope Q_scope.

(** Indexing of a sequence in Python: negative indices count from the end. *)
Definition nth_py {A} (l : list A) (i : Z) : res A :=
  let n := Z.of_nat (length l) in
  let j := if (i <? 0)%Z then (n + i)%Z else i in
  if (j <? 0)%Z then Err EIndex
  else match nth_error l (Z.to_nat j) with Some a => Ok a | None => Err EIndex end.

Record chw_data := mkData { d_E : Q -> Q; d_y : list Q; d_t : list Q }.

(** chwirut1.py:227-228. Division by zero, which gives an infinity in the code, is
    Coq's division. *)
Definition func_def (d : chw_data) (x : list Q) (i : Z) : res Q :=
  bindr (nth_py (d_y d) i) (fun yi =>
  bindr (nth_py x 0) (fun x0 =>
  bindr (nth_py (d_t d) i) (fun ti =>
  bindr (nth_py x 1) (fun x1 =>
  bindr (nth_py x 2) (fun x2 => Ok (yi - d_E d (- x0 * ti) / (x1 + x2 * ti))))))).

(** chwirut1.py:235-238: the loop over all observations *)
Fixpoint all_residuals (d : chw_data) (x : list Q) (i n : nat) : res (list Q) :=
  match n with
  | O => Ok []
  | S n' => bindr (func_def d x (Z.of_nat i)) (fun a => bindr (all_residuals d x (S i) n') (fun l => Ok (a :: l)))
  end.

(** sim_specs["user"]: how often a component is to be NaN, and how to combine them *)
Record chw_user := mkUser { u_nan : option Q; u_combine : option (list Q -> Q) }.

(** A row of the output; None is NaN. *)
Record chw_row := mkChw { w_fi : option Q; w_fvec : list Q; w_f : Q }.
Definition zero_row (d : chw_data) : chw_row := mkChw (Some 0) (repeat 0 (length (d_y d))) 0.

Definition sum_squares (l : list Q) : Q := fold_right (fun a s => a * a + s) 0 l.

(** chwirut1.py:280-296, the body of the loop for a point [x] with component [c] (None:
    H has no such field). [r] is the sequence of random numbers and [k] how many have
    been taken. Gives the row and how many have been taken then. *)
Definition chw_point (d : chw_data) (user : option chw_user) (r : nat -> Q) (k : nat) (x : list Q) (c : option Z) : res (chw_row * nat) :=
  let z := zero_row d in
  match c with
  | Some i =>
      let eval k' := bindr (func_def d x i) (fun v => Ok (mkChw (Some v) (w_fvec z) (w_f z), k')) in
      match user with
      | Some (mkUser (Some p) _) => if Qle_bool p (r k) then eval (S k) else Ok (mkChw None (w_fvec z) (w_f z), S k)
      | _ => eval k
      end
  | None =>
      bindr (all_residuals d x 0 (length (d_y d))) (fun l =>
      match user with
      | None => Err EKey
      | Some (mkUser _ (Some g)) => Ok (mkChw (w_fi z) l (g l), k)
      | Some (mkUser _ None) => Ok (mkChw (w_fi z) l (sum_squares l), k)
      end)
  end.

(** chwirut1.py:277-298. The rows are made one by one instead of written into an array. *)
Fixpoint chwirut_eval (d : chw_data) (user : option chw_user) (r : nat -> Q) (k : nat) (pts : list (list Q * option Z)) : res (list chw_row) :=
  match pts with
  | [] => Ok []
  | (x, c) :: pts' =>
      bindr (chw_point d user r k x c) (fun '(w, k') => bindr (chwirut_eval d user r k' pts') (fun ws => Ok (w :: ws)))
  end.
