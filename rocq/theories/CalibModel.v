(** Model of the bookkeeping of the calibration function
    (gen_funcs/persistent_surmise_calib.py): which evaluation belongs to which cell of the
    arrays fevals, pending and complete, what is cancelled and when new parameters are
    added. The emulator and the calibrator are an oracle that says how many parameters are
    added and which columns are given up. *)
From Verif Require Import Base SamplerModel.
Local Open Scope nat_scope.

Section Calib.
Context {V : Type}.              (* function values *)
Variable n_x : nat.              (* rows of the arrays: places *)
Variable n_init : nat.           (* parameters (columns) of the first batch *)
(** select_next_theta (surmise_calib_support.py:57-76): for the k-th selection the number
    of new parameters and info["obviatesugg"]. Negative columns are not modelled. *)
Variable suggest : nat -> nat * list nat.

(** What happens, in order; this is not in the code, it serves the statements: rows sent as
    pairs of a place and a parameter; a result recorded; columns given up and the numbers
    whose cancellation was asked for. *)
Inductive event := Sent (l : list (nat * nat)) | Recorded (sim_id : nat) (f : V) | GaveUp (columns ids : list nat).
(** The arrays, as functions of row and column, and the number of columns. *)
Record calib := mkcalib {
  cols : nat; fevals : nat -> nat -> option V; pending : nat -> nat -> bool; prev_pending : nat -> nat -> bool;
  complete : nat -> nat -> bool; log : list event }.

Definition obs_offset : nat := n_x.     (* line 156: len(H_o) of gen_truevals *)

(** load_H (lines 111-125) without the random priorities: for each place, one row for each
    of the [k] parameters from number [base] on. *)
Definition load_H (base k : nat) : list (nat * nat) :=
  flat_map (fun i => map (fun t => (i, base + t)) (seq 0 k)) (seq 0 n_x).
(** The rows before: gen_truevals (127-136), the true parameter as a number no other has. *)
Definition true_rows (true_theta : nat) : list (nat * nat) := map (fun i => (i, true_theta)) (seq 0 n_x).

(** create_arrays (49-56): the values of the first batch, in the order of the rows sent.
    Another number of values cannot be reshaped. *)
Definition create_arrays (true_theta : nat) (f : list V) : res calib :=
  if length f =? n_x * n_init then
    Ok (mkcalib n_init (fun r c => if (r <? n_x) && (c <? n_init) then nth_error f (r * n_init + c) else None)
          (fun _ _ => false) (fun _ _ => false) (fun r c => (r <? n_x) && (c <? n_init))
          [Sent (true_rows true_theta); Sent (load_H 0 n_init)])
  else Err EValue.

Definition count (s : calib) (m : nat -> nat -> bool) : nat :=
  countb (fun p => m (fst p) (snd p)) (list_prod (seq 0 n_x) (seq 0 (cols s))).
(** select_condition and rebuild_condition (36-47) with their default 5 *)
Definition select_condition (s : calib) : bool := negb (5 * n_x <? count s (pending s)).
Definition rebuild_condition (s : calib) : bool :=
  (n_x * 5 <=? count s (prev_pending s) - count s (pending s)) && (count s (pending s) <=? count s (prev_pending s))
  || (count s (pending s) =? 0).

(** pad_arrays (58-69) *)
Definition pad_arrays (s : calib) (k : nat) : calib :=
  let old {A} (m : nat -> nat -> A) (v : A) (d : A) r c := if c <? cols s then m r c else if c <? cols s + k then v else d in
  mkcalib (cols s + k) (old (fevals s) None None) (old (pending s) true false) (old (prev_pending s) true false)
    (old (complete s) false false) (log s ++ [Sent (load_H (cols s) k)]).

(** update_arrays (72-80): the cell of a number. Numbers below obs_offset belong to the
    first message and do not come again. *)
Definition cell (sim_id : nat) : nat * nat := ((sim_id - obs_offset) mod n_x, (sim_id - obs_offset) / n_x).
Definition set {A} (m : nat -> nat -> A) (p : nat * nat) (v : A) : nat -> nat -> A :=
  fun r c => if (r =? fst p) && (c =? snd p) then v else m r c.
Fixpoint update_arrays (s : calib) (l : list (nat * V)) : res calib :=
  match l with
  | [] => Ok s
  | (id, f) :: l' =>
      let p := cell id in
      if snd p <? cols s then
        update_arrays (mkcalib (cols s) (set (fevals s) p (Some f)) (set (pending s) p false) (prev_pending s)
          (set (complete s) p true) (log s ++ [Recorded id f])) l'
      else Err EIndex
  end.

(** cancel_columns (83-96) and the line after its call (242): the numbers to be cancelled;
    no column is pending afterwards. np.unique sorts. *)
Definition to_cancel (s : calib) (obviated : list nat) : list nat :=
  flat_map (fun c => map (fun i => obs_offset + c * n_x + i) (filter (fun i => pending s i c) (seq 0 n_x)))
           (filter (fun c => memb c obviated) (seq 0 (cols s))).
Definition give_up (s : calib) (obviated : list nat) : calib :=
  mkcalib (cols s) (fevals s) (fun r c => pending s r c && negb (memb c obviated)) (prev_pending s) (complete s)
    (log s ++ [GaveUp obviated (to_cancel s obviated)]).
Definition rebuilt (s : calib) : calib :=
  mkcalib (cols s) (fevals s) (pending s) (pending s) (complete s) (log s).

(** The loop (178-242). A configuration: the arrays, the results at hand (calc_in), how
    often parameters were selected, and the messages to come. The first pass is [first]. *)
Record config := mkconfig { arrays : calib; calc_in : list (nat * V); selections : nat; inbox : list (mail (nat * V)) }.
Inductive outcome := Next (c : config) | Ended (s : calib) | Waits (s : calib) | Raises (e : err).
(** Lines 222-242: new parameters, if the condition says so, then the next message. *)
Definition select (c : config) : outcome :=
  let s := arrays c in
  if select_condition s then
    let '(k, obviated) := suggest (selections c) in
    let s1 := pad_arrays s k in
    match inbox c with
    | [] => Waits s1
    | m :: ms =>
        if forallb (fun col => col <? cols s1) obviated then
          let s2 := give_up s1 obviated in
          if stops m then Ended s2
          else Next (mkconfig s2 (match rows m with Some l => l | None => [] end) (S (selections c)) ms)
        else Raises EIndex
    end
  else Next c.
(** Lines 188-194 and 196-220 of a pass that is not the first *)
Definition pass (c : config) : outcome :=
  match update_arrays (arrays c) (calc_in c) with
  | Err e => Raises e
  | Ok s1 =>
      if rebuild_condition s1 then select (mkconfig (rebuilt s1) (calc_in c) (selections c) (inbox c))
      else match inbox c with
           | [] => Waits s1
           | m :: ms =>
               if stops m then Ended s1
               else select (mkconfig s1 (match rows m with Some l => l | None => [] end) (selections c) ms)
           end
  end.
(** Lines 179-186: the pass with the values of the first batch *)
Definition first (true_theta : nat) (f : list V) (ms : list (mail (nat * V))) : outcome :=
  match create_arrays true_theta f with
  | Err e => Raises e
  | Ok s => select (mkconfig s [] 0 ms)
  end.
(** What the loop can come to. *)
Inductive Reaches (true_theta : nat) (f : list V) (ms : list (mail (nat * V))) : outcome -> Prop :=
| reaches_first : Reaches true_theta f ms (first true_theta f ms)
| reaches_pass c : Reaches true_theta f ms (Next c) -> Reaches true_theta f ms (pass c).
End Calib.
Arguments event V : clear implicits.
Arguments calib V : clear implicits.
Arguments config V : clear implicits.
Arguments outcome V : clear implicits.
