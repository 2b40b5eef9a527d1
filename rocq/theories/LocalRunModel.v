(** Model of gen_funcs/uniform_or_localopt.py and of the record that
    alloc_funcs/start_persistent_local_opt_gens.py keeps of local optimization runs.
    NLopt is an oracle: what it does next depends on the values it was given. Points are
    of any type with decidable equality; floating point equality is taken to be exact. *)
From Verif Require Import Base.
Local Open Scope nat_scope.

Section LocalRun.
Context {X V : Type} (eqd : forall a b : X, {a = b} + {a <> b}).

(** ** The generator *)

(** What NLopt does next, given the values so far. [Raise]: optimize raises. *)
Inductive request := Eval (x : X) | Return (x : X) (code : Z) | Raise.
(** what send_recv gives: values or a stop; gradients are part of the values *)
Inductive reply := Value (v : V) | Stop.
(** the fields of a row that the allocation function uses; uniform_or_localopt.py:116-131 *)
Record row := mkRow { r_x : X; r_cube : X; r_local : bool; r_active : nat }.

(** add_to_Out, lines 116-133, on an array of rows; [cube x] is (x - lb) / (ub - lb). The
    columns local_pt and num_active_runs are set in all rows. *)
Definition add_to_out (cube : X -> X) (out : list row) (x : X) (i : nat) (local active : bool) : list row :=
  let out := upd out i (fun r => mkRow x (cube x) (r_local r) (r_active r)) in
  let out := if local then map (fun r => mkRow (r_x r) (r_cube r) true (r_active r)) out else out in
  if active then map (fun r => mkRow (r_x r) (r_cube r) (r_local r) 1) out else out.
(** lines 30-42: the sample; [draw]: the random stream; [z]: the zero vector *)
Definition sample (cube : X -> X) (draw : nat -> X) (z : X) (b : nat) : list row :=
  fold_left (fun out i => add_to_out cube out (draw i) i false false) (seq 0 b) (repeat (mkRow z z false 0) b).

(** what is sent back as persis_info (lines 103-111): empty, or done and maybe x_opt *)
Record updates := mkUpdates { u_done : bool; u_xopt : option X }.
Inductive outcome := Returned (u : updates) | Waiting | Busy.

(** try_and_run_nlopt, lines 45-113, for at most n calls of the objective: the rows that
    are sent, the objective's calls with the values they returned, and the outcome.
    [x0], [v0]: the row that the run is started with. A stop raises forced_stop in the
    objective, which optimize raises again and line 109 catches, as everything else. *)
Fixpoint run (cube : X -> X) (opt : list V -> request) (z x0 : X) (v0 : V) (n : nat) (vs : list V) (ys : list reply) : list (list row) * list (X * V) * outcome :=
  match opt vs with
  | Raise => ([], [], Returned (mkUpdates false None))
  | Return x code => ([], [], Returned (mkUpdates true (if (0 <? code)%Z && (code <? 5)%Z then Some x else None)))
  | Eval x =>
      match n with
      | 0 => ([], [], Busy)
      | S n =>
          if eqd x x0 then let '(out, seen, o) := run cube opt z x0 v0 n (vs ++ [v0]) ys in (out, (x, v0) :: seen, o)
          else
            let b := add_to_out cube [mkRow z z false 0] x 0 true true in
            match ys with
            | [] => ([b], [], Waiting)
            | Stop :: _ => ([b], [], Returned (mkUpdates false None))
            | Value v :: ys => let '(out, seen, o) := run cube opt z x0 v0 n (vs ++ [v]) ys in (b :: out, (x, v) :: seen, o)
            end
      end
  end.

(** ** The record of runs *)

(** persis_info of a worker, without its random stream *)
Record pinfo := mkPinfo { p_done : bool; p_xopt : option X; p_order : option (list nat) }.
(** columns x, num_active_runs and local_min of the history, and persis_info *)
Record state := mkState { s_x : list X; s_active : list Z; s_min : list bool; s_info : list pinfo }.

(** H["num_active_runs"][rows] += d: once for each row of the list *)
Definition bump (d : Z) (rows : list nat) (a : list Z) : list Z :=
  map (fun iz => if memb (fst iz) rows then (snd iz + d)%Z else snd iz) (combine (seq 0 (length a)) a).
(** start_persistent_local_opt_gens.py:39-45, for one worker *)
Definition settle (w : nat) (s : state) : res state :=
  match nth_error (s_info s) w with
  | None => Ok s
  | Some p =>
      bindr (if p_done p then match p_order p with
                              | None => Err EKey
                              | Some l => Ok (mkState (s_x s) (bump (-1) l (s_active s)) (s_min s) (s_info s))
                              end
             else Ok s)
        (fun s => match p_xopt p with
                  | None => Ok s
                  | Some x =>
                      let same := map (fun y => if eqd y x then true else false) (s_x s) in
                      if countb (fun b => b) same =? 1
                      then Ok (mkState (s_x s) (s_active s) (map (fun bb => fst bb || snd bb) (combine same (s_min s)))
                                       (upd (s_info s) w (fun _ => mkPinfo false None None)))
                      else Err EAssert
                  end)
  end.
(** lines 38-45 *)
Definition call (s : state) : res state := fold_left (fun m w => bindr m (settle w)) (seq 0 (length (s_info s))) (Ok s).

(** What happens to the columns and persis_info between calls. *)
Inductive event :=
| Call                               (* lines 38-45, first in each call *)
| Start (w i : nat)                  (* lines 69-79: a run of worker w from row i *)
| Sample (x : X)                     (* a row of the sample enters the history *)
| New (w : nat) (x : X)              (* a row of the run of w enters the history *)
| Give (w i : nat)                   (* lines 49-55: w is given the values of row i *)
| End (w : nat) (u : updates).       (* the run's persis_info arrives, manager.py:537-538 *)
Definition apply (e : event) (s : state) : res state :=
  match e with
  | Call => call s
  | Start w i => Ok (mkState (s_x s) (bump 1 [i] (s_active s)) (s_min s) (upd (s_info s) w (fun p => mkPinfo (p_done p) (p_xopt p) (Some [i]))))
  | Sample x => Ok (mkState (s_x s ++ [x]) (s_active s ++ [0%Z]) (s_min s ++ [false]) (s_info s))
  | New _ x => Ok (mkState (s_x s ++ [x]) (s_active s ++ [1%Z]) (s_min s ++ [false]) (s_info s))
  | Give w i =>
      match nth_error (s_info s) w with
      | Some (mkPinfo d x (Some l)) => Ok (mkState (s_x s) (s_active s) (s_min s) (upd (s_info s) w (fun _ => mkPinfo d x (Some (l ++ [i])))))
      | _ => Err EKey
      end
  | End w u => Ok (mkState (s_x s) (s_active s) (s_min s)
                 (upd (s_info s) w (fun p => mkPinfo (p_done p || u_done u) (match u_xopt u with Some x => Some x | None => p_xopt p end) (p_order p))))
  end.
Definition history (nworkers : nat) (es : list event) : res state :=
  fold_left (fun m e => bindr m (apply e)) es (Ok (mkState [] [] [] (repeat (mkPinfo false None None) nworkers))).
End LocalRun.
