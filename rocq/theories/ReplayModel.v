(** Model of libensemble/sim_funcs/mock_sim.py: a simulator that returns the
    results recorded in the history file of an earlier run. *)
From Verif Require Import Base HistoryModel.

(** mock_sim.py:13-21. [file] is the array loaded from user["history_file"],
    [outs] is sim_specs["out"], [rows] is libE_info["H_rows"]: only the first row
    is used, and the result has one row. A missing field or one of another
    shape raises ValueError. *)
Definition mock_sim (file : sarr) (outs : list (field * shape)) (rows : list nat) : res sarr :=
  match rows with
  | [] => Err EIndex
  | k :: _ =>
      match nth_error (a_rows file) k with
      | None => Err EIndex
      | Some r =>
          if forallb (fun p => has (fst p) (names (a_dtype file)) && shape_eqb (shape_in (a_dtype file) (fst p)) (snd p)) outs
          then Ok (mkA outs [fun f => if has f (names outs) then r f else zero_of ShS])
          else Err EValue
      end
  end.
