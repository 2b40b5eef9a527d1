(** Model of multi_points_with_variable_resources (libensemble/sim_funcs/var_resources.py):
    a simulation that runs an application for each of its points, one after the other. *)
From Coq Require Import QArith.
From Verif Require Import Base ExecutorModel.

(** What one point meets: the inputs of its submit and its wait, the number on the first
    line of the output (None: none, float or open raise), and the function's value there. *)
Record job := mkJob { j_gpus : nat; j_tries : nat; j_fail_time : Z; j_attempts : list attempt; j_now : Z;
                      j_wnow : Z; j_code : option Z; j_out : option Q; j_value : Q }.

(** var_resources.py:222-246. [six]: the application is six_hump_camel. None: a call does
    not return. The executor tries [S (j_tries j)] times (max_launch_attempts, 5 by
    default). The number of processes is left out. *)
Definition one_point (six dry : bool) (j : job) : option (res (task * Q)) :=
  match submit dry (j_gpus j) (S (j_tries j)) false (j_fail_time j) (j_attempts j) (j_now j) with
  | None => None
  | Some t =>
      match (if dry then Some (t, None) else wait (j_wnow j) false (j_code j) t) with
      | None => None
      | Some (_, Some e) => Some (Err e)
      | Some (t', None) =>
          if six then match j_out j with Some q => Some (Ok (t', q)) | None => Some (Err EValue) end
          else Some (Ok (t', j_value j))
      end
  end.

(** var_resources.py:211-246, the loop; the values are those of H_o["f"]. *)
Fixpoint all_points (six dry : bool) (js : list job) : option (res (list (task * Q))) :=
  match js with
  | [] => Some (Ok [])
  | j :: js' =>
      match one_point six dry j with
      | None => None
      | Some (Err e) => Some (Err e)
      | Some (Ok a) =>
          match all_points six dry js' with
          | None => None
          | Some (Err e) => Some (Err e)
          | Some (Ok l) => Some (Ok (a :: l))
          end
      end
  end.

Definition is_finished (s : tstate) : bool := match s with Finished => true | _ => false end.
Definition is_failed (s : tstate) : bool := match s with Failed => true | _ => false end.

(** var_resources.py:248-254; UNSET_TAG is 0. The tasks are given back too, for the
    statements. *)
Definition multi_points (six dry : bool) (js : list job) : option (res (list Q * nat * list task)) :=
  match all_points six dry js with
  | None => None
  | Some (Err e) => Some (Err e)
  | Some (Ok l) =>
      let states := map (fun a => t_state (fst a)) l in
      Some (Ok (map snd l, if forallb is_finished states then WORKER_DONE else if existsb is_failed states then TASK_FAILED else 0%nat, map fst l))
  end.
