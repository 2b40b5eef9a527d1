(** Model of libensemble/sim_funcs/borehole_kills.py: a simulation that runs an
    application which the manager may kill. *)
From Coq Require Import QArith.
From Verif Require Import Base ExecutorModel.

(** The result of a simulation: a number or infinity. *)
Inductive fval := FNum (q : Q) | FInf.

(** message_numbers.py: MAN_KILL_SIGNALS + [TASK_FAILED] *)
Definition killed_or_failed (st : nat) : bool := kill_signal st || (st =? TASK_FAILED)%nat.

(** borehole_kills.py:24-31: after the task was submitted. [l] is what the polling
    loop finds; [out] is the number in the task's output, None if there is none
    (float or read_stdout raise). The inner None: the loop does not end. *)
Definition subproc_borehole (poll_manager : bool) (l : list pass) (out : option Q) (t : task) : option (res (fval * nat)) :=
  match polling_loop None poll_manager l t with
  | None => None
  | Some (None, _) => Some (Err (EOther 2))
  | Some (Some st, _) =>
      if killed_or_failed st then Some (Ok (FInf, st))
      else match out with Some q => Some (Ok (FNum q, st)) | None => Some (Err EValue) end
  end.

(** f / borehole_true(x) > 0.019, where [true_f] is positive. *)
Definition too_big (f : fval) (true_f : Q) : bool :=
  match f with FInf => true | FNum q => negb (Qle_bool (q / true_f) (19 # 1000)) end.

Record bore_out := mkBore { b_f : fval; b_killed : bool; b_status : nat }.

(** borehole_kills.py:34-61. [killed_field]: "sim_killed" is in sim_specs["out"].
    The delay is left out. *)
Definition borehole (killed_field poll_manager : bool) (sim_id num_obs : nat) (true_f : Q) (l : list pass) (out : option Q) (t : task)
  : option (res bore_out) :=
  match subproc_borehole poll_manager l out t with
  | None => None
  | Some (Err e) => Some (Err e)
  | Some (Ok (f, st)) =>
      if kill_signal st && killed_field then Some (Ok (mkBore f true st))
      else if (num_obs <? sim_id)%nat && too_big f true_f then Some (Ok (mkBore FInf false TASK_FAILED))
      else Some (Ok (mkBore f false st))
  end.
