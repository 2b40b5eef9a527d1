(** Model of custom_polling_loop in libensemble/sim_funcs/executor_hworld.py:
    the example of a user's own loop around a task. *)
From Verif Require Import Base ExecutorModel.
Local Open Scope Z_scope.

(** message_numbers.py *)
Definition UNSET_TAG : nat := 0.
Definition MAN_SIGNAL_FINISH : nat := 20.
Definition WORKER_KILL_ON_ERR : nat := 31.

(** executor.py:573-578; ps_sig is what manager_poll returned. *)
Definition manager_kill_received (x : pass) : bool := match ps_sig x with Some s => kill_signal s | None => false end.

(** executor_hworld.py:50-67: after the loop. [fin]: the inputs of the kill in
    line 62. An exception is not caught. None: the kill hangs. *)
Definition hello_close (fin : pass) (status : nat) (t : task) : option (res nat * task) :=
  if t_finished t then
    Some (Ok (if (status =? UNSET_TAG)%nat
              then match t_state t with Finished => WORKER_DONE | Failed => TASK_FAILED | _ => UNSET_TAG end
              else status), t)
  else match kill_in fin t with
       | None => None
       | Some (t1, None) => Some (Ok WORKER_KILL_ON_TIMEOUT, t1)
       | Some (t1, Some e) => Some (Err e, t1)
       end.

(** executor_hworld.py:25-48. Each pass comes with whether the output file is
    there and has "Error" in it. None: still looping when the inputs end, or a
    kill hangs. Reading the output file is taken not to raise. *)
Fixpoint custom_polling_loop (timeout : Z) (l : list (pass * bool)) (fin : pass) (t : task) : option (res nat * task) :=
  if t_runtime t <? timeout then
    match l with
    | [] => None
    | (x, error) :: l' =>
        if manager_kill_received x then
          match kill_in x t with
          | None => None
          | Some (t1, None) => hello_close fin MAN_SIGNAL_FINISH t1
          | Some (t1, Some e) => Some (Err e, t1)
          end
        else
          match poll (ps_now x) (ps_obs x) t with
          | (t1, Some e) => Some (Err e, t1)
          | (t1, None) =>
              if t_finished t1 then hello_close fin UNSET_TAG t1
              else if error then
                match kill_in x t1 with
                | None => None
                | Some (t2, None) => hello_close fin WORKER_KILL_ON_ERR t2
                | Some (t2, Some e) => Some (Err e, t2)
                end
              else custom_polling_loop timeout l' fin t1
          end
    end
  else hello_close fin UNSET_TAG t.
