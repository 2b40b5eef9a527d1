(** Vocabulary for the executor properties. *)
From Verif Require Import Base ExecutorModel.
Local Open Scope Z_scope.

(** A task as returned by a submit function of either executor. *)
Definition submitted (t : task) : Prop :=
  (exists dry gpus n wait ft l now, submit dry gpus (S n) wait ft l now = Some t) \/
  (exists dry wait a now, submit_serial dry wait a now = Some t).

(** The return code of the task's process, once seen. *)
Definition exit_code (t : task) : option Z := match t_proc t with Some p => p_rc p | None => None end.
Definition signals (t : task) : list signal := match t_proc t with Some p => p_sig p | None => [] end.

(** The four final states, with the return code and the success flag they go with. *)
Definition final_state (t : task) : Prop :=
  match t_state t with
  | Finished => t_success t = true /\ (t_dry t = true \/ t_errcode t = Some 0 /\ exit_code t = Some 0)
  | Failed => t_success t = false /\ exists rc, rc <> 0 /\ t_errcode t = Some rc /\ exit_code t = Some rc
  | UserKilled => t_success t = false /\ t_errcode t = None /\ exit_code t <> None
  | FailedToStart => t_success t = false /\ t_errcode t = None /\ t_proc t = None
  | _ => False
  end.

(** A task that has not been seen to end. *)
Definition open_state (t : task) : Prop :=
  (t_state t = Created \/ t_state t = Running) /\ t_success t = false /\ t_errcode t = None /\ exit_code t = None /\ t_total t = None.

(** Same status attributes; the timer's total, ngpus_req and run_attempts are
    left out. *)
Definition same_status (t u : task) : Prop :=
  t_state t = t_state u /\ t_proc t = t_proc u /\ t_errcode t = t_errcode u /\ t_finished t = t_finished u /\
  t_success t = t_success u /\ t_submit t = t_submit u /\ t_runtime t = t_runtime u /\ t_total t = t_total u /\ t_dry t = t_dry u /\
  tm_on (t_timer t) = tm_on (t_timer u).

(** An attempt that, made on its own, raises or is FAILED when the submit
    function looks at it last. *)
Definition fails_to_start (wait : bool) (ft now : Z) (a : attempt) : Prop :=
  a = LRaise \/ exists gpus t, submit false gpus 1 wait ft [a] now = Some t /\ t_state t = Failed.

Definition man_kill (s : nat) : Prop := s = 20%nat \/ s = 21%nat.

(** ** Timers *)
Inductive tev := TStart (now : Z) | TStop (now : Z).
Definition tm_do (e : tev) (t : timer) : timer := match e with TStart x => tm_begin x t | TStop x => tm_stop x t end.
Definition tm_run (l : list tev) : timer := fold_left (fun t e => tm_do e t) l new_timer.

(** Completed intervals, then possibly a running one. *)
Definition intervals (l : list (Z * Z)) : list tev := flat_map (fun p => [TStart (fst p); TStop (snd p)]) l.
Definition lengths (l : list (Z * Z)) : Z := fold_right (fun p s => snd p - fst p + s) 0 l.
