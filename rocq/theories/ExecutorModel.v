(** Model of libensemble/utils/timer.py, the Task class and the polling loop of
    libensemble/executors/executor.py, utils/launcher.py (wait, wait_and_kill,
    cancel) and the launch loop of executors/mpi_executor.py.

    The operating system is an input: what each look at the clock and at the
    process returns. A process whose return code has been seen keeps it
    (subprocess.Popen.returncode). Times are milliseconds.

    Not modelled: the command line (MpiModel), output files, environment
    variables, log messages, sleeping (a sleep is a later clock reading). *)
From Verif Require Import Base.
Local Open Scope Z_scope.

(** ** Timer, timer.py:14-71 *)
Record timer := mkTimer { tm_cum : Z; tm_start : Z; tm_end : Z; tm_on : bool }.

(** timer.py:34-39 *)
Definition new_timer : timer := mkTimer 0 0 0 false.
(** timer.py:58-61 *)
Definition tm_begin (now : Z) (t : timer) : timer := mkTimer (tm_cum t) now (tm_end t) true.
(** timer.py:63-67 *)
Definition tm_stop (now : Z) (t : timer) : timer := mkTimer (tm_cum t + (now - tm_start t)) (tm_start t) now false.
(** timer.py:47-51, in milliseconds *)
Definition tm_elapsed (now : Z) (t : timer) : Z := (if tm_on t then now else tm_end t) - tm_start t.
(** timer.py:53-57 *)
Definition tm_total (now : Z) (t : timer) : Z := if tm_on t then tm_cum t + tm_elapsed now t else tm_cum t.

(** ** Processes, launcher.py *)
Inductive signal := SigTerm | SigKill.

(** The return code once it has been seen, and the signals sent so far. *)
Record proc := mkProc { p_rc : option Z; p_sig : list signal }.

Definition new_proc : proc := mkProc None [].
(** subprocess.Popen.poll, and Popen.wait when it returns: [obs] is the return
    code the operating system reports, if the process has ended. *)
Definition proc_poll (obs : option Z) (p : proc) : proc :=
  match p_rc p with Some _ => p | None => mkProc obs (p_sig p) end.
(** launcher.py:33-44 and 47-58 *)
Definition send_signal (s : signal) (p : proc) : proc := mkProc (p_rc p) (p_sig p ++ [s]).

(** launcher.py:80-93. [grace]: what the wait with [timeout] returns; [final]:
    what the wait after a hard kill returns. None: the call never returns. *)
Definition cancel (timeout : option Z) (grace final : option Z) (p : proc) : option proc :=
  let p1 := match timeout with Some x => if 0 <? x then send_signal SigTerm p else p | None => p end in
  let p2 := proc_poll grace p1 in
  match p_rc p2, timeout with
  | Some _, _ => Some p2
  | None, None => None
  | None, Some _ =>
      let p3 := proc_poll final (send_signal SigKill p2) in
      match p_rc p3 with Some _ => Some p3 | None => None end
  end.

(** ** Tasks, executor.py:113-376 *)
Inductive tstate := Created | Waiting | Running | Finished | UserKilled | Failed | FailedToStart.

Record task := mkTask {
  t_state : tstate; t_proc : option proc; t_errcode : option Z; t_finished : bool; t_success : bool;
  t_submit : option Z; t_runtime : Z; t_total : option Z; t_timer : timer; t_dry : bool;
  t_gpus : nat; t_attempts : nat }.

Definition set_state s t := mkTask s (t_proc t) (t_errcode t) (t_finished t) (t_success t) (t_submit t) (t_runtime t) (t_total t) (t_timer t) (t_dry t) (t_gpus t) (t_attempts t).
Definition set_proc p t := mkTask (t_state t) p (t_errcode t) (t_finished t) (t_success t) (t_submit t) (t_runtime t) (t_total t) (t_timer t) (t_dry t) (t_gpus t) (t_attempts t).
Definition set_ended s e ok t := mkTask s (t_proc t) e true ok (t_submit t) (t_runtime t) (t_total t) (t_timer t) (t_dry t) (t_gpus t) (t_attempts t).
Definition set_runtime x t := mkTask (t_state t) (t_proc t) (t_errcode t) (t_finished t) (t_success t) (t_submit t) x (t_total t) (t_timer t) (t_dry t) (t_gpus t) (t_attempts t).
Definition set_total x y tm t := mkTask (t_state t) (t_proc t) (t_errcode t) (t_finished t) (t_success t) (t_submit t) x y tm (t_dry t) (t_gpus t) (t_attempts t).
Definition set_submit x tm t := mkTask (t_state t) (t_proc t) (t_errcode t) (t_finished t) (t_success t) x (t_runtime t) (t_total t) tm (t_dry t) (t_gpus t) (t_attempts t).
Definition add_attempt t := mkTask (t_state t) (t_proc t) (t_errcode t) (t_finished t) (t_success t) (t_submit t) (t_runtime t) (t_total t) (t_timer t) (t_dry t) (t_gpus t) (S (t_attempts t)).

(** Task.__init__ and get_mpi_specs (mpi_runner.py:196): [gpus] GPUs requested. *)
Definition new_task (dry : bool) (gpus : nat) : task :=
  mkTask Created None None false false None 0 None new_timer dry gpus 0.

(** executor.py:159-169: not the timer, not run_attempts; ngpus_req is cleared *)
Definition reset (t : task) : task :=
  mkTask Created None None false false None 0 None (t_timer t) (t_dry t) 0 (t_attempts t).

(** executor.py:207-217 *)
Definition calc_timing (now : Z) (t : task) : task :=
  match t_submit t, t_total t with
  | Some _, None =>
      let tm := tm_stop now (t_timer t) in
      set_total (tm_elapsed now tm) (Some (tm_elapsed now tm)) tm t
  | _, _ => t
  end.

(** executor.py:234-245. [p] is the process with its return code. *)
Definition set_complete (now : Z) (t : task) : task :=
  if t_dry t then set_ended Finished (t_errcode t) true t
  else let t1 := calc_timing now t in
       let rc := match t_proc t with Some p => p_rc p | None => None end in
       let ok := match rc with Some 0 => true | _ => false end in
       set_ended (if ok then Finished else Failed) rc ok t1.

(** executor.py:226-232 and 247-263 *)
Definition poll (now : Z) (obs : option Z) (t : task) : ex task :=
  if t_dry t then (set_complete now t, None)
  else match t_proc t with
       | None => (t, Some (EOther 0))                 (* ExecutorException *)
       | Some p =>
           if t_finished t then (t, None)
           else let p1 := proc_poll obs p in
                let t1 := set_proc (Some p1) t in
                match p_rc p1 with
                | None => (set_runtime (tm_elapsed now (t_timer t)) (set_state Running t1), None)
                | Some _ => (set_complete now t1, None)
                end
       end.

(** executor.py:265-291. [obs] = None with a timeout: TimeoutExpired; without
    one the call does not return (None). *)
Definition wait (now : Z) (timeout : bool) (obs : option Z) (t : task) : option (ex task) :=
  if t_dry t then Some (set_complete now t, None)
  else match t_proc t with
       | None => Some (t, Some (EOther 0))
       | Some p =>
           if t_finished t then Some (t, None)
           else let p1 := proc_poll obs p in
                let t1 := set_proc (Some p1) t in
                match p_rc p1 with
                | None => if timeout then Some (t1, Some (EOther 1)) else None
                | Some _ => Some (set_complete now t1, None)
                end
       end.

(** executor.py:333-368. Lines 357-362 are unreachable after the poll. [now],
    [obs]: for the poll; [later], [grace], [final]: for the cancel. *)
Definition kill (now : Z) (obs : option Z) (wait_time : option Z) (later : Z) (grace final : option Z) (t : task) : option (ex task) :=
  match poll now obs t with
  | (t1, Some e) => Some (t1, Some e)
  | (t1, None) =>
      if t_dry t1 || t_finished t1 then Some (t1, None)
      else match t_proc t1 with
           | None => Some (t1, Some (EOther 0))
           | Some p =>
               match cancel wait_time grace final p with
               | None => None
               | Some p' =>
                   Some (calc_timing later (set_ended UserKilled (t_errcode t1) (t_success t1) (set_proc (Some p') t1)), None)
               end
           end
  end.

(** The calls a user function can make on a task: poll (also through done,
    running and cancelled), wait (also result and exception), kill, cancel. *)
Inductive call :=
| CPoll (now : Z) (obs : option Z)
| CWait (now : Z) (timeout : bool) (obs : option Z)
| CKill (now : Z) (obs : option Z) (wait_time : option Z) (later : Z) (grace final : option Z).

(** None: the call does not return. *)
Definition do_call (x : call) (t : task) : option (ex task) :=
  match x with
  | CPoll now obs => Some (poll now obs t)
  | CWait now tmo obs => wait now tmo obs t
  | CKill now obs w later g f => kill now obs w later g f t
  end.

(** A sequence of calls by a caller that handles the exceptions. *)
Inductive calls : task -> list call -> task -> Prop :=
| ca_nil t : calls t [] t
| ca_cons t x t1 e l t2 : do_call x t = Some (t1, e) -> calls t1 l t2 -> calls t (x :: l) t2.

(** ** Starting a task *)

(** One poll in a loop of _wait_on_start: its clock readings and what is seen. *)
Record look := mkLook { lk_now : Z; lk_obs : option Z; lk_next : Z }.

Definition not_started (s : tstate) : bool := match s with Created | Waiting => true | _ => false end.
Definition ended (s : tstate) : bool := match s with Finished | UserKilled | Failed | FailedToStart => true | _ => false end.

(** executor.py:401-403. None: never polled as started. The rest of the inputs
    is returned. A launched task is polled successfully. *)
Fixpoint wait_started (l : list look) (t : task) : option (task * list look) :=
  if not_started (t_state t) then
    match l with
    | [] => None
    | x :: l' => wait_started l' (fst (poll (lk_now x) (lk_obs x) t))
    end
  else Some (t, l).

(** executor.py:410-413 *)
Fixpoint watch (fail_time remaining : Z) (l : list look) (t : task) : option task :=
  if negb (ended (t_state t)) && (0 <? remaining) then
    match l with
    | [] => None
    | x :: l' =>
        let t1 := fst (poll (lk_now x) (lk_obs x) t) in
        watch fail_time (fail_time - tm_elapsed (lk_next x) (t_timer t1)) l' t1
    end
  else Some t.

(** executor.py:391-414, mpi_executor.py:167 passes fail_time. *)
Definition wait_on_start (t0 t1 t2 fail_time : Z) (l : list look) (t : task) : option task :=
  let t := set_submit (Some t0) (tm_begin t0 (t_timer t)) t in
  match wait_started l t with
  | None => None
  | Some (t', rest) =>
      if t_finished t' then Some t'
      else let t' := set_submit (Some t1) (tm_begin t1 (t_timer t')) t' in
           if fail_time =? 0 then Some t'
           else watch fail_time (fail_time - tm_elapsed t2 (t_timer t')) rest t'
  end.

(** One attempt: the launch raises, or a process starts; then the clock
    readings and looks of _wait_on_start, and those of the last poll. *)
Inductive attempt :=
| LRaise
| LStart (t0 t1 t2 : Z) (looks : list look) (now : Z) (obs : option Z).

(** The body of the loop, mpi_executor.py:147-176 *)
Definition try_launch (wait : bool) (fail_time : Z) (a : attempt) (t : task) : option task :=
  let t := add_attempt t in
  match a with
  | LRaise => Some (mkTask FailedToStart (t_proc t) (t_errcode t) true (t_success t) (t_submit t) (t_runtime t) (t_total t) (t_timer t) (t_dry t) (t_gpus t) (t_attempts t))
  | LStart t0 t1 t2 looks now obs =>
      let t := set_proc (Some new_proc) t in
      match (if wait then wait_on_start t0 t1 t2 fail_time looks t else Some t) with
      | None => None
      | Some t' => Some (fst (poll now obs t'))
      end
  end.

(** retry is true: mpi_executor.py:161-163 and 170-176 *)
Definition wants_retry (a : attempt) (t : task) : bool :=
  match a with LRaise => true | LStart _ _ _ _ _ _ => match t_state t with Failed => true | _ => false end end.

(** The loop, mpi_executor.py:143-184, with [left] attempts left. None: an
    attempt hangs, or there are fewer attempts in the input than made. *)
Fixpoint launch (left : nat) (wait : bool) (fail_time : Z) (l : list attempt) (t : task) : option task :=
  match left with
  | O => Some t
  | S left' =>
      match l with
      | [] => None
      | a :: l' =>
          match try_launch wait fail_time a t with
          | None => None
          | Some t1 =>
              if wants_retry a t1 && (0 <? left')%nat then launch left' wait fail_time l' (reset t1) else Some t1
          end
      end
  end.

(** mpi_executor.py:377-388 *)
Definition submit (dry : bool) (gpus max_attempts : nat) (wait : bool) (fail_time : Z) (l : list attempt) (now : Z) : option task :=
  if dry then Some (set_complete now (new_task true gpus))
  else match launch max_attempts wait fail_time l (new_task false gpus) with
       | None => None
       | Some t => Some (if negb (tm_on (t_timer t)) && negb (t_finished t)
                         then set_submit (Some now) (tm_begin now (t_timer t)) t else t)
       end.

(** Executor.submit, executor.py:751-785: one launch, whose exception is not
    caught; None also stands for that. *)
Definition submit_serial (dry : bool) (wait : option Z) (a : attempt) (now : Z) : option task :=
  if dry then Some (new_task true 0)
  else match a with
       | LRaise => None
       | LStart t0 t1 t2 looks _ _ =>
           let t := set_proc (Some new_proc) (new_task false 0) in
           match (match wait with Some f => wait_on_start t0 t1 t2 f looks t | None => Some t end) with
           | None => None
           | Some t' => Some (if negb (tm_on (t_timer t')) && negb (t_finished t')
                              then set_submit (Some now) (tm_begin now (t_timer t')) t' else t')
           end
       end.

(** ** The polling loop, executor.py:580-645 *)
Definition WORKER_KILL_ON_TIMEOUT : nat := 32.
Definition TASK_FAILED : nat := 33.
Definition TASK_FAILED_TO_START : nat := 34.
Definition WORKER_DONE : nat := 35.
(** message_numbers.py: MAN_KILL_SIGNALS *)
Definition kill_signal (s : nat) : bool := (s =? 20)%nat || (s =? 21)%nat.

(** One pass: the poll, the answer of manager_poll, and the inputs of a kill. *)
Record pass := mkPass { ps_now : Z; ps_obs : option Z; ps_sig : option nat;
                        ps_know : Z; ps_kobs : option Z; ps_klater : Z; ps_kgrace : option Z; ps_kfinal : option Z }.

(** task.kill() with the default wait_time *)
Definition kill_in (x : pass) (t : task) : option (ex task) :=
  kill (ps_know x) (ps_kobs x) (Some 60000) (ps_klater x) (ps_kgrace x) (ps_kfinal x) t.

Definition closing_status (st : nat) (t : task) : nat :=
  if (st =? 0)%nat then
    match t_state t with Finished => WORKER_DONE | FailedToStart => TASK_FAILED_TO_START | Failed => TASK_FAILED | _ => 0%nat end
  else st.

(** None: still looping when the inputs end, or a kill hangs. An exception in
    kill leaves the loop (it is not caught); it is shown as status None. *)
Fixpoint polling_loop (timeout : option Z) (poll_manager : bool) (l : list pass) (t : task) : option (option nat * task) :=
  if t_finished t then Some (Some (closing_status 0 t), t)
  else
    match l with
    | [] => None
    | x :: l' =>
        match poll (ps_now x) (ps_obs x) t with
        | (t1, Some _) => Some (Some (closing_status 0 t1), t1)
        | (t1, None) =>
            match (if poll_manager then ps_sig x else None) with
            | Some s =>
                if kill_signal s then
                  match kill_in x t1 with
                  | None => None
                  | Some (t2, None) => Some (Some (closing_status s t2), t2)
                  | Some (t2, Some _) => Some (None, t2)
                  end
                else
                  if match timeout with Some tmo => tmo <? t_runtime t1 | None => false end then
                    match kill_in x t1 with
                    | None => None
                    | Some (t2, None) => Some (Some (closing_status WORKER_KILL_ON_TIMEOUT t2), t2)
                    | Some (t2, Some _) => Some (None, t2)
                    end
                  else polling_loop timeout poll_manager l' t1
            | None =>
                if match timeout with Some tmo => tmo <? t_runtime t1 | None => false end then
                  match kill_in x t1 with
                  | None => None
                  | Some (t2, None) => Some (Some (closing_status WORKER_KILL_ON_TIMEOUT t2), t2)
                  | Some (t2, Some _) => Some (None, t2)
                  end
                else polling_loop timeout poll_manager l' t1
            end
        end
    end.

(** ** Timing report, executor.py:654-673: the timers of the tasks submitted
    since the last report; the new value of last_task. *)
Definition new_tasks (last_task : nat) (l : list task) : list task * nat :=
  (skipn last_task l, (last_task + length (skipn last_task l))%nat).
