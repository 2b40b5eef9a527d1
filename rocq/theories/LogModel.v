(** Model of logging over the communicators: comms/logs.py, logger.py (levels), the
    manager's treatment of log records (manager.py:555-557), and worker.py:110-111 and
    317. Python's logging module: Logger.isEnabledFor, handle and callHandlers. *)
From Coq Require Import Ascii String.
From Verif Require Import Base TextModel.
Local Open Scope nat_scope.
Local Notation length := List.length.

(** A record: its level, its message (a number), and the attributes that
    WorkerIDFilter adds (logs.py:95-99): the worker it is labelled with. The attribute
    prefix is set together with it, from the same number. *)
Record record := mkRec { r_level : nat; r_msg : nat; r_worker : option nat }.

(** logs.py:62-77 (to the manager, as worker [w]), 178-181 and 193-196 (files), 202-208
    (stderr, from a level on) *)
Inductive handler := HComm (w : nat) | HFile | HStats | HErr (level : nat).
Record logger := mkLogger { l_level : option nat; l_prop : bool; l_handlers : list handler }.
(** logs.py:20-37: LogConfig with the loggers "libensemble" (and everything below it)
    and "libensemble.calc stats" of one process. *)
Record config := mkConfig { c_set : bool; c_level : nat; c_err : nat; c_main : logger; c_stats : logger }.
Definition INFO : nat := 20.
Definition WARNING : nat := 30.
Definition MANAGER_WARNING : nat := 35.
Definition fresh : config := mkConfig false INFO MANAGER_WARNING (mkLogger None true []) (mkLogger None true []).

(** logs.py:39-45 (set_level); [v]: the value of the level's name, if it has one *)
Definition set_level (v : option nat) (c : config) : config :=
  let v := match v with Some n => n | None => 10 end in
  mkConfig (c_set c) v (c_err c) (if c_set c then mkLogger (Some v) (l_prop (c_main c)) (l_handlers (c_main c)) else c_main c) (c_stats c).
(** logs.py:47-50 (set_stderr_level) *)
Definition set_stderr_level (v : option nat) (c : config) : config :=
  mkConfig (c_set c) (c_level c) (match v with Some n => n | None => 30 end) (c_main c) (c_stats c).

(** logs.py:132-136 (init_worker_logger) and 115-124 (remove_handlers) *)
Definition init_logger (v : nat) (l : logger) : logger := mkLogger (Some v) false (l_handlers l).
Definition remove_handlers (l : logger) : logger := mkLogger (l_level l) (l_prop l) [].
Definition add_handler (h : handler) (l : logger) : logger := mkLogger (l_level l) (l_prop l) (l_handlers l ++ [h]).
(** logs.py:139-157 (worker_logging_config) *)
Definition worker_config (w : nat) (c : config) : config :=
  let (m, s) := if c_set c then (remove_handlers (c_main c), remove_handlers (c_stats c))
                else (init_logger (c_level c) (c_main c), init_logger (c_level c) (c_stats c)) in
  mkConfig true (c_level c) (c_err c) (add_handler (HComm w) m) (add_handler (HComm w) s).
(** logs.py:160-208 (manager_logging_config). The line "Starting ensemble" and the
    directory are left out. *)
Definition manager_config (c : config) : config :=
  let m := if c_set c then remove_handlers (c_main c) else c_main c in
  let m := add_handler HFile (mkLogger (Some (c_level c)) false (l_handlers m)) in
  let s := remove_handlers (c_stats c) in
  let s := add_handler HStats (mkLogger (Some 10) false (l_handlers s)) in
  mkConfig true (c_level c) (c_err c) (add_handler (HErr (c_err c)) m) s.

(** What a handler does: a line in ensemble.log, libE_stats.txt or stderr with the
    worker's label, or a message to the manager. [Last]: logging.lastResort. *)
Inductive out := File (w : nat) (m : nat) | Line (w : nat) (m : nat) | Err_ (w : nat) (m : nat) | Msg (w : nat) (stats : bool) (r : record) | Last (m : nat).
(** logs.py:95-99: the filter labels the record unless it is labelled; the label stays
    for the handlers after it *)
Definition label (w : nat) (r : record) : record := mkRec (r_level r) (r_msg r) (match r_worker r with Some v => Some v | None => Some w end).
Definition who (r : record) : nat := match r_worker r with Some w => w | None => 0 end.
Fixpoint emit (stats : bool) (hs : list handler) (r : record) : list out :=
  match hs with
  | [] => []
  | HComm w :: hs => let r := label w r in Msg w stats r :: emit stats hs r
  | HFile :: hs => let r := label 0 r in File (who r) (r_msg r) :: emit stats hs r
  | HStats :: hs => let r := label 0 r in Line (who r) (r_msg r) :: emit stats hs r
  | HErr v :: hs => let r := label 0 r in (if v <=? r_level r then [Err_ (who r) (r_msg r)] else []) ++ emit stats hs r
  end.
(** Logger.callHandlers: the logger's handlers and, if it propagates, those above it;
    the root logger has none *)
Definition reached (stats : bool) (c : config) : list handler :=
  if stats then l_handlers (c_stats c) ++ (if l_prop (c_stats c) then l_handlers (c_main c) else []) else l_handlers (c_main c).
Definition handle (stats : bool) (c : config) (r : record) : list out :=
  match reached stats c with
  | [] => if WARNING <=? r_level r then [Last (r_msg r)] else []
  | hs => emit stats hs r
  end.
(** Logger.getEffectiveLevel; the root logger's level is WARNING *)
Definition level_of (stats : bool) (c : config) : nat :=
  let up := match l_level (c_main c) with Some v => v | None => WARNING end in
  if stats then match l_level (c_stats c) with Some v => v | None => up end else up.
Definition log (stats : bool) (c : config) (level m : nat) : list out :=
  if level_of stats c <=? level then handle stats c (mkRec level m None) else [].
(** manager.py:557: the manager handles a record without looking at its level *)
Definition manager_receives (c : config) (o : out) : list out :=
  match o with Msg _ stats r => handle stats c r | _ => [] end.

(** libE.py:493-503, 456: what becomes of a record that worker [w] logs in a call of
    libE that begins with configuration [cw] in the worker's process and [cm] in the
    manager's (the same if worker processes are copies of the caller, "local"). *)
Definition through (cw cm : config) (w : nat) (stats : bool) (level m : nat) : list out :=
  flat_map (manager_receives (manager_config cm)) (log stats (worker_config w cw) level m).
(** comms "threads", and the worker on the manager: no handler of its own *)
Definition in_manager (cm : config) (stats : bool) (level m : nat) : list out := log stats (manager_config cm) level m.

(** What the user may do before a call; a call leaves the caller's configuration as
    manager_config makes it. *)
Inductive act := SetLevel (v : option nat) | SetErr (v : option nat) | Call.
Definition do_act (c : config) (a : act) : config :=
  match a with SetLevel v => set_level v c | SetErr v => set_stderr_level v c | Call => manager_config c end.
Definition after (l : list act) : config := fold_left do_act l fresh.

(** logs.py:83-93 (the prefix of a line in libE_stats.txt) *)
Definition prefix (w : nat) : text :=
  match w with 0 => T "Manager" ++ repeat " "%char 5 | _ => T "Worker " ++ rjust 5 " " (dec w) end.

(** What a worker sends for its calculations, worker.py:252-318, 418 and 421: log
    records, the line for the statistics, then the result. *)
Inductive wmsg := WRec (stats : bool) (r : record) | WResult (m : nat).
Record calc := mkCalc { a_logs : list (nat * nat); a_line : nat; a_result : nat }.
Definition sends (o : list out) : list wmsg := flat_map (fun x => match x with Msg _ st r => [WRec st r] | _ => [] end) o.
Definition calc_msgs (cw : config) (w : nat) (x : calc) : list wmsg :=
  sends (flat_map (fun lm => log false (worker_config w cw) (fst lm) (snd lm)) (a_logs x)) ++ sends (log true (worker_config w cw) INFO (a_line x)) ++ [WResult (a_result x)].
(** The manager works through messages of all workers. *)
Definition manager_does (cm : config) (ms : list (nat * wmsg)) : list out :=
  flat_map (fun x => match snd x with WRec st r => handle st (manager_config cm) r | WResult _ => [] end) ms.
