(** Model of what workers share: the Executor, the Resources and the working directory
    are one per process. With comms "local" (also "mpi", "tcp") a worker has a process
    of its own; with comms "threads" all workers are threads of one process.
    worker.py (the calls on Executor and Resources), executors/executor.py (the parts
    of Executor that these use), utils/loc_stack.py (push and pop). *)
From Coq Require Import Ascii String.
From Verif Require Import Base TextModel.
Local Open Scope nat_scope.
Local Notation length := List.length.

(** executor.py:120-157 (Task.__init__): number, label, the application's name; the
    resource sets that the layout is computed from (mpi_resources.py:127-134) and the
    directory it starts in (executor.py:768, os.getcwd()). [k_by], who submitted it, is
    not in the code. Directories are numbers. *)
Record task := mkTask { k_id : nat; k_label : option nat; k_app : text; k_team : option (list nat); k_dir : nat; k_by : nat }.
(** executor.py:148-149: the name; a worker 0 has no label *)
Definition name (t : task) : text :=
  T "libe_task_" ++ k_app t ++ match k_label t with Some (S w) => T "_worker" ++ dec (S w) | _ => [] end ++ T "_" ++ dec (k_id t).

(** comms.py:99-145: messages to a worker; the number of a stop signal, or any other *)
Inductive msg := Stop (s : nat) | Other (n : nat).
Record chan := mkChan { c_buf : option msg; c_in : list msg }.
(** comms.py:126-137 (recv), not waiting *)
Definition recv (c : chan) : option (msg * chan) :=
  match c_buf c with
  | Some m => Some (m, mkChan None (c_in c))
  | None => match c_in c with m :: l => Some (m, mkChan None l) | [] => None end
  end.

(** One process: executor.py:434-437 (the worker's number, communicator, tasks and how
    many are in the statistics), executor.py:118 (the next task number),
    worker_resources.py:190-200 (the worker's number and its resource sets), and the
    current directory. *)
Record proc := mkProc { p_worker : option nat; p_comm : option nat; p_tasks : list task; p_last : nat; p_next : nat;
                        p_rworker : option nat; p_team : option (list nat); p_cwd : nat }.
Record world := mkWorld { w_proc : nat -> proc; w_chan : nat -> chan; w_stack : nat -> list nat }.

(** Steps of worker [w]: Worker.__init__, an order with its resource sets
    (worker.py:359), entering and leaving a directory (worker.py:118, 278), a submit, a poll for
    a manager signal, taking a message in the main loop (worker.py:397), the line for the
    statistics (worker.py:323-324), the end (worker.py:431-432). [Send]: the manager
    sends worker [w] a message. Simplification: each is atomic. *)
Inductive step :=
| Init (w : nat) | Order (w : nat) (team : list nat) | Enter (w d : nat) | Leave (w : nat)
| Submit (w : nat) (app : text) | Poll (w : nat) | Recv (w : nat) | Stats (w : nat) | Quit (w : nat) | Send (w : nat) (m : msg).
(** What worker [w] sees. A poll without a communicator is an AttributeError. *)
Inductive obs := OTask (w : nat) (t : task) | OPoll (w : nat) (r : res (option nat)) | ORecv (w : nat) (m : option msg) | OStats (w : nat) (l : list task).

Definition set {A} (f : nat -> A) (i : nat) (x : A) : nat -> A := fun j => if j =? i then x else f j.
(** which process worker [w] is in *)
Definition pid (threads : bool) (w : nat) : nat := if threads then 0 else w.

(** [zero]: libE_specs["zero_resource_workers"] *)
Definition do_step (threads : bool) (zero : list nat) (x : step) (s : world) : world * list obs :=
  let with_proc w p := mkWorld (set (w_proc s) (pid threads w) p) (w_chan s) (w_stack s) in
  match x with
  | Init w => (* worker.py:182-183, 214, 225; executor.py:681-682; resources.py:72-74 *)
      let p := w_proc s (pid threads w) in
      (with_proc w (mkProc (Some w) (Some w) (p_tasks p) (p_last p) (p_next p) (Some w) None (p_cwd p)), [])
  | Order w team => (* worker.py:200-201, worker_resources.py:300-320 *)
      let p := w_proc s (pid threads w) in
      if match p_rworker p with Some v => memb v zero | None => false end then (s, [])
      else (with_proc w (mkProc (p_worker p) (p_comm p) (p_tasks p) (p_last p) (p_next p) (p_rworker p) (Some team) (p_cwd p)), [])
  | Enter w d => (* loc_stack.py:123-127; each worker has stacks of its own *)
      let p := w_proc s (pid threads w) in
      (mkWorld (set (w_proc s) (pid threads w) (mkProc (p_worker p) (p_comm p) (p_tasks p) (p_last p) (p_next p) (p_rworker p) (p_team p) d))
               (w_chan s) (set (w_stack s) w (p_cwd p :: w_stack s w)), [])
  | Leave w => (* loc_stack.py:131-135 *)
      let p := w_proc s (pid threads w) in
      match w_stack s w with
      | [] => (s, [])
      | d :: l => (mkWorld (set (w_proc s) (pid threads w) (mkProc (p_worker p) (p_comm p) (p_tasks p) (p_last p) (p_next p) (p_rworker p) (p_team p) d))
                           (w_chan s) (set (w_stack s) w l), [])
      end
  | Submit w app => (* executor.py:768-769, 809; mpi_executor.py:314-315, 353, 388 *)
      let p := w_proc s (pid threads w) in
      let t := mkTask (p_next p) (p_worker p) app (p_team p) (p_cwd p) w in
      (with_proc w (mkProc (p_worker p) (p_comm p) (p_tasks p ++ [t]) (p_last p) (S (p_next p)) (p_rworker p) (p_team p) (p_cwd p)), [OTask w t])
  | Poll w => (* executor.py:544-571, comms.py:140-145 *)
      match p_comm (w_proc s (pid threads w)) with
      | None => (s, [OPoll w (Err (EOther 1))])
      | Some c =>
          match c_in (w_chan s c), recv (w_chan s c) with
          | [], _ | _, None => (s, [OPoll w (Ok None)])
          | _, Some (Stop g, ch) => (mkWorld (w_proc s) (set (w_chan s) c (mkChan (Some (Stop g)) (c_in ch))) (w_stack s), [OPoll w (Ok (Some g))])
          | _, Some (Other _, ch) => (mkWorld (w_proc s) (set (w_chan s) c ch) (w_stack s), [OPoll w (Ok None)])
          end
      end
  | Recv w =>
      match recv (w_chan s w) with
      | Some (m, ch) => (mkWorld (w_proc s) (set (w_chan s) w ch) (w_stack s), [ORecv w (Some m)])
      | None => (s, [ORecv w None])
      end
  | Stats w => (* executor.py:654-673 (new_tasks_timing) *)
      let p := w_proc s (pid threads w) in
      let l := skipn (p_last p) (p_tasks p) in
      (with_proc w (mkProc (p_worker p) (p_comm p) (p_tasks p) (p_last p + length l) (p_next p) (p_rworker p) (p_team p) (p_cwd p)), [OStats w l])
  | Quit w =>
      let p := w_proc s (pid threads w) in
      (with_proc w (mkProc (p_worker p) None (p_tasks p) (p_last p) (p_next p) (p_rworker p) (p_team p) (p_cwd p)), [])
  | Send w m => (mkWorld (w_proc s) (set (w_chan s) w (mkChan (c_buf (w_chan s w)) (c_in (w_chan s w) ++ [m]))) (w_stack s), [])
  end.
Fixpoint run (threads : bool) (zero : list nat) (l : list step) (s : world) : world * list obs :=
  match l with
  | [] => (s, [])
  | x :: l => let (s1, o1) := do_step threads zero x s in let (s2, o2) := run threads zero l s1 in (s2, o1 ++ o2)
  end.
(** libE.py:447-466: at the start of a call every worker is a copy of the process that
    calls libE, or a thread of it, in directory [d]; its next task number is [n] *)
Definition start (n d : nat) : world :=
  mkWorld (fun _ => mkProc None None [] 0 n None None d) (fun _ => mkChan None []) (fun _ => []).
