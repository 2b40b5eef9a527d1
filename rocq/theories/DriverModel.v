(** Model of what libE() does around the manager: the generic manager() routine,
    the dump on abort and the end of the worker team.
    libE.py:270-323, 405-432, 469-518, 603-654; comms/comms.py:190-204, 237-276. *)
From Verif Require Import Base HistoryModel WorkModel ManagerModel.
Local Open Scope nat_scope.

(** ** A worker process or thread at the end of a run *)

(** What a worker puts in its outbox: an ordinary message (for the manager or the
    log), its result, or the exception that ended it (_qcomm_main,
    comms.py:214-225). *)
Inductive wmsg := MOther | MResult | MError.
(** [wk_msgs]: the messages still to be read, each with the time it comes after the
    one before. [wk_stays]: a thread that never ends. *)
Record wk := mkWk { wk_alive : bool; wk_msgs : list (Z * wmsg); wk_stays : bool }.

Inductive rres := RDone (failed : bool) | RTimeout | RForever.

(** comms.py:190-201 (QCommLocal.result up to the end of the loop); [None]: no
    timeout. *)
Fixpoint result_loop (t : option Z) (msgs : list (Z * wmsg)) : rres :=
  match t with
  | None =>
      match msgs with
      | [] => RForever
      | (_, MResult) :: _ => RDone false
      | (_, MError) :: _ => RDone true
      | (_, MOther) :: r => result_loop None r
      end
  | Some z =>
      if (z <? 0)%Z then RTimeout else
      match msgs with
      | [] => RTimeout
      | (d, k) :: r =>
          if (d <=? z)%Z then
            match k with MResult => RDone false | MError => RDone true | MOther => result_loop (Some (z - d)%Z) r end
          else RTimeout
      end
  end.

(** comms.py:237-276. A process is ended by a signal (simplification: one that
    blocks the signal is not considered). A thread can only be waited for: None
    means for ever. *)
Definition terminate (threads : bool) (w : wk) : option wk :=
  if threads && wk_stays w && wk_alive w then None else Some (mkWk false (wk_msgs w) (wk_stays w)).

Inductive cres := CDone | CRaised | CForever.

(** libE.py:469-475 (kill_proc_team) with comms.py:201-204: a result or an
    exception of the worker also ends it. The team is returned as it then is.
    Simplification: a thread that has given its result ends in time. *)
Fixpoint kill_proc_team (threads : bool) (timeout : option Z) (team : list wk) : list wk * cres :=
  match team with
  | [] => ([], CDone)
  | w :: team' =>
      match result_loop timeout (wk_msgs w) with
      | RForever => (team, CForever)
      | RDone true => (mkWk false (wk_msgs w) (wk_stays w) :: team', CRaised)   (* RemoteException is not caught *)
      | RDone false =>
          let (t, r) := kill_proc_team threads timeout team' in (mkWk false (wk_msgs w) (wk_stays w) :: t, r)
      | RTimeout =>
          match terminate threads w with
          | None => (team, CForever)
          | Some w' => let (t, r) := kill_proc_team threads timeout team' in (w' :: t, r)
          end
      end
  end.

(** ** The generic manager routine *)

Inductive comms := Local | Threads | Tcp | Mpi.
(** libE_specs: save_H_and_persis_on_abort, abort_on_exception, worker_timeout *)
Record drv := mkDrv { d_comms : comms; d_save : bool; d_abort : bool; d_timeout : option Z }.

(** Files written by _dump_on_abort, named by the number of finished simulations. *)
Inductive afile := AHistory (ended : nat) (a : sarr) | APersis (ended : nat).
(** [v_logs]: how often the log was closed. [v_mpi_abort]: MPI Abort was called. *)
Record world := mkWorld { v_files : list afile; v_team : list wk; v_logs : nat; v_mpi_abort : bool }.

(** libE.py:505-509 (local and threads), 407-410 (mpi: the workers are other ranks,
    which the manager leaves alone) and 625-630 (tcp: launcher.cancel ends each
    launched process, see ExecutorModel.cancel). *)
Definition cleanup (d : drv) (v : world) : world * cres :=
  match d_comms d with
  | Mpi => (mkWorld (v_files v) (v_team v) (v_logs v + 1) (v_mpi_abort v), CDone)
  | Tcp => (mkWorld (v_files v) (map (fun w => mkWk false (wk_msgs w) (wk_stays w)) (v_team v)) (v_logs v + 1) (v_mpi_abort v), CDone)
  | _ =>
      let (t, r) := kill_proc_team (match d_comms d with Threads => true | _ => false end) (d_timeout d) (v_team v) in
      (mkWorld (v_files v) t (match r with CDone => v_logs v + 1 | _ => v_logs v end) (v_mpi_abort v), r)
  end.

(** What libE() does in the end. [DLogged]: LoggedException made from the error of
    the run. [DDump]: the dump itself failed. [DRemote]: RemoteException from the
    cleanup. [DGone]: MPI Abort ended the program. [DForever]: it waits for ever. *)
Inductive dres := DReturn (H : sarr) (flag : nat) | DLogged (e : err) | DDump | DRemote | DGone | DForever.

(** libE.py:646-654 (_dump_on_abort). [io]: whether np.save and pickle.dump succeed. *)
Definition dump (d : drv) (io : bool * bool) (h : hist) (v : world) : world * bool :=
  if d_save d then
    if fst io then
      let v1 := mkWorld (v_files v ++ [AHistory (h_ended h) (mkA (h_dtype h) (trim_H h))]) (v_team v) (v_logs v) (v_mpi_abort v) in
      if snd io then (mkWorld (v_files v1 ++ [APersis (h_ended h)]) (v_team v1) (v_logs v1) (v_mpi_abort v1), true) else (v1, false)
    else (v, false)
  else (v, true).

(** The finally clause, libE.py:318-320: an exception of the cleanup takes the
    place of [r]. *)
Definition finally (d : drv) (v : world) (r : dres) : world * dres :=
  match cleanup d v with
  | (v1, CDone) => (v1, r)
  | (v1, CRaised) => (v1, DRemote)
  | (v1, CForever) => (v1, DForever)
  end.

(** libE.py:270-323 (manager), from the outcome of manager_main. on_abort is given
    with MPI only. *)
Definition manager_routine (d : drv) (io : bool * bool) (m : mgr) (o : outcome) (v : world) : world * dres :=
  match o with
  | Running => (v, DForever)
  | Returned f => finally d v (DReturn (mkA (h_dtype (m_h m)) (trim_H (m_h m))) f)
  | Raised e =>
      match dump d io (m_h m) v with
      | (v1, false) => finally d v1 DDump
      | (v1, true) =>
          match d_comms d with
          | Mpi =>
              if d_abort d then
                let (v2, _) := cleanup d v1 in
                (mkWorld (v_files v2) (v_team v2) (v_logs v2) true, DGone)
              else finally d v1 (DLogged e)
          | _ => finally d v1 (DLogged e)
          end
      end
  end.

(** libE.py:484-518: libE with local or threaded workers. [team]: what the workers
    will do when the run is over. *)
Definition libE (d : drv) (io : bool * bool) (c : mcfg) (its : list iter) (t : Z) rounds (m : mgr) (team : list wk) : world * dres :=
  let (m', o) := run c its t rounds m in
  manager_routine d io m' o (mkWorld [] team 0 false).
