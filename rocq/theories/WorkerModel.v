(** Model of the worker side: libensemble/worker.py (the loop, _handle,
    _recv_H_rows, _handle_calc), tools/persistent_support.py and
    Executor.manager_poll. One step is at most one operation on the
    communicator, so every interleaving with the manager is a sequence of steps.

    Not modelled: calculation directories and libE_stats lines (OutputModel),
    persis_info, the dtypes and workflow directory received before the loop
    (worker.py:97-102), log records (they are added by the system model),
    exceptions' texts. *)
From Verif Require Import Base HistoryModel WorkModel ManagerModel CommsModel.

(** ** What user functions can return *)

(** A Python value as far as worker.py looks at it: None, a structured array,
    one record of an array, an int, a str, a dict, any other object. *)
Inductive pyval := PNone | PArr (A : sarr) | PRec (A : sarr) (i : nat) | PInt (n : nat) | PStr (n : nat) | PDict | PObj.

(** The whole return value: one value, or a tuple or list of values. *)
Inductive uret := ROne (v : pyval) | RTuple (l : list pyval).

(** calc_out as the manager sees it. *)
Definition out_of (v : pyval) : uout := match v with PNone => UNone | PArr A => UArr A | _ => UOther end.

(** calc_status. A status that is not an int is a number that no code tests for. *)
Definition status_of (v : pyval) : nat :=
  match v with PInt n => n | PStr n => 1000 + n | _ => 999 end.

(** Runner.run, runners.py:54-67: a dictionary in place of the output, or an
    empty tuple, raises. *)
Definition runner_check (r : uret) : option uret :=
  match r with
  | RTuple [] => None
  | RTuple (PDict :: _) => None
  | ROne PDict => None
  | _ => Some r
  end.

(** worker.py:289-300 and the unpacking at line 361: the pair (calc_out,
    calc_status), or None when this code raises (len() of an int or another
    unsized object, more than three elements). [st] is the status so far. An
    array is unpacked as a pair when it has two rows. A str returned alone is left
    out (it stands for an object passed on as calc_out). *)
Definition parse_out (r : uret) (st : nat) : option (pyval * nat) :=
  match r with
  | ROne PNone => Some (PNone, st)
  | ROne (PArr A) => if length (a_rows A) =? 2 then Some (PRec A 0, st) else Some (PArr A, st)
  | ROne (PStr _) => Some (PObj, st)
  | ROne _ => None
  | RTuple [a; b; c] => Some (a, status_of c)
  | RTuple (_ :: _ :: _ :: _ :: _) => None
  | RTuple [a; b] => match b with
                     | PInt _ | PStr _ => Some (a, status_of b)
                     | _ => Some (a, st)
                     end
  | RTuple _ => Some (PObj, st)
  end.

(** ** What a persistent function is handed by PersistentSupport.recv *)
Inductive recvd :=
| RNothing                                              (* None, None, None *)
| RSignal (tag sig : nat)                               (* tag, signal, None *)
| RWork (k : work) (fs : list field) (data : list (list val))   (* tag, Work, calc_in *)
| RFinal (k : work)                                     (* tag, Work, None *)
| RMixed (k k2 : work).                                 (* tag, Work, and a second Work for calc_in *)

(** ** User functions as state machines

    A user function that has been called is in some state; each step computes,
    uses one of the services, returns or raises. Any function, including one
    that never returns, is such a machine. *)
Inductive uact (U : Type) :=
| ACompute (u : U)
| ASend (out : pyval) (status : nat) (keep : bool) (u : U)   (* PersistentSupport.send *)
| ARecv (blocking : bool) (k : recvd -> U)                   (* PersistentSupport.recv *)
| APoll (k : option nat -> U)                                (* Executor.manager_poll *)
| AReturn (r : uret)
| ARaised.
Arguments ACompute {U}. Arguments ASend {U}. Arguments ARecv {U}. Arguments APoll {U}. Arguments AReturn {U}. Arguments ARaised {U}.

Section Worker.
Variable U : Type.
(** calling the user function of the order's type with the order and its row data *)
Variable ustart : work -> list field -> list (list val) -> U.
Variable ustep : U -> uact U.
Variable kd : kind.

(** Where the worker is: at the receive of its loop (worker.py:397); at the
    receive of the rows (340), for an order to run or to throw away; inside the
    user function, with the H_rows entry of libE_info; at the second receive of
    PersistentSupport.recv (persistent_support.py:87); out of the loop. *)
Inductive place :=
| AtTop
| AtRows (k : work) (discard : bool)
| InCalc (k : work) (rows : list nat) (u : U)
| InRecv (k : work) (rows : list nat) (k2 : work) (c : recvd -> U)
| Left.

(** Ghost record of what the worker does: user function called, an order taken
    by a persistent function, something handed to it, a message read and
    dropped, a message sent by a persistent function, the answer to the order,
    an error report, the normal end of the loop. *)
Inductive wev :=
| VCall (k : work) (fs : list field) (data : list (list val))
| VTake (k : work)
| VHand (g : recvd)
| VDrop (o : omsg)
| VMid (k : work) (a : answer)
| VAnswer (k : work) (a : answer)
| VFail
| VEnd.

Record wst := mkWs { s_comm : comm omsg imsg; s_place : place; s_log : list wev }.

Definition inform (e : wev) (s : wst) : wst := mkWs (s_comm s) (s_place s) (s_log s ++ [e]).
Definition goto (p : place) (s : wst) : wst := mkWs (s_comm s) p (s_log s).
Definition emit (i : imsg) (s : wst) : wst := mkWs (comm_send i (s_comm s)) (s_place s) (s_log s).
Definition with_comm (q : comm omsg imsg) (s : wst) : wst := mkWs q (s_place s) (s_log s).

(** worker.py:423-424 *)
Definition fails (s : wst) : wst := inform VFail (goto Left (emit IErr s)).
(** worker.py:401 and 418-419 *)
Definition ends (s : wst) : wst := inform VEnd (goto Left s).

(** _handle up to the call, worker.py:349-361, with the assertion of line 346
    (for a list without rows, the KeyError of line 342 comes first). *)
Definition call (k : work) fs data (s : wst) : wst :=
  if (k_tag k =? EVAL_SIM) || (k_tag k =? EVAL_GEN)
  then inform (VCall k fs data) (goto (InCalc k (k_rows k) (ustart k fs data)) s)
  else fails s.

Definition is_finish_msg (o : omsg) : bool :=
  match o with OStop s | OPStop s => s =? SIG_FINISH | _ => false end.

(** The answer dictionary, worker.py:377-384 and persistent_support.py:52-57.
    The calculation type a persistent function gives to PersistentSupport is
    taken to be its own. *)
Definition reply (k : work) (rows : list nat) (v : pyval) (st : nat) (keep : bool) : answer :=
  mkAns (k_tag k) st (out_of v) rows keep (k_persistent k).

(** worker.py:281-300, 361-384, 418-420: the user function has returned. The
    buffered message is taken first; a FINISH there is the default status. *)
Definition returned (k : work) (rows : list nat) (r : uret) (s : wst) : wst :=
  let '(s1, st0) :=
    match q_buf (s_comm s) with
    | Some o => match comm_recv (s_comm s) with
                | Some (_, q) => (inform (VDrop o) (with_comm q s), if is_finish_msg o then SIG_FINISH else 0)
                | None => (s, 0)
                end
    | None => (s, 0)
    end in
  match runner_check r with
  | None => fails s     (* raised inside the call, before the buffer is read *)
  | Some r' =>
      match parse_out r' st0 with
      | None => fails s1
      | Some (v, st) =>
          if st =? SIG_FINISH then ends s1
          else let a := reply k rows v st false in
               inform (VAnswer k a) (goto AtTop (emit (IData a) s1))
      end
  end.

(** A push-back that fails (MPI only) raises inside the user function. *)
Definition push_back (o : omsg) (s : wst) (ok : wst -> wst) : wst :=
  match comm_push kd o (s_comm s) with
  | (q, None) => ok (with_comm q s)
  | (q, Some _) => fails s
  end.

(** One step. [seen] is false when the mail check misses a message that is
    still in transit. None: the worker waits or has left its loop. *)
Definition wstep (seen : bool) (s : wst) : option wst :=
  match s_place s with
  | Left => None
  | AtTop =>                                             (* worker.py:397-420 *)
      match comm_recv (s_comm s) with
      | None => None
      | Some (o, q) =>
          let s1 := with_comm q s in
          Some (match o with
                | OStop x | OPStop x =>
                    if x =? SIG_FINISH then ends s1
                    else if x =? SIG_KILL then inform (VDrop o) s1
                    else fails s1
                | ORows _ _ => fails s1
                | OWork k =>
                    if match k_recv k with Some b => b && negb (k_persistent k) | None => false end then
                      match k_rows k with
                      | [] => inform (VDrop o) s1
                      | _ => inform (VDrop o) (goto (AtRows k true) s1)
                      end
                    else match k_rows k with
                         | [] => call k [] [] s1
                         | _ => goto (AtRows k false) s1
                         end
                end)
      end
  | AtRows k discard =>                                  (* worker.py:340-346 *)
      match comm_recv (s_comm s) with
      | None => None
      | Some (o, q) =>
          let s1 := with_comm q s in
          Some (if discard then
                  if (k_tag k =? EVAL_SIM) || (k_tag k =? EVAL_GEN) then inform (VDrop o) (goto AtTop s1) else fails s1
                else match o with
                     | ORows fs d => call k fs d s1
                     | _ => call k [] [] s1     (* calc_in is then the wrong object; shown as no data *)
                     end)
      end
  | InCalc k rows u =>
      match ustep u with
      | ACompute u' => Some (goto (InCalc k rows u') s)
      | AReturn r => Some (returned k rows r s)
      | ARaised => Some (fails s)
      | ASend v st keep u' =>                            (* persistent_support.py:31-60 *)
          let a := reply k rows v st keep in
          Some (inform (VMid k a) (goto (InCalc k rows u') (emit (IData a) s)))
      | APoll c =>                                       (* executor.py:544-571 *)
          if comm_mail kd (s_comm s) && seen then
            match comm_recv (s_comm s) with
            | None => None
            | Some (o, q) =>
                let s1 := with_comm q s in
                Some (match o with
                      | OStop x => push_back o s1 (goto (InCalc k rows (c (Some x))))
                      | _ => inform (VDrop o) (goto (InCalc k rows (c None)) s1)
                      end)
            end
          else Some (goto (InCalc k rows (c None)) s)
      | ARecv blocking c =>                              (* persistent_support.py:72-87 *)
          if negb blocking && negb (comm_mail kd (s_comm s) && seen)
          then Some (inform (VHand RNothing) (goto (InCalc k rows (c RNothing)) s))
          else
            match comm_recv (s_comm s) with
            | None => None
            | Some (o, q) =>
                let s1 := with_comm q s in
                Some (match o with
                      | OStop x => push_back o s1 (fun s2 =>
                          inform (VHand (RSignal STOP_TAG x)) (goto (InCalc k rows (c (RSignal STOP_TAG x))) s2))
                      | OPStop x => push_back o s1 (fun s2 =>
                          inform (VHand (RSignal PERSIS_STOP x)) (goto (InCalc k rows (c (RSignal PERSIS_STOP x))) s2))
                      | OWork k2 => inform (VTake k2) (goto (InRecv k (k_rows k2) k2 c) s1)
                      | ORows _ _ => fails s1
                      end)
            end
      end
  | InRecv k rows k2 c =>                                (* persistent_support.py:87-98 *)
      match comm_recv (s_comm s) with
      | None => None
      | Some (o, q) =>
          let s1 := with_comm q s in
          let hand g s2 := inform (VHand g) (goto (InCalc k rows (c g)) s2) in
          Some (match o with
                | OStop x => push_back o s1 (hand (RSignal STOP_TAG x))
                | OPStop x => push_back o s1 (hand (RSignal PERSIS_STOP x))
                | OWork k3 => if (k_tag k3 =? STOP_TAG) || (k_tag k3 =? PERSIS_STOP)
                              then push_back o s1 (hand (RFinal k3))
                              else hand (RMixed k2 k3) s1
                | ORows fs d => hand (RWork k2 fs d) s1
                end)
      end
  end.

(** The worker at the start of its loop with nothing received yet. *)
Definition fresh_worker : wst := mkWs new_comm AtTop [].

(** Any number of steps; [seen] may differ at each. *)
Inductive wsteps : wst -> wst -> Prop :=
| ws_refl s : wsteps s s
| ws_step b s s1 s2 : wsteps s s1 -> wstep b s1 = Some s2 -> wsteps s s2.

End Worker.
