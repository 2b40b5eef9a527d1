(** Model of gen_funcs/aposmm_localopt_support.py: a local optimizer in a process of
    its own, the queue and the two events through which APOSMM talks to it, and the
    calls of the object LocalOptInterfacer. Both processes use one queue in both
    directions. The scheduler is free: any process, or the thread that moves what a
    process has put into the queue's pipe, may take the next step. *)
From Verif Require Import Base.
Local Open Scope nat_scope.

Section LocalOpt.
Context {X V : Type}.               (* points; what iterate puts: (x, f), (x, fvec) or (x, f, grad) *)

(** What the optimizer does next: evaluate a point, return, or raise. It depends on all
    values it was given so far. *)
Inductive request := Ask (a : X) | Finish (a : X) (flag : bool) | Throw.

(** Items on the queue: lines 738, 724 (ConvergedMsg), 654 (ErrorMsg), 168-173. *)
Inductive item := IPoint (a : X) | IDone (a : X) (flag : bool) | IBad | IValues (v : V).

(** Where the optimizer's process is. *)
Inductive child :=
| CRun                              (* in the optimizer *)
| CSet (next : option X)            (* about to set parent_can_read; then wait for the values of a point, or end *)
| CWait (a : X)                     (* child_can_read.wait(), line 743 *)
| CGet (a : X)                      (* comm_queue.get(), line 745 *)
| CClear (a : X) (v : V)            (* child_can_read.clear() and the comparison, lines 746-751 *)
| CMixed                            (* it was given an item of its own *)
| CEnd                              (* opt_runner has returned *)
| CDead.                            (* the process is gone *)

(** Where APOSMM's process is. *)
Inductive parent :=
| PWait (init : bool)               (* parent_can_read.wait(), lines 146 and 176 *)
| PGet (init : bool)                (* comm_queue.get(), lines 147 and 178 *)
| PIdle                             (* no call is running *)
| PClear (v : V)                    (* line 166 *)
| PPut (v : V)                      (* lines 168-173 *)
| PSet                              (* line 175 *)
| PJoin                             (* process.join(), line 199 *)
| PDrain                            (* comm_queue.join_thread(), line 201 *)
| PClosed                           (* is_running is False *)
| PRaised (init : bool).            (* the call raised an exception *)

(** What a call of iterate gives back: a point, a ConvergedMsg, an exception, or its own
    values. *)
Inductive reply := RPoint (a : X) | RDone (a : X) (flag : bool) | RRaise | ROwn.

Variable act : list V -> request.   (* the optimizer *)
Variable same : X -> V -> bool.     (* lines 748-751: the point came back *)
Variable starts : X -> bool.        (* lines 151-153: the first point is the starting point *)

(** [pipe], [cbuf], [pbuf]: the queue's pipe, and what the two processes have put and
    their threads have not written to the pipe yet. [fed]: what the optimizer was given.
    [given], [replies]: the calls of iterate so far and what they gave back. *)
Record sys := mksys {
  pipe : list item;
  cbuf : list item;
  pbuf : list item;
  pcr : bool;                       (* parent_can_read *)
  ccr : bool;                       (* child_can_read *)
  ch : child;
  pa : parent;
  fed : list V;
  given : list V;
  replies : list reply }.

(** Lines 90-146: the process is started, and __init__ waits for the first point. *)
Definition launch : sys := mksys [] [] [] false false CRun (PWait true) [] [] [].

Definition set_ch (c : child) (s : sys) : sys := mksys (pipe s) (cbuf s) (pbuf s) (pcr s) (ccr s) c (pa s) (fed s) (given s) (replies s).
Definition set_pa (p : parent) (s : sys) : sys := mksys (pipe s) (cbuf s) (pbuf s) (pcr s) (ccr s) (ch s) p (fed s) (given s) (replies s).
Definition put_c (m : item) (c : child) (s : sys) : sys :=
  mksys (pipe s) (cbuf s ++ [m]) (pbuf s) (pcr s) (ccr s) c (pa s) (fed s) (given s) (replies s).

(** One step of the optimizer's process: opt_runner (650-655), put_set_wait_get
    (728-753) and finish_queue (721-725). An exception of the comparison ends the run. A process ends when its thread has written
    everything. None: it has to wait, or has ended. *)
Definition child_step (s : sys) : option sys :=
  match ch s with
  | CRun =>
      Some (match act (fed s) with
            | Ask a => put_c (IPoint a) (CSet (Some a)) s
            | Finish a b => put_c (IDone a b) (CSet None) s
            | Throw => put_c IBad (CSet None) s
            end)
  | CSet n => Some (mksys (pipe s) (cbuf s) (pbuf s) true (ccr s) (match n with Some a => CWait a | None => CEnd end)
                          (pa s) (fed s) (given s) (replies s))
  | CWait a => if ccr s then Some (set_ch (CGet a) s) else None
  | CGet a =>
      match pipe s with
      | [] => None
      | m :: l => Some (mksys l (cbuf s) (pbuf s) (pcr s) (ccr s) (match m with IValues v => CClear a v | _ => CMixed end)
                              (pa s) (fed s) (given s) (replies s))
      end
  | CClear a v =>
      let s1 := mksys (pipe s) (cbuf s) (pbuf s) (pcr s) false CRun (pa s) (fed s ++ [v]) (given s) (replies s) in
      Some (if same a v then s1 else put_c IBad (CSet None) s1)
  | CMixed => Some (put_c IBad (CSet None) s)
  | CEnd => match cbuf s with [] => Some (set_ch CDead s) | _ => None end
  | CDead => None
  end.

Definition got (m : item) : reply :=
  match m with IPoint a => RPoint a | IDone a b => RDone a b | IBad => RRaise | IValues _ => ROwn end.
Definition after_get (init : bool) (m : item) : parent :=
  if init then
    match m with IPoint a => if starts a then PIdle else PRaised true | _ => PRaised true end
  else match m with IBad => PRaised false | IDone _ _ => PJoin | _ => PIdle end.
(** One step of APOSMM's process within __init__ (146-153), iterate (155-186) and close
    (197-202). None: it has to wait, or no call is running. In __init__ an item that is
    no point ends in an exception: APOSMMException, or TypeError from np.allclose. *)
Definition parent_step (s : sys) : option sys :=
  match pa s with
  | PWait i => if pcr s then Some (set_pa (PGet i) s) else None
  | PGet i =>
      match pipe s with
      | [] => None
      | m :: l => Some (mksys l (cbuf s) (pbuf s) (pcr s) (ccr s) (ch s) (after_get i m) (fed s) (given s)
                              (if i then replies s else replies s ++ [got m]))
      end
  | PClear v => Some (mksys (pipe s) (cbuf s) (pbuf s) false (ccr s) (ch s) (PPut v) (fed s) (given s) (replies s))
  | PPut v => Some (mksys (pipe s) (cbuf s) (pbuf s ++ [IValues v]) (pcr s) (ccr s) (ch s) PSet (fed s) (given s) (replies s))
  | PSet => Some (mksys (pipe s) (cbuf s) (pbuf s) (pcr s) true (ch s) (PWait false) (fed s) (given s) (replies s))
  | PJoin => match ch s with CDead => Some (set_pa PDrain s) | _ => None end
  | PDrain => match pbuf s with [] => Some (set_pa PClosed s) | _ => None end
  | PIdle | PClosed | PRaised _ => None
  end.

(** The queue's threads: the oldest item put goes to the pipe. *)
Definition child_flush (s : sys) : option sys :=
  match cbuf s with
  | m :: l => Some (mksys (pipe s ++ [m]) l (pbuf s) (pcr s) (ccr s) (ch s) (pa s) (fed s) (given s) (replies s))
  | [] => None end.
Definition parent_flush (s : sys) : option sys :=
  match pbuf s with
  | m :: l => Some (mksys (pipe s ++ [m]) (cbuf s) l (pcr s) (ccr s) (ch s) (pa s) (fed s) (given s) (replies s))
  | [] => None end.

(** A step that needs no call. *)
Inductive step (s : sys) : sys -> Prop :=
| step_child s' : child_step s = Some s' -> step s s'
| step_parent s' : parent_step s = Some s' -> step s s'
| step_cflush s' : child_flush s = Some s' -> step s s'
| step_pflush s' : parent_flush s = Some s' -> step s s'.

(** Calls. iterate (155-186) is called on an object that is running and idle; destroy
    (188-195) may be called once no call runs. It kills the process if it is alive;
    what its thread has not written is lost. *)
Definition call_iterate (v : V) (s : sys) : option sys :=
  match pa s with
  | PIdle => Some (mksys (pipe s) (cbuf s) (pbuf s) (pcr s) (ccr s) (ch s) (PClear v) (fed s) (given s ++ [v]) (replies s))
  | _ => None end.
Definition call_destroy (s : sys) : option sys :=
  match pa s with
  | PIdle | PClosed | PRaised false =>
      Some (mksys (pipe s) [] (pbuf s) (pcr s) (ccr s) CDead PJoin (fed s) (given s) (replies s))
  | _ => None end.
(** The process is killed from outside, or crashes. *)
Definition crash (s : sys) : sys := mksys (pipe s) [] (pbuf s) (pcr s) (ccr s) CDead (pa s) (fed s) (given s) (replies s).

(** All histories: any steps and any calls. *)
Inductive Run : sys -> Prop :=
| Run_launch : Run launch
| Run_step s s' : Run s -> step s s' -> Run s'
| Run_iterate s s' v : Run s -> call_iterate v s = Some s' -> Run s'
| Run_destroy s s' : Run s -> call_destroy s = Some s' -> Run s'.

(** ** Which values go with which method *)
End LocalOpt.

(** The methods of lines 110-134. *)
Inductive method :=
| LN_SBPLX | LN_BOBYQA | LN_COBYLA | LN_NEWUOA | LN_NELDERMEAD | LD_MMA
| pounders | blmvm | nm
| scipy_Nelder_Mead | scipy_COBYLA | scipy_BFGS
| dfols | ibcdfo_pounders | ibcdfo_manifold_sampling | external_localopt
| Unknown.
Inductive field := Fx | Ff | Fgrad | Ffvec.
Definition field_eqb (a b : field) : bool :=
  match a, b with Fx, Fx | Ff, Ff | Fgrad, Fgrad | Ffvec, Ffvec => true | _, _ => false end.
(** persistent_aposmm.py:744-761: fields_to_pass *)
Definition fields_to_pass (m : method) : res (list field) :=
  match m with
  | LD_MMA | blmvm | scipy_BFGS => Ok [Fx; Ff; Fgrad]
  | LN_SBPLX | LN_BOBYQA | LN_COBYLA | LN_NEWUOA | LN_NELDERMEAD
  | scipy_Nelder_Mead | scipy_COBYLA | external_localopt | nm => Ok [Fx; Ff]
  | pounders | ibcdfo_pounders | ibcdfo_manifold_sampling | dfols => Ok [Fx; Ffvec]
  | Unknown => Err (EOther 2)
  end.
(** Lines 168-173: what iterate puts, given the fields of the row *)
Definition passed (l : list field) : list field :=
  if existsb (field_eqb Fgrad) l then [Fx; Ff; Fgrad]
  else if existsb (field_eqb Ffvec) l then [Fx; Ffvec]
  else [Fx; Ff].
(** Lines 110-136: the routine that runs the method *)
Inductive routine := RNlopt | RTao | RScipy | RDfols | RPounders | RManifold | RExternal.
Definition routine_of (m : method) : res routine :=
  match m with
  | LN_SBPLX | LN_BOBYQA | LN_COBYLA | LN_NEWUOA | LN_NELDERMEAD | LD_MMA => Ok RNlopt
  | pounders | blmvm | nm => Ok RTao
  | scipy_Nelder_Mead | scipy_COBYLA | scipy_BFGS => Ok RScipy
  | dfols => Ok RDfols
  | ibcdfo_pounders => Ok RPounders
  | ibcdfo_manifold_sampling => Ok RManifold
  | external_localopt => Ok RExternal
  | Unknown => Err (EOther 3)
  end.
(** The callbacks, lines 659-718, and line 367: how many values are unpacked, and whether
    the last one is used as a gradient. *)
Definition unpacks (r : routine) (m : method) : nat * bool :=
  match r with
  | RNlopt => match m with LD_MMA => (3, true) | _ => (2, false) end
  | RTao => match m with blmvm => (3, true) | _ => (2, false) end
  | RScipy | RDfols | RPounders | RManifold => match m with scipy_BFGS => (3, true) | _ => (2, false) end
  | RExternal => (2, false)
  end.
