(** Model of the message queues of libensemble/comms/comms.py and comms/mpi.py,
    seen from one end. [A] is the type of messages.

    Not modelled: timeouts (a receive that finds nothing is [None]), pickling
    and deep copies, thread and process creation. *)
From Verif Require Import Base.

(** comms.py:99-116 and mpi.py:29-35: the incoming queue, the push-back slot
    recv_buffer and the outgoing queue. *)
Record comm (A B : Type) := mkComm { q_in : list A; q_buf : option A; q_out : list B }.
Arguments mkComm {A B}. Arguments q_in {A B}. Arguments q_buf {A B}. Arguments q_out {A B}.

(** The two implementations: QComm (threads, processes, TCP) and MPIComm. *)
Inductive kind := Local | Mpi.

(** QComm.send comms.py:118-122, MPIComm.send mpi.py:70-75 *)
Definition comm_send {A B} (x : B) (q : comm A B) : comm A B := mkComm (q_in q) (q_buf q) (q_out q ++ [x]).

(** QComm.recv comms.py:124-135, MPIComm.recv mpi.py:77-89: the pushed-back
    message if there is one, otherwise the oldest of the queue. None: wait. *)
Definition comm_recv {A B} (q : comm A B) : option (A * comm A B) :=
  match q_buf q with
  | Some x => Some (x, mkComm (q_in q) None (q_out q))
  | None => match q_in q with
            | [] => None
            | x :: l => Some (x, mkComm l None (q_out q))
            end
  end.

(** push_to_buffer: comms.py:138-139 replaces the slot, mpi.py:99-101 asserts
    that it is free. *)
Definition comm_push {A B} (kd : kind) (x : A) (q : comm A B) : ex (comm A B) :=
  match kd, q_buf q with
  | Mpi, Some _ => (q, Some EAssert)
  | _, _ => (mkComm (q_in q) (Some x) (q_out q), None)
  end.

(** mail_flag: comms.py:141-143 looks at the queue only, mpi.py:42-49 at the
    slot first. *)
Definition comm_mail {A B} (kd : kind) (q : comm A B) : bool :=
  match kd, q_buf q with
  | Mpi, Some _ => true
  | _, _ => match q_in q with [] => false | _ => true end
  end.

(** A message put on the queue by the other end. *)
Definition comm_arrive {A B} (x : A) (q : comm A B) : comm A B := mkComm (q_in q ++ [x]) (q_buf q) (q_out q).

Definition new_comm {A B} : comm A B := mkComm [] None [].

(** ** The creator's end of a thread or process, comms.py:148-186

    The other end's last message is its result (comms.py:223-233). *)
Inductive wrapped (A : Type) := Plain (x : A) | Result (failed : bool).
Arguments Plain {A}. Arguments Result {A}.

Record local_end (A : Type) := mkLoc { l_box : list (wrapped A); l_done : bool; l_failed : bool }.
Arguments mkLoc {A}. Arguments l_box {A}. Arguments l_done {A}. Arguments l_failed {A}.

Inductive got (A : Type) := GMsg (x : A) | GFinished | GEmpty.
Arguments GMsg {A}. Arguments GFinished {A}. Arguments GEmpty {A}.

(** QCommLocal.recv, comms.py:174-187, with _is_result_msg, 154-164 *)
Definition local_recv {A} (q : local_end A) : got A * local_end A :=
  if l_done q then (GFinished, q)
  else match l_box q with
       | [] => (GEmpty, q)
       | Plain x :: l => (GMsg x, mkLoc l false (l_failed q))
       | Result b :: l => (GFinished, mkLoc l true b)
       end.

(** QCommLocal.result, comms.py:193-208, without a timeout: messages are read
    and dropped up to the result; the answer is whether an exception is
    re-raised. None: still waiting. *)
Fixpoint local_result {A} (box : list (wrapped A)) (done failed : bool) : option bool :=
  if done then Some failed
  else match box with
       | [] => None
       | Plain _ :: l => local_result l false failed
       | Result b :: l => local_result l true b
       end.

(** _qcomm_main, comms.py:223-233: what a thread that sends [msgs] and then
    returns or raises leaves in the box. *)
Definition thread_output {A} (msgs : list A) (raised : bool) : list (wrapped A) :=
  map Plain msgs ++ [Result raised].
