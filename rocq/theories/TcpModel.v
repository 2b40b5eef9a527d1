(** Model of the queues of a run over TCP: comms/tcp_mgr.py and the launch of the
    team in libE.py:567-582, 631-641. The server keeps queues by name; a worker
    process signs up with its workerID on a shared queue, and the manager makes one
    communicator per sign-up.

    Not modelled: sockets, authentication and time-outs; the push-back buffers of
    QComm are [CommsModel]'s matter. A queue that get_queue (tcp_mgr.py:16-19)
    creates when it is first named is an empty queue here. [A] is the type of
    messages. *)
From Coq Require Import String.
From Verif Require Import Base TextModel.
Local Open Scope nat_scope.
Local Notation length := List.length.

Section Tcp.
Context {A : Type}.

(** what lies on a queue: a workerID or a message *)
Inductive item := IId (w : nat) | IMsg (x : A).

(** tcp_mgr.py:13-19, the queues of the server, by name *)
Definition queues := list (text * list item).
Fixpoint get_queue (n : text) (q : queues) : list item :=
  match q with [] => [] | (k, l) :: q' => if teqb k n then l else get_queue n q' end.
Fixpoint set_queue (n : text) (l : list item) (q : queues) : queues :=
  match q with [] => [(n, l)] | (k, x) :: q' => if teqb k n then (k, l) :: q' else (k, x) :: set_queue n l q' end.
(** Queue.put and Queue.get; [None]: the caller waits *)
Definition put (n : text) (x : item) (q : queues) : queues := set_queue n (get_queue n q ++ [x]) q.
Definition take (n : text) (q : queues) : option (item * queues) :=
  match get_queue n q with [] => None | x :: l => Some (x, set_queue n l q) end.

(** tcp_mgr.py:52-62 (manager) and 108-118 (worker): the names of the queues *)
Definition inbox (w : nat) : text := T "inbox" ++ dec w.
Definition outbox (w : nat) : text := T "outbox" ++ dec w.
Definition shared : text := T "shared".

(** What happens, in order: process [p] signs up, the manager takes the sign-up of
    a workerID, the manager sends or gets a message on its communicator number [i]
    (counted from 0), a process sends or gets one. *)
Inductive ev := EConnect (p : nat) | EJoin (w : nat) | MSent (i : nat) (x : A) | MGot (i : nat) (x : A) | WSent (p : nat) (x : A) | WGot (p : nat) (x : A).
Record tcp := mkTcp { t_q : queues; t_comms : list (text * text); t_conn : list nat; t_log : list ev }.
Definition start : tcp := mkTcp [] [] [] [].

Inductive act := Connect (p : nat) | Await | MSend (i : nat) (x : A) | MRecv (i : nat) | WSend (p : nat) (x : A) | WRecv (p : nat).

(** One step. [ids p] is the workerID that process [p] was started with, [n] the
    number of workers. *)
Definition step (ids : nat -> nat) (n : nat) (a : act) (s : tcp) : option tcp :=
  match a with
  | Connect p => (* tcp_mgr.py:93-106 *)
      if memb p (t_conn s) then None
      else Some (mkTcp (put shared (IId (ids p)) (t_q s)) (t_comms s) (t_conn s ++ [p]) (t_log s ++ [EConnect p]))
  | Await => (* tcp_mgr.py:64-73: the manager's inbox is the worker's outbox *)
      if length (t_comms s) <? n then
        match take shared (t_q s) with
        | Some (IId w, q) => Some (mkTcp q (t_comms s ++ [(outbox w, inbox w)]) (t_conn s) (t_log s ++ [EJoin w]))
        | _ => None
        end
      else None
  | MSend i x => (* comms.py:118-122; the manager runs once all have joined, libE.py:616-628 *)
      match nth_error (t_comms s) i with
      | Some (_, out) => if length (t_comms s) =? n then Some (mkTcp (put out (IMsg x) (t_q s)) (t_comms s) (t_conn s) (t_log s ++ [MSent i x])) else None
      | None => None
      end
  | MRecv i => (* comms.py:124-135 *)
      match nth_error (t_comms s) i with
      | Some (inb, _) =>
          if length (t_comms s) =? n then
            match take inb (t_q s) with Some (IMsg x, q) => Some (mkTcp q (t_comms s) (t_conn s) (t_log s ++ [MGot i x])) | _ => None end
          else None
      | None => None
      end
  | WSend p x => (* tcp_mgr.py:120-122: QComm(inbox, outbox) *)
      if memb p (t_conn s) then Some (mkTcp (put (outbox (ids p)) (IMsg x) (t_q s)) (t_comms s) (t_conn s) (t_log s ++ [WSent p x])) else None
  | WRecv p =>
      if memb p (t_conn s) then
        match take (inbox (ids p)) (t_q s) with Some (IMsg x, q) => Some (mkTcp q (t_comms s) (t_conn s) (t_log s ++ [WGot p x])) | _ => None end
      else None
  end.

(** A schedule; steps that have to wait are not taken. *)
Fixpoint play (ids : nat -> nat) (n : nat) (l : list act) (s : tcp) : option tcp :=
  match l with
  | [] => Some s
  | a :: l' => match step ids n a s with Some s' => play ids n l' s' | None => None end
  end.

(** ** What is observed *)
Fixpoint connected (l : list ev) : list nat := match l with [] => [] | EConnect p :: l' => p :: connected l' | _ :: l' => connected l' end.
Fixpoint joined (l : list ev) : list nat := match l with [] => [] | EJoin w :: l' => w :: joined l' | _ :: l' => joined l' end.
Fixpoint m_sent (i : nat) (l : list ev) : list A := match l with [] => [] | MSent j x :: l' => if j =? i then x :: m_sent i l' else m_sent i l' | _ :: l' => m_sent i l' end.
Fixpoint m_got (i : nat) (l : list ev) : list A := match l with [] => [] | MGot j x :: l' => if j =? i then x :: m_got i l' else m_got i l' | _ :: l' => m_got i l' end.
Fixpoint w_sent (p : nat) (l : list ev) : list A := match l with [] => [] | WSent j x :: l' => if j =? p then x :: w_sent p l' else w_sent p l' | _ :: l' => w_sent p l' end.
Fixpoint w_got (p : nat) (l : list ev) : list A := match l with [] => [] | WGot j x :: l' => if j =? p then x :: w_got p l' else w_got p l' | _ :: l' => w_got p l' end.
End Tcp.
Arguments item : clear implicits. Arguments ev : clear implicits. Arguments tcp : clear implicits. Arguments act : clear implicits. Arguments queues : clear implicits.
