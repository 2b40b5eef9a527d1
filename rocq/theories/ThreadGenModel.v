(** Model of utils/runners.py:161-178 and 210-245 (LibensembleGenThreadRunner): how
    a worker relays messages between the manager and a generator function that runs
    in a process of its own (ProcGenModel). *)
From Verif Require Import Base MapModel ProcGenModel.
Local Open Scope nat_scope.

(** What PersistentSupport.recv gives (tools/persistent_support.py:62-102): rows,
    with a stop tag if they are the last ones (final_gen_send), or a stop signal
    without rows. *)
Inductive mail := Rows (stop : bool) (a : arr) | Signal.
(** What PersistentSupport.send puts in the manager's queue: points, or an update
    (keep_state=True, runners.py:229). *)
Inductive sent := SPoints (a : arr) | SUpdate (a : arr).
(** Running: the worker is still in the loop, or waits for the manager. Waits: it
    waits for the generator function, which has nothing more to say. *)
Inductive outcome := Running | Returned (v : nat) | Raised (e : err) | Waits.

Section Relay.
Variable gen : gfun.
Variable N : nat.
Variable persis_in : list name.
Variable mp : mapping.              (* gen.variables_mapping *)

(** map_numpy_array gives None back (misc.py:230). *)
Definition map_in (x : option arr) : res (option arr) :=
  match x with None => Ok None | Some a => bindr (map_np a mp) (fun b => Ok (Some b)) end.
Definition rows_in (m : mail) : option arr := match m with Rows _ a => Some a | Signal => None end.
Definition stops (m : mail) : bool := match m with Rows s _ => s | Signal => true end.

(** runners.py:218-231 (_suggest_and_send). The queue's empty() is asked again and
    again; at most [k] times it shows a message. It may show a message later than
    it was put there, but it shows none that is not there. *)
Fixpoint forward (k : nat) (o : obj) (out : list sent) : obj * list sent * option outcome :=
  match k with
  | 0 => (o, out, None)
  | S k' =>
      match nth_error (outbox gen o) (o_taken o) with
      | None => (o, out, None)
      | Some _ =>
          match suggest gen persis_in 0 o with
          | (o1, Ret a) =>
              match unmap_np a mp with
              | Err e => (o1, out, Some (Raised e))
              | Ok p => forward k' (fst (updates o1)) (out ++ SPoints p :: map SUpdate (o_minima o1))
              end
          | (o1, Raise e) => (o1, out, Some (Raised e))
          | (o1, Hang) => (o1, out, Some Waits)
          end
      end
  end.

(** runners.py:244 and 176-178: the function's result, then finalize *)
Definition conclude (o : obj) : obj * option outcome :=
  match result gen o with
  | (o1, Ret v) =>
      match finalize gen persis_in o1 with
      | (o2, Ret _) => (o2, Some (Returned v))
      | (o2, Raise e) => (o2, Some (Raised e))
      | (o2, Hang) => (o2, Some Waits)
      end
  | (o1, Raise e) => (o1, Some (Raised e))
  | (o1, Hang) => (o1, Some Waits)
  end.
(** runners.py:238-245: [ms] are the messages that mail_flag shows in one turn of
    the loop. *)
Fixpoint deliver (ms : list mail) (o : obj) : obj * option outcome :=
  match ms with
  | [] => (o, None)
  | m :: ms' =>
      match map_in (rows_in m) with
      | Err e => (o, Some (Raised e))
      | Ok x =>
          match ingest N persis_in x (stops m) o with
          | (o1, Ret _) => if stops m then conclude o1 else deliver ms' o1
          | (o1, Raise e) => (o1, Some (Raised e))
          | (o1, Hang) => (o1, Some Waits)
          end
      end
  end.
(** runners.py:233-245 (_loop_over_gen): each turn with the number of messages that
    the outbox shows and the messages that have come from the manager *)
Fixpoint loop (turns : list (nat * list mail)) (o : obj) (out : list sent) : obj * list sent * outcome :=
  match turns with
  | [] => (o, out, Running)
  | (k, ms) :: turns' =>
      match forward k o out with
      | (o1, out1, Some r) => (o1, out1, r)
      | (o1, out1, None) =>
          match deliver ms o1 with
          | (o2, Some r) => (o2, out1, r)
          | (o2, None) => loop turns' o2 out1
          end
      end
  end.

(** runners.py:156-159 (_start_generator_loop): the first rows; the tag they came
    with is not looked at. *)
Definition first_results (m : mail) (turns : list (nat * list mail)) (o : obj) (out : list sent) : obj * list sent * outcome :=
  match map_in (rows_in m) with
  | Err e => (o, out, Raised e)
  | Ok x =>
      match ingest N persis_in x false o with
      | (o1, Ret _) => loop turns o1 out
      | (o1, Raise e) => (o1, out, Raised e)
      | (o1, Hang) => (o1, out, Waits)
      end
  end.
(** runners.py:166-176. [first]: the answer to the first points, if it has come. *)
Definition begin (first : option mail) (turns : list (nat * list mail)) (o : obj) : obj * list sent * outcome :=
  match suggest gen persis_in 0 o with
  | (o1, Ret a) =>
      match unmap_np a mp with
      | Err e => (o1, [], Raised e)
      | Ok p => match first with
                | None => (o1, [SPoints p], Running)
                | Some m => first_results m turns o1 [SPoints p]
                end
      end
  | (o1, Raise e) => (o1, [], Raised e)
  | (o1, Hang) => (o1, [], Waits)
  end.
(** runners.py:161-178 (_persistent_result). [H0]: the rows that came with the order
    that started the generator. *)
Definition relay (H0 : option arr) (first : option mail) (turns : list (nat * list mail)) : obj * list sent * outcome :=
  match H0 with
  | Some a =>
      if length (a_rows a) =? 0 then begin first turns new_obj
      else match map_np a mp with
           | Err e => (new_obj, [], Raised e)
           | Ok b => match ingest N persis_in (Some b) false new_obj with
                     | (o1, Ret _) => begin first turns o1
                     | (o1, Raise e) => (o1, [], Raised e)
                     | (o1, Hang) => (o1, [], Waits)
                     end
           end
  | None => begin first turns new_obj
  end.
End Relay.

(** What happens to the function's result. _result gives a pair of the result and a
    tag (runners.py:178) where the result is itself a triple (array, persis_info,
    tag). worker.py:292-302 takes a pair with a number as array and status. *)
Inductive pyval := PyArray (v : nat) | PyTriple (v : nat).
Definition returned (v : nat) : pyval := PyTriple v.
(** manager.py:490-499: final data is used if it is an array and use_persis_return_gen
    is set. *)
Definition final_rows (use : bool) (x : pyval) : option nat :=
  match x with PyArray v => if use then Some v else None | PyTriple _ => None end.

(** PersistentSupport.recv as the generator function calls it
    (tools/persistent_support.py:72-102), on the messages that are in its inbox:
    the tag says stop, the rows if there are any, and what is left; None: it waits,
    or a message without a stop tag is not one that a Work message leads.
    A stop that is not a Work message is pushed back, so it stays first. *)
Definition ps_recv (inbox : list pin) : option (bool * option arr * list pin) :=
  match inbox with
  | [] => None
  | PNone s :: _ | PRows s _ :: _ => if s then Some (true, None, inbox) else None
  | PWork s _ :: PRows s' a :: r => if s' then Some (true, None, PRows true a :: r) else Some (s, Some a, r)
  | PWork s _ :: PNone true :: r => Some (true, None, PNone true :: r)
  | _ => None
  end.
