(** Model of utils/runners.py:112-205: how a worker drives a generator object
    (StandardGenRunner for objects with suggest/ingest, LibensembleGenRunner for
    those with suggest_numpy/ingest_numpy). *)
From Verif Require Import Base MapModel.
Local Open Scope nat_scope.

(** The calls on the generator object and what is sent to the manager. [Q]: what
    ingest is given. *)
Inductive ev (Q : Type) := Ingest (q : Q) | Suggest (n : nat) | Send (a : arr) | Finalize.
Arguments Ingest {Q} q.
Arguments Suggest {Q} n.
Arguments Send {Q} a.
Arguments Finalize {Q}.

(** What PersistentSupport.recv gives (tools/persistent_support.py:62-102): rows,
    with a stop tag if they are the last ones (final_gen_send), or a stop signal
    without rows. *)
Inductive gmsg := GData (stop : bool) (a : arr) | GSignal.

(** gen_specs: out ([] if not given), initial_batch_size and batch_size (0 if not
    given) and libE_info["batch_size"] *)
Record gspec := mkGS { g_out : list field; g_init : nat; g_batch : nat; g_libe : nat }.

(** How points and results are converted (runners.py:119-134 and 187-205). *)
Record runner (P Q : Type) := mkRunner {
  r_out : P -> list field -> res arr;          (* what suggest gives, to an array *)
  r_in0 : option arr -> res Q;                 (* _convert_initial_ingest *)
  r_in : arr -> res Q }.                       (* _convert_ingest *)
Arguments mkRunner {P Q} r_out r_in0 r_in.
Arguments r_out {P Q} r.
Arguments r_in0 {P Q} r.
Arguments r_in {P Q} r.

(** runners.py:119-134, 161-165. Iterating over None raises TypeError
    (misc.py:282). *)
Definition standard (mp : mapping) : runner (list dict) (list dict) :=
  mkRunner (fun l dt => to_np l dt mp)
           (fun x => match x with Some a => to_dicts a mp | None => Err EType end)
           (fun a => to_dicts a []).
(** runners.py:187-205; list_dicts_to_np gives an array back unchanged. The answer
    of suggest_updates is thrown away (line 140) and is left out. *)
Definition numpy : runner arr (option arr) := mkRunner (fun a _ => Ok a) (fun x => Ok x) (fun a => Ok (Some a)).

Inductive gres := GReturn (final : option arr) | GRaise (e : err) | GWait.

Section Run.
Context {P Q : Type}.
Variable (R : runner P Q) (sp : gspec).
(** The generator object: from the calls made so far (the last one is the present
    one), what suggest returns; or the exception of that call. *)
Variable g : list (ev Q) -> res P.

(** A call whose result is not used. *)
Definition call (evs : list (ev Q)) (k : list (ev Q) * gres) : list (ev Q) * gres :=
  match g evs with Err e => (evs, GRaise e) | Ok _ => k end.

(** gen.finalize() and the return, runners.py:173-174 *)
Definition finish (evs : list (ev Q)) (h : option arr) : list (ev Q) * gres :=
  let evs1 := evs ++ [Finalize] in call evs1 (evs1, GReturn h).

(** suggest and conversion: runners.py:119-128 and 160-165. list_dicts_to_np appends
    to the list in gen_specs["out"] (see MapModel.to_np), if there is one. *)
Definition ask (dt : list field) (n : nat) (evs : list (ev Q)) (k : list field -> list (ev Q) -> list (ev Q) * gres) : list (ev Q) * gres :=
  let evs1 := evs ++ [Suggest n] in
  match g evs1 with
  | Err e => (evs1, GRaise e)
  | Ok p => match r_out R p dt with
            | Err e => (evs1, GRaise e)
            | Ok a => k (match dt with [] => [] | _ => a_dt a end) (evs1 ++ [Send a])
            end
  end.

(** _loop_over_gen, runners.py:136-144, entered after [h] was ingested *)
Fixpoint loop (dt : list field) (h : arr) (msgs : list gmsg) (evs : list (ev Q)) : list (ev Q) * gres :=
  let n := if g_batch sp =? 0 then length (a_rows h) else g_batch sp in
  ask dt n evs (fun dt' evs2 =>
    match msgs with
    | [] => (evs2, GWait)
    | GSignal :: _ => finish evs2 None
    | GData stop x :: r =>
        match r_in R x with
        | Err e => (evs2, GRaise e)
        | Ok q => let evs3 := evs2 ++ [Ingest q] in
                  call evs3 (if stop then finish evs3 (Some x) else loop dt' x r evs3)
        end
    end).

(** _start_generator_loop, runners.py:151-154 *)
Definition start_loop (dt : list field) (msgs : list gmsg) (evs : list (ev Q)) : list (ev Q) * gres :=
  match msgs with
  | [] => (evs, GWait)
  | m :: r =>
      match r_in0 R (match m with GData _ x => Some x | GSignal => None end) with
      | Err e => (evs, GRaise e)
      | Ok q =>
          let evs1 := evs ++ [Ingest q] in
          call evs1 (match m with
                     | GSignal => finish evs1 None
                     | GData true x => finish evs1 (Some x)
                     | GData false x => loop dt x r evs1
                     end)
      end
  end.

(** _persistent_result, runners.py:156-174. [H0]: the rows of the first order, if
    any. [0] for a batch size stands for None; the "or"s of line 148 skip 0 too. *)
Definition initial_batch : nat :=
  if negb (g_init sp =? 0) then g_init sp else if negb (g_batch sp =? 0) then g_batch sp else g_libe sp.
Definition run_gen (H0 : option arr) (msgs : list gmsg) : list (ev Q) * gres :=
  let first evs := ask (g_out sp) initial_batch evs (fun dt evs1 => start_loop dt msgs evs1) in
  match H0 with
  | Some a =>
      if length (a_rows a) =? 0 then first []
      else match r_in0 R (Some a) with
           | Err e => ([], GRaise e)
           | Ok q => call [Ingest q] (first [Ingest q])
           end
  | None => first []
  end.
End Run.

(** _result, runners.py:176-181 *)
Definition result {P Q} (R : runner P Q) (sp : gspec) (g : list (ev Q) -> res P) (persistent : bool) (H0 : option arr) (msgs : list gmsg) :=
  if persistent then run_gen R sp g H0 msgs else ([], GRaise EValue).
