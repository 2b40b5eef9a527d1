(** Vocabulary for the statements about generator objects. *)
From Verif Require Import Base MapModel GenObjModel.
Local Open Scope nat_scope.

(** What the calls were, in order. *)
Definition ingested {Q} (l : list (ev Q)) : list Q := flat_map (fun e => match e with Ingest q => [q] | _ => [] end) l.
Definition suggested {Q} (l : list (ev Q)) : list nat := flat_map (fun e => match e with Suggest n => [n] | _ => [] end) l.
Definition sent {Q} (l : list (ev Q)) : list arr := flat_map (fun e => match e with Send a => [a] | _ => [] end) l.
Definition finalized {Q} (l : list (ev Q)) : nat := length (filter (fun e => match e with Finalize => true | _ => false end) l).

(** The results the manager sends, up to the stop. *)
Fixpoint batches (msgs : list gmsg) : list arr :=
  match msgs with
  | GData false x :: r => x :: batches r
  | GData true x :: _ => [x]
  | _ => []
  end.
(** Those after which it expects more points. *)
Fixpoint answered (msgs : list gmsg) : list arr :=
  match msgs with GData false x :: r => x :: answered r | _ => [] end.
(** The stop, if there is one: with the last rows or without. *)
Fixpoint stop (msgs : list gmsg) : option (option arr) :=
  match msgs with
  | [] => None
  | GData false _ :: r => stop r
  | GData true x :: _ => Some (Some x)
  | GSignal :: _ => Some None
  end.
Definition given (H0 : option arr) : list arr := match H0 with Some a => match a_rows a with [] => [] | _ => [a] end | None => [] end.
Definition quiet (r : gres) : Prop := forall e, r <> GRaise e.
