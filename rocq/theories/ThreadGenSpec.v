(** Vocabulary for the statements about the relay between the manager and a generator
    function in a process of its own. *)
From Verif Require Import Base MapModel MapSpec ProcGenModel ProcGenSpec ThreadGenModel.
Local Open Scope nat_scope.

(** What was sent to the manager *)
Definition points_sent (out : list sent) : list arr := flat_map (fun s => match s with SPoints a => [a] | _ => [] end) out.
Definition updates_sent (out : list sent) : list arr := flat_map (fun s => match s with SUpdate a => [a] | _ => [] end) out.
(** [s] is what the manager gets of the function's message [m]: its points without
    the minima, with the fields taken apart as the mapping says. *)
Definition relayed_as (mp : mapping) (m : pout) (s : arr) : Prop :=
  exists a p, m = MPoints a /\ a_dt p = a_dt a /\ a_rows p = filter (fun r => negb (minimum r)) (a_rows a) /\ unmap_np p mp = Ok s.

(** All messages from the manager: the answer to the first points and, once it has
    come, those met in the turns of the loop. *)
Definition mails (first : option mail) (turns : list (nat * list mail)) : list mail :=
  match first with Some m => m :: flat_map snd turns | None => [] end.
(** [m] brings rows and no stop; [b] is what the generator object gets of them. *)
Definition arrives (mp : mapping) (m : mail) (b : arr) : Prop := exists a, m = Rows false a /\ map_np a mp = Ok b.
(** [b0] is what the generator object gets of the rows of the order that started the
    generator, if there were any. *)
Definition started_with (mp : mapping) (H0 : option arr) (b0 : list arr) : Prop :=
  match H0 with
  | Some a => if length (a_rows a) =? 0 then b0 = [] else exists b, map_np a mp = Ok b /\ b0 = [b]
  | None => b0 = []
  end.

(** No batch goes beyond the end of the sample: with the batches before it, it has at
    most [N] rows, or the batches before it already have as many. *)
Definition fits (N : nat) (bs : list arr) : Prop :=
  forall i, length (flat_map a_rows (firstn i bs)) < N -> length (flat_map a_rows (firstn (S i) bs)) <= N.
(** The manager waits for the answer to each batch before it sends the next: a turn
    of the loop meets at most one message, and then the outbox has shown what was in it. *)
Definition in_step (turns : list (nat * list mail)) : Prop :=
  forall k ms, In (k, ms) turns -> length ms <= 1 /\ (ms <> [] -> 0 < k).
(** A generator function that puts out one message at the start and one per batch. *)
Definition one_each (gen : gfun) : Prop :=
  forall l, (forall m, In m l -> match m with PWork s _ | PRows s _ | PNone s => s = false end) ->
  length (gen true l) <= S (length (filter (fun m => match m with PRows _ _ => true | _ => false end) l)).
