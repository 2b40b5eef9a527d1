(** Vocabulary for the statements about generator functions behind an object. *)
From Verif Require Import Base MapModel MapSpec ProcGenModel.
Local Open Scope nat_scope.

(** What was handed out: the rows of all answers to suggest, and the minima of all
    answers to suggest_updates, in order. *)
Definition handed (rs : list reply) : list dict :=
  flat_map (fun r => match r with Points (Ret a) => a_rows a | _ => [] end) rs.
Definition reported (rs : list reply) : list dict :=
  flat_map (fun r => match r with Minima l => flat_map a_rows l | _ => [] end) rs.
(** The rows the generator function put out. *)
Definition rows_of (l : list pout) : list dict :=
  flat_map (fun m => match m with MPoints a => a_rows a | _ => [] end) l.
(** A row that is marked as a local minimum. *)
Definition minimum (row : dict) : bool :=
  match get LOCAL_MIN row with Some (Sc (SI z)) => negb (z =? 0)%Z | Some _ => true | None => false end.

(** More input gives more output; what was put out stays. *)
Definition steady (gen : gfun) : Prop := forall b l m, exists r, gen b (l ++ m) = gen b l ++ r.
(** No call raised or waits. *)
Definition fine (r : reply) : Prop :=
  match r with Points (Ret _) | Minima _ | Done (Ret _) => True | _ => False end.
(** No call of suggest raised or waits. *)
Definition points_fine (r : reply) : Prop := match r with Points (Ret _) | Minima _ | Done (Ret _) | Done (Raise _) => True | _ => False end.

Definition asks_all (c : op) : Prop := c = Suggest 0.
Definition asks_some (c : op) : Prop := exists n, c = Suggest (S n).
Definition ends (c : op) : Prop := c = Finalize.

(** The rows of all calls of ingest *)
Definition taken_in (cs : list op) : list dict := flat_map (fun c => match c with Ingest a => a_rows a | _ => [] end) cs.
Definition batches (cs : list op) : list arr := flat_map (fun c => match c with Ingest a => [a] | _ => [] end) cs.

(** No call of ingest raised. *)
Definition accepted (cs : list op) (rs : list reply) : Prop :=
  forall k a r, nth_error cs k = Some (Ingest a) -> nth_error rs k = Some r -> r = Done (Ret tt).

(** [row'] is [row] as the generator function gets it: under the number [id],
    marked as ended, and otherwise with the fields it asks for. *)
Definition told_as (wanted : list name) (id : value) (row row' : dict) : Prop :=
  forall n, get n row' =
    if n =? SIM_ID then Some id
    else if n =? SIM_ENDED then Some (Sc (SI 1))
    else if memb n wanted then get n row else None.
(** The two messages that carry these rows under these numbers. *)
Definition carries (wanted : list name) (ids : list value) (rows : list dict) (ms : list pin) : Prop :=
  exists a, ms = [PWork false ids; PRows false a] /\ length ids = length rows /\
    Forall2 (fun p row' => told_as wanted (fst p) (snd p) row') (combine ids rows) (a_rows a).
Definition numbers (n : nat) : list value := map (fun i => Sc (SI (Z.of_nat i))) (seq 0 n).
Definition id_under (n : name) (row : dict) : value := match get n row with Some v => v | None => Sc (SI 0) end.
Definition names (dt : list field) : list name := map f_name dt.

(** Results as a user returns them: arrays in which every row has a value of the
    right type under each name, all with the same fields. *)
Record results (wanted : list name) (dt : list field) (cs : list op) : Prop := {
  rs_wanted : In SIM_ID wanted /\ ~ In ID wanted;
  rs_ended : ~ In SIM_ENDED (names dt);
  rs_ids : forall f, In f dt -> f_name f = SIM_ID \/ f_name f = ID -> f_ty f = TInt /\ f_dim f = None;
  rs_ok : forall a, In a (batches cs) -> array_ok a /\ a_dt a = dt }.

(** A user who asks for some points, evaluates them and returns the results, again
    and again. [None]: a call raised or waits. *)
Fixpoint rounds (gen : gfun) (N : nat) (wanted : list name) (evaluate : arr -> arr) (ks : list nat) (o : obj) : option obj :=
  match ks with
  | [] => Some o
  | k :: ks' =>
      match suggest gen wanted k o with
      | (o1, Ret a) =>
          match ingest N wanted (Some (evaluate a)) false o1 with
          | (o2, Ret _) => rounds gen N wanted evaluate ks' o2
          | _ => None
          end
      | _ => None
      end
  end.
(** Points that the object can read. *)
Definition readable (m : pout) : Prop :=
  exists a, m = MPoints a /\ In LOCAL_MIN (names (a_dt a)).
(** A generator function that first puts out a sample of [N] points and then answers
    each batch of results with points, until it is stopped. *)
Record answering (gen : gfun) (N : nat) : Prop := {
  an_steady : steady gen;
  an_sample : exists a, hd_error (gen true []) = Some (MPoints a) /\ length (a_rows a) = N /\
              In SIM_ID (names (a_dt a)) /\ (forall row, In row (a_rows a) -> minimum row = false);
  an_answers : forall l, (forall m, In m l -> match m with PWork s _ | PRows s _ | PNone s => s = false end) ->
               Forall readable (gen true l) /\
               length (filter (fun m => match m with PRows _ _ => true | _ => false end) l) < length (gen true l) }.

(** A message with points; what the generator function ended with, after points only. *)
Definition is_points (m : pout) : Prop := match m with MPoints _ => True | _ => False end.
Definition ended_with (l : list pout) (m : pout) : Prop :=
  exists pts rest, l = pts ++ m :: rest /\ Forall is_points pts /\ ~ is_points m.
(** A generator function that, once stopped, returns. *)
Definition obedient (gen : gfun) : Prop :=
  forall b l, exists v, ended_with (gen b (l ++ [PNone true])) (MResult v).
