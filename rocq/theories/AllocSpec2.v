(** Vocabulary for the properties of the remaining allocation functions. *)
From Coq Require Import String.
From Verif Require Import Base HistoryModel WorkModel RsetModel RsetSpec SchedModel SchedSpec AllocModel AllocSpec AllocProofs.
Local Open Scope list_scope.
Local Open Scope nat_scope.

(** Worker [w] waits as a persistent generator. *)
Definition waiting_gen (W : list wrow) (w : nat) : Prop :=
  exists r, In r W /\ w_id r = w /\ w_active r = 0 /\ w_persis r = EVAL_GEN.
(** Worker [w] is idle and not in persistent mode. *)
Definition free_worker (W : list wrow) (w : nat) : Prop :=
  exists r, In r W /\ w_id r = w /\ w_active r = 0 /\ w_persis r = 0.
(** Somebody runs a persistent generator. *)
Definition persistent_gen (W : list wrow) : Prop := exists r, In r W /\ w_persis r = EVAL_GEN.

(** What every user may expect of one call of an allocation function that was
    shown the workers and resource sets of [c] and the history [H]:
    orders go to workers that can take them, one each; a point is given once, and
    only if it waits for its simulation; the resource sets of the orders are free,
    not shared, and enough; only user columns of the history are changed. *)
Record sound_call (c : actx) (d : dtype) (H : list row) (out : aout) : Prop := mkSound {
  so_kind : forall w k, In (w, k) (o_work out) ->
     k_tag k = EVAL_SIM /\ free_worker (ac_W c) w /\ k_persistent k = false \/
     k_tag k = EVAL_GEN /\ (waiting_gen (ac_W c) w /\ k_persistent k = true \/ free_worker (ac_W c) w);
  so_once : NoDup (map fst (o_work out));
  so_given_once : NoDup (sim_rows (o_work out));
  so_waiting : forall i, In i (sim_rows (o_work out)) -> evaluable H i;
  so_sets : forall m, ac_rm c = Some m -> NoDup (sets_given (o_work out)) /\ forall i, In i (sets_given (o_work out)) -> is_free m i;
  so_served : forall w k, In (w, k) (o_work out) -> k_tag k = EVAL_SIM -> unit_served c d (o_rows out) w k;
  so_reserved : forall w k, In (w, k) (o_work out) -> k_tag k = EVAL_SIM -> some_gen_only (ac_W c) -> ~ gen_only (ac_W c) w;
  so_rows : length (o_rows out) = length H /\
     forall i r, nth_error H i = Some r -> exists r', nth_error (o_rows out) i = Some r' /\
       forall f, (forall n, f <> F_user n) -> r' f = r f }.

(** The user column [n] of row [i], as an integer or a float. *)
Definition icell (H : list row) (n : string) (i : nat) : Z :=
  match nth_error H i with Some r => as_int (r (F_user n)) | None => 0%Z end.
Definition fcell (H : list row) (n : string) (i : nat) : sc :=
  match nth_error H i with Some r => match r (F_user n) with VS s => s | VV _ => SNum 0 end | None => SNum 0 end.

(** Row [i] has been evaluated; the generator has (not) been told. *)
Definition ended (H : list row) (i : nat) : Prop := exists r, nth_error H i = Some r /\ truthy (r F_sim_ended) = true.
Definition untold (H : list row) (i : nat) : Prop := exists r, nth_error H i = Some r /\ truthy (r F_gen_informed) = false.
Definition generated_by (H : list row) (w i : nat) : Prop := exists r, nth_error H i = Some r /\ as_int (r F_gen_worker) = Z.of_nat w.

(** The evaluations of pair (x, f) that are done and not yet returned to the generator. *)
Definition pair_result (H : list row) (x f i : nat) : Prop :=
  ended H i /\ untold H i /\ icell H "x_ind" i = Z.of_nat x /\ icell H "f_ind" i = Z.of_nat f.
(** A list without repetitions of exactly the things that satisfy [P]. *)
Definition lists {A} (l : list A) (P : A -> Prop) : Prop := NoDup l /\ forall x, In x l <-> P x.
(** All evaluations of pair (x, f) are done: there are [nf] of them. *)
Definition complete_pair (H : list row) (nf x f : nat) : Prop := exists l, lists l (pair_result H x f) /\ length l = nf.

(** The points of the last batch of generator [w]. *)
Definition in_last_batch (H : list row) (w i : nat) : Prop :=
  generated_by H w i /\ forall j, generated_by H w j -> (icell H "batch" j <= icell H "batch" i)%Z.

(** Row [i] belongs to a local optimisation run. *)
Definition local_point (H : list row) (i : nat) : Prop := exists r, nth_error H i = Some r /\ truthy (r (F_user "local_pt")) = true.
(** Some point of the sample has been evaluated. *)
Definition sampled (H : list row) : Prop := exists i, ended H i /\ ~ local_point H i.
(** Row [i] comes before row [j]: points of runs first, then the oldest. *)
Definition before (H : list row) (i j : nat) : Prop :=
  local_point H i /\ ~ local_point H j \/ (local_point H i <-> local_point H j) /\ i < j.
(** When row [i] was given to be simulated. *)
Definition given_at (H : list row) (i : nat) : sc :=
  match nth_error H i with Some r => match r F_sim_started_time with VS s => s | VV _ => SNum 0 end | None => SNum 0 end.
(** A worker is calling a generator that is not persistent. *)
Definition generating (W : list wrow) : Prop := exists r, In r W /\ w_active r = EVAL_GEN /\ w_persis r = 0.

(** Row [i] is marked as paused; it evaluates a component of point [z]; a component of point [z] came back as NaN. *)
Definition paused (H : list row) (i : nat) : Prop := exists r, nth_error H i = Some r /\ truthy (r (F_user "paused")) = true.
Definition point_of (H : list row) (i : nat) (z : Z) : Prop := exists r, nth_error H i = Some r /\ as_int (r (F_user "pt_id")) = z.
Definition nan_point (H : list row) (z : Z) : Prop := exists i, point_of H i z /\ fcell H "f_i" i = SNaN.
(** The "sim_id" of every row is its number. *)
Definition numbered (H : list row) : Prop := forall i r, nth_error H i = Some r -> as_int (r F_sim_id) = Z.of_nat i.

(** Row [i] is done and the generator has not been told. *)
Definition due (H : list row) (i : nat) : Prop := ended H i /\ untold H i.
(** Every point of [H] was evaluated and its generator was told, or it was cancelled before it was given. *)
Definition all_returned (H : list row) : Prop := forall i r, nth_error H i = Some r ->
  truthy (r F_cancel_requested) = true /\ truthy (r F_sim_started) = false \/
  truthy (r F_sim_ended) = true /\ truthy (r F_gen_informed) = true /\ (truthy (r F_sim_started) = true \/ truthy (r F_cancel_requested) = true).
(** How many rows have been evaluated. *)
Definition num_ended (H : list row) : nat := length (filter (fun r => truthy (r F_sim_ended)) H).

(** Successive calls of an allocation function, persis_info threaded through:
    the contexts, histories and outcomes of the calls. *)
Inductive calls_of {S : Type} (f : actx -> S -> list row -> aout * S) : S -> list (actx * list row * aout) -> S -> Prop :=
| calls_of_none : forall p, calls_of f p [] p
| calls_of_more : forall p p1 p2 c H out l, f c p H = (out, p1) -> calls_of f p1 l p2 -> calls_of f p ((c, H, out) :: l) p2.
(** The contexts of the calls are those of a manager, and the history only grows. *)
Definition calls_fit (l : list (actx * list row * aout)) : Prop :=
  (forall c H out, In (c, H, out) l -> ids_distinct (ac_W c) /\ resources_ok c) /\
  forall k c H out c' H' out', nth_error l k = Some (c, H, out) -> nth_error l (S k) = Some (c', H', out') -> length H <= length H'.
(** The points given in all the calls. *)
Definition all_given (l : list (actx * list row * aout)) : list nat := concat (map (fun x => sim_rows (o_work (snd x))) l).

(** The histories of successive calls are those the manager keeps. [G] is the
    history after the call before, [gs] are the points given until then: rows are
    numbered and only added, marks of paused rows stay as they are, new rows are
    not marked, and a row from number [n] on is evaluated only if it was given. *)
Fixpoint kept_from (n : nat) (G : list row) (gs : list nat) (l : list (actx * list row * aout)) : Prop :=
  match l with
  | [] => True
  | (c, H, out) :: l' =>
      numbered H /\ List.length G <= List.length H /\ (forall i, i < List.length G -> paused H i <-> paused G i) /\
      (forall i, List.length G <= i -> ~ paused H i) /\ (forall i, n <= i -> ended H i -> In i gs) /\
      kept_from n (o_rows out) (gs ++ sim_rows (o_work out)) l'
  end.
(** The first [n] rows of the first history are those that are not to be given. *)
Definition kept (n : nat) (l : list (actx * list row * aout)) : Prop :=
  match l with [] => True | (c, H, out) :: _ => n <= List.length H /\ kept_from n (firstn n H) [] l end.
