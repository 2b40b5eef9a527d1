(** Vocabulary for the history properties: what an observer of the array sees. *)
From Verif Require Import Base HistoryModel.

(** The value in row [k], column [f]; None when the row does not exist. *)
Definition cell (rs : list row) (k : nat) (f : field) : option val :=
  option_map (fun r => r f) (nth_error rs k).

(** The column is part of the array's dtype. *)
Definition column (h : hist) (f : field) : Prop := In f (names (h_dtype h)).

(** Row k has Boolean column f set. *)
Definition is_set (h : hist) (k : nat) (f : field) : Prop :=
  exists v, cell (h_rows h) k f = Some v /\ truthy v = true.

(** Used rows carry their own number as sim_id, unused ones carry -1. *)
Definition ids_aligned (h : hist) : Prop :=
  h_index h <= length (h_rows h) /\
  (forall k, k < h_index h -> cell (h_rows h) k F_sim_id = Some (vint (Z.of_nat k))) /\
  (forall k, h_index h <= k < length (h_rows h) -> cell (h_rows h) k F_sim_id = Some (vint (-1))).

(** The number of rows whose Boolean column f is set. *)
Definition num_set (f : field) (rs : list row) : nat := length (filter (fun r => truthy (r f)) rs).

(** The last point in a batch that is addressed to row k. *)
Fixpoint last_for (is : list nat) (D : list row) (k : nat) : option row :=
  match is, D with
  | i :: is', r :: D' =>
      match last_for is' D' k with
      | Some d => Some d
      | None => if Nat.eqb i k then Some r else None
      end
  | _, _ => None
  end.

(** The user's array has one of the protected columns. *)
Definition touches_protected (A : sarr) : Prop :=
  exists f, In f (names (a_dtype A)) /\ protected f = true.

(** The columns libEnsemble fills in when a generated point arrives (history.py:234-237). *)
Definition stampf (f : field) : bool :=
  match f with F_gen_worker | F_gen_started_time | F_gen_ended_time => true | _ => false end.

(** User data does not get to change protected columns: it has none, or safe mode is on. *)
Definition clean (h : hist) (A : sarr) : Prop := h_safe h = true \/ ~ touches_protected A.

Definition ret_clean (h : hist) (ret : option sarr) : Prop :=
  match ret with Some A => clean h A | None => True end.

(** The four one-way status flags. *)
Definition status (f : field) : bool :=
  match f with F_sim_started | F_sim_ended | F_gen_informed | F_kill_sent => true | _ => false end.

(** The data of an operation is [clean]. *)
Definition op_clean (h : hist) (o : hop) : Prop :=
  match o with
  | HXIn _ D _ _ => clean h D
  | HF _ ret _ _ => ret_clean h ret
  | _ => True
  end.

(** Condition on user data for the id invariant: simulators do not return a
    "sim_id" column, generators do not return negative sim_ids. *)
Definition ids_polite (o : hop) : Prop :=
  match o with
  | HXIn _ D _ _ => forall d, In d (a_rows D) -> In F_sim_id (names (a_dtype D)) -> (0 <= sid d)%Z
  | HF _ (Some A) _ _ => ~ In F_sim_id (names (a_dtype A))
  | _ => True
  end.

(** A column of the array that holds one value per row. *)
Definition scalar (h : hist) (f : field) : Prop := column h f /\ shape_in (h_dtype h) f = ShS.

(** A row is given out at most once (and exists), returned at most once and
    only after being given out; user data leaves protected columns alone. *)
Definition disciplined_op (h : hist) (o : hop) : Prop :=
  op_clean h o /\
  match o with
  | HXOut inds _ _ _ => NoDup inds /\ forall k, In k inds -> k < h_index h /\ ~ is_set h k F_sim_started
  | HF inds _ _ _ => NoDup inds /\ forall k, In k inds -> is_set h k F_sim_started /\ ~ is_set h k F_sim_ended
  | _ => True
  end.

(** [drun h os h']: running [os] from [h] raises nothing, ends in [h'] and every operation is disciplined. *)
Inductive drun : hist -> list hop -> hist -> Prop :=
| drun_nil h : drun h [] h
| drun_cons h o h1 os h2 :
    disciplined_op h o -> hstep o h = (h1, None) -> drun h1 os h2 -> drun h (o :: os) h2.

(** Where H0 supplies libEnsemble's own columns, they hold one value per row. *)
Definition H0_scalar (H0 : sarr) : Prop :=
  forall f sh, In (f, sh) (a_dtype H0) -> In f (names libE_fields) -> sh = ShS.

(** H0 rows: ended implies started (as check_previous enforces ended everywhere). *)
Definition H0_sound (H0 : sarr) : Prop :=
  has F_sim_started (names (a_dtype H0)) = true -> has F_sim_ended (names (a_dtype H0)) = true ->
  forall r, In r (a_rows H0) -> truthy (r F_sim_ended) = true -> truthy (r F_sim_started) = true.

(** ids of H0 absent, or equal to the row numbers *)
Definition H0_ids (H0 : sarr) : Prop :=
  In F_sim_id (names (a_dtype H0)) ->
  forall k r, nth_error (a_rows H0) k = Some r -> r F_sim_id = vint (Z.of_nat k).

(** rows are given out so that the largest row of each batch is not below the
    largest row of the previous one, with kill bookkeeping on *)
Definition increasing_op (h : hist) (o : hop) : Prop :=
  match o with
  | HXOut inds _ kill _ => kill = true /\ (h_last_started h <= Z.of_nat (maxl inds))%Z
  | _ => True
  end.

(** The same with rows given out in increasing order. *)
Inductive irun : hist -> list hop -> hist -> Prop :=
| irun_nil h : irun h [] h
| irun_cons h o h1 os h2 :
    disciplined_op h o -> increasing_op h o -> hstep o h = (h1, None) -> irun h1 os h2 -> irun h (o :: os) h2.

(** The batch's columns are distinct, have the array's shapes, and in safe mode are not protected. *)
Definition compatible (h : hist) (D : sarr) : Prop :=
  NoDup (names (a_dtype D)) /\
  (forall f sh, In (f, sh) (a_dtype D) -> column h f -> shape_in (h_dtype h) f = sh) /\
  (h_safe h = true -> ~ touches_protected D).


(** All rows for which a kill signal is sent during a run, in order. *)
Fixpoint signalled (os : list hop) (h : hist) : list nat :=
  match os with
  | [] => []
  | o :: os' =>
      (match o with HKill => kill_rows h | _ => [] end) ++ signalled os' (fst (hstep o h))
  end.

(** What a cell holding [old] becomes when [new] is returned for it: a scalar
    replaces a scalar, a scalar fills a vector, and a nonempty vector no longer
    than the column overwrites its beginning. Nothing else is accepted. *)
Inductive stored : val -> val -> val -> Prop :=
| stored_scalar o s : stored (VS o) (VS s) (VS s)
| stored_fill o s l : length l = length o -> (forall x, In x l -> x = s) -> stored (VV o) (VS s) (VV l)
| stored_prefix o n l : 0 < length n <= length o -> length l = length o ->
    (forall i, i < length n -> nth_error l i = nth_error n i) ->
    (forall i, length n <= i -> nth_error l i = nth_error o i) -> stored (VV o) (VV n) (VV l).
