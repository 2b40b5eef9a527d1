(** Vocabulary for the statements about points as dictionaries and arrays. *)
From Verif Require Import Base MapModel.
Local Open Scope nat_scope.

(** The same text, or numbers of the same size (an integer may be kept as a
    float: [SF] counts thousandths). *)
Definition same (x y : sc) : Prop :=
  match x, y with
  | SI a, SI b => a = b
  | SI a, SF b => (1000 * a = b)%Z
  | SF a, SI b => (a = 1000 * b)%Z
  | SF a, SF b => a = b
  | SS s, SS t => s = t
  | _, _ => False
  end.
Definition same_value (v w : value) : Prop :=
  match v, w with Sc x, Sc y => same x y | Vec l, Vec m => Forall2 same l m | _, _ => False end.
(** Two points with the same names and, under each name, the same value. *)
Definition same_point (d e : dict) : Prop :=
  forall n, match get n d, get n e with Some v, Some w => same_value v w | None, None => True | _, _ => False end.

(** A mapping as the documentation shows it: each field is made of some variables,
    no variable is used twice, and the fields are not variables themselves. *)
Record proper (mp : mapping) : Prop := {
  pr_targets : NoDup (map fst mp);
  pr_sources : NoDup (concat (map snd mp));
  pr_apart : forall n, In n (map fst mp) -> ~ In n (concat (map snd mp));
  pr_some : forall p, In p mp -> snd p <> [] }.

Definition number (v : value) : Prop := match v with Sc (SI _) | Sc (SF _) => True | _ => False end.
Definition integer (v : value) : Prop := match v with Sc (SI _) => True | _ => False end.
(** [v] can stand in the column that [v0] began: integers after an integer,
    numbers after a float, text at most one longer, anything after a list. *)
Definition fits (v0 v : value) : Prop :=
  match v0, v with
  | Sc (SI _), Sc (SI _) => True
  | Sc (SF _), Sc (SI _) | Sc (SF _), Sc (SF _) => True
  | Sc (SS t0), Sc (SS t) => length t <= length t0 + 1
  | Vec _, _ => True
  | _, _ => False
  end.

(** A list of points that a mapping can turn into an array and back. *)
Record convertible (mp : mapping) (l : list dict) : Prop := {
  cv_dict : forall d, In d l -> NoDup (map fst d);
  cv_names : forall d e n, In d l -> In e l -> In n (map fst d) -> In n (map fst e);
  cv_apart : forall d n, In d l -> In n (map fst d) -> ~ In n (map fst mp);
  cv_whole : forall d p m n, In d l -> In p mp -> In m (snd p) -> In n (snd p) -> In m (map fst d) -> In n (map fst d);
  cv_number : forall d p n v, In d l -> In p mp -> In n (snd p) -> get n d = Some v -> number v;
  cv_fits : forall d e n v w, In d l -> hd_error l = Some e -> ~ In n (concat (map snd mp)) ->
            get n e = Some v -> get n d = Some w -> fits v w;
  cv_sim_id : forall d v, In d l -> get SIM_ID d = Some v -> integer v;
  cv_id : forall d p n v, In d l -> In p mp -> fst p = SIM_ID -> In n (snd p) -> get n d = Some v -> integer v }.

(** An array: distinct names, every row has a value of the right shape and type
    under each name. *)
Definition in_type (t : ty) (x : sc) : Prop :=
  match t, x with TInt, SI _ | TFloat, SF _ => True | TStr w, SS s => length s <= w | TObj, _ => True | _, _ => False end.
Definition in_field (f : field) (v : value) : Prop :=
  match f_dim f, v with
  | None, Sc x => in_type (f_ty f) x
  | None, Vec _ => f_ty f = TObj
  | Some n, Vec l => length l = n /\ Forall (in_type (f_ty f)) l
  | Some _, Sc _ => False
  end.
Record array_ok (a : arr) : Prop := {
  ar_names : NoDup (map f_name (a_dt a));
  ar_rows : forall row, In row (a_rows a) ->
            map fst row = map f_name (a_dt a) /\
            forall f, In f (a_dt a) -> exists v, get (f_name f) row = Some v /\ in_field f v }.

(** The mapping fits the array: a mapped field holds numbers, as many as it has
    variables, and the variables are not fields. *)
Record covers (mp : mapping) (dt : list field) : Prop := {
  co_fields : forall f ns, In f dt -> In (f_name f, ns) mp ->
              (f_ty f = TInt \/ f_ty f = TFloat) /\
              (f_dim f = None /\ length ns = 1 \/ f_dim f = Some (length ns) /\ 2 <= length ns);
  co_apart : forall f, In f dt -> ~ In (f_name f) (concat (map snd mp)) }.

(** A point without an "_id" of -1, which stands for none. *)
Definition cleaned (d : dict) : dict :=
  filter (fun p => negb ((fst p =? ID) && match snd p with Sc (SI z) => (z =? -1)%Z | _ => false end)) d.

(** What else an array of points needs so that the dictionaries keep it: the ids
    are set integers, and in a text column no later text is more than one longer
    than the first one. *)
Definition unset (v : value) : Prop := v = Sc (SI (-1)).
Record keepable (mp : mapping) (a : arr) : Prop := {
  kp_plain : forall f, In f (a_dt a) -> ~ In (f_name f) (map fst mp) -> f_ty f <> TObj;
  kp_text : forall n row0 row s t, hd_error (a_rows a) = Some row0 -> In row (a_rows a) ->
            get n row0 = Some (Sc (SS s)) -> get n row = Some (Sc (SS t)) -> length t <= length s + 1;
  kp_int : forall f, In f (a_dt a) -> f_name f = SIM_ID \/ f_name f = ID -> f_ty f = TInt /\ f_dim f = None;
  kp_ids : ~ In SIM_ID (concat (map snd mp)) /\ forall p, In p mp -> In ID (snd p) -> fst p = SIM_ID;
  kp_set : forall row v, In row (a_rows a) -> get SIM_ID row = Some v \/ get ID row = Some v -> ~ unset v }.

(** A value that a given field can keep as it is. *)
Definition kept_as (t : ty) (x : sc) : Prop :=
  match t, x with
  | TInt, SI _ | TFloat, SI _ | TFloat, SF _ | TObj, _ => True
  | TStr w, SS s => length s <= w
  | _, _ => False
  end.
Definition kept_in (f : field) (v : value) : Prop :=
  match f_dim f, v with
  | None, Sc x => kept_as (f_ty f) x
  | None, Vec _ => f_ty f = TObj
  | Some n, Vec l => length l = n /\ Forall (kept_as (f_ty f)) l
  | Some _, Sc _ => False
  end.
