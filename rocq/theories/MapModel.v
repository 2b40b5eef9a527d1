(** Model of utils/misc.py:66-308: points as dictionaries and as arrays, with the
    mapping between vector fields and single variables. *)
From Verif Require Import Base.
Local Open Scope nat_scope.

(** Field and variable names are numbers; two have a meaning for the code. *)
Definition name := nat.
Definition SIM_ID : name := 0.   (* "sim_id" *)
Definition ID : name := 1.       (* "_id" *)

(** Scalars: integers, floats (simplification: as thousandths, exact) and text.
    Booleans and other types are not modelled. *)
Inductive sc := SI (z : Z) | SF (z : Z) | SS (t : list nat).
Inductive value := Sc (x : sc) | Vec (l : list sc).
Definition dict := list (name * value).

Fixpoint get (n : name) (d : dict) : option value :=
  match d with [] => None | (m, v) :: d' => if n =? m then Some v else get n d' end.
(** d[n] = v: in place, or at the end *)
Fixpoint put (n : name) (v : value) (d : dict) : dict :=
  match d with [] => [(n, v)] | (m, w) :: d' => if n =? m then (m, v) :: d' else (m, w) :: put n v d' end.
Definition keys (d : dict) : list name := map fst d.

(** numpy types: [TObj] is the object type that lists and arrays get *)
Inductive ty := TInt | TFloat | TStr (w : nat) | TObj.
Record field := mkF { f_name : name; f_ty : ty; f_dim : option nat }.   (* [Some n]: shape (n,) *)
Record arr := mkArr { a_dt : list field; a_rows : list dict }.   (* a row: the fields in order *)
Definition field_of (n : name) (dt : list field) : option field := find (fun f => n =? f_name f) dt.

(** Conversion on assignment. Floats are cut to integers without a warning, text
    is cut to the width. Simplification: text and numbers never convert into one
    another (numpy can print or parse them). *)
Definition cast (t : ty) (x : sc) : res sc :=
  match t, x with
  | TInt, SI z => Ok (SI z)
  | TInt, SF z => Ok (SI (Z.quot z 1000))
  | TFloat, SI z => Ok (SF (1000 * z))
  | TFloat, SF z => Ok (SF z)
  | TStr w, SS t => Ok (SS (firstn w t))
  | TObj, x => Ok x
  | _, _ => Err EValue
  end.
Fixpoint mapr {A B} (f : A -> res B) (l : list A) : res (list B) :=
  match l with
  | [] => Ok []
  | a :: l' => bindr (f a) (fun b => bindr (mapr f l') (fun bs => Ok (b :: bs)))
  end.
(** out[name][j] = v *)
Definition assign (f : field) (v : value) : res value :=
  match f_ty f, f_dim f, v with
  | TObj, None, _ => Ok v
  | t, None, Sc x => bindr (cast t x) (fun y => Ok (Sc y))
  | _, None, Vec _ => Err EValue
  | t, Some n, Sc x => bindr (cast t x) (fun y => Ok (Vec (repeat y n)))
  | t, Some n, Vec [x] => bindr (cast t x) (fun y => Ok (Vec (repeat y n)))
  | t, Some n, Vec l => if length l =? n then bindr (mapr (cast t) l) (fun l' => Ok (Vec l')) else Err EValue
  end.
Definition zero (t : ty) : sc := match t with TFloat => SF 0 | TStr _ => SS [] | _ => SI 0 end.
Definition zero_value (f : field) : value :=
  match f_dim f with None => Sc (zero (f_ty f)) | Some n => Vec (repeat (zero (f_ty f)) n) end.
Definition zero_row (dt : list field) : dict := map (fun f => (f_name f, zero_value f)) dt.

Fixpoint unique (l : list name) : list name :=
  match l with [] => [] | x :: l' => x :: filter (fun y => negb (y =? x)) (unique l') end.
Fixpoint nodupb (l : list name) : bool :=
  match l with [] => true | x :: l' => negb (memb x l') && nodupb l' end.
(** np.zeros(len, dtype): a repeated name raises ValueError *)
Definition check_dt (dt : list field) : res unit := if nodupb (map f_name dt) then Ok tt else Err EValue.

(** Mappings: a field and the variables it is made of *)
Definition mapping := list (name * list name).
Fixpoint lookup (n : name) (mp : mapping) : option (list name) :=
  match mp with [] => None | (m, l) :: mp' => if n =? m then Some l else lookup n mp' end.
Definition targets (mp : mapping) : list name := map fst mp.
Definition sources (mp : mapping) : list name := concat (map snd mp).

(** misc.py:71-78 (_get_new_dtype_fields) *)
Definition new_names (first : dict) (mp : mapping) : list name :=
  filter (fun n => negb (memb n (sources mp))) (unique (keys first)).
(** misc.py:86-97 (_decide_dtype) for one entry; lists and arrays become objects *)
Definition decide (n : name) (v : value) : field :=
  mkF n (if n =? SIM_ID then TInt
         else match v with Sc (SI _) => TInt | Sc (SF _) => TFloat | Sc (SS t) => TStr (length t + 1) | Vec _ => TObj end) None.
(** misc.py:100-109 (_start_building_dtype): every group is a single name
    (misc.py:81-83), and it comes from [first]. *)
Definition start_dtype (first : dict) (ns : list name) (mp : mapping) : list field :=
  flat_map (fun n => match lookup n mp, get n first with None, Some v => [decide n v] | _, _ => [] end) ns.
(** misc.py:144-153: the mapped fields that get appended *)
Definition mapped_in (first : dict) (dt : list field) (mp : mapping) : mapping :=
  filter (fun p => negb (memb (fst p) (map f_name dt)) && forallb (fun s => memb s (keys first)) (snd p)) mp.
Definition mapped_field (p : name * list name) : field :=
  mkF (fst p) (if fst p =? SIM_ID then TInt else TFloat) (if 1 <? length (snd p) then Some (length (snd p)) else None).

(** misc.py:112-115 (_pack_field). A vector inside a tuple does not fit the field. *)
Definition scalar_of (d : dict) (n : name) : res sc :=
  match get n d with Some (Sc x) => Ok x | Some (Vec _) => Err EValue | None => Err EKey end.
Definition pack (d : dict) (ns : list name) : res value :=
  match ns with
  | [] => Err EIndex
  | [n] => match get n d with Some v => Ok v | None => Err EKey end
  | _ => bindr (mapr (scalar_of d) ns) (fun l => Ok (Vec l))
  end.
(** misc.py:157-162, one dictionary *)
Fixpoint fill (dt : list field) (ps : list (name * list name)) (d row : dict) : res dict :=
  match ps with
  | [] => Ok row
  | (n, ns) :: ps' =>
      bindr (pack d ns) (fun v =>
      match field_of n dt with
      | None => Err EValue
      | Some f => bindr (assign f v) (fun w => fill dt ps' d (put n w row))
      end)
  end.
(** The names to fill and what each is packed from (misc.py:133-134, 151-152,
    158-162) *)
Definition plan (first : dict) (dt : list field) (mp : mapping) : list (name * list name) :=
  map (fun n => (n, match lookup n mp with Some l => l | None => [n] end)) (new_names first mp)
  ++ mapped_in first dt mp.
(** misc.py:118-164 (list_dicts_to_np) of a list; [dtype] is [] for None. What is
    not a list is returned as it is. The list given as [dtype] is appended to in
    place, so afterwards the caller's list is the [a_dt] of the result
    (misc.py:141, 150). *)
Definition to_np (l : list dict) (dtype : list field) (mp : mapping) : res arr :=
  match l with
  | [] => Ok (mkArr dtype [])
  | first :: _ =>
      let dt1 := match dtype with [] => start_dtype first (new_names first mp) mp | _ => dtype end in
      let dt := dt1 ++ map mapped_field (mapped_in first dt1 mp) in
      bindr (check_dt dt) (fun _ =>
      bindr (mapr (fun d => fill dt (plan first dt1 mp) d (zero_row dt)) l) (fun rows => Ok (mkArr dt rows)))
  end.

Definition EAttr := EOther 41.   (* AttributeError *)
(** misc.py:285-299: the entries one field gives *)
Definition entries (f : field) (v : value) (mp : mapping) : res (list (name * value)) :=
  match lookup (f_name f) mp with
  | None => Ok [(f_name f, v)]
  | Some ns =>
      if match f_dim f with Some n => n | None => 1 end =? length ns then
        match f_ty f, f_dim f, v with
        | TObj, None, Sc _ => Err EAttr           (* plain objects have no shape *)
        | _, _, Sc x => Ok (map (fun n => (n, Sc x)) ns)
        | _, _, Vec [x] => Ok (map (fun n => (n, Vec [x])) ns)
        | _, _, Vec l =>
            mapr (fun p => match nth_error l (fst p) with Some x => Ok (snd p, Sc x) | None => Err EIndex end)
                 (combine (seq 0 (length ns)) ns)
        end
      else Err EAssert
  end.
Definition puts (ws : list (name * value)) (d : dict) : dict := fold_left (fun d p => put (fst p) (snd p) d) ws d.
(** misc.py:282-301, one row *)
Definition row_dict (dt : list field) (mp : mapping) (row : dict) : res dict :=
  bindr (mapr (fun f => match get (f_name f) row with Some v => entries f v mp | None => Err EValue end) dt)
        (fun ws => Ok (puts (concat ws) [])).
(** misc.py:303-306: "_id" of -1 is removed *)
Definition minus_one (x : sc) : bool := match x with SI z => (z =? -1)%Z | SF z => (z =? -1000)%Z | SS _ => false end.
Definition drop_id (d : dict) : res dict :=
  match get ID d with
  | None => Ok d
  | Some (Sc x) | Some (Vec [x]) => if minus_one x then Ok (filter (fun p => negb (fst p =? ID)) d) else Ok d
  | Some (Vec _) => Err EValue
  end.
(** misc.py:278-308 (np_to_list_dicts) *)
Definition to_dicts (a : arr) (mp : mapping) : res (list dict) :=
  bindr (mapr (row_dict (a_dt a) mp) (a_rows a)) (mapr drop_id).

(** misc.py:175-214 (unmap_numpy_array). Simplification: the fields named in the
    mapping hold numbers (text loses its width there). *)
Definition unmap_field (mp : mapping) (f : field) : list field :=
  match lookup (f_name f) mp with Some ns => map (fun n => mkF n (f_ty f) None) ns | None => [f] end.
Definition unmap_entries (mp : mapping) (f : field) (v : value) : res (list (name * value)) :=
  match lookup (f_name f) mp with
  | None => Ok [(f_name f, v)]
  | Some ns =>
      match v with
      | Sc x => match ns with n :: _ => Ok [(n, Sc x)] | [] => Err EIndex end
      | Vec l => mapr (fun p => match nth_error l (fst p) with Some x => Ok (snd p, Sc x) | None => Err EIndex end)
                      (combine (seq 0 (length ns)) ns)
      end
  end.
Definition unmap_row (dt : list field) (mp : mapping) (row0 row : dict) : res dict :=
  bindr (mapr (fun f => match get (f_name f) row with Some v => unmap_entries mp f v | None => Err EValue end) dt)
        (fun ws => Ok (puts (concat ws) row0)).
Definition unmap_np (a : arr) (mp : mapping) : res arr :=
  match mp with
  | [] => Ok a
  | _ => let dt := flat_map (unmap_field mp) (a_dt a) in
         bindr (check_dt dt) (fun _ =>
         bindr (mapr (unmap_row (a_dt a) mp (zero_row dt)) (a_rows a)) (fun rows => Ok (mkArr dt rows)))
  end.

(** misc.py:217-275 (map_numpy_array). Simplification: a field made of several
    vectors (a matrix) is not modelled and is a ValueError here. *)
Definition field_eqb (f g : field) : bool :=
  (f_name f =? f_name g) &&
  match f_ty f, f_ty g with TInt, TInt | TFloat, TFloat | TObj, TObj => true | TStr m, TStr n => m =? n | _, _ => false end &&
  match f_dim f, f_dim g with None, None => true | Some m, Some n => m =? n | _, _ => false end.
Fixpoint unique_fields (l : list field) : list field :=
  match l with [] => [] | f :: l' => f :: filter (fun g => negb (field_eqb g f)) (unique_fields l') end.
Definition map_field (dt : list field) (p : name * list name) : res field :=
  match snd p with
  | [] => Err EIndex
  | s :: rest =>
      match field_of s dt with
      | None => Err EKey
      | Some f => match rest, f_dim f with
                  | [], _ => Ok (mkF (fst p) (f_ty f) (f_dim f))
                  | _, None => Ok (mkF (fst p) (f_ty f) (Some (length (snd p))))
                  | _, Some _ => Err EValue
                  end
      end
  end.
(** misc.py:264-273: the filling, field by field: [mapping[field]] raises
    KeyError for a field that is not mapped; a missing column is a ValueError. *)
Definition map_sources (dt : list field) (mp : mapping) (f : field) : res (field * list name) :=
  match lookup (f_name f) mp with
  | None => Err EKey
  | Some ns => if forallb (fun s => match field_of s dt with Some _ => true | None => false end) ns then Ok (f, ns) else Err EValue
  end.
Definition no_field {A} (r : res A) : res A := match r with Err EKey => Err EValue | r => r end.
Definition map_row (plan : list (field * list name)) (row : dict) : res dict :=
  mapr (fun p => bindr (no_field (pack row (snd p))) (fun v => bindr (assign (fst p) v) (fun w => Ok (f_name (fst p), w)))) plan.
Definition map_np (a : arr) (mp : mapping) : res arr :=
  match mp with
  | [] => Ok a
  | _ =>
      bindr (mapr (map_field (a_dt a)) mp) (fun fs =>
      let dt := unique_fields (fs ++ filter (fun f => negb (memb (f_name f) (sources mp))) (a_dt a)) in
      bindr (check_dt dt) (fun _ =>
      bindr (mapr (map_sources (a_dt a) mp) dt) (fun plan =>
      bindr (mapr (map_row plan) (a_rows a)) (fun rows => Ok (mkArr dt rows)))))
  end.
