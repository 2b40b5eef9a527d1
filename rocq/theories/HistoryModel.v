(** Model of libensemble/history.py (class History) and of the field lists in
    libensemble/tools/fields_keys.py. *)
From Coq Require Import String.
From Verif Require Import Base.

(** Field names. libensemble/tools/fields_keys.py:5-19 (libE_fields), plus the
    two optional names history.py treats specially ("_id" history.py:85,275 and
    "resource_sets" history.py:90,279); every other field is a user field. *)
Inductive field :=
| F_sim_id | F_gen_worker | F_gen_started_time | F_gen_ended_time
| F_sim_worker | F_sim_started | F_sim_started_time | F_sim_ended
| F_sim_ended_time | F_gen_informed | F_gen_informed_time
| F_cancel_requested | F_kill_sent
| F_resource_sets | F_uid | F_user (name : string).

Definition field_eq_dec (f g : field) : {f = g} + {f <> g}.
Proof. decide equality. apply string_dec. Defined.
Definition feqb (f g : field) : bool := if field_eq_dec f g then true else false.

(** libensemble/tools/fields_keys.py:23-35 *)
Definition protected (f : field) : bool :=
  match f with
  | F_gen_worker | F_gen_started_time | F_gen_ended_time | F_sim_worker
  | F_sim_started | F_sim_started_time | F_sim_ended | F_sim_ended_time
  | F_gen_informed | F_gen_informed_time | F_kill_sent => true
  | _ => false
  end.

(** Cell values. Numbers of every NumPy kind are integers here, with infinity
    and NaN kept apart because the code writes np.inf (history.py:87) and tests
    NaN (manager.py:289). Strings/objects are represented by integers too:
    the modelled code only copies them. *)
Inductive sc := SNum (z : Z) | SInf | SNaN.
Inductive val := VS (s : sc) | VV (l : list sc).

(** Shape of a field: scalar or one-dimensional of a given length
    (higher-dimensional fields are not modelled). *)
Inductive shape := ShS | ShV (n : nat).

Definition zero_of (sh : shape) : val :=
  match sh with ShS => VS (SNum 0) | ShV n => VV (repeat (SNum 0) n) end.

Definition shape_eqb (a b : shape) : bool :=
  match a, b with ShS, ShS => true | ShV n, ShV m => Nat.eqb n m | _, _ => false end.

Definition truthy (v : val) : bool :=
  match v with VS (SNum z) => negb (Z.eqb z 0) | VS _ => true | VV _ => true end.
Definition as_int (v : val) : Z :=
  match v with VS (SNum z) => z | _ => 0%Z end.
Definition vbool (b : bool) : val := VS (SNum (if b then 1 else 0)%Z).
Definition vint (z : Z) : val := VS (SNum z).

(** NumPy casts on assignment to the column type declared in
    fields_keys.py:5-19: integer columns and Boolean columns. *)
Definition cast (f : field) (v : val) : val :=
  match f with
  | F_sim_id | F_gen_worker | F_sim_worker => vint (as_int v)
  | F_sim_started | F_sim_ended | F_gen_informed | F_cancel_requested | F_kill_sent =>
      vbool (truthy v)
  | _ => v
  end.

(** A row of a structured array: a total map from field names; fields outside
    the dtype are never read by the code. *)
Definition row := field -> val.
Definition setf (f : field) (v : val) (r : row) : row :=
  fun g => if feqb f g then cast f v else r g.
Definition flag (f : field) (r : row) : bool := truthy (r f).
Definition sid (r : row) : Z := as_int (r F_sim_id).

Definition dtype := list (field * shape).
Definition names (d : dtype) : list field := map fst d.
Definition has (f : field) (l : list field) : bool := existsb (feqb f) l.
Fixpoint shape_in (d : dtype) (f : field) : shape :=
  match d with
  | [] => ShS
  | (g, sh) :: d' => if feqb f g then sh else shape_in d' f
  end.

(** libensemble/tools/fields_keys.py:5-19, all scalar. *)
Definition libE_fields : dtype :=
  [(F_sim_id, ShS); (F_gen_worker, ShS); (F_gen_started_time, ShS); (F_gen_ended_time, ShS);
   (F_sim_worker, ShS); (F_sim_started, ShS); (F_sim_started_time, ShS); (F_sim_ended, ShS);
   (F_sim_ended_time, ShS); (F_gen_informed, ShS); (F_gen_informed_time, ShS);
   (F_cancel_requested, ShS); (F_kill_sent, ShS)].

(** A structured array returned by user code: its dtype and its rows. *)
Record sarr := mkA { a_dtype : dtype; a_rows : list row }.

(** The History object. history.py:93-109. (given_back_warned only gates a log
    message and is left out.) *)
Record hist := mkH {
  h_dtype : dtype;
  h_rows : list row;
  h_index : nat;
  h_grow : nat;
  h_safe : bool;
  h_started : nat;
  h_ended : nat;
  h_informed : nat;
  h_started_off : nat;
  h_ended_off : nat;
  h_informed_off : nat;
  h_last_started : Z;
  h_last_ended : Z
}.

Definition with_rows (h : hist) (d : dtype) (rs : list row) : hist :=
  mkH d rs (h_index h) (h_grow h) (h_safe h) (h_started h) (h_ended h) (h_informed h)
      (h_started_off h) (h_ended_off h) (h_informed_off h) (h_last_started h) (h_last_ended h).
Definition set_rows (h : hist) (rs : list row) : hist := with_rows h (h_dtype h) rs.
Definition set_index (h : hist) (i : nat) : hist :=
  mkH (h_dtype h) (h_rows h) i (h_grow h) (h_safe h) (h_started h) (h_ended h) (h_informed h)
      (h_started_off h) (h_ended_off h) (h_informed_off h) (h_last_started h) (h_last_ended h).
Definition set_grow (h : hist) (g : nat) : hist :=
  mkH (h_dtype h) (h_rows h) (h_index h) g (h_safe h) (h_started h) (h_ended h) (h_informed h)
      (h_started_off h) (h_ended_off h) (h_informed_off h) (h_last_started h) (h_last_ended h).
Definition set_counts (h : hist) (s e g : nat) : hist :=
  mkH (h_dtype h) (h_rows h) (h_index h) (h_grow h) (h_safe h) s e g
      (h_started_off h) (h_ended_off h) (h_informed_off h) (h_last_started h) (h_last_ended h).
Definition set_last (h : hist) (s e : Z) : hist :=
  mkH (h_dtype h) (h_rows h) (h_index h) (h_grow h) (h_safe h) (h_started h) (h_ended h) (h_informed h)
      (h_started_off h) (h_ended_off h) (h_informed_off h) s e.

(** A row of np.zeros(.., dtype). *)
Definition zero_row (d : dtype) : row := fun f => zero_of (shape_in d f).

(** A blank row: zeros plus the initial values set at history.py:84-91 and
    history.py:273-280 (grow_H sets the same five fields). *)
Definition blank_row (d : dtype) : row :=
  fun f => match f with
           | F_sim_id => vint (-1)
           | F_uid => if has F_uid (names d) then vint (-1) else zero_of (shape_in d f)
           | F_sim_started_time | F_gen_informed_time => VS SInf
           | F_resource_sets => if has F_resource_sets (names d) then vint 1 else zero_of (shape_in d f)
           | _ => zero_of (shape_in d f)
           end.

(** history.py:84-91 apply the blank values to the last L rows. Python's [-L:]
    with L = 0 is the whole array. *)
Definition blank_over (d : dtype) (r : row) : row :=
  fun f => match f with
           | F_sim_id => vint (-1)
           | F_uid => if has F_uid (names d) then vint (-1) else r f
           | F_sim_started_time | F_gen_informed_time => VS SInf
           | F_resource_sets => if has F_resource_sets (names d) then vint 1 else r f
           | _ => r f
           end.

(** One row of H built from a row of H0. history.py:67-80. [i] is the row
    number. The three status defaults are per-row here because each is a
    whole-column assignment of that row's own value. *)
Definition row_from_H0 (d0 d : dtype) (i : nat) (r0 : row) : row :=
  let base := fun f => if has f (names d0) then cast f (r0 f) else zero_of (shape_in d f) in
  let s1 :=
    if negb (has F_sim_started (names d0)) then
      setf F_sim_ended (vbool true) (setf F_sim_started (vbool true) base)
    else if negb (has F_sim_ended (names d0)) then
      setf F_sim_ended (r0 F_sim_started) base
    else base in
  if negb (has F_sim_id (names d0)) then setf F_sim_id (vint (Z.of_nat i)) s1 else s1.

Fixpoint mapi {A B} (k : nat) (f : nat -> A -> B) (l : list A) : list B :=
  match l with [] => [] | x :: l' => f k x :: mapi (S k) f l' end.

(** History.__init__, history.py:43-109. [sim_max] is exit_criteria.get("sim_max", 100);
    [outs] is the concatenation of the "out" lists of the specs (line 55; a name
    repeated with another type makes np.dtype raise, here the first entry wins).
    With H0 its entry for a shared name takes precedence (lines 59-60). [safe] is
    libE_specs["safe_mode"], set on the object by manager.py right after. *)
Definition init_history (sim_max : nat) (outs : dtype) (H0 : sarr) (safe : bool) : hist :=
  let sd := libE_fields ++ outs in
  let n0 := List.length (a_rows H0) in
  let d := if Nat.eqb n0 0 then sd
           else a_dtype H0 ++ filter (fun p => negb (has (fst p) (names (a_dtype H0)))) sd in
  let head := mapi 0 (row_from_H0 (a_dtype H0) d) (a_rows H0) in
  let tail := repeat (zero_row d) sim_max in
  let rows :=
    if Nat.eqb sim_max 0 then map (blank_over d) head
    else head ++ map (blank_over d) tail in
  let s := countb (flag F_sim_started) rows in
  let e := countb (flag F_sim_ended) rows in
  let g := countb (flag F_gen_informed) rows in
  mkH d rows n0 0 safe s e g s e g (-1) (-1).

(** _append_new_fields, history.py:111-117: every old field is copied, new
    fields start at zero. (np.dtype raises on a duplicate name with a different
    type; shapes are compared at the assignment in our model.) *)
Definition append_new_fields (h : hist) (d2 : dtype) : hist :=
  let extra := filter (fun p => negb (has (fst p) (names (h_dtype h)))) d2 in
  let d' := h_dtype h ++ extra in
  with_rows h d' (map (fun r f => if has f (names (h_dtype h)) then r f
                                  else zero_of (shape_in d' f)) (h_rows h)).

(** the test at history.py:128 and 220 *)
Definition ensure_fields (h : hist) (d2 : dtype) : hist :=
  if existsb (fun f => negb (has f (names (h_dtype h)))) (names d2)
  then append_new_fields h d2 else h.

(** grow_H, history.py:263-281 *)
Definition grow_H (h : hist) (k : nat) : hist :=
  set_rows h (h_rows h ++ repeat (blank_row (h_dtype h)) k).

(** history.py:230-232 and 246-248 *)
Definition make_room (h : hist) (num_new : nat) : hist :=
  let remaining := List.length (h_rows h) - h_index h in
  if Nat.ltb remaining num_new then
    let g := Nat.max (num_new - remaining) (2 * h_grow h) in
    grow_H (set_grow h g) g
  else h.

(** NumPy index: negative counts from the end. *)
Definition norm_idx (n : nat) (z : Z) : option nat :=
  if Z.leb 0 z then (if Z.ltb z (Z.of_nat n) then Some (Z.to_nat z) else None)
  else (if Z.leb 0 (z + Z.of_nat n) then Some (Z.to_nat (z + Z.of_nat n)) else None).

Fixpoint norm_idxs (n : nat) (l : list Z) : option (list nat) :=
  match l with
  | [] => Some []
  | z :: l' => match norm_idx n z, norm_idxs n l' with
               | Some i, Some r => Some (i :: r) | _, _ => None end
  end.

(** H[field][inds] = D[field]: later entries win on repeated indices. *)
Fixpoint write_col (f : field) (inds : list nat) (D : list row) (rs : list row) : list row :=
  match inds, D with
  | i :: inds', r :: D' => write_col f inds' D' (upd rs i (setf f (r f)))
  | _, _ => rs
  end.

(** distinct elements of a list of ids (np.setdiff1d returns unique values) *)
Fixpoint distinctZ (l : list Z) : list Z :=
  match l with
  | [] => []
  | x :: l' => if existsb (Z.eqb x) l' then distinctZ l' else x :: distinctZ l'
  end.

Definition maxZ (l : list Z) : Z := fold_right Z.max (-1)%Z l.
(** Note on [maxZ]: np.max of a nonempty column; the base -1 only matters when
    all ids are below -1, where history.py:241's arange is empty either way. *)

Definition range_Z (a : nat) (b : Z) : list Z :=
  map (fun k => Z.of_nat (a + k)) (seq 0 (Z.to_nat (b - Z.of_nat a))).

(** one column of the loop at history.py:252-255 *)
Definition x_in_field (inds : list Z) (D : sarr) (p : field * shape) (h : hist) : ex hist :=
  let (f, sh) := p in
  if h_safe h && protected f then (h, Some EAssert)
  else if negb (shape_eqb (shape_in (h_dtype h) f) sh) then (h, Some EValue)
  else match norm_idxs (List.length (h_rows h)) inds with
       | None => (h, Some EIndex)
       | Some is => (set_rows h (write_col f is (a_rows D) (h_rows h)), None)
       end.

(** history.py:257-260 for one index *)
Definition stamp_gen (gw : nat) (gs t : Z) (r : row) : row :=
  match r F_gen_ended_time with
  | VS (SNum 0) =>
      setf F_gen_worker (vint (Z.of_nat gw))
        (setf F_gen_ended_time (vint t) (setf F_gen_started_time (vint gs) r))
  | _ => r
  end.

(** history.py:252-261, with update_inds = [inds] *)
Definition x_in_finish (gw : nat) (D : sarr) (gs t : Z) (num_new : nat) (inds : list Z) (h1 : hist) : ex hist :=
  bindx (foldx (x_in_field inds D) (a_dtype D) h1) (fun h2 =>
    match norm_idxs (List.length (h_rows h2)) inds with
    | None => (h2, Some EIndex)
    | Some is =>
        (set_index
           (set_rows h2 (fold_left (fun rs i => upd rs i (stamp_gen gw gs t)) is (h_rows h2)))
           (h_index h2 + num_new), None)
    end).

(** np.setdiff1d at history.py:244 *)
Definition count_new (ids : list Z) (rs : list row) : nat :=
  List.length (filter (fun z => negb (existsb (Z.eqb z) (map sid rs))) (distinctZ ids)).

(** the assertion at history.py:240-242 *)
Definition no_gap (index : nat) (ids : list Z) : bool :=
  forallb (fun z => existsb (Z.eqb z) ids) (range_Z index (maxZ ids + 1)).

(** history.py:235 *)
Definition number_rows (inds : list nat) (rs : list row) : list row :=
  fold_left (fun rs i => upd rs i (setf F_sim_id (vint (Z.of_nat i)))) inds rs.

(** update_history_x_in, history.py:205-261 *)
Definition update_history_x_in (gw : nat) (D : sarr) (gs t : Z) (h0 : hist) : ex hist :=
  if Nat.eqb (List.length (a_rows D)) 0 then (h0, None)
  else
    let h := ensure_fields h0 (a_dtype D) in
    if negb (has F_sim_id (names (a_dtype D))) then
      let num_new := List.length (a_rows D) in
      let h1 := make_room h num_new in
      let inds := seq (h_index h1) num_new in
      x_in_finish gw D gs t num_new (map Z.of_nat inds) (set_rows h1 (number_rows inds (h_rows h1)))
    else
      let ids := map sid (a_rows D) in
      if negb (no_gap (h_index h) ids) then (h, Some EAssert)
      else
        let num_new := count_new ids (h_rows h) in
        x_in_finish gw D gs t num_new ids (make_room h num_new).

(** The value stored by history.py:135-147 into a cell that held [old]. *)
Definition store_result (old new : val) : val + err :=
  match new, old with
  | VS s, VS _ => inl (VS s)
  | VS s, VV o => inl (VV (repeat s (List.length o)))    (* NumPy broadcast *)
  | VV n, VV o =>
      if Nat.ltb (List.length o) (List.length n) then inr EAssert
      else if Nat.eqb (List.length n) 0 then inr EAssert
      else inl (VV (n ++ skipn (List.length n) o))
  | VV _, VS _ => inr EType
  end.

(** one field of one row, history.py:132-147 *)
Definition f_field (ind : nat) (r : row) (p : field * shape) (h : hist) : ex hist :=
  let f := fst p in
  if h_safe h && protected f then (h, Some EAssert)
  else match nth_error (h_rows h) ind with
       | None => (h, Some EIndex)
       | Some old =>
           match store_result (old f) (r f) with
           | inr e => (h, Some e)
           | inl v => (set_rows h (upd (h_rows h) ind (setf f v)), None)
           end
       end.

(** all returned fields of row [j] into history row [ind], history.py:132-147;
    returned_H[field][j] raises IndexError when there are too few rows *)
Definition f_write (ret : option sarr) (j ind : nat) (h : hist) : ex hist :=
  match ret with
  | None => (h, None)
  | Some A =>
      match nth_error (a_rows A) j with
      | Some r => foldx (f_field ind r) (a_dtype A) h
      | None => match a_dtype A with
                | [] => (h, None)
                | (f, _) :: _ => (h, Some (if h_safe h && protected f then EAssert else EIndex))
                end
      end
  end.

(** history.py:149-150 *)
Definition mark_ended (t : Z) (r : row) : row :=
  setf F_sim_ended_time (vint t) (setf F_sim_ended (vbool true) r).

(** one row, history.py:131-151 *)
Definition f_row (ret : option sarr) (t : Z) (p : nat * nat) (h : hist) : ex hist :=
  let (j, ind) := p in
  bindx (f_write ret j ind h) (fun h1 =>
    if Nat.ltb ind (List.length (h_rows h1)) then
      let h2 := set_rows h1 (upd (h_rows h1) ind (mark_ended t)) in
      (set_counts h2 (h_started h2) (h_ended h2 + 1) (h_informed h2), None)
    else (h1, Some EIndex)).

(** history.py:154-158: advance last_ended over ended rows, [n] iterations left
    starting at row [j]. *)
Fixpoint advance_ended (rs : list row) (j : nat) (n : nat) (le : Z) : Z :=
  match n with
  | 0 => le
  | S n' => match nth_error rs j with
            | Some r => if flag F_sim_ended r then advance_ended rs (S j) n' (le + 1) else le
            | None => le   (* unreachable: j <= max(new_inds) < len(H) *)
            end
  end.

(** update_history_f, history.py:119-158 *)
Definition update_history_f (inds : list nat) (ret : option sarr) (kill : bool) (t : Z) (h0 : hist) : ex hist :=
  let h := match ret with Some A => ensure_fields h0 (a_dtype A) | None => h0 end in
  bindx (foldx (f_row ret t) (combine (seq 0 (List.length inds)) inds) h) (fun h1 =>
    if kill then
      match inds with
      | [] => (h1, Some EValue)   (* np.max of an empty sequence *)
      | _ =>
          let lo := Z.to_nat (h_last_ended h1 + 1) in
          let n := S (maxl inds) - lo in
          (set_last h1 (h_last_started h1) (advance_ended (h_rows h1) lo n (h_last_ended h1)), None)
      end
    else (h1, None)).

(** history.py:175-177 for one row *)
Definition mark_started (w : nat) (t : Z) (r : row) : row :=
  setf F_sim_worker (vint (Z.of_nat w)) (setf F_sim_started_time (vint t) (setf F_sim_started (vbool true) r)).

(** update_history_x_out, history.py:160-181. The three column assignments use
    the same indices, so an index error leaves the array unchanged. *)
Definition update_history_x_out (inds : list nat) (w : nat) (kill : bool) (t : Z) (h : hist) : ex hist :=
  if negb (forallb (fun i => Nat.ltb i (List.length (h_rows h))) inds) then (h, Some EIndex)
  else
    let h1 := set_rows h (fold_left (fun rs i => upd rs i (mark_started w t)) inds (h_rows h)) in
    let h2 := set_counts h1 (h_started h1 + List.length inds) (h_ended h1) (h_informed h1) in
    if kill then
      match inds with
      | [] => (h2, Some EValue)
      | _ => (set_last h2 (Z.of_nat (maxl inds)) (h_last_ended h2), None)
      end
    else (h2, None).

(** update_history_to_gen, history.py:183-203. Both branches at 189-194 mark
    exactly the listed rows that are ended. *)
Definition update_history_to_gen (inds : list nat) (t : Z) (h : hist) : ex hist :=
  match inds with
  | [] => (h, None)
  | _ =>
    if negb (forallb (fun i => Nat.ltb i (List.length (h_rows h))) inds) then (h, Some EIndex)
    else
      let ended i := match nth_error (h_rows h) i with Some r => flag F_sim_ended r | None => false end in
      let marked := if forallb ended inds then inds
                    else if existsb ended inds then filter ended inds else [] in
      let rs1 := fold_left (fun rs i => upd rs i (setf F_gen_informed (vbool true))) marked (h_rows h) in
      let rs2 := fold_left (fun rs i => upd rs i (setf F_gen_informed_time (vint t))) inds rs1 in
      let h1 := set_rows h rs2 in
      (set_counts h1 (h_started h1) (h_ended h1) (h_informed h1 + List.length inds), None)
  end.

(** trim_H, history.py:284-286 *)
Definition trim_H (h : hist) : list row := firstn (h_index h) (h_rows h).

(** rows scanned by _kill_cancelled_sims, manager.py:566 *)
Definition kill_window (h : hist) : list nat :=
  let lo := Z.to_nat (h_last_ended h + 1) in
  seq lo (Z.to_nat (h_last_started h + 1) - lo).

(** the mask at manager.py:568-573 *)
Definition to_kill (r : row) : bool :=
  flag F_sim_started r && flag F_cancel_requested r && negb (flag F_sim_ended r) && negb (flag F_kill_sent r).

Definition kill_rows (h : hist) : list nat :=
  filter (fun k => match nth_error (h_rows h) k with Some r => to_kill r | None => false end) (kill_window h).

Definition rows_at (h : hist) (ks : list nat) : list row :=
  flat_map (fun k => match nth_error (h_rows h) k with Some r => [r] | None => [] end) ks.

(** _kill_cancelled_sims, manager.py:562-583, run when kill_canceled_sims is
    on: the new history and the workers that are sent a kill signal, in order.
    The flag assignment inside the loop does not depend on the loop variable,
    so it is done once here. *)
Definition kill_pass (h : hist) : ex hist * list Z :=
  if negb (forallb (fun k => Nat.ltb k (List.length (h_rows h))) (kill_window h)) then ((h, Some EIndex), [])
  else
    match kill_rows h with
    | [] => ((h, None), [])
    | ks =>
        let sends := map (fun r => as_int (r F_sim_worker)) (rows_at h ks) in
        match norm_idxs (List.length (h_rows h)) (map sid (rows_at h ks)) with
        | None => ((h, Some EIndex), firstn 1 sends)
        | Some is =>
            ((set_rows h (fold_left (fun rs i => upd rs i (setf F_kill_sent (vbool true))) is (h_rows h)), None), sends)
        end
    end.

(** Operations the manager performs on the history, with their inputs. *)
Inductive hop :=
| HXIn (gw : nat) (D : sarr) (gs t : Z)
| HF (inds : list nat) (ret : option sarr) (kill : bool) (t : Z)
| HXOut (inds : list nat) (w : nat) (kill : bool) (t : Z)
| HToGen (inds : list nat) (t : Z)
| HKill.

Definition hstep (o : hop) (h : hist) : ex hist :=
  match o with
  | HXIn gw D gs t => update_history_x_in gw D gs t h
  | HF inds ret kill t => update_history_f inds ret kill t h
  | HXOut inds w kill t => update_history_x_out inds w kill t h
  | HToGen inds t => update_history_to_gen inds t h
  | HKill => fst (kill_pass h)
  end.

(** A run: operations in order, stopping at the first exception. *)
Definition hrun (os : list hop) (h : hist) : ex hist := foldx hstep os h.
