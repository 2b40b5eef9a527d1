(** Model of generators.py:120-246 (PersistentGenInterfacer) and
    gen_classes/aposmm.py:273-382 (APOSMM): a generator function that runs in a
    process of its own, behind an object with suggest and ingest. *)
From Verif Require Import Base MapModel.
Local Open Scope nat_scope.

(** Two more field names with a meaning. Simplification: booleans are the
    integers 0 and 1. *)
Definition LOCAL_MIN : name := 2.   (* "local_min" *)
Definition SIM_ENDED : name := 3.   (* "sim_ended" *)

Definition ERuntime := EOther 42.    (* RuntimeError *)
Definition EFinished := EOther 43.   (* CommFinishedException *)
Definition ERemote := EOther 44.     (* RemoteException *)

(** What is put in the inbox of the process (generators.py:200-206): the rows'
    numbers, the rows, or a message without content. [stop]: the tag is
    PERSIS_STOP, otherwise EVAL_GEN_TAG. *)
Inductive pin := PWork (stop : bool) (rows : list value) | PRows (stop : bool) (a : arr) | PNone (stop : bool).
(** What the process puts in its outbox (tools/persistent_support.py:31-60 and
    comms/comms.py:223-233): points, then what the function returned ([v] stands
    for it) or that it raised. *)
Inductive pout := MPoints (a : arr) | MResult (v : nat) | MExc.

(** The generator function: everything it has put in its outbox when these
    messages were in its inbox, and it waits or has ended. The argument before it
    is gen_specs["user"]["generate_sample_points"] at the start. *)
Definition gfun := bool -> list pin -> list pout.

(** The outcome of a call: a value, an exception, or waiting for a message that
    does not come. *)
Inductive ans (A : Type) := Ret (a : A) | Raise (e : err) | Hang.
Arguments Ret {A} a.
Arguments Raise {A} e.
Arguments Hang {A}.

Inductive ended := EndResult (v : nat) | EndExc.
Inductive meth := MSuggest | MIngest.

(** The attributes: first those of PersistentGenInterfacer with the QCommProcess,
    then those of APOSMM (aposmm.py:273-281). *)
Record obj := mkObj {
  o_made : bool;               (* _running_gen_f is not None *)
  o_running : option bool;     (* its process was started, with this flag *)
  o_in : list pin;             (* all messages sent to it *)
  o_taken : nat;               (* how many messages were read from it *)
  o_done : option ended;       (* _done, _result and _exception *)
  o_result : option nat;       (* gen_result *)
  o_gsp : bool;                (* gen_specs["user"]["generate_sample_points"] *)
  o_first : option meth;       (* _first_called_method *)
  o_idx : nat;                 (* _suggest_idx *)
  o_last : option arr;         (* _last_suggest *)
  o_buf : option arr;          (* _ingest_buf *)
  o_n : nat;                   (* _n_buffd_results *)
  o_told : bool;               (* _told_initial_sample *)
  o_call : option meth;        (* _last_call *)
  o_num : nat;                 (* _last_num_points *)
  o_minima : list arr }.       (* all_local_minima *)

(** generators.py:139-140, aposmm.py:273-281; an absent flag counts as true
    (gen_funcs/persistent_aposmm.py:181). *)
Definition new_obj : obj := mkObj false None [] 0 None None true None 0 None None 0 false None 0 [].

Definition set_proc (o : obj) made running inn taken done result : obj :=
  mkObj made running inn taken done result (o_gsp o) (o_first o) (o_idx o) (o_last o) (o_buf o) (o_n o) (o_told o) (o_call o) (o_num o) (o_minima o).
Definition set_first (m : meth) (o : obj) : obj :=     (* aposmm.py:317-319 and 347-349 *)
  match o_first o with
  | Some _ => o
  | None => mkObj (o_made o) (o_running o) (o_in o) (o_taken o) (o_done o) (o_result o)
              (match m with MSuggest => true | MIngest => false end) (Some m)
              (o_idx o) (o_last o) (o_buf o) (o_n o) (o_told o) (o_call o) (o_num o) (o_minima o)
  end.
Definition set_sugg (o : obj) idx last minima : obj :=
  mkObj (o_made o) (o_running o) (o_in o) (o_taken o) (o_done o) (o_result o) (o_gsp o) (o_first o)
        idx last (o_buf o) (o_n o) (o_told o) (o_call o) (o_num o) minima.
Definition set_call (m : meth) (num : nat) (o : obj) : obj :=
  mkObj (o_made o) (o_running o) (o_in o) (o_taken o) (o_done o) (o_result o) (o_gsp o) (o_first o)
        (o_idx o) (o_last o) (o_buf o) (o_n o) (o_told o) (Some m) num (o_minima o).
Definition set_buf (o : obj) buf n told : obj :=
  mkObj (o_made o) (o_running o) (o_in o) (o_taken o) (o_done o) (o_result o) (o_gsp o) (o_first o)
        (o_idx o) (o_last o) buf n told (o_call o) (o_num o) (o_minima o).

Section Object.
Variable gen : gfun.
Variable N : nat.                   (* gen_specs["user"]["initial_sample_size"] *)
Variable persis_in : list name.     (* gen_specs["persis_in"], aposmm.py:267-269 *)

(** generators.py:142-162 (setup). The executor is left out. *)
Definition setup (o : obj) : obj * ans unit :=
  if o_made o then (o, Raise ERuntime)
  else (set_proc o true (o_running o) (o_in o) (o_taken o) (o_done o) (o_result o), Ret tt).
(** generators.py:188-190 and 196-198: setup and run, unless setup was called *)
Definition start (o : obj) : obj :=
  if o_made o then o else set_proc o true (Some (o_gsp o)) (o_in o) (o_taken o) (o_done o) (o_result o).

(** Everything in the outbox, read or not; a process that was not started puts
    nothing there. *)
Definition outbox (o : obj) : list pout :=
  match o_running o with Some b => gen b (o_in o) | None => [] end.

(** comms/comms.py:174-187 (QCommLocal.recv) without a timeout *)
Definition recv (o : obj) : obj * ans arr :=
  match o_done o with
  | Some _ => (o, Raise EFinished)
  | None =>
      match nth_error (outbox o) (o_taken o) with
      | None => (o, Hang)
      | Some m =>
          let set d := set_proc o (o_made o) (o_running o) (o_in o) (S (o_taken o)) d (o_result o) in
          match m with
          | MPoints a => (set None, Ret a)
          | MResult v => (set (Some (EndResult v)), Raise EFinished)
          | MExc => (set (Some EndExc), Raise EFinished)
          end
      end
  end.
(** comms/comms.py:193-208 (QCommLocal.result) without a timeout: read on until
    the last message, from the [k]th *)
Fixpoint final (l : list pout) : option (nat * ended) :=
  match l with
  | [] => None
  | MPoints _ :: l' => match final l' with Some (k, e) => Some (S k, e) | None => None end
  | MResult v :: _ => Some (1, EndResult v)
  | MExc :: _ => Some (1, EndExc)
  end.
Definition result (o : obj) : obj * ans nat :=
  let answer o e := match e with EndResult v => (o, Ret v) | EndExc => (o, Raise ERemote) end in
  match o_done o with
  | Some e => answer o e
  | None =>
      match final (skipn (o_taken o) (outbox o)) with
      | None => (o, Hang)
      | Some (k, e) => answer (set_proc o (o_made o) (o_running o) (o_in o) (o_taken o + k) (Some e) (o_result o)) e
      end
  end.
Definition send (ms : list pin) (o : obj) : obj :=
  set_proc o (o_made o) (o_running o) (o_in o ++ ms) (o_taken o) (o_done o) (o_result o).

(** generators.py:164-180 (_prep_fields). The names of new_dtype must differ. *)
Definition prep (a : arr) : res arr :=
  let dt := filter (fun f => memb (f_name f) persis_in) (a_dt a) in
  let dt1 := dt ++ [mkF SIM_ENDED TInt None] in
  bindr (check_dt dt1) (fun _ =>
    Ok (mkArr dt1 (map (fun row => filter (fun p => memb (fst p) persis_in) row ++ [(SIM_ENDED, Sc (SI 1))]) (a_rows a)))).
(** The column under a name; a missing one is a ValueError. *)
Definition column (n : name) (a : arr) : res (list value) :=
  if memb n (map f_name (a_dt a)) then
    Ok (map (fun row => match get n row with Some v => v | None => Sc (SI 0) end) (a_rows a))
  else Err EValue.

(** generators.py:186-192 (PersistentGenInterfacer.suggest_numpy) *)
Definition base_suggest (o : obj) : obj * ans arr := recv (start o).
(** generators.py:194-206 (PersistentGenInterfacer.ingest_numpy) *)
Definition base_ingest (o : obj) (results : option arr) (stop : bool) : obj * ans unit :=
  let o1 := start o in
  match results with
  | None => (send [PNone stop] o1, Ret tt)
  | Some a =>
      match bindr (prep a) (fun r => bindr (column SIM_ID r) (fun ids => Ok (r, ids))) with
      | Err e => (o1, Raise e)
      | Ok (r, ids) => (send [PWork stop ids; PRows stop r] o1, Ret tt)
      end
  end.

(** One value per row is true (numpy's any, and the mask). *)
Definition truth (v : value) : bool := match v with Sc (SI z) => negb (z =? 0)%Z | _ => true end.
Definition is_min (row : dict) : bool := match get LOCAL_MIN row with Some v => truth v | None => false end.
Definition sc_eqb (x y : sc) : bool :=
  match x, y with
  | SI a, SI b => (a =? b)%Z
  | SI a, SF b => (1000 * a =? b)%Z
  | SF a, SI b => (a =? 1000 * b)%Z
  | SF a, SF b => (a =? b)%Z
  | SS s, SS t => if list_eq_dec Nat.eq_dec s t then true else false
  | _, _ => false
  end.
Definition value_eqb (v w : value) : bool := match v, w with Sc x, Sc y => sc_eqb x y | _, _ => false end.

(** aposmm.py:298-312 (_ready_to_suggest_genf). Looking for an id in the buffer
    raises TypeError if there is no buffer yet; without ids nothing is looked for. *)
Definition ready (o : obj) : res bool :=
  match o_last o with
  | None => Ok true
  | Some l =>
      bindr (if o_told o then Ok true
             else bindr (column SIM_ID l) (fun ids =>
                  match ids with
                  | [] => Ok true
                  | _ => match o_buf o with
                         | None => Err EType
                         | Some b => bindr (column SIM_ID b) (fun bs => Ok (forallb (fun i => existsb (value_eqb i) bs) ids))
                         end
                  end))
            (fun cond => Ok (cond && (length (a_rows l) <=? o_idx o)))
  end.

Definition lift {A} (o : obj) (r : res A) (k : A -> obj * ans arr) : obj * ans arr :=
  match r with Ok a => k a | Err e => (o, Raise e) end.

(** generators.py:208-213 (finalize), with the ingest_numpy of APOSMM
    (aposmm.py:345-354): nothing is buffered, the stop is sent. *)
Definition finalize (o : obj) : obj * ans unit :=
  if o_made o then
    let o1 := set_call MIngest (o_num o) (fst (base_ingest (set_first MIngest o) None true)) in
    match result o1 with
    | (o2, Ret v) => (set_proc o2 (o_made o2) (o_running o2) (o_in o2) (o_taken o2) (o_done o2) (Some v), Ret tt)
    | (o2, Raise e) => (o2, Raise e)
    | (o2, Hang) => (o2, Hang)
    end
  else (o, Raise ERuntime).

(** aposmm.py:333-343: the part of suggest_numpy that hands out *)
Definition hand_out (num : nat) (o : obj) : obj * ans arr :=
  match o_last o with
  | None => (o, Raise EType)      (* not reached *)
  | Some l =>
      if 0 <? num then
        let o1 := set_sugg o (o_idx o + num) (Some l) (o_minima o) in
        (set_call MSuggest num o1, Ret (mkArr (a_dt l) (firstn num (skipn (o_idx o) (a_rows l)))))
      else
        (set_call MSuggest num (set_sugg o (o_idx o) None (o_minima o)), Ret l)
  end.
(** aposmm.py:322-331: the part that fetches *)
Definition fetch (num : nat) (o : obj) : obj * ans arr :=
  let o1 := set_sugg o 0 (o_last o) (o_minima o) in
  if match o_call o with Some MSuggest => true | _ => false end && (num =? 0) && (o_num o =? 0) then
    match finalize o1 with (o2, Ret _) => (o2, Raise ERuntime) | (o2, Raise e) => (o2, Raise e) | (o2, Hang) => (o2, Hang) end
  else
    match base_suggest o1 with
    | (o2, Ret l) =>
        let o3 := set_sugg o2 (o_idx o2) (Some l) (o_minima o2) in
        lift o3 (column LOCAL_MIN l) (fun _ =>
        let o4 := if existsb is_min (a_rows l) then
                    set_sugg o3 (o_idx o3) (Some (mkArr (a_dt l) (filter (fun r => negb (is_min r)) (a_rows l))))
                             (o_minima o3 ++ [mkArr (a_dt l) (filter is_min (a_rows l))])
                  else o3 in
        (o4, Ret l))
    | r => r
    end.
(** aposmm.py:314-343 (suggest_numpy) *)
Definition suggest (num : nat) (o : obj) : obj * ans arr :=
  let o0 := set_first MSuggest o in
  lift o0 (ready o0) (fun b =>
    if b : bool then
      match fetch num o0 with (o1, Ret _) => hand_out num o1 | r => r end
    else hand_out num o0).

(** aposmm.py:358-363: the buffer, made for the fields of the results *)
Definition new_buf (a : arr) : arr :=
  let descr := filter (fun f => negb (f_name f =? ID)) (a_dt a) in
  let dt := if memb SIM_ID (map f_name descr) then descr else descr ++ [mkF SIM_ID TInt None] in
  mkArr dt (repeat (zero_row dt) N).
(** One cell: converted to the type of the field. Simplification: columns of
    another shape than the buffer's are converted row by row. *)
Definition write (f : field) (v : value) (row : dict) : res dict := bindr (assign f v) (fun w => Ok (put (f_name f) w row)).
(** buf[n][k : k + len(vs)] = vs, where it fits: otherwise ValueError. (A single
    value would be written to whatever is left of the slice, but there is always
    room for one: [k] is below the length.) *)
Fixpoint write_from (f : field) (vs : list value) (rows : list dict) : res (list dict) :=
  match vs, rows with
  | [], _ => Ok rows
  | v :: vs', row :: rows' => bindr (write f v row) (fun r => bindr (write_from f vs' rows') (fun rs => Ok (r :: rs)))
  | _ :: _, [] => Err EValue
  end.
Definition slot_column (n : name) (vs : list value) (k : nat) (b : arr) : res arr :=
  match field_of n (a_dt b) with
  | None => Err EValue
  | Some f => bindr (write_from f vs (skipn k (a_rows b))) (fun rows => Ok (mkArr (a_dt b) (firstn k (a_rows b) ++ rows)))
  end.
(** aposmm.py:283-291 (_slot_in_data), with what was written if it raises *)
Definition slot (a : arr) (k : nat) (b : arr) : ex arr :=
  foldx (fun f b => match bindr (column (f_name f) a) (fun vs => slot_column (if f_name f =? ID then SIM_ID else f_name f) vs k b) with
                    | Ok b' => (b', None)
                    | Err e => (b, Some e)
                    end) (a_dt a) b.
(** aposmm.py:293-296 (_enough_initial_sample) *)
Definition enough (o : obj) : bool := (N <=? o_n o) || o_told o.
(** aposmm.py:371: self._ingest_buf["sim_id"] = range(len(self._ingest_buf)) *)
Definition number_rows (b : arr) : res arr := slot_column SIM_ID (map (fun i => Sc (SI (Z.of_nat i))) (seq 0 (length (a_rows b)))) 0 b.

(** aposmm.py:369-376: hand the buffer over if it is full *)
Definition hand_over (results : arr) (stop : bool) (o : obj) : obj * ans unit :=
  if enough o then
    match o_buf o with
    | None => (o, Raise EType)     (* not reached *)
    | Some b =>
        match (if memb SIM_ID (map f_name (a_dt results)) && negb (o_told o) then number_rows b else Ok b) with
        | Err e => (o, Raise e)
        | Ok b1 =>
            let o1 := set_buf o (Some b1) (o_n o) (o_told o) in
            match base_ingest o1 (Some b1) stop with
            | (o2, Ret _) => (set_call MIngest (o_num o2) (set_buf o2 (o_buf o2) 0 true), Ret tt)
            | r => r
            end
        end
    end
  else (set_call MIngest (o_num o) o, Ret tt).
(** aposmm.py:345-376 (ingest_numpy). None during the initial sample has no dtype
    (AttributeError), or no names to iterate over (TypeError). *)
Definition ingest (results : option arr) (stop : bool) (o : obj) : obj * ans unit :=
  let o0 := set_first MIngest o in
  if (match results with None => stop | Some _ => false end) || o_told o0 then
    match base_ingest o0 results stop with (o1, Ret _) => (set_call MIngest (o_num o1) o1, Ret tt) | r => r end
  else
    match results with
    | None => (o0, Raise (if o_n o0 =? 0 then EAttr else EType))
    | Some a =>
        let o1 := if o_n o0 =? 0 then set_buf o0 (Some (new_buf a)) (o_n o0) (o_told o0) else o0 in
        if enough o1 then hand_over a stop o1
        else match o_buf o1 with
             | None => (o1, Raise EType)     (* not reached *)
             | Some b =>
                 match slot a (o_n o1) b with
                 | (b', Some e) => (set_buf o1 (Some b') (o_n o1) (o_told o1), Raise e)
                 | (b', None) => hand_over a stop (set_buf o1 (Some b') (o_n o1 + length (a_rows a)) (o_told o1))
                 end
             end
    end.

(** aposmm.py:378-382 (suggest_updates) *)
Definition updates (o : obj) : obj * ans (list arr) := (set_sugg o (o_idx o) (o_last o) [], Ret (o_minima o)).

(** generators.py:215-246 (export), without the renaming of fields: what finalize
    stored. *)
Definition export (o : obj) : option nat := o_result o.

(** The same with points as dictionaries (generators.py:110-114 and 182-184). *)
Definition suggest_dicts (mp : mapping) (num : nat) (o : obj) : obj * ans (list dict) :=
  match suggest num o with
  | (o1, Ret a) => match to_dicts a mp with Ok l => (o1, Ret l) | Err e => (o1, Raise e) end
  | (o1, Raise e) => (o1, Raise e)
  | (o1, Hang) => (o1, Hang)
  end.
Definition ingest_dicts (mp : mapping) (l : list dict) (o : obj) : obj * ans unit :=
  match to_np l [] mp with Ok a => ingest (Some a) false o | Err e => (o, Raise e) end.

(** A program that uses the object: any sequence of calls, on arrays. A call that
    waits for ever is the last one. *)
Inductive op := Suggest (num : nat) | Ingest (a : arr) | Updates | Finalize | Setup.
Inductive reply := Points (x : ans arr) | Minima (l : list arr) | Done (x : ans unit).
Definition step (c : op) (o : obj) : obj * reply :=
  match c with
  | Suggest n => let (o1, x) := suggest n o in (o1, Points x)
  | Ingest a => let (o1, x) := ingest (Some a) false o in (o1, Done x)
  | Updates => (fst (updates o), Minima (o_minima o))
  | Finalize => let (o1, x) := finalize o in (o1, Done x)
  | Setup => let (o1, x) := setup o in (o1, Done x)
  end.
Definition hangs (r : reply) : bool := match r with Points Hang | Done Hang => true | _ => false end.
Fixpoint run (cs : list op) (o : obj) : obj * list reply :=
  match cs with
  | [] => (o, [])
  | c :: cs' =>
      let (o1, r) := step c o in
      if hangs r then (o1, [r]) else let (o2, rs) := run cs' o1 in (o2, r :: rs)
  end.
End Object.
