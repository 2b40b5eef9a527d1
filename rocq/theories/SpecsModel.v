(** Model of the checks libE makes before it starts: libensemble/utils/validators.py,
    utils/specs_checkers.py, the VOCS rules of specs.py and the order of
    utils/pydantic_bindings.py. Not modelled: pydantic itself (types of entries,
    unknown keys, copying of lists), Platform settings, callables. *)
From Coq Require Import String.
From Verif Require Import Base HistoryModel ManagerModel.
Local Notation length := List.length.

(** The field lists of sim_specs or gen_specs (specs.py:64-100, 156-185; None is
    taken as the empty list). *)
Record uspecs := mkSp { sp_in : list field; sp_persis_in : list field; sp_out : dtype }.

(** A VOCS object: names, and the shapes their dtypes mean (specs.py:22-60). *)
Record vocs := mkVocs { v_variables : dtype; v_constants : dtype; v_objectives : dtype; v_observables : dtype; v_constraints : dtype }.

Definition empty {A} (l : list A) : bool := match l with [] => true | _ => false end.
(** "if not self.x: self.x = y" *)
Definition if_unset {A} (l y : list A) : list A := if empty l then y else l.

(** specs.py:123-156 SimSpecs.set_fields_from_vocs *)
Definition sim_from_vocs (v : option vocs) (s : uspecs) : uspecs :=
  match v with
  | None => s
  | Some v => mkSp (if_unset (sp_in s) (names (v_variables v) ++ names (v_constants v))) (sp_persis_in s)
                   (if_unset (sp_out s) (v_objectives v ++ v_observables v ++ v_constraints v))
  end.

(** specs.py:236-275 GenSpecs.set_fields_from_vocs. [gen]: a generator object is
    given, with its returns_id. *)
Definition gen_from_vocs (v : option vocs) (gen : option bool) (s : uspecs) : uspecs :=
  match v with
  | None => s
  | Some v =>
      let p := if_unset (sp_persis_in s) (names (v_variables v) ++ names (v_constants v) ++ names (v_objectives v) ++ names (v_observables v) ++ names (v_constraints v)) in
      let i := match gen with Some _ => if_unset (sp_in s) p | None => sp_in s end in
      let o := if_unset (sp_out s) (v_variables v ++ v_constants v) in
      match gen with
      | Some true => mkSp i (if has F_uid p then p else p ++ [F_uid]) (if has F_uid (names o) then o else o ++ [(F_uid, ShS)])
      | _ => mkSp i p o
      end
  end.

(** validators.py:178-187 and 190-199: lists attached to the user function by the
    decorators of specs.py:686-768; None when the function has no such attribute. *)
Record attrs := mkAt { at_in : option (list field); at_persis_in : option (list field); at_out : option dtype }.
Definition from_attr {A} (l : list A) (a : option (list A)) : list A := match a with Some y => if_unset l y | None => l end.
Definition from_attrs (a : attrs) (s : uspecs) : uspecs :=
  mkSp (from_attr (sp_in s) (at_in a)) (from_attr (sp_persis_in s) (at_persis_in a)) (from_attr (sp_out s) (at_out a)).

(** specs_checkers.py:28-32. [gspecs]: the "out" entry of the gen_specs of the
    generator object, if it has one; AttributeError (EOther 3) if it has not. *)
Definition from_generator (gen : option bool) (gspecs : option dtype) (s : uspecs) : res uspecs :=
  if empty (sp_out s) then
    match gen, gspecs with
    | None, _ => Ok s
    | Some _, None => Err (EOther 3)
    | Some _, Some d => Ok (mkSp (sp_in s) (sp_persis_in s) (if_unset d (sp_out s)))
    end
  else Ok s.

(** The validators of SimSpecs and GenSpecs in their order (pydantic_bindings.py:61-81;
    those of the base class come first). *)
Definition validate_sim (v : option vocs) (a : attrs) (s : uspecs) : uspecs := from_attrs a (sim_from_vocs v s).
Definition validate_gen (v : option vocs) (gen : option bool) (gspecs : option dtype) (a : attrs) (s : uspecs) : res uspecs :=
  bindr (from_generator gen gspecs (gen_from_vocs v gen s)) (fun s1 => Ok (from_attrs a s1)).

(** specs_checkers.py:19-25 *)
Definition check_exit_criteria (stop : option (field * sc)) (sim gen : uspecs) : option err :=
  match stop with
  | None => None
  | Some (key, _) => if has key (names (sp_out sim) ++ names (sp_out gen)) then None else Some EAssert
  end.

(** specs_checkers.py:35-66. The two entries compared at line 63 are a name and a
    list of (name, type) tuples, so the test never holds and the shapes are not
    compared. np.zeros at line 42 raises when a name has two types (here: shapes). *)
Definition two_types (d : dtype) : bool := existsb (fun p => negb (shape_eqb (snd p) (shape_in d (fst p)))) d.
Definition check_H0 (sim gen : uspecs) (H0 : sarr) : option err :=
  if length (a_rows H0) =? 0 then None
  else
    let d := libE_fields ++ sp_out sim ++ sp_out gen in
    if two_types d then Some EValue
    else if negb (forallb (fun f => has f (names (a_dtype H0) ++ names d)) (sp_in sim ++ sp_persis_in sim ++ sp_in gen ++ sp_persis_in gen)) then Some EAssert
    else if negb (has F_sim_ended (names (a_dtype H0))) then None
    else if negb (has F_sim_started (names (a_dtype H0))) then Some EValue
    else if forallb (fun r => Bool.eqb (truthy (r F_sim_started)) (truthy (r F_sim_ended))) (a_rows H0) then None
    else Some EAssert.

(** _EnsembleSpecs, pydantic_bindings.py:101-109: both checks (a user function is
    always given here). *)
Definition check_ensemble (stop : option (field * sc)) (sim gen : uspecs) (H0 : sarr) : option err :=
  match check_exit_criteria stop sim gen with Some e => Some e | None => check_H0 sim gen H0 end.

(** ** LibeSpecs *)
Inductive comms := Mpi | Local | Threads | Tcp | OtherComms.
(** A directory given as a string or as a Path. *)
Inductive dirval := DStr (s : string) | DPath (s : string).

(** The entries of libE_specs that the validators read or set (specs.py:318-640). *)
Record lspecs := mkLS {
  l_comms : option comms; l_nworkers : option Z; l_workers : list string; l_disable_rm : bool;
  l_save_sims : Z; l_save_gens : Z; l_save_end : bool;
  l_use_wf : bool; l_wf_path : option string;
  l_sim_dir : option dirval; l_sim_make : bool; l_gen_dir : option dirval; l_gen_make : bool }.

(** The outside world: the sizes in OMPI_COMM_WORLD_SIZE and PMI_SIZE, Path.absolute,
    Path.exists, secrets.token_hex. *)
Record lenv := mkEnv { e_sizes : list (option Z); e_abs : string -> string; e_exists : string -> bool; e_token : string }.

(** validators.py:25-35 *)
Definition detect_comms_env (E : lenv) : comms :=
  if existsb (fun s => match s with Some z => (1 <? z)%Z | None => false end) (e_sizes E) then Mpi else Local.

(** validators.py:38-44 *)
Definition default_comms (E : lenv) (v : lspecs) : comms :=
  match l_comms v with
  | Some c => c
  | None => match l_nworkers v with Some _ => detect_comms_env E | None => Mpi end
  end.

(** validators.py:73-79 check_input_dir_exists, for a directory that is given *)
Definition check_dir (E : lenv) (d : option dirval) : res (option dirval) :=
  match d with
  | None => Ok None
  | Some d =>
      let p := match d with DStr s => e_abs E s | DPath s => s end in
      if negb (e_exists E p) then Err EAssert
      else if String.eqb p "." then Err EAssert
      else Ok (Some (DPath p))
  end.

(** specs_checkers.py:69-79; None when accepted *)
Definition check_workers (c : comms) (n : option Z) (hosts : list string) : option err :=
  match c with
  | Local | Tcp =>
      match n with
      | Some z => if (z =? 0)%Z then (match c with Tcp => if empty hosts then Some EAssert else None | _ => None end)
                  else if (1 <=? z)%Z then None else Some EAssert
      | None => match c with Tcp => if empty hosts then Some EAssert else None | _ => None end
      end
  | _ => None
  end.

(** specs_checkers.py:82-89 _check_set_workflow_dir: the switch and the path. The
    path None is "None" to the test of its length, and Path(None) raises TypeError. *)
Definition set_workflow_dir (E : lenv) (use : bool) (path : option string) : res (bool * option string) :=
  match path with
  | None => Err EType
  | Some p =>
      if use && (String.length p <=? 1) then Ok (true, Some (e_abs E ("./workflow_" ++ e_token E)%string))
      else if 1 <? String.length p then Ok (true, Some (e_abs E p))
      else Ok (use, Some p)
  end.

Definition given {A} (o : option A) : bool := match o with Some _ => true | None => false end.

(** The validators of LibeSpecs in their order (pydantic_bindings.py:83-99). *)
Definition validate_libE (E : lenv) (v : lspecs) : res lspecs :=
  let c := default_comms E v in
  match c with
  | OtherComms => Err EAssert
  | _ =>
      bindr (check_dir E (l_sim_dir v)) (fun sd =>
      bindr (check_dir E (l_gen_dir v)) (fun gd =>
      match check_workers c (l_nworkers v) (l_workers v) with
      | Some e => Err e
      | None =>
          bindr (set_workflow_dir E (l_use_wf v) (l_wf_path v)) (fun w =>
          Ok (mkLS (Some c) (l_nworkers v) (l_workers v) (match c with Tcp => true | _ => l_disable_rm v end)
                   (l_save_sims v) (l_save_gens v) (l_save_end v || (0 <? l_save_sims v)%Z || (0 <? l_save_gens v)%Z)
                   (fst w) (snd w)
                   sd (given sd || l_sim_make v) gd (given gd || l_gen_make v)))
      end))
  end.
