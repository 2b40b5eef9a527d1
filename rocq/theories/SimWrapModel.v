(** Model of sim_funcs/gest_api_wrapper.py: simulation functions of the gest-api,
    which take and return dictionaries, behind sim_f. Arrays, rows and assignment
    are those of [MapModel].

    Not modelled: the user's keyword arguments (they are the same in every call),
    persis_info (passed through), and whether the VOCS is an object or a dict. *)
From Verif Require Import Base MapModel.
Local Open Scope nat_scope.

(** The names in a VOCS *)
Record vocs := mkV { v_variables : list name; v_constants : list name; v_objectives : list name; v_observables : list name; v_constraints : list name }.
(** gest_api_wrapper.py:58-70 *)
Definition input_fields (v : vocs) : list name := v_variables v ++ v_constants v.
Definition output_fields (v : vocs) : list name := v_objectives v ++ v_observables v ++ v_constraints v.

(** The user's function: whether it has a parameter libE_info (none, one with a
    default, one that must be given), and what it returns or raises, which may
    depend on its earlier runs. A run is noted with whether libE_info was given. *)
Inductive takes := TakesNot | TakesMaybe | TakesMust.
Definition runs := list (bool * dict).
Record simulator := mkSim { s_takes : takes; s_body : runs -> bool -> dict -> res dict }.
(** A Python call: a keyword that is not known, or an argument that is missing, is
    a TypeError, and the function does not run. *)
Definition invoke (f : simulator) (lib : bool) (d : dict) (l : runs) : runs * res dict :=
  match s_takes f, lib with
  | TakesNot, true => (l, Err EType)
  | TakesMust, false => (l, Err EType)
  | _, _ => (l ++ [(lib, d)], s_body f l lib d)
  end.
(** gest_api_wrapper.py:79-84 *)
Definition call (f : simulator) (d : dict) (l : runs) : runs * res dict :=
  match invoke f true d l with
  | (l1, Err EType) => invoke f false d l1
  | r => r
  end.

(** gest_api_wrapper.py:74-77: H[field][i]; a field that is not there is a ValueError *)
Fixpoint input_of (ns : list name) (row d : dict) : res dict :=
  match ns with
  | [] => Ok d
  | n :: ns' => match get n row with Some v => input_of ns' row (put n v d) | None => Err EValue end
  end.
(** gest_api_wrapper.py:87-89 *)
Fixpoint outputs (dt : list field) (ns : list name) (o row : dict) : res dict :=
  match ns with
  | [] => Ok row
  | n :: ns' =>
      match get n o with
      | None => outputs dt ns' o row
      | Some v => match field_of n dt with
                  | None => Err EValue
                  | Some f => bindr (assign f v) (fun w => outputs dt ns' o (put n w row))
                  end
      end
  end.
(** gest_api_wrapper.py:72-89: the points one after the other *)
Fixpoint points (f : simulator) (v : vocs) (dt : list field) (rows : list dict) (l : runs) : runs * res (list dict) :=
  match rows with
  | [] => (l, Ok [])
  | row :: rows' =>
      match input_of (input_fields v) row [] with
      | Err e => (l, Err e)
      | Ok d =>
          match call f d l with
          | (l1, Err e) => (l1, Err e)
          | (l1, Ok o) =>
              match outputs dt (output_fields v) o (zero_row dt) with
              | Err e => (l1, Err e)
              | Ok r => let (l2, out) := points f v dt rows' l1 in (l2, bindr out (fun rs => Ok (r :: rs)))
              end
          end
      end
  end.
(** gest_api_wrapper.py:15-91 *)
Definition gest_api_sim (f : simulator) (v : vocs) (dt : list field) (rows : list dict) : runs * res (list dict) :=
  match check_dt dt with Err e => ([], Err e) | Ok _ => points f v dt rows [] end.
