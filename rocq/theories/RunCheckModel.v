(** Model of the parts of libensemble/tools/test_support.py that read options back from
    the run line of a task. A run line is its list of words (str.split is not modelled). *)
From Coq Require Import Ascii String.
From Verif Require Import Base TextModel EnvModel CommandModel.
Local Open Scope list_scope.
Local Open Scope char_scope.

(** test_support.py:4-14; [val] is what has been found so far. *)
Fixpoint get_value (opt : text) (ws : list text) (val : option text) : res (option text) :=
  match ws with
  | [] => Ok val
  | w :: ws' =>
      if teqb w opt then match ws' with [] => Err EIndex | v :: _ => get_value opt ws' (Some v) end
      else if prefixb opt w && endswith (T "=") opt
      then match split "=" w with _ :: v :: _ => get_value opt ws' (Some v) | _ => Err EIndex end
      else get_value opt ws' val
  end.

(** test_support.py:17-27 *)
Fixpoint get_opt_value (opt : text) (ws : list text) (val : option text) : res (option text) :=
  match ws with
  | [] => Ok val
  | w :: ws' =>
      if teqb w opt then match ws' with [] => Err EIndex | v :: _ => get_opt_value opt ws' (Some (w ++ T " " ++ v)) end
      else if prefixb opt w && endswith (T "=") opt then get_opt_value opt ws' (Some w)
      else get_opt_value opt ws' val
  end.

(** test_support.py:46-50 *)
Definition get_expected_output (name value : text) : text :=
  if endswith (T "=") name then name ++ value else name ++ T " " ++ value.

(** test_support.py:69-83: the runner and the option for the processes per node that are
    expected, and the options that are looked for. None: a KeyError. *)
Definition expected_runner (exp : text) : option (text * text) :=
  if teqb exp (T "mpich") then Some (T "mpirun", T "--ppn")
  else if teqb exp (T "openmpi") then Some (T "mpirun", T "-npernode")
  else if teqb exp (T "srun") then Some (T "srun", T "--ntasks-per-node")
  else if teqb exp (T "special_mpi") then Some (T "special_mpi", T "-npernode")
  else None.
Definition ppn_setting (runner : text) : option (list text) :=
  if teqb runner (T "mpiexec") || teqb runner (T "mpirun") then Some [T "--ppn"; T "-npernode"]
  else if teqb runner (T "srun") then Some [T "--ntasks-per-node"]
  else if teqb runner (T "jsrun") then Some [T "-r"]
  else if teqb runner (T "aprun") then Some [T "-N"]
  else if teqb runner (T "special_mpi") then Some [T "-npernode"]
  else None.

(** test_support.py:92-95: the first of the settings that is found, with its value; the
    setting is its first word, since none of them ends with an equals sign. *)
Fixpoint find_setting (settings : list text) (ws : list text) : res (option text) :=
  match settings with
  | [] => Ok None
  | o :: rest => bindr (get_opt_value o ws None) (fun v => match v with Some _ => Ok (Some o) | None => find_setting rest ws end)
  end.

(** test_support.py:65-100 (check_mpi_runner). None.split is an AttributeError. *)
Definition check_mpi_runner (exp : text) (ws : list text) : res unit :=
  match expected_runner exp with
  | None => Err EKey
  | Some (runner, ppn) =>
      match ws with
      | [] => Err EAssert
      | w :: _ =>
          if negb (teqb w runner) then Err EAssert
          else match ppn_setting w with
               | None => Err EKey
               | Some l => bindr (find_setting l ws) (fun v =>
                   match v with None => Err (EOther 3) | Some o => if teqb o ppn then Ok tt else Err EAssert end)
               end
      end
  end.
