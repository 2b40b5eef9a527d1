(** Model of how a task's command line and environment are put together:
    utils/launcher.py (form_command), the templates of executors/mpi_runner.py, the
    end of MPIExecutor.submit, and the parts of executors/executor.py it uses. The
    MPI specifications themselves are MpiModel's. *)
From Coq Require Import Ascii String.
From Verif Require Import Base TextModel EnvModel.
Local Notation length := List.length.
Local Open Scope nat_scope.

(** ** str.format and shlex.split *)

(** t.format applied to named values. Simplifications: attribute access, indices, conversions and
    format specifications in a field are part of its name (and not found); "{" within
    a field is a ValueError. [name]: inside a field, the name read so far. *)
Fixpoint format (look : text -> option text) (t : text) (name : option text) : res text :=
  match t, name with
  | [], None => Ok []
  | [], Some _ => Err EValue
  | c :: t', None =>
      if ceqb c "{" then
        match t' with
        | d :: t'' => if ceqb d "{" then bindr (format look t'' None) (fun r => Ok (c :: r)) else format look t' (Some [])
        | [] => Err EValue
        end
      else if ceqb c "}" then
        match t' with
        | d :: t'' => if ceqb d "}" then bindr (format look t'' None) (fun r => Ok (c :: r)) else Err EValue
        | [] => Err EValue
        end
      else bindr (format look t' None) (fun r => Ok (c :: r))
  | c :: t', Some n =>
      if ceqb c "}" then
        match n with
        | [] => Err EIndex
        | _ => match look n with
               | Some v => bindr (format look t' None) (fun r => Ok (v ++ r))
               | None => Err EKey
               end
        end
      else if ceqb c "{" then Err EValue
      else format look t' (Some (n ++ [c]))
  end.

(** shlex.split(t, posix=False): blanks are " \t\r\n"; a quotation mark at the start of
    a word runs to the next one like it, which ends the word; elsewhere it is like a
    letter. [q]: the quotation mark we are in. *)
Definition sh_space (c : ascii) : bool := let n := nat_of_ascii c in (n =? 32) || (n =? 9) || (n =? 10) || (n =? 13).
Definition is_quote (c : ascii) : bool := ceqb c """" || ceqb c "'".
Fixpoint sh_split (t cur : text) (q : option ascii) : res (list text) :=
  match t with
  | [] => match q with Some _ => Err EValue | None => Ok (flush cur) end
  | c :: t' =>
      match q with
      | Some d => if ceqb c d then bindr (sh_split t' [] None) (fun r => Ok ((cur ++ [c]) :: r)) else sh_split t' (cur ++ [c]) q
      | None =>
          if sh_space c then bindr (sh_split t' [] None) (fun r => Ok (flush cur ++ r))
          else match cur with
               | [] => if is_quote c then sh_split t' [c] (Some c) else sh_split t' [c] None
               | _ => sh_split t' (cur ++ [c]) None
               end
      end
  end.

(** launcher.py:18-23 (fill): a KeyError drops the part *)
Definition fill (look : text -> option text) (part : text) : res (list text) :=
  match format look part None with
  | Ok t => sh_split t [] None
  | Err EKey => Ok []
  | Err e => Err e
  end.
(** launcher.py:14-25 (form_command) *)
Definition form_command (template : list text) (look : text -> option text) : res (list text) :=
  bindr (mapr (fill look) template) (fun l => Ok (concat l)).

(** ** The MPI runners *)

(** what get_mpi_specs returns, mpi_runner.py:355-362; numbers are not negative *)
Record specs := mkSpecs {
  s_procs : option nat; s_nodes : option nat; s_ppn : option nat;
  s_extra : option text; s_machinefile : option text; s_hostlist : option text }.
Definition txt (o : option nat) : option text := match o with Some n => Some (dec n) | None => None end.
(** launcher.py:16: the values that are not None; "env" is never among them *)
Definition look (s : specs) (k : text) : option text :=
  if teqb k (T "num_procs") then txt (s_procs s)
  else if teqb k (T "num_nodes") then txt (s_nodes s)
  else if teqb k (T "procs_per_node") then txt (s_ppn s)
  else if teqb k (T "extra_args") then s_extra s
  else if teqb k (T "machinefile") then s_machinefile s
  else if teqb k (T "hostlist") then s_hostlist s
  else None.

Inductive kind := Mpich | OpenMpi | Aprun | MsMpi | Srun | Jsrun | Custom.
(** mpi_runner.py:35, 379-387, 403-411, 448-455, 471-477, 493-500, 516 *)
Definition mpi_command (k : kind) (run : text) : list text :=
  run :: match k with
  | Mpich => [T "--env {env}"; T "-machinefile {machinefile}"; T "-hosts {hostlist}"; T "-np {num_procs}"; T "--ppn {procs_per_node}"; T "{extra_args}"]
  | OpenMpi => [T "-x {env}"; T "-machinefile {machinefile}"; T "-host {hostlist}"; T "-np {num_procs}"; T "-npernode {procs_per_node}"; T "{extra_args}"]
  | Aprun => [T "-e {env}"; T "-L {hostlist}"; T "-n {num_procs}"; T "-N {procs_per_node}"; T "{extra_args}"]
  | MsMpi => [T "-env {env}"; T "-n {num_procs}"; T "-cores {procs_per_node}"; T "{extra_args}"]
  | Srun => [T "-w {hostlist}"; T "--ntasks {num_procs}"; T "--nodes {num_nodes}"; T "--ntasks-per-node {procs_per_node}"; T "{extra_args}"]
  | Jsrun => [T "-n {num_procs}"; T "-r {procs_per_node}"; T "{extra_args}"]
  | Custom => [T "{extra_args}"]
  end.

(** ** The application *)

(** executor.py:93-103 (Application): " ".join(filter(None, ...)); [python]:
    sys.executable; the path ends in .py *)
Definition endswith (suf t : text) : bool := prefixb (rev suf) (rev t).
Definition app_cmd (python full_path precedent : text) : text :=
  let precedent := match precedent with [] => if endswith (T ".py") full_path then python else [] | _ => precedent end in
  join " " (filter (fun t => match t with [] => false | _ => true end) [precedent; full_path]).

(** arg.replace(old, new); [skip]: characters of [old] still to pass over *)
Fixpoint replace (old new t : text) (skip : nat) : text :=
  match t with
  | [] => []
  | c :: t' => match skip with
               | S k => replace old new t' k
               | 0 => if prefixb old t then new ++ replace old new t' (length old - 1) else c :: replace old new t' 0
               end
  end.
(** executor.py:34 and 695-703 *)
Definition placeholder : text := T "%LIBENSEMBLE_SIM_DIR%".
Definition in_dir (sim_dir arg : text) : text := replace placeholder sim_dir arg 0.

(** mpi_executor.py:356-365: the run line *)
Definition runline (k : kind) (run : text) (s : specs) (cmd : text) (args : option text) (sim_dir : text) : res (list text) :=
  bindr (form_command (mpi_command k run) (look s)) (fun l =>
    Ok (map (in_dir sim_dir) (l ++ words cmd [] ++ match args with Some a => words a [] | None => [] end))).
(** executor.py:822-836 (_process_env_script): what is in the file that is run *)
Definition env_script_file (script : text) (line : list text) : text := script ++ join " " line.

(** ** The environment *)

(** An environment: each variable's value, if it is set. *)
Definition environ := text -> option text.
Definition set_var (e : environ) (kv : text * text) : environ := fun k => if teqb k (fst kv) then Some (snd kv) else e k.
(** executor.py:219-224 (_implement_env); [task]: task.env, in order *)
Definition implement_env (e : environ) (task : list (text * text)) : environ := fold_left set_var task e.

(** mpi_executor.py:377-382, executor.py:789-801: a submit sets the variables in the
    environment of its own process, then starts the program, which inherits it.
    Worker threads share one environment, so the steps of several submits mix. *)
Inductive estep := SetEnv (w : nat) (task : list (text * text)) | Start (w : nat).
(** [shared]: worker threads (one environment); otherwise each worker has its own.
    [e]: the environments of the workers. The result lists, for each start, the
    worker and the environment the program gets. *)
Definition env_of (shared : bool) (w : nat) : nat := if shared then 0 else w.
Fixpoint runs (shared : bool) (steps : list estep) (e : nat -> environ) : list (nat * environ) :=
  match steps with
  | [] => []
  | SetEnv w task :: l => let i := env_of shared w in
      runs shared l (fun j => if j =? i then implement_env (e i) task else e j)
  | Start w :: l => (w, e (env_of shared w)) :: runs shared l e
  end.
