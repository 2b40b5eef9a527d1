(** Model of utils/loc_stack.py: the stack of directories. *)
From Verif Require Import Base.
Local Open Scope nat_scope.

(** Directories are numbers. The state of the process: the current directory, the
    stack of a LocationStack (top first), the directories that do not exist, and
    the directories noted by the code run so far. *)
Definition dir := nat.
Record loc := mkLoc { l_cwd : dir; l_stack : list (option dir); l_gone : list dir; l_log : list dir }.
Definition ENoFile := EOther 30.   (* FileNotFoundError *)

(** os.chdir *)
Definition chdir (d : dir) (s : loc) : ex loc :=
  if memb d (l_gone s) then (s, Some ENoFile) else (mkLoc d (l_stack s) (l_gone s) (l_log s), None).

(** loc_stack.py:116-122 (push): Path.cwd() raises if the current directory has
    been removed. *)
Definition push (d : option dir) (s : loc) : ex loc :=
  match d with
  | Some d =>
      if memb (l_cwd s) (l_gone s) then (s, Some ENoFile)
      else chdir d (mkLoc (l_cwd s) (Some (l_cwd s) :: l_stack s) (l_gone s) (l_log s))
  | None => (mkLoc (l_cwd s) (None :: l_stack s) (l_gone s) (l_log s), None)
  end.
(** loc_stack.py:124-128 (pop) *)
Definition pop (s : loc) : ex loc :=
  match l_stack s with
  | [] => (s, Some EIndex)
  | d :: st => let s' := mkLoc (l_cwd s) st (l_gone s) (l_log s) in
               match d with Some d => chdir d s' | None => (s', None) end
  end.

(** Code that runs under a LocationStack: it can note where it is, change
    directory by itself, remove or make directories, raise, catch, and nest
    [with] blocks (loc_stack.py:130-150; [loc(key)] of an unknown key is
    [With None]). *)
Inductive code :=
| Note
| Chdir (d : dir)
| Remove (d : dir)
| Make (d : dir)
| Raise (e : err)
| Seq (a b : code)
| Try (a b : code)               (* try: a  except: b *)
| With (d : option dir) (a : code).

(** The [with] statement: an exception in __enter__ leaves it without __exit__;
    __exit__ runs after the body also when that raises, and its own exception
    takes precedence. *)
Fixpoint run (c : code) (s : loc) : ex loc :=
  match c with
  | Note => (mkLoc (l_cwd s) (l_stack s) (l_gone s) (l_log s ++ [l_cwd s]), None)
  | Chdir d => chdir d s
  | Remove d => (mkLoc (l_cwd s) (l_stack s) (d :: l_gone s) (l_log s), None)
  | Make d => (mkLoc (l_cwd s) (l_stack s) (filter (fun x => negb (x =? d)) (l_gone s)) (l_log s), None)
  | Raise e => (s, Some e)
  | Seq a b => bindx (run a s) (run b)
  | Try a b => match run a s with (s', None) => (s', None) | (s', Some _) => run b s' end
  | With d a =>
      match push d s with
      | (s1, Some e) => (s1, Some e)
      | (s1, None) =>
          let (s2, r) := run a s1 in
          match pop s2 with
          | (s3, Some e) => (s3, Some e)
          | (s3, None) => (s3, r)
          end
      end
  end.
