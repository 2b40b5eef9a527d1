(** What directory scopes mean: no stack, each block remembers where it began. *)
From Verif Require Import Base LocModel.
Local Open Scope nat_scope.

Record place := mkPlace { p_cwd : dir; p_gone : list dir; p_log : list dir }.

Definition go (d : dir) (s : place) : place * option err :=
  if memb d (p_gone s) then (s, Some ENoFile) else (mkPlace d (p_gone s) (p_log s), None).

(** A block with a directory runs there and then goes back to where it began,
    whatever happened; if it cannot enter, nothing changes. A block without a
    directory changes nothing. *)
Fixpoint scoped (c : code) (s : place) : place * option err :=
  match c with
  | Note => (mkPlace (p_cwd s) (p_gone s) (p_log s ++ [p_cwd s]), None)
  | Chdir d => go d s
  | Remove d => (mkPlace (p_cwd s) (d :: p_gone s) (p_log s), None)
  | Make d => (mkPlace (p_cwd s) (filter (fun x => negb (x =? d)) (p_gone s)) (p_log s), None)
  | Raise e => (s, Some e)
  | Seq a b => match scoped a s with (s', None) => scoped b s' | r => r end
  | Try a b => match scoped a s with (s', None) => (s', None) | (s', Some _) => scoped b s' end
  | With None a => scoped a s
  | With (Some d) a =>
      if memb (p_cwd s) (p_gone s) then (s, Some ENoFile)
      else match go d s with
           | (s', Some e) => (s', Some e)
           | (s1, None) =>
               let (s2, r) := scoped a s1 in
               match go (p_cwd s) s2 with (s3, None) => (s3, r) | (s3, Some e) => (s3, Some e) end
           end
  end.

Definition place_of (s : loc) : place := mkPlace (l_cwd s) (l_gone s) (l_log s).

(** Directories entered by blocks. *)
Fixpoint targets (c : code) : list dir :=
  match c with
  | Seq a b | Try a b => targets a ++ targets b
  | With (Some d) a => d :: targets a
  | With None a => targets a
  | _ => []
  end.
(** Directories removed. *)
Fixpoint removed (c : code) : list dir :=
  match c with
  | Remove d => [d]
  | Seq a b | Try a b => removed a ++ removed b
  | With _ a => removed a
  | _ => []
  end.
