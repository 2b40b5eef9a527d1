(** Model of libensemble/tools/tools.py: the files that save_libE_output writes
    and check_npy_file_exists looks for.

    Not modelled: the log message, file permissions and full disks, and the
    content of the files beyond what was passed in. *)
From Coq Require Import Ascii String.
From Verif Require Import Base TextModel.
Local Notation length := List.length.
Local Open Scope nat_scope.

Definition slash : ascii := "/"%char.
Definition dot : ascii := "."%char.

(** os.path.basename (POSIX): the part after the last slash *)
Definition base_name (p : text) : text := last (split slash p) [].

(** os.path.splitext(p)[0] for a name without slashes: what precedes the last
    dot, unless only dots precede it. [cut_dot] gives the part before the last dot. *)
Fixpoint cut_dot (t : text) : option text :=
  match t with
  | [] => None
  | c :: t' => match cut_dot t' with
               | Some a => Some (c :: a)
               | None => if ceqb c dot then Some [] else None
               end
  end.
Definition split_ext (t : text) : text :=
  match cut_dot t with
  | Some a => if forallb (ceqb dot) a then t else a
  | None => t
  end.

(** s.split(p, 1).pop(): what follows the first [p], or all of s *)
Fixpoint after_first (p t : text) : option text :=
  if prefixb p t then Some (skipn (length p) t)
  else match t with [] => None | _ :: t' => after_first p t' end.

(** _get_shortname, tools.py:79-82 *)
Definition short_name (basename : text) : text :=
  let s := split_ext (base_name basename) in
  match after_first (T "test_") s with Some r => r | None => s end.

(** os.path.join(a, b) for b without a leading slash *)
Definition path_join (a b : text) : text :=
  match a with
  | [] => b
  | _ => if ceqb (last a dot) slash then a ++ b else a ++ slash :: b
  end.

(** s.endswith(p) *)
Definition suffixb (p t : text) : bool := prefixb (rev p) (rev t).

(** np.save adds the extension if the name does not have it. *)
Definition npy_name (t : text) : text := if suffixb (T ".npy") t then t else t ++ T ".npy".

(** tools.py:150: [n] = len(H), [e] = sum(H["sim_ended"]), [w] = nworkers *)
Definition prob_str (n e w : nat) : text :=
  T "length=" ++ dec n ++ T "_evals=" ++ dec e ++ T "_workers=" ++ dec w.

(** What is in a file: a history array or a persis_info dictionary, named by numbers. *)
Inductive content := CHist (H : nat) | CPersis (p : nat).
Definition files := text -> option content.
Definition put (p : text) (c : content) (fs : files) : files := fun q => if teqb p q then Some c else fs q.

(** A call: the array and its length and number of ended simulations, the
    persis_info, basename, nworkers, dest_path (the current directory if not
    given) and append_attrs. *)
Record save_args := mkSave {
  a_H : nat; a_len : nat; a_evals : nat; a_persis : nat;
  a_base : text; a_workers : nat; a_dest : text; a_attrs : bool }.

(** tools.py:143-155 *)
Definition h_filename (a : save_args) : text :=
  path_join (a_dest a) (short_name (a_base a) ++
    (if a_attrs a then T "_history_" ++ prob_str (a_len a) (a_evals a) (a_workers a) else [])).
Definition p_filename (a : save_args) : text :=
  path_join (a_dest a) (short_name (a_base a) ++
    (if a_attrs a then T "_persis_info_" ++ prob_str (a_len a) (a_evals a) (a_workers a) else [])).

(** save_libE_output, tools.py:88-164: the files afterwards and the returned name *)
Definition save_libE_output (a : save_args) (fs : files) : files * text :=
  let fs1 := put (npy_name (h_filename a)) (CHist (a_H a)) fs in
  (put (p_filename a ++ T ".pickle") (CPersis (a_persis a)) fs1, h_filename a ++ T ".npy").

(** check_npy_file_exists, tools.py:223-260. [looks] are the names of the files
    in the current directory (or, for an exact name, the existing paths) each
    time the function looks; it looks once per 0.1 s, and not at all if max_wait is 0. *)
Definition check_npy_file_exists (filename : text) (basename : bool) (looks : list (list text)) : bool :=
  existsb (fun names =>
    existsb (fun f => if basename then prefixb (short_name filename) f && suffixb (T ".npy") f else teqb f filename) names) looks.
