(** Vocabulary for files in output directories. *)
From Coq Require Import String.
From Verif Require Import Base TextModel LabelModel FileModel.
Local Notation length := List.length.
Local Open Scope list_scope.

(** What is found at a path: a file with its content, a link, a directory, or nothing. *)
Inductive entry := IsFile (c : nat) | IsLink (t : path) | IsDir.
Definition entry_at (m : node) (p : path) : option entry :=
  match look p m with
  | Some (File c) => Some (IsFile c)
  | Some (Link t) => Some (IsLink t)
  | Some (Dir _) => Some IsDir
  | None => None
  end.
(** [p] is [d] or lies below it. *)
Definition under (d p : path) : Prop := exists q, p = d ++ q.
(** Below [b] in [m'] there is exactly what is below [a] in [m]. *)
Definition same_tree (m : node) (a : path) (m' : node) (b : path) : Prop := forall q, entry_at m' (b ++ q) = entry_at m (a ++ q).
(** The two file systems agree except where [P] holds. *)
Definition differ_only (P : path -> Prop) (m m' : node) : Prop := forall p, ~ P p -> entry_at m' p = entry_at m p.
(** No directory lists a name twice. *)
Definition proper (m : node) : Prop := forall p l, look p m = Some (Dir l) -> NoDup (map fst l).
Definition no_links (m : node) (d : path) : Prop := forall q t, entry_at m (d ++ q) <> Some (IsLink t).
(** A directory can be made at [d]: what is on the way to it is directories. *)
Definition room_for (m : node) (d : path) : Prop := forall a, under a d -> entry_at m a = None \/ entry_at m a = Some IsDir.
(** The order in which a set is walked. *)
Definition walk (ord : list path -> list path) : Prop := forall l, NoDup (ord l) /\ forall x, In x (ord l) <-> In x l.

(** The files the user asked to have copied into, or linked from, the directory of
    a simulation or of a generator call. *)
Definition asked_copy (c : dspecs) (is_sim : bool) (m : node) (f : path) : Prop :=
  In f (if is_sim then f_sim_copy c else f_gen_copy c) \/
  exists D a, (if is_sim then f_sim_input c else f_gen_input c) = Some D /\ f = D ++ [a] /\ entry_at m f <> None.
Definition asked_link (c : dspecs) (is_sim : bool) (m : node) (f : path) : Prop :=
  In f (if is_sim then f_sim_link c else f_gen_link c) /\ ~ asked_copy c is_sim m f.

(** The input directory is not a link; it is there; no list names a file twice. *)
Definition plain_input (c : dspecs) (is_sim : bool) (m : node) : Prop :=
  forall D, (if is_sim then f_sim_input c else f_gen_input c) = Some D -> forall t, entry_at m D <> Some (IsLink t).
Definition input_there (c : dspecs) (is_sim : bool) (m : node) : Prop :=
  forall D, (if is_sim then f_sim_input c else f_gen_input c) = Some D -> entry_at m D = Some IsDir.
Definition lists_once (c : dspecs) (is_sim : bool) : Prop :=
  NoDup (if is_sim then f_sim_copy c else f_gen_copy c) /\ NoDup (if is_sim then f_sim_link c else f_gen_link c).

(** Where a user function runs. *)
Definition own_dir (c : dspecs) (w : nat) (is_sim : bool) (rows : list nat) (iter : nat) : path :=
  f_ens c ++ calc_dir (f_names c) w is_sim rows iter.

(** ** Copying back *)
(** Neither lies inside the other. *)
Definition apart (a b : path) : Prop := ~ under a b /\ ~ under b a.
(** In the copyback directory the name is free, or there is a directory that may be replaced. *)
Definition free_name (c : dspecs) (m : node) (a : text) : Prop :=
  entry_at m (f_back c ++ [a]) = None \/ (f_overwrite c = true /\ entry_at m (f_back c ++ [a]) = Some IsDir).
(** What is in the copyback directory has no links in it, or is of the same kind as
    what has its name in the ensemble directory. *)
Definition back_clean (c : dspecs) (m : node) : Prop :=
  forall a, no_links m (f_back c ++ [a]) \/ entry_at m (f_back c ++ [a]) = entry_at m (f_ens c ++ [a]).
(** Names that begin with sim or gen and a digit. *)
Definition calc_like (a : text) : Prop := exists x r, is_digit x = true /\ (a = T "sim" ++ x :: r \/ a = T "gen" ++ x :: r).

(** What one worker does: calls of user functions, of which the directories are
    noted; in between, anything may happen to the file system. *)
Inductive worker_run (c : dspecs) (w : nat) : store -> list path -> Prop :=
| run_start : forall m, worker_run c w (mkStore m [] false) []
| run_calc : forall s l ord is_sim rows iter s' k, worker_run c w s l ->
    make_calc_dir c ord w is_sim rows iter s = ((s', None), k) ->
    worker_run c w s' (own_dir c w is_sim rows iter :: l)
| run_failed : forall s l ord is_sim rows iter s' e k, worker_run c w s l ->
    make_calc_dir c ord w is_sim rows iter s = ((s', Some e), k) -> worker_run c w s' l
| run_other : forall s l m, worker_run c w s l -> worker_run c w (set_fs s m) l.
