(** Model of the files libEnsemble puts into output directories and copies back:
    utils/loc_stack.py:19-106 and utils/output_directory.py.

    The file system is a tree. Simplifications: a link is followed when it is the
    last name of a path, not on the way; permissions, times and special files are
    left out; each copying step is one action. *)
From Coq Require Import Ascii String.
From Verif Require Import Base TextModel LabelModel.
Local Notation length := List.length.
Local Open Scope list_scope.
Local Open Scope nat_scope.

(** ** The file system *)
Inductive node := File (c : nat) | Link (p : path) | Dir (l : list (text * node)).

Fixpoint assoc (a : text) (l : list (text * node)) : option node :=
  match l with [] => None | (b, n) :: l' => if teqb a b then Some n else assoc a l' end.
Fixpoint put1 (a : text) (v : node) (l : list (text * node)) : list (text * node) :=
  match l with [] => [(a, v)] | (b, n) :: l' => if teqb a b then (b, v) :: l' else (b, n) :: put1 a v l' end.
Definition del1 (a : text) (l : list (text * node)) : list (text * node) := filter (fun p => negb (teqb a (fst p))) l.

Fixpoint look (p : path) (n : node) : option node :=
  match p with
  | [] => Some n
  | a :: q => match n with Dir l => match assoc a l with Some k => look q k | None => None end | _ => None end
  end.
(** [v] at [p]; missing directories on the way are made *)
Fixpoint put (p : path) (v n : node) : node :=
  match p with
  | [] => v
  | a :: q => match n with
              | Dir l => Dir (put1 a (put q v (match assoc a l with Some k => k | None => Dir [] end)) l)
              | _ => n
              end
  end.
Fixpoint del (p : path) (n : node) : node :=
  match p with
  | [] => n
  | a :: q => match n with
              | Dir l => match q with
                         | [] => Dir (del1 a l)
                         | _ => match assoc a l with Some k => Dir (put1 a (del q k) l) | None => n end
                         end
              | _ => n
              end
  end.
Fixpoint size (n : node) : nat :=
  match n with
  | Dir l => S ((fix go l := match l with [] => 0 | (_, k) :: l' => size k + go l' end) l)
  | _ => 1
  end.

Definition peqb (p q : path) : bool := (length p =? length q) && forallb (fun x => teqb (fst x) (snd x)) (combine p q).
Definition base (p : path) : text := last p [].

Definition ENoEntry := EOther 30.   (* FileNotFoundError *)
Definition EFileExists := EOther 31.
Definition EIsDir := EOther 32.     (* IsADirectoryError, NotADirectoryError *)
Definition ESameFile := EOther 33.  (* shutil.SameFileError *)
Definition EShutil := EOther 34.    (* shutil.Error, raised by copytree at its end *)
Definition EOSError := EOther 35.   (* other OSError: too many links, rmtree of a link *)

(** Where the links at [p] lead; None: too many links *)
Fixpoint resolve (fuel : nat) (m : node) (p : path) : option path :=
  match look p m with
  | Some (Link t) => match fuel with O => None | S f => resolve f m t end
  | _ => Some p
  end.
Definition target (m : node) (p : path) : option path := resolve (size m) m p.
(** Path.exists, Path.is_dir: both follow links *)
Definition stat (m : node) (p : path) : option node := match target m p with Some q => look q m | None => None end.
Definition exists_ (m : node) (p : path) : bool := match stat m p with Some _ => true | None => false end.
Definition is_dir (m : node) (p : path) : bool := match stat m p with Some (Dir _) => true | _ => false end.
Definition parent_ok (m : node) (p : path) : bool := match look (removelast p) m with Some (Dir _) => true | _ => false end.

(** Path.mkdir(parents=True, exist_ok=True) *)
Fixpoint ensure (p : path) (n : node) : res node :=
  match n with
  | Dir l =>
      match p with
      | [] => Ok n
      | a :: q => bindr (ensure q (match assoc a l with Some k => k | None => Dir [] end)) (fun k => Ok (Dir (put1 a k l)))
      end
  | _ => Err EFileExists
  end.

(** shutil.copy(src, dst), following links; into a directory the file goes under
    its own name *)
Definition copy (src dst : path) (m : node) : ex node :=
  match target m src with
  | None => (m, Some EOSError)
  | Some s =>
      match look s m with
      | None => (m, Some ENoEntry)
      | Some (File c) =>
          match target m dst with
          | None => (m, Some EOSError)
          | Some d0 =>
              match (if is_dir m d0 then target m (d0 ++ [base src]) else Some d0) with
              | None => (m, Some EOSError)
              | Some d =>
                  if peqb s d then (m, Some ESameFile)
                  else if is_dir m d then (m, Some EIsDir)
                  else if parent_ok m d then (put d (File c) m, None) else (m, Some ENoEntry)
              end
          end
      | Some _ => (m, Some EIsDir)
      end
  end.

(** What copytree(symlinks=False) makes of a tree: links are replaced by what they
    lead to. The flag is false if that failed somewhere; the rest is copied and
    shutil.Error is raised at the end. *)
Fixpoint deref (fuel : nat) (m n : node) : option node * bool :=
  match fuel with
  | O => (None, false)
  | S f =>
      match n with
      | File c => (Some (File c), true)
      | Link p => match stat m p with Some k => deref f m k | None => (None, false) end
      | Dir l =>
          let r := map (fun x => (fst x, deref f m (snd x))) l in
          (Some (Dir (flat_map (fun x => match fst (snd x) with Some k => [(fst x, k)] | None => [] end) r)),
           forallb (fun x => snd (snd x)) r)
      end
  end.

(** copytree(src, dst), links followed: os.makedirs raises FileExistsError if
    anything is at dst. copy_file sets dirs_exist_ok only after it has removed
    what was there, so the case of an existing directory does not come up. *)
Definition copytree (src dst : path) (m : node) : ex node :=
  match stat m src with
  | None => (m, Some ENoEntry)
  | Some n =>
      match look dst m with
      | Some _ => (m, Some EFileExists)
      | None =>
          if parent_ok m dst then
            match deref (S (size m)) m n with
            | (Some k, ok) => (put dst k m, if ok then None else Some EShutil)
            | (None, _) => (m, Some EShutil)
            end
          else (m, Some ENoEntry)
      end
  end.

(** loc_stack.py:19-46 copy_file, one file *)
Definition copy_one (destdir : path) (ignore overwrite : bool) (f : path) (m : node) : ex node :=
  let dest := destdir ++ [base f] in
  let removed : ex node :=
    if overwrite && exists_ m dest then
      if is_dir m dest then
        match look dest m with Some (Dir _) => (del dest m, None) | _ => (m, Some EOSError) end
      else (del dest m, None)
    else (m, None) in
  bindx removed (fun m1 =>
    match (if is_dir m1 f then copytree f dest m1 else copy f dest m1) with
    | (m2, Some e) => match e with
                      | EOther 31 => if ignore then (m2, None) else (m2, Some e)
                      | _ => (m2, Some e)
                      end
    | r => r
    end).
(** loc_stack.py:48-65 symlink_file, one file. unlink of a directory raises. *)
Definition link_one (destdir : path) (ignore overwrite : bool) (f : path) (m : node) : ex node :=
  let dest := destdir ++ [base f] in
  let removed : ex node :=
    if overwrite && exists_ m dest then
      match look dest m with Some (Dir _) => (m, Some EIsDir) | _ => (del dest m, None) end
    else (m, None) in
  bindx removed (fun m1 =>
    match look dest m1 with
    | Some _ => if ignore then (m1, None) else (m1, Some EFileExists)
    | None => if parent_ok m1 dest then (put dest (Link f) m1, None) else (m1, Some ENoEntry)
    end).

(** ** The location stack's dictionary *)
Inductive key := KWorker (w : nat) | KName (t : text) | KPath (p : path).
Definition keqb (a b : key) : bool :=
  match a, b with
  | KWorker v, KWorker w => v =? w
  | KName s, KName t => teqb s t
  | KPath p, KPath q => peqb p q
  | _, _ => false
  end.
Fixpoint dset (d : list (key * path)) (k : key) (p : path) : list (key * path) :=
  match d with [] => [(k, p)] | (k', p') :: d' => if keqb k k' then (k', p) :: d' else (k', p') :: dset d' k p end.
(** [s_used]: the worker's LocationStack has been made *)
Record store := mkStore { s_fs : node; s_dirs : list (key * path); s_used : bool }.
Definition set_fs (s : store) (m : node) : store := mkStore m (s_dirs s) (s_used s).
Definition on_fs (f : node -> ex node) (s : store) : ex store := let (m, e) := f (s_fs s) in (set_fs s m, e).

(** loc_stack.py:67-106 register_loc; [dir]: the directory with its prefix. (Only
    names without a dot are used with a prefix, so .stem is the name itself.) *)
Definition register_loc (k : key) (dir : path) (copies links : list path) (ignore overwrite : bool) (s : store) : ex store :=
  match (if is_dir (s_fs s) dir then Ok (s_fs s) else ensure dir (s_fs s)) with
  | Err e => (s, Some e)
  | Ok m =>
      bindx (on_fs (foldx (copy_one dir ignore overwrite) copies) (mkStore m (dset (s_dirs s) k dir) (s_used s)))
            (on_fs (foldx (link_one dir ignore overwrite) links))
  end.

(** ** EnsembleDirectory *)
(** output_directory.py:42-70; paths are absolute (specs validators). [f_ens]:
    ensemble_dir; [f_back]: copybackdir. *)
Record dspecs := mkDS {
  f_ens : path; f_back : path; f_copy_back : bool; f_overwrite : bool; f_names : dir_specs;
  f_sim_copy : list path; f_sim_link : list path; f_sim_input : option path;
  f_gen_copy : list path; f_gen_link : list path; f_gen_input : option path }.

(** output_directory.py:72-86 make_copyback *)
Definition make_copyback (c : dspecs) (m : node) : ex node :=
  if exists_ m (f_ens c) && negb (f_overwrite c) then (m, Some EAssert)
  else if f_copy_back c then
    match look (f_back c) m with
    | Some n => if f_overwrite c && is_dir m (f_back c) then (m, None) else (m, Some EFileExists)
    | None => if parent_ok m (f_back c) then (put (f_back c) (Dir []) m, None) else (m, Some ENoEntry)
    end
  else (m, None).

(** output_directory.py:111-117: the files to copy and to link. [ord]: the order in
    which Python's set is walked. *)
Definition calc_inputs (c : dspecs) (is_sim : bool) (ord : list path -> list path) (m : node) : res (list path * list path) :=
  let cf := if is_sim then f_sim_copy c else f_gen_copy c in
  let sf := if is_sim then f_sim_link c else f_gen_link c in
  let cr := match (if is_sim then f_sim_input c else f_gen_input c) with
            | None => Ok cf
            | Some d => match stat m d with
                        | Some (Dir l) => Ok (ord (cf ++ map (fun x => d ++ [fst x]) l))
                        | Some _ => Err EIsDir
                        | None => Err ENoEntry
                        end
            end in
  bindr cr (fun cs => Ok (cs, filter (fun p => negb (existsb (peqb p) cs)) sf)).

(** output_directory.py:94-169 _make_calc_dir, with the LocationStack and the label
    of prep_calc_dir (173-181); the answer is the key of the directory *)
Definition make_calc_dir (c : dspecs) (ord : list path -> list path) (w : nat) (is_sim : bool) (rows : list nat) (iter : nat) (s0 : store) : ex store * option key :=
  let s := mkStore (s_fs s0) (s_dirs s0) true in
  let label := if is_sim then extract_H_ranges rows else dec iter in
  let n := f_names c in
  let make := (if is_sim then d_sim_make n else d_gen_make n) in
  let make := if d_worker_dirs n && negb (d_sim_make n) && negb (d_gen_make n) then false else make in
  match calc_inputs c is_sim ord (s_fs s) with
  | Err e => ((s, Some e), None)
  | Ok (cs, ls) =>
      if negb make then
        let k := if d_worker_dirs n then KWorker w else KPath (f_ens c) in
        let dir := if d_worker_dirs n then f_ens c ++ [worker_name w] else f_ens c in
        (register_loc k dir cs ls true (f_overwrite c) s, Some k)
      else
        let above : ex store :=
          if d_worker_dirs n then register_loc (KWorker w) (f_ens c ++ [worker_name w]) [] [] false (f_overwrite c) s
          else if exists_ (s_fs s) (f_ens c) then (s, None)
          else match ensure (f_ens c) (s_fs s) with Ok m => (set_fs s m, None) | Err e => (s, Some e) end in
        let prefix := if d_worker_dirs n then f_ens c ++ [worker_name w] else f_ens c in
        let name := (if is_sim then T "sim" else T "gen") ++ rjust (d_pad n) (digit 0) label in
        (bindx above (register_loc (KName name) (prefix ++ [name]) cs ls false (f_overwrite c)), Some (KName name))
  end.

(** ** Copying back *)
(** copytree(s, d, symlinks=True, dirs_exist_ok=True) of a tree [s] named [name]
    onto what is at the destination: files are overwritten, a link cannot replace
    anything. The flag is false if something failed (shutil.Error at the end).
    Simplification: a file copied onto a link counts as a failure; Python writes
    through the link. *)
Fixpoint graft (name : text) (s : node) (d : option node) : option node * bool :=
  match s with
  | File c =>
      match d with
      | None | Some (File _) => (Some (File c), true)
      | Some (Dir k) => match assoc name k with
                        | None | Some (File _) => (Some (Dir (put1 name (File c) k)), true)
                        | _ => (d, false)
                        end
      | Some (Link _) => (d, false)
      end
  | Link p => match d with None => (Some (Link p), true) | Some _ => (d, false) end
  | Dir l =>
      match (match d with None => Some [] | Some (Dir k) => Some k | _ => None end) with
      | None => (d, false)
      | Some k =>
          let r := (fix go (l k : list (text * node)) : list (text * node) * bool :=
                      match l with
                      | [] => (k, true)
                      | (a, n) :: l' =>
                          let r1 := graft a n (assoc a k) in
                          let r2 := go l' (match fst r1 with Some v => put1 a v k | None => k end) in
                          (fst r2, snd r1 && snd r2)
                      end) l k in
          (Some (Dir (fst r)), snd r)
      end
  end.
(** shutil.rmtree(p, ignore_errors=True): a file or a link stays *)
Definition rmtree (p : path) (m : node) : node := match look p m with Some (Dir _) => del p m | _ => m end.

(** output_directory.py:192-202: one registered directory *)
Definition copy_dir (c : dspecs) (dire : path) (m : node) : ex node :=
  let dest := f_back c ++ [base dire] in
  let m1 := if f_overwrite c then rmtree dest m else m in
  match stat m1 dire with
  | Some (Dir l) =>
      match look dest m1 with
      | Some (File _) | Some (Link _) => (m1, Some EFileExists)
      | d => if parent_ok m1 dest then
               match graft (base dire) (Dir l) d with
               | (Some n, ok) => (put dest n m1, if ok then None else Some EShutil)
               | (None, _) => (m1, Some EShutil)
               end
             else (m1, Some ENoEntry)
      end
  | Some _ => (m1, Some EIsDir)
  | None => (m1, Some ENoEntry)
  end.
Definition starts_with (p t : text) : bool := teqb p (firstn (length p) t).
Definition is_worker_name (t : text) : bool := starts_with (T "worker") t.
(** output_directory.py:206: the pattern ((^sim)|(^gen))\d *)
Definition is_calc_name (t : text) : bool :=
  (starts_with (T "sim") t || starts_with (T "gen") t) && match skipn 3 t with d :: _ => is_digit d | [] => false end.

(** output_directory.py:207-218: one other entry of the ensemble directory *)
Definition copy_misc (c : dspecs) (f : text) (m : node) : ex node :=
  let src := f_ens c ++ [f] in let dest := f_back c ++ [f] in
  let m1 := if f_overwrite c then rmtree dest m else m in
  if is_dir m1 src then
    match look dest m1 with
    | Some _ => (m1, None)
    | None =>
        if parent_ok m1 dest then
          match stat m1 src with
          | Some n => match graft f n None with
                      | (Some k, ok) => (put dest k m1, if ok then None else Some EShutil)
                      | (None, _) => (m1, Some EShutil)
                      end
          | None => (m1, Some ENoEntry)
          end
        else (m1, Some ENoEntry)
    end
  else
    match look src m1 with
    | Some (Link t) =>
        let d := if is_dir m1 dest then match target m1 dest with Some q => q ++ [f] | None => dest end else dest in
        match look d m1 with
        | Some _ => (m1, None)
        | None => if parent_ok m1 d then (put d (Link t) m1, None) else (m1, Some ENoEntry)
        end
    | _ => match copy src dest m1 with
           | (m2, Some (EOther 33)) => (m2, None)
           | r => r
           end
    end.

(** output_directory.py:187-218 copy_back. [ls]: the order of os.listdir. *)
Fixpoint copy_dirs (c : dspecs) (ds : list (key * path)) (m : node) : ex node * bool :=
  match ds with
  | [] => ((m, None), false)
  | (_, dire) :: ds' =>
      if peqb dire (f_ens c) then copy_dirs c ds' m
      else match copy_dir c dire m with
           | (m1, Some e) => ((m1, Some e), true)
           | (m1, None) => if is_worker_name (base dire) then ((m1, None), true) else copy_dirs c ds' m1
           end
  end.
Definition listing (m : node) (p : path) : list text := match stat m p with Some (Dir l) => map fst l | _ => [] end.
Definition copy_back (c : dspecs) (s : store) : ex node :=
  let m := s_fs s in
  if negb (exists_ m (f_ens c)) || negb (f_copy_back c) || negb (s_used s) then (m, None)
  else
    let (r, stop) := copy_dirs c (s_dirs s) m in
    if stop then r
    else if d_sim_make (f_names c) && d_gen_make (f_names c) then r
    else bindx r (fun m1 => foldx (copy_misc c) (filter (fun f => negb (is_calc_name f)) (listing m1 (f_ens c))) m1).
