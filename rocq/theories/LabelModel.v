(** Model of row labels and output directories: utils/misc.py:13-27 and
    utils/output_directory.py. *)
From Coq Require Import Ascii String.
From Verif Require Import Base TextModel.
Local Notation length := List.length.
Local Open Scope nat_scope.

(** itertools.groupby: maximal runs of neighbours with equal keys *)
Fixpoint groupby {A} (key : A -> Z) (l : list A) : list (list A) :=
  match l with
  | [] => []
  | x :: l' => match groupby key l' with
               | (y :: g) :: gs => if Z.eqb (key x) (key y) then (x :: y :: g) :: gs else [x] :: (y :: g) :: gs
               | gs => [x] :: gs
               end
  end.
Definition enumerate {A} (l : list A) : list (nat * A) := combine (seq 0 (length l)) l.

(** misc.py:21-26 *)
Definition range_text (g : list nat) : text :=
  if 1 <? length g then dec (hd 0 g) ++ T "-" ++ dec (last g 0) else dec (hd 0 g).

(** misc.py:13-27 (extract_H_ranges) for row numbers >= 0 *)
Definition extract_H_ranges (rows : list nat) : text :=
  match rows with
  | [r] => dec r
  | _ => join "_" (map (fun g => range_text (map snd g)) (groupby (fun x => (Z.of_nat (fst x) - Z.of_nat (snd x))%Z) (enumerate rows)))
  end.

(** output_directory.py:50-73, the settings that decide about names *)
Record dir_specs := mkDirs {
  d_worker_dirs : bool;        (* use_worker_dirs *)
  d_sim_make : bool;           (* sim_dirs_make *)
  d_gen_make : bool;           (* gen_dirs_make *)
  d_pad : nat                  (* calc_dir_id_width *)
}.

(** A directory below the ensemble directory: the names on the path. *)
Definition path := list text.
Definition worker_name (w : nat) : text := T "worker" ++ dec w.

(** output_directory.py:94-185 (prep_calc_dir, _make_calc_dir): the directory in
    which the user function runs. Simplification: the files copied or linked into
    it are not modelled; Path(...).stem is the name itself, since names here have
    no dot. [iter]: calc_iter[calc_type]. *)
Definition calc_dir (d : dir_specs) (worker : nat) (is_sim : bool) (rows : list nat) (iter : nat) : path :=
  let label := if is_sim then extract_H_ranges rows else dec iter in
  let make := (if is_sim then d_sim_make d else d_gen_make d) in
  let make := if d_worker_dirs d && negb (d_sim_make d) && negb (d_gen_make d) then false else make in
  let above := if d_worker_dirs d then [worker_name worker] else [] in
  if make then above ++ [(if is_sim then T "sim" else T "gen") ++ rjust (d_pad d) (digit 0) label] else above.
