(** Model of the periodic history files: manager.py:326-361. *)
From Verif Require Import Base HistoryModel.
Local Open Scope nat_scope.

(** Files in the workflow directory: those named ..._after_sim_<n>.npy,
    ..._after_gen_<n>.npy (with this run's prefix and date) and others. *)
Inductive kind := KSims | KGens | KOther (n : nat).
Inductive data := Whole (a : sarr) | Torn.
Record file := mkFile { f_kind : kind; f_num : nat; f_data : data }.
Definition disk := list file.

Definition kind_eqb (a b : kind) : bool :=
  match a, b with KSims, KSims | KGens, KGens => true | KOther m, KOther n => m =? n | _, _ => false end.
(** os.path.isfile *)
Definition isfile (k : kind) (n : nat) (d : disk) : bool := existsb (fun f => kind_eqb (f_kind f) k && (f_num f =? n)) d.

(** os.remove of the first match: glob gives the matches in the order of the
    directory, which is the order of the list. *)
Fixpoint remove_first (k : kind) (d : disk) : disk :=
  match d with
  | [] => []
  | f :: d' => if kind_eqb (f_kind f) k then d' else f :: remove_first k d'
  end.
(** The disk after each of the first [n] removals. *)
Fixpoint removals (k : kind) (n : nat) (d : disk) : list disk :=
  match n with
  | O => []
  | S n' => let d' := remove_first k d in d' :: removals k n' d'
  end.
(** np.save opens the file, truncating it, and then writes it. *)
Definition write (k : kind) (n : nat) (x : data) (d : disk) : disk :=
  mkFile k n x :: filter (fun f => negb (kind_eqb (f_kind f) k && (f_num f =? n))) d.

Definition snapshot (h : hist) : sarr := mkA (h_dtype h) (trim_H h).

(** manager.py:326-336 (_save_every_k): the disk after each system call. [k] is
    not 0 unless [complete]. *)
Definition save_every_k (kd : kind) (count k : nat) (complete : bool) (h : hist) (d : disk) : list disk :=
  let count := if complete then count else k * (count / k) in
  if (negb (isfile kd count d) && (0 <? count)) || complete then
    let rs := removals kd (countb (fun f => kind_eqb (f_kind f) kd) d) d in
    let d1 := last rs d in
    rs ++ [write kd count Torn d1; write kd count (Whole (snapshot h)) d1]
  else [].

(** libE_specs: save_every_k_sims and save_every_k_gens, 0 or None: not set *)
Record save_cfg := mkSave { s_sims : nat; s_gens : nat }.

(** manager.py:338-361 (_init_every_k_save) *)
Definition init_every_k_save (c : save_cfg) (complete : bool) (h : hist) (d : disk) : list disk :=
  let force_final := complete && (s_gens c =? 0) in
  let t1 := if (0 <? s_sims c) || force_final then save_every_k KSims (h_ended h) (s_sims c) complete h d else [] in
  let d1 := last t1 d in
  let t2 := if 0 <? s_gens c then save_every_k KGens (h_index h) (s_gens c) complete h d1 else [] in
  t1 ++ t2.

(** A run: _init_every_k_save is called after every round of messages
    (manager.py:478), with the history as it then is. *)
Fixpoint saves (c : save_cfg) (hs : list hist) (d : disk) : list disk :=
  match hs with
  | [] => []
  | h :: hs' => let t := init_every_k_save c false h d in t ++ saves c hs' (last t d)
  end.
(** The end of the run: manager.py:632. [on_completion]: save_H_on_completion. *)
Definition finish (c : save_cfg) (on_completion : bool) (h : hist) (d : disk) : list disk := init_every_k_save c on_completion h d.

(** utils/validators.py:131-136 (enable_save_H_when_every_K) *)
Definition on_completion (asked : bool) (c : save_cfg) : bool := asked || (0 <? s_sims c) || (0 <? s_gens c).
