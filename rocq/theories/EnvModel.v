(** Model of the node lists: resources/env_resources.py and the node-list part
    of resources/resources.py. The values of the environment variables and the
    contents of files are inputs. *)
From Coq Require Import Ascii String.
From Verif Require Import Base TextModel.
Local Notation length := List.length.
Local Open Scope nat_scope.

Definition comma : ascii := ",".
Definition minus : ascii := "-".
Definition lbr : ascii := "[".
Definition rbr : ascii := "]".
Definition dot : ascii := ".".

(** env_resources.py:129-138 (_range_split) *)
Definition range_split (s : text) : res (nat * nat * nat) :=
  let (x, r) := split1 minus s in
  let y := match r with Some y => y | None => x end in
  bindr (int_of x) (fun a => bindr (int_of y) (fun b =>
    let (a, b) := if b <? a then (b, a) else (a, b) in
    Ok (a, b + 1, length x))).

Fixpoint mapr {A B} (f : A -> res B) (l : list A) : res (list B) :=
  match l with
  | [] => Ok []
  | x :: l' => bindr (f x) (fun y => bindr (mapr f l') (fun ys => Ok (y :: ys)))
  end.

(** env_resources.py:141-148 (_noderange_append) *)
Definition noderange (prefix nidstr suffix : text) : res (list text) :=
  bindr (mapr (fun g => bindr (range_split g) (fun t => let '(a, b, w) := t in
           Ok (map (fun n => prefix ++ zfill w (dec n) ++ suffix) (seq a (b - a)))))
         (split comma nidstr)) (fun ls => Ok (concat ls)).

(** The regular expression of line 158: a maximal sequence of characters other
    than "," and "[", and of bracketed groups. A "[" that is never closed matches
    nothing and is skipped. [inb]: inside brackets. *)
Definition flush (cur : text) : list text := match cur with [] => [] | _ => [cur] end.
Fixpoint slurm_parts (t cur : text) (inb : bool) : list text :=
  match t with
  | [] => flush cur
  | c :: t' =>
      if inb then slurm_parts t' (cur ++ [c]) (negb (ceqb c rbr))
      else if ceqb c comma then flush cur ++ slurm_parts t' [] false
      else if ceqb c lbr then
        if existsb (ceqb rbr) t' then slurm_parts t' (cur ++ [c]) true
        else flush cur ++ slurm_parts t' [] false
      else slurm_parts t' (cur ++ [c]) false
  end.

(** env_resources.py:151-172 (get_slurm_nodelist) *)
Definition slurm_part (part : text) : res (list text) :=
  match split1 lbr part with
  | (name, None) => Ok [name]
  | (prefix, Some rem) =>
      match split1 rbr rem with
      | (nidstr, Some suffix) => noderange prefix nidstr suffix
      | (_, None) => Err EIndex
      end
  end.
Definition slurm_nodelist (s : text) : res (list text) :=
  match s with
  | [] => Ok []
  | _ => bindr (mapr slurm_part (slurm_parts s [] false)) (fun ls => Ok (sort tleb (concat ls)))
  end.

(** env_resources.py:175-185 (get_cobalt_nodelist) *)
Definition cobalt_nodelist (s : text) : res (list text) :=
  match s with
  | [] => Ok []
  | _ => bindr (mapr (fun g => bindr (range_split g) (fun t => let '(a, b, _) := t in Ok (map dec (seq a (b - a))))) (split comma s))
           (fun ls => Ok (sort (fun x y => number x <=? number y) (concat ls)))
  end.

(** env_resources.py:108-111 *)
Definition abbrev (l : list text) : list text := map (fun s => fst (split1 dot s)) l.
(** env_resources.py:114-118, prefix "nid" *)
Definition cobalt_abbrev (l : list text) : list text := map (fun s => lstrip (T "0") (lstrip (T "nid") s)) l.

(** env_resources.py:188-201; [lines]: the file's lines without their ends *)
Definition pbs_nodelist (lines : list text) : list text := abbrev (unique lines).

(** s.split() *)
Definition is_space (c : ascii) : bool := let n := nat_of_ascii c in (9 <=? n) && (n <=? 13) || (28 <=? n) && (n <=? 32).
Fixpoint words (t cur : text) : list text :=
  match t with
  | [] => flush cur
  | c :: t' => if is_space c then flush cur ++ words t' [] else words t' (cur ++ [c])
  end.

(** env_resources.py:204-211 *)
Definition lsf_nodelist (s : text) : list text := filter (fun n => negb (contains (T "batch") n)) (unique (words s [])).
(** env_resources.py:214-222 *)
Fixpoint pairs {A} (l : list A) : list (A * A) :=
  match l with x :: y :: l' => (x, y) :: pairs l' | _ => [] end.
Definition lsf_short_nodelist (s : text) : list text := map fst (filter (fun p => negb (contains (T "batch") (fst p))) (pairs (words s []))).

(** env_resources.py:120-126 *)
Inductive scheduler := Cobalt | OtherScheduler | NoScheduler.
Definition shortnames (s : scheduler) (l : list text) : list text :=
  match s with Cobalt => cobalt_abbrev l | OtherScheduler => abbrev l | NoScheduler => l end.

(** resources.py:273-278 *)
Definition is_short (l : list text) : bool := negb (existsb (fun x => existsb (ceqb dot) x) l).
(** resources.py:282-285 *)
Definition remove_nodes (l rem : list text) : list text := filter (fun x => negb (existsb (teqb x) rem)) l.
(** resources.py:232-247 (add_comm_info); self.shortnames is computed at
    construction from the same list (resources.py:201). *)
Definition add_comm_info (sched : scheduler) (dedicated : bool) (nodelist libe_nodes : list text) : list text :=
  let mine := if is_short nodelist then shortnames sched libe_nodes else libe_nodes in
  match filter (fun x => existsb (teqb x) mine) nodelist with
  | [] => nodelist
  | _ => if dedicated && (1 <? length nodelist) then remove_nodes nodelist mine else nodelist
  end.

(** line.rstrip() *)
Fixpoint rstrip (t : text) : text :=
  match t with
  | [] => []
  | c :: t' => match rstrip t' with [] => if is_space c then [] else [c] | r => c :: r end
  end.
(** resources.py:288-316: [file]: the lines of the node file if it exists; [env]:
    what the scheduler environment gives; [host]: this machine's name. *)
Definition global_nodelist (file : option (list text)) (env : list text) (host : text) : res (list text) :=
  let l := match file with
           | Some lines => map rstrip lines
           | None => match env with [] => [host] | _ => env end
           end in
  match l with [] => Err (EOther 20) | _ => Ok l end.
