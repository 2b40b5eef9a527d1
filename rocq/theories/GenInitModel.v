(** Model of generators.py:40-93 (the constructor of LibensembleGenerator) and of what a
    process' generator objects share: dictionaries are objects, and the defaults of
    parameters are objects that all calls have in common. *)
From Verif Require Import Base.
Local Open Scope nat_scope.

(** Field and variable names are numbers; four have a meaning for the code. *)
Definition name := nat.
Definition SIM_ID : name := 0.   (* "sim_id" *)
Definition ID : name := 1.       (* "_id" *)
Definition X : name := 2.        (* "x" *)
Definition F : name := 3.        (* "f" *)
Definition mapping := list (name * list name).

Section GenInit.
Context {V : Type}.                (* values of settings *)
Definition settings := list (name * V).

Fixpoint lookup {A} (k : name) (d : list (name * A)) : option A :=
  match d with [] => None | (k', v) :: d' => if k =? k' then Some v else lookup k d' end.
(** d[k] = v: in place, or at the end *)
Fixpoint set {A} (k : name) (v : A) (d : list (name * A)) : list (name * A) :=
  match d with [] => [(k, v)] | (k', w) :: d' => if k =? k' then (k', v) :: d' else (k', w) :: set k v d' end.

(** lines 86-93 (_get_unmapped_keys) *)
Definition unmapped (names : list name) (m : mapping) : list name := filter (fun v => negb (memb v (flat_map snd m))) names.
(** lines 60-63 and 65-69: [k] is "x" or "f" *)
Definition map_rest (k : name) (names : list name) (m : mapping) : res mapping :=
  match lookup k m with
  | Some _ => Ok m
  | None => match names with
            | [] => Err EIndex
            | v :: rest => if (1 <? length names) || negb (v =? k) then Ok (set k (unmapped names m) m) else Ok m
            end
  end.
(** lines 59-72, on the dictionary's content *)
Definition complete (variables objectives : list name) (returns_id : bool) (m : mapping) : res mapping :=
  bindr (map_rest X variables m) (fun m => bindr (map_rest F objectives m) (fun m =>
  Ok (if returns_id then set SIM_ID [ID] m else m))).

(** The dictionaries of the process, by address: those given as variables_mapping, and
    those given as gen_specs (the content of "user", if it has one). Address 0 of the
    second is the default of the parameter. *)
Record heap := mkHeap { h_maps : list mapping; h_specs : list (option settings) }.
Record gen := mkGen { g_map : nat; g_specs : nat }.
(** a call of the constructor: None where the parameter is not given *)
Record call := mkCall { c_vars : list name; c_objs : list name; c_id : bool; c_map : option nat; c_specs : option nat; c_kwargs : settings }.

(** lines 56-58: a dictionary that is empty is replaced by a new one *)
Definition map_addr (h : heap) (a : option nat) : nat * heap :=
  match a with
  | Some a => match nth a (h_maps h) [] with
              | [] => (length (h_maps h), mkHeap (h_maps h ++ [[]]) (h_specs h))
              | _ => (a, h)
              end
  | None => (length (h_maps h), mkHeap (h_maps h ++ [[]]) (h_specs h))
  end.
(** lines 74-77 *)
Definition add_kwargs (kw : settings) (u : option settings) : option settings :=
  match kw with
  | [] => u
  | _ => Some (fold_left (fun d p => set (fst p) (snd p) d) kw (match u with Some d => d | None => [] end))
  end.
(** lines 40-77; if it raises, what was changed before stays changed. Simplification: in
    place of the partly completed mapping of a failed call the old one is kept. *)
Definition construct (c : call) (h : heap) : heap * res gen :=
  let s := match c_specs c with Some s => s | None => 0 end in
  let '(a, h) := map_addr h (c_map c) in
  match complete (c_vars c) (c_objs c) (c_id c) (nth a (h_maps h) []) with
  | Err e => (h, Err e)
  | Ok m => (mkHeap (upd (h_maps h) a (fun _ => m)) (upd (h_specs h) s (add_kwargs (c_kwargs c))), Ok (mkGen a s))
  end.
Definition constructs (cs : list call) (h : heap) : heap := fold_left (fun h c => fst (construct c h)) cs h.
Definition mapping_of (h : heap) (g : gen) : mapping := nth (g_map g) (h_maps h) [].
Definition settings_of (h : heap) (g : gen) : settings := match nth (g_specs g) (h_specs h) None with Some d => d | None => [] end.
End GenInit.
