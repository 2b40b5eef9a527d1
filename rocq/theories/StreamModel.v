(** Model of the random streams that libEnsemble puts into persis_info:
    add_unique_random_streams (libensemble/tools/tools.py), Ensemble.add_random_streams
    (libensemble/ensemble.py) and the default of generator objects (libensemble/generators.py).

    A stream is known by the seed it was made from and by the object it is. The
    numbers drawn from it are not modelled. *)
From Verif Require Import Base.

(** The seed argument: an int, None, or anything else (the default "", other
    text, a NumPy integer: isinstance(seed, int) is false for these). *)
Inductive seed_arg := SdInt (z : Z) | SdNone | SdOther.

(** np.random.default_rng(seed): with None the seed comes from the operating system. *)
Inductive origin := Seeded (z : Z) | Entropy.
Record stream := mkStream { s_origin : origin; s_object : nat }.

(** The keys and values of the dictionary of one worker. *)
Inductive key := K_rand_stream | K_worker_num | K_user (n : nat).
Inductive value := VStream (s : stream) | VNum (n : nat) | VUser (n : nat).
Definition key_eqb (a b : key) : bool :=
  match a, b with
  | K_rand_stream, K_rand_stream | K_worker_num, K_worker_num => true
  | K_user n, K_user m => n =? m
  | _, _ => false
  end.
Definition entry := key -> option value.
Definition set_key (k : key) (v : value) (e : entry) : entry := fun k' => if key_eqb k k' then Some v else e k'.

(** The memory: persis_info maps worker numbers to dictionary objects, which two
    worker numbers may share; [st_next] numbers the stream objects made so far. *)
Record state := mkSt { st_info : list (nat * nat); st_dicts : list entry; st_next : nat }.

Fixpoint address (i : nat) (l : list (nat * nat)) : option nat :=
  match l with [] => None | (k, a) :: l' => if k =? i then Some a else address i l' end.

(** tools.py:203-206 *)
Definition seed_for (seed : seed_arg) (i : nat) : origin :=
  match seed with SdInt z => Seeded z | SdNone => Entropy | SdOther => Seeded (Z.of_nat i) end.

(** The two keys of tools.py:210-213 and 217-218. *)
Definition stamp (s : stream) (i : nat) (e : entry) : entry :=
  set_key K_worker_num (VNum i) (set_key K_rand_stream (VStream s) e).

(** One round of the loop, tools.py:202-219 *)
Definition add_stream (seed : seed_arg) (st : state) (i : nat) : state :=
  let s := mkStream (seed_for seed i) (st_next st) in
  match address i (st_info st) with
  | Some a => mkSt (st_info st) (upd (st_dicts st) a (stamp s i)) (S (st_next st))
  | None => mkSt (st_info st ++ [(i, length (st_dicts st))]) (st_dicts st ++ [stamp s i (fun _ => None)]) (S (st_next st))
  end.

(** add_unique_random_streams, tools.py:170-220 *)
Definition add_unique_random_streams (nstreams : nat) (seed : seed_arg) (st : state) : state :=
  fold_left (add_stream seed) (seq 0 nstreams) st.

(** Ensemble.add_random_streams, ensemble.py:539-563 *)
Definition add_random_streams (nworkers num_streams : nat) (seed : seed_arg) (st : state) : state :=
  add_unique_random_streams ((if num_streams =? 0 then nworkers else num_streams) + 1) seed st.

(** persis_info[i] *)
Definition info_of (i : nat) (st : state) : option entry :=
  match address i (st_info st) with Some a => nth_error (st_dicts st) a | None => None end.
Definition setting (i : nat) (k : key) (st : state) : option value :=
  match info_of i st with Some e => e k | None => None end.

(** generators.py:78-81: the persis_info of a generator object that is given
    [e]. Simplification: any value under "rand_stream" counts as one. *)
Definition generator_info (e : entry) (next : nat) : option entry :=
  match e K_rand_stream with
  | Some _ => Some e
  | None => info_of 1 (add_unique_random_streams 4 (SdInt 4321) (mkSt [] [] next))
  end.
