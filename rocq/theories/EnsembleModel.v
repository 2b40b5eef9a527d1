(** Model of the command line (tools/parse_args.py), of the Ensemble object (ensemble.py)
    and of the random streams (tools/tools.py). Objects with settings live in a heap, since
    ensembles can share them: the default value of an argument is one object for all calls. *)
From Coq Require Import String.
From Verif Require Import Base.
Local Open Scope nat_scope.
Notation length := List.length.

Inductive ecomms := EMpi | ELocal | EThreads | ETcp.
Definition ecomms_eqb (a b : ecomms) : bool :=
  match a, b with EMpi, EMpi | ELocal, ELocal | EThreads, EThreads | ETcp, ETcp => true | _, _ => false end.

(** ** parse_args (tools/parse_args.py) *)
Inductive medium := MMpi | MLocal | MThreads | MTcp | MSsh | MClient.
(** The arguments given (8-33); worker_pwd, worker_python, pwd, tester_args left out. *)
Record cmdline := mkcmd {
  g_comms : option medium; g_nworkers : option nat; g_nsim : option nat; g_nres : option nat;
  g_workers : option (list string); g_server : bool }.
(** What comes back: number of workers, is_manager, and of libE_specs comms, nworkers and
    num_resource_sets (the commands for launching workers are left out). *)
Record parsed := mkparsed { p_n : nat; p_manager : bool; p_comms : ecomms; p_spec_n : option nat; p_nres : option nat }.
(** Python's [a or b] for numbers *)
Definition or_num (a : option nat) (b : nat) : nat := match a with Some (S n) => S n | _ => b end.
(** 54-70, 83-86, 73-92 *)
Definition resource_sets (c : cmdline) : option nat :=
  match g_nres c with Some n => Some n | None => g_nsim c end.
Definition local_workers (c : cmdline) : nat :=
  or_num (match g_nsim c with Some n => Some (or_num (g_nworkers c) (n + 1)) | None => g_nworkers c end) 4.
(** 233-258; [size], [rank]: of the MPI communicator. *)
Definition parse_args (size rank : nat) (c : cmdline) : res parsed :=
  let comms := match g_comms c with Some m => m | None => match g_nworkers c with Some _ => MLocal | None => MMpi end end in
  match comms with
  | MMpi => Ok (mkparsed (size - 1) (rank =? 0) EMpi None (resource_sets c))
  | MLocal => Ok (mkparsed (local_workers c) true ELocal (Some (local_workers c)) (resource_sets c))
  | MThreads => Ok (mkparsed (local_workers c) true EThreads (Some (local_workers c)) (resource_sets c))
  | MTcp => Ok (mkparsed (or_num (g_nworkers c) 4) true ETcp (Some (or_num (g_nworkers c) 4)) None)
  | MSsh => match g_workers c with
            | Some l => Ok (mkparsed (length l) true ETcp None None)
            | None => Err EType
            end
  | MClient => if g_server c then Ok (mkparsed (or_num (g_nworkers c) 4) false ETcp (Some (or_num (g_nworkers c) 4)) None) else Err EType
  end.

(** ** The Ensemble object (ensemble.py) *)
Section Ens.
Context {V : Type}.
Variable default : string -> V.            (* of the other fields *)
Variable is_default : string -> V -> bool. (* the value is left out by specs_dump: None or the default *)
Variable num : nat -> V.                   (* numbers as values *)
Variable fields : list string.             (* names of the other fields *)
Variable mpi_env : bool.                   (* detect_comms_env finds MPI *)

(** A LibeSpecs object; 0 workers: none given. *)
Record especs := mkes { s_comms : ecomms; s_n : nat; s_other : string -> V }.
(** A dictionary of settings *)
Record settings := mkset { a_comms : option ecomms; a_n : option nat; a_other : list (string * V) }.
Definition lookup (l : list (string * V)) (x : string) : option V := option_map snd (find (fun p => String.eqb (fst p) x) l).
(** LibeSpecs with keyword arguments: the default for comms (utils/validators.py:38-44);
    the other validators are those of SpecsModel and left out. *)
Definition make_specs (a : settings) : especs :=
  mkes (match a_comms a with Some c => c | None => match a_n a with Some _ => if mpi_env then EMpi else ELocal | None => EMpi end end)
       (match a_n a with Some n => n | None => 0 end)
       (fun x => match lookup (a_other a) x with Some v => v | None => default x end).
(** self._libE_specs.__dict__.update *)
Definition update_specs (s : especs) (a : settings) : especs :=
  mkes (match a_comms a with Some c => c | None => s_comms s end)
       (match a_n a with Some n => n | None => s_n s end)
       (fun x => match lookup (a_other a) x with Some v => v | None => s_other s x end).
(** specs_dump with exclude_none and exclude_defaults (utils/misc.py:51); platform_specs are
    treated like other fields. *)
Definition dump_specs (s : especs) : settings :=
  mkset (match s_comms s with EMpi => None | c => Some c end) (match s_n s with 0 => None | n => Some n end)
        (map (fun x => (x, s_other s x)) (filter (fun x => negb (is_default x (s_other s x))) fields)).

(** The argument libE_specs: None, a dictionary, or an object. The default of the
    constructor is the object at address 0. *)
Inductive sarg := NoSpecs | ADict (a : settings) | AObj (addr : nat).
Record ensemble := mkens { e_addr : option nat; e_n : nat; e_manager : bool; e_known : option ecomms }.
Definition heap := list especs.
Definition empty_dict (a : settings) : bool :=
  match a_comms a, a_n a, a_other a with None, None, [] => true | _, _, _ => false end.
Definition parsed_settings (p : parsed) : settings :=
  mkset (Some (p_comms p)) (p_spec_n p) (match p_nres p with Some n => [("num_resource_sets"%string, num n)] | None => [] end).

(** nworkers (424-426); EKey stands for the AttributeError of None. *)
Definition nworkers (h : heap) (e : ensemble) : res nat :=
  match e_n e with
  | S n => Ok (S n)
  | 0 => match e_addr e with
         | Some a => match nth_error h a with Some s => Ok (s_n s) | None => Err EKey end
         | None => Err EKey
         end
  end.
(** 306-313, after the settings are there. [mpi]: what mpi_init gives. *)
Definition finish (parse : bool) (mpi : nat * bool) (h : heap) (e : ensemble) : res (heap * ensemble) :=
  match e_known e with
  | Some ELocal =>
      let e1 := mkens (e_addr e) (e_n e) true (e_known e) in
      bindr (nworkers h e1) (fun n => if n =? 0 then Err EValue else Ok (h, e1))
  | Some EMpi => if parse then Ok (h, e) else Ok (h, mkens (e_addr e) (fst mpi) (snd mpi) (e_known e))
  | _ => Ok (h, e)
  end.
(** The constructor (270-324). A dictionary that is not empty has no __dict__: with
    parse_args an AttributeError (EKey). *)
Definition create (p : option parsed) (mpi : nat * bool) (arg : sarg) (h : heap) : res (heap * ensemble) :=
  match p with
  | Some q =>
      let fresh := let s := make_specs (parsed_settings q) in
                   finish true mpi (h ++ [s]) (mkens (Some (length h)) (p_n q) (p_manager q) (Some (s_comms s))) in
      match arg with
      | NoSpecs => fresh
      | ADict a => if empty_dict a then fresh else Err EKey
      | AObj a =>
          match nth_error h a with
          | Some s => let s1 := update_specs s (parsed_settings q) in
                      finish true mpi (upd h a (fun _ => s1)) (mkens (Some a) (p_n q) (p_manager q) (Some (s_comms s1)))
          | None => Err EKey
          end
      end
  | None =>
      match arg with
      | NoSpecs => finish false mpi h (mkens None 0 false None)
      | ADict a => let s := make_specs a in finish false mpi (h ++ [s]) (mkens (Some (length h)) 0 false (Some (s_comms s)))
      | AObj a =>
          match nth_error h a with
          | Some s => finish false mpi h (mkens (Some a) 0 false (Some (s_comms s)))
          | None => Err EKey
          end
      end
  end.
(** Assignment to libE_specs (334-363) *)
Definition set_specs (new : sarg) (h : heap) (e : ensemble) : res (heap * ensemble) :=
  match e_addr e with
  | None =>
      match new with
      | NoSpecs => Ok (h, e)
      | ADict a => Ok (h ++ [make_specs a], mkens (Some (length h)) (e_n e) (e_manager e) (e_known e))
      | AObj a => Ok (h, mkens (Some a) (e_n e) (e_manager e) (e_known e))
      end
  | Some addr =>
      match nth_error h addr with
      | None => Err EKey
      | Some cur =>
          bindr (match new with
                 | NoSpecs => Err EKey
                 | ADict a => Ok a
                 | AObj b =>
                     match nth_error h b with
                     | None => Err EKey
                     | Some s => if negb (ecomms_eqb (s_comms s) EMpi) && negb (ecomms_eqb (s_comms s) (s_comms cur)) then Err EValue
                                 else Ok (dump_specs s)
                     end
                 end) (fun a =>
          match a_comms a with
          | Some _ => Err EValue
          | None => Ok (upd h addr (fun _ => update_specs cur a), e)
          end)
      end
  end.
(** Assignment to nworkers (428-432); the validation on assignment is left out. *)
Definition set_nworkers (n : nat) (h : heap) (e : ensemble) : heap * ensemble :=
  (match e_addr e with Some a => upd h a (fun s => mkes (s_comms s) n (s_other s)) | None => h end,
   mkens (e_addr e) n (e_manager e) (e_known e)).
(** run (368-422): the settings libE is called with. *)
Definition run (h : heap) (e : ensemble) : res especs :=
  match e_addr e with
  | None => Err EKey
  | Some a =>
      match nth_error h a with
      | None => Err EKey
      | Some s => match e_known e with
                  | Some c => if ecomms_eqb (s_comms s) c then Ok s else Err EValue
                  | None => Err EValue
                  end
      end
  end.
(** save_output (565-590): only the manager writes. *)
Definition saves (e : ensemble) : bool := e_manager e.
End Ens.
Arguments especs : clear implicits.
Arguments settings : clear implicits.
Arguments sarg : clear implicits.
Arguments heap : clear implicits.

(** ** add_unique_random_streams (tools/tools.py:145-196) *)
(** The seed: not given (or a string), a number, or None. *)
Inductive seed := NoSeed | Seed (z : Z) | NoneSeed.
(** An entry of persis_info; a stream is what its generator was seeded with. *)
Inductive pvalue (V : Type) := Stream (s : option Z) | WorkerNum (n : nat) | User (v : V).
Arguments Stream {V}. Arguments WorkerNum {V}. Arguments User {V}.
Definition entry V := string -> option (pvalue V).
Definition persis V := nat -> option (entry V).
Definition random_seed (s : seed) (i : nat) : option Z := match s with NoSeed => Some (Z.of_nat i) | Seed z => Some z | NoneSeed => None end.
Definition with_stream {V} (s : seed) (i : nat) (e : entry V) : entry V :=
  fun x => if String.eqb x "rand_stream" then Some (Stream (random_seed s i))
           else if String.eqb x "worker_num" then Some (WorkerNum i) else e x.
Fixpoint add_streams {V} (is : list nat) (s : seed) (p : persis V) : persis V :=
  match is with
  | [] => p
  | i :: is' =>
      let e := match p i with Some e => e | None => fun _ => None end in
      add_streams is' s (fun j => if j =? i then Some (with_stream s i e) else p j)
  end.
Definition add_unique_random_streams {V} (p : persis V) (nstreams : nat) (s : seed) : persis V := add_streams (seq 0 nstreams) s p.
(** Ensemble.add_random_streams (539-563) *)
Definition add_random_streams {V} (num_streams nworkers : nat) (s : seed) (p : persis V) : persis V :=
  add_unique_random_streams p ((if num_streams =? 0 then nworkers else num_streams) + 1) s.

(** ** Settings from a file (_parameterize, ensemble.py:502-517) *)
(** A specification other than libE_specs: a dictionary, or something else (an object of its class or None).
    Gives the keyword arguments for the new object. [truthy]: bool() of a value. *)
Inductive old_spec V := ODict (d : string -> option V) | OOther.
Arguments ODict {V}. Arguments OOther {V}.
Definition parameterize {V} (truthy : V -> bool) (old : old_spec V) (loaded : string -> option V) : string -> option V :=
  match old with
  | OOther => loaded
  | ODict d =>
      let m x := match loaded x with Some v => Some v | None => d x end in
      let has x := match m x with Some v => truthy v | None => false end in
      if has "in"%string && has "inputs"%string then fun x => if String.eqb x "inputs" then None else m x
      else if has "out"%string && has "outputs"%string then fun x => if String.eqb x "outputs" then None else m x
      else m
  end.
