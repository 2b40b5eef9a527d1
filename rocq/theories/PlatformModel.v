(** Model of how libEnsemble finds out about the machine: resources/platforms.py,
    the constructor of GlobalResources (resources/resources.py), node_resources.py,
    gpu_detect.py, the choice of MPI runner in executors/mpi_executor.py, and what
    libE() does to platform_specs before. What commands print, what the
    environment holds and what the machine has are inputs. *)
From Coq Require Import Ascii String.
From Verif Require Import Base TextModel EnvModel.
Local Notation length := List.length.
Local Open Scope nat_scope.

(** ** platforms.py *)

(** The fields of a Platform, platforms.py:28-131. Other keys are refused
    (pydantic_bindings.py:32, extra="forbid"). *)
Inductive field :=
  MpiRunner | RunnerName | Cores | LogicalCores | Gpus | Tiles | GpuType | GpuName | GpuFallback | MatchSlots.
Definition all_fields : list field :=
  [MpiRunner; RunnerName; Cores; LogicalCores; Gpus; Tiles; GpuType; GpuName; GpuFallback; MatchSlots].
Definition feqb (a b : field) : bool :=
  match a, b with
  | MpiRunner, MpiRunner | RunnerName, RunnerName | Cores, Cores | LogicalCores, LogicalCores | Gpus, Gpus
  | Tiles, Tiles | GpuType, GpuType | GpuName, GpuName | GpuFallback, GpuFallback | MatchSlots, MatchSlots => true
  | _, _ => false
  end.
Inductive val := VS (t : text) | VN (n : nat) | VB (b : bool).
(** A dictionary with these keys: [None], no such key; [Some None], the key with
    Python's None; [Some (Some v)], the key with value v. *)
Definition dict := field -> option (option val).
Definition no_keys : dict := fun _ => None.
(** bool(d): not empty *)
Definition truthy (d : dict) : bool := existsb (fun f => match d f with Some _ => true | None => false end) all_fields.
Definition of_list (l : list (field * val)) : dict :=
  fun f => match find (fun p => feqb f (fst p)) l with Some p => Some (Some (snd p)) | None => None end.
Definition vs (x : string) : val := VS (T x).

(** platforms.py:133-214 and 254-263: specs_dump(Known_platforms(),
    exclude_none=True), each class with what it inherits. *)
Definition aurora := of_list [(MpiRunner, vs "mpich"); (RunnerName, vs "mpiexec"); (Cores, VN 104); (LogicalCores, VN 208); (Gpus, VN 6);
  (Tiles, VN 2); (GpuType, vs "env"); (GpuName, vs "ZE_AFFINITY_MASK"); (MatchSlots, VB true)].
Definition frontier := of_list [(MpiRunner, vs "srun"); (Cores, VN 64); (LogicalCores, VN 128); (Gpus, VN 8);
  (GpuType, vs "runner_default"); (GpuFallback, vs "ROCR_VISIBLE_DEVICES"); (MatchSlots, VB false)].
Definition generic_rocm := of_list [(MpiRunner, vs "mpich"); (GpuType, vs "env"); (GpuName, vs "ROCR_VISIBLE_DEVICES"); (MatchSlots, VB true)].
Definition lumi := of_list [(MpiRunner, vs "srun"); (Cores, VN 64); (LogicalCores, VN 128); (MatchSlots, VB true)].
Definition lumi_g := of_list [(MpiRunner, vs "srun"); (Cores, VN 64); (LogicalCores, VN 128); (Gpus, VN 8);
  (GpuType, vs "env"); (GpuName, vs "ROCR_VISIBLE_DEVICES"); (MatchSlots, VB true)].
Definition perlmutter := of_list [(MpiRunner, vs "srun"); (MatchSlots, VB true)].
Definition perlmutter_c := of_list [(MpiRunner, vs "srun"); (Cores, VN 128); (LogicalCores, VN 256); (Gpus, VN 0); (MatchSlots, VB true)].
Definition perlmutter_g := of_list [(MpiRunner, vs "srun"); (Cores, VN 64); (LogicalCores, VN 128); (Gpus, VN 4);
  (GpuType, vs "runner_default"); (GpuFallback, vs "CUDA_VISIBLE_DEVICES"); (MatchSlots, VB false)].
Definition polaris := of_list [(MpiRunner, vs "mpich"); (RunnerName, vs "mpiexec"); (Cores, VN 32); (LogicalCores, VN 64); (Gpus, VN 4);
  (GpuType, vs "runner_default"); (GpuFallback, vs "CUDA_VISIBLE_DEVICES"); (MatchSlots, VB true)].
Definition summit := of_list [(MpiRunner, vs "jsrun"); (Cores, VN 42); (LogicalCores, VN 168); (Gpus, VN 6);
  (GpuType, vs "option_gpus_per_task"); (GpuName, vs "-g"); (MatchSlots, VB false)].
Definition known_list : list (text * dict) :=
  [(T "aurora", aurora); (T "generic_rocm", generic_rocm); (T "frontier", frontier); (T "lumi", lumi); (T "lumi_g", lumi_g);
   (T "perlmutter", perlmutter); (T "perlmutter_c", perlmutter_c); (T "perlmutter_g", perlmutter_g); (T "polaris", polaris); (T "summit", summit)].
Definition assoc {A} (l : list (text * A)) (k : text) : option A :=
  match find (fun p => teqb (fst p) k) l with Some p => Some (snd p) | None => None end.
Definition known : text -> option dict := assoc known_list.

(** platforms.py:267-272 *)
Definition detect_systems : list (text * text) :=
  [(T "frontier.olcf.ornl.gov", T "frontier"); (T "hostmgmt.cm.aurora.alcf.anl.gov", T "aurora");
   (T "hsn.cm.polaris.alcf.anl.gov", T "polaris"); (T "summit.olcf.ornl.gov", T "summit")].

(** What os.environ holds, as far as platforms.py asks *)
Record envv := mkEnvv { e_platform : option text; e_nersc : option text; e_partition : option text; e_cluster : option text }.
(** bool of a str or None *)
Definition nonempty (o : option text) : option text := match o with Some [] => None | _ => o end.
Definition is (o : option text) (t : text) : bool := match o with Some x => teqb x t | None => false end.
Definition endswith (suf t : text) : bool := prefixb (rev suf) (rev t).

(** platforms.py:276-297 (known_envs), without the warnings *)
Definition known_envs (e : envv) : option text :=
  let name := if is (e_nersc e) (T "perlmutter") then
                match nonempty (e_partition e) with
                | Some p => if contains (T "gpu_") p then Some (T "perlmutter_g") else Some (T "perlmutter_c")
                | None => Some (T "perlmutter")
                end
              else None in
  if is (e_cluster e) (T "lumi") then
    match nonempty (e_partition e) with
    | Some p => if endswith (T "-g") p then Some (T "lumi_g") else Some (T "lumi")
    | None => Some (T "lumi")
    end
  else name.

(** platforms.py:300-313; [host]: what "hostname -d" prints, None if it fails *)
Definition known_system_detect (host : option text) (e : envv) : option text :=
  match host with
  | Some out => match assoc detect_systems (rstrip out) with Some n => Some n | None => known_envs e end
  | None => known_envs e
  end.

(** platforms.py:327: the name; [opt]: libE_specs.get("platform") *)
Definition platform_name (opt : option text) (host : option text) (e : envv) : option text :=
  match nonempty opt with
  | Some n => Some n
  | None => match nonempty (e_platform e) with Some n => Some n | None => known_system_detect host e end
  end.

Definition EPlatform : err := EOther 30.
(** platforms.py:338-339: the loop that overwrites *)
Definition overwrite (d by_ : dict) : dict := fun f => match by_ f with Some v => Some v | None => d f end.
(** platforms.py:316-343 (get_platform); [specs]: libE_specs.get("platform_specs") *)
Definition get_platform (opt : option text) (specs : option dict) (host : option text) (e : envv) : res dict :=
  match nonempty (platform_name opt host e) with
  | Some n =>
      match known n with
      | None => Err EPlatform
      | Some d => match specs with Some p => if truthy p then Ok (overwrite d p) else Ok d | None => Ok d end
      end
  | None =>
      match specs with
      | Some p => if truthy p then Ok (fun f => match p f with Some (Some v) => Some (Some v) | _ => None end) else Ok no_keys
      | None => Ok no_keys
      end
  end.

(** ** What becomes of platform_specs before get_platform sees it *)

(** How the user can give platform_specs *)
Inductive given :=
| NotGiven                     (* the default {}, specs.py:489; defaults are not validated *)
| GivenNone                    (* None *)
| GivenDict (d : dict)         (* a dictionary *)
| GivenObject (o : field -> option val)  (* a Platform, or an object of a derived class *)
| ViaEnsemble (o : field -> option val). (* an object in a LibeSpecs given to an Ensemble that has libE_specs already *)

(** platforms.py:35-118: what a Platform has in the fields that are not given *)
Definition default (f : field) : option val := match f with MatchSlots => Some (VB true) | _ => None end.
(** validators.py:67-70 (set_platform_specs_to_class): Platform of the dictionary *)
Definition make_platform (d : dict) : field -> option val := fun f => match d f with Some v => v | None => default f end.
(** specs_dump without exclude_none, libE.py:240: every field, also those that are None *)
Definition dump (o : field -> option val) : dict := fun f => Some (o f).
(** specs_dump with exclude_none, ensemble.py:357 *)
Definition dump_some (o : field -> option val) : dict := fun f => match o f with Some v => Some (Some v) | None => None end.
(** ensemble.py:349-363, libE.py:229-242: libE_specs["platform_specs"] in libE *)
Definition dumped_specs (g : given) : option dict :=
  match g with
  | NotGiven => Some no_keys
  | GivenNone => None
  | GivenDict d => Some (dump (make_platform d))
  | GivenObject o => Some (dump o)
  | ViaEnsemble o => Some (dump_some o)
  end.
(** libE.py:250 *)
Definition libE_platform (opt : option text) (g : given) (host : option text) (e : envv) : res dict :=
  get_platform opt (dumped_specs g) host e.

(** ** gpu_detect.py and node_resources.py *)

(** gpu_detect.py:62-82 (get_num_gpus): [answers]: what each method returns, in order *)
Fixpoint get_num_gpus (answers : list (option nat)) : option nat :=
  match answers with
  | [] => None
  | Some n :: _ => Some n
  | None :: l => get_num_gpus l
  end.
(** gpu_detect.py:85-97 (get_gpus_from_env) *)
Definition get_gpus_from_env (slurm : bool) (var : option text) : res (option nat) :=
  if slurm then match var with Some t => bindr (int_of t) (fun n => Ok (Some n)) | None => Ok None end else Ok None.

(** collections.Counter(nodes).values() *)
Definition counts (l : list text) : list nat := map (fun n => countb (teqb n) l) (unique l).
(** min(counter) *)
Definition minr (l : list nat) : res nat := match l with [] => Err EValue | x :: l' => Ok (fold_left Nat.min l' x) end.
Definition compute (n : text) : bool := negb (contains (T "batch") n).
(** node_resources.py:53-83; [lsf], [short]: the variables with the node lists of LSF.
    The second value of the tuple repeats the first. *)
Definition cpus_from_env (lsf short : option text) : res (option nat) :=
  match lsf, short with
  | Some t, _ => bindr (minr (counts (filter compute (words t [])))) (fun n => Ok (Some n))
  | None, Some t => bindr (mapr int_of (map snd (filter (fun p => compute (fst p)) (pairs (words t []))))) (fun l =>
                      bindr (minr l) (fun n => Ok (Some n)))
  | None, None => Ok None
  end.

(** What detection can use: the environment, what the probe job prints (or how it
    fails), what psutil and the GPU tools say on this node. *)
Record machine := mkMachine {
  m_slurm : bool; m_slurm_gpus : option text; m_lsf : option text; m_lsf_short : option text;
  m_probe : res text; m_physical : option nat; m_logical : option nat; m_gpu_answers : list (option nat) }.

Definition ok_of (r : res nat) : option nat := match r with Ok n => Some n | Err _ => None end.
(** node_resources.py:124-143 (_update_from_str), for entries that are all unset or all set *)
Definition read_probe (t : text) : res (option (nat * nat) * option nat) :=
  match words t [] with
  | a :: b :: g :: _ => Ok (match ok_of (int_of a), ok_of (int_of b) with Some p, Some l => Some (p, l) | _, _ => None end, ok_of (int_of g))
  | _ => Err EValue
  end.
Definition zero (o : option nat) : nat := match o with Some n => n | None => 0 end.
(** node_resources.py:112-121 and 146-178 (get_sub_node_resources) *)
Definition get_sub_node (m : machine) (remote : bool) : res (nat * nat * nat) :=
  bindr (cpus_from_env (m_lsf m) (m_lsf_short m)) (fun cpu =>
  bindr (get_gpus_from_env (m_slurm m) (m_slurm_gpus m)) (fun gpu =>
  match cpu, gpu with
  | Some c, Some g => Ok (c, c, g)
  | _, _ =>
      if remote then
        bindr (m_probe m) (fun t => bindr (read_probe t) (fun r =>
          let (p, l) := match cpu with Some c => (c, c) | None => match fst r with Some (p, l) => (p, l) | None => (0, 0) end end in
          Ok (p, l, zero (match gpu with Some g => Some g | None => snd r end))))
      else
        let (p, l) := match cpu with Some c => (c, c) | None => (zero (m_physical m), zero (m_logical m)) end in
        Ok (p, l, zero (match gpu with Some g => Some g | None => get_num_gpus (m_gpu_answers m) end))
  end)).

(** ** resources.py: the numbers of a node *)

(** platform_info.get(f) for a field that holds a number *)
Definition get_nat (d : dict) (f : field) : option nat := match d f with Some (Some (VN n)) => Some n | _ => None end.
(** a or b, for numbers and None *)
Definition por (a b : option nat) : option nat := match a with Some (S n) => Some (S n) | _ => b end.
Definition falsy (a : option nat) : bool := match a with Some (S _) => false | _ => true end.
(** resources.py:257-270 (_add_detected_info) *)
Definition add_detected (cores : option nat * option nat) (gpus : option nat) (d : nat * nat * nat) : nat * nat * nat :=
  let '(p, l, g) := d in
  let cores := match cores with
               | (Some a, Some b) => (a, b)
               | (a, b) => ((if falsy a then p else zero a), (if falsy b then l else zero b))
               end in
  (fst cores, snd cores, if falsy gpus then g else zero gpus).
(** resources.py:174-183 and 220-228. [ucores], [ugpus]: resource_info["cores_on_node"]
    and ["gpus_on_node"] if given; [tiles]: use_tiles_as_gpus; [ze]: the sub-devices
    that zeinfo finds, 1 if it fails. Simplification: cores_on_node is a pair. *)
Definition node_numbers (ucores : option (option nat * option nat)) (ugpus : option nat) (d : dict) (tiles : bool) (ze : nat)
    (remote : bool) (m : machine) : res (nat * nat * nat) :=
  let cores := match ucores with Some c => c | None => (get_nat d Cores, get_nat d LogicalCores) end in
  let gpus := por ugpus (get_nat d Gpus) in
  let per_gpu := if tiles then zero (por (get_nat d Tiles) (Some ze)) else 1 in
  let found := match cores, gpus with
               | (Some p, Some l), Some g => Ok (p, l, g)
               | _, _ => bindr (get_sub_node m remote) (fun x => Ok (add_detected cores gpus x))
               end in
  bindr found (fun x => let '(p, l, g) := x in Ok (p, l, g * per_gpu)).
(** resources.py:216-218 *)
Definition remote_detect (host : text) (nodes : list text) (launcher : option text) : bool :=
  negb (existsb (teqb host) nodes) && match launcher with Some _ => true | None => false end.

(** resources.py:249-255 (update_scheduler_opts): [o]: match_slots in the user's scheduler_opts *)
Definition update_match_slots (d : dict) (o : option (option val)) : option (option val) :=
  match o with Some v => Some v | None => if truthy d then d MatchSlots else None end.

(** ** The MPI runner *)

(** platform_info.get(f) for a field that holds text *)
Definition get_text (d : dict) (f : field) : option text := match d f with Some (Some (VS t)) => Some t | _ => None end.
Definition tor (a b : option text) : option text := match nonempty a with Some t => Some t | None => b end.
(** mpi_runner.py:15-23 and 365-510: the runners and the command each has by default *)
Definition runners : list (text * text) :=
  [(T "mpich", T "mpirun"); (T "openmpi", T "mpirun"); (T "aprun", T "aprun"); (T "srun", T "srun"); (T "jsrun", T "jsrun");
   (T "msmpi", T "mpiexec"); (T "custom", T "mpiexec")].
(** mpi_runner.py:14-31 (get_runner): the runner's type and command, no runner, or
    KeyError for a type that does not exist *)
Definition get_runner (ty nm : option text) : res (option (text * text)) :=
  match ty with
  | None => Ok None
  | Some t => match assoc runners t with None => Err EKey | Some c => Ok (Some (t, match nm with Some n => n | None => c end)) end
  end.
(** The executor's mpi_runner_type and runner_name. At first they are what
    custom_info gives, mpi_executor.py:91-92. *)
Record exctr := mkExctr { x_type : option text; x_name : option text }.
(** mpi_executor.py:110-129 (add_platform_info, _create_mpi_runner_from_attr), called
    by every call of libE (libE.py:260); [found]: get_MPI_variant() *)
Definition add_platform_info (x : exctr) (d : dict) (found : option text) : exctr * res (option (text * text)) :=
  let x := if truthy d then mkExctr (tor (x_type x) (get_text d MpiRunner)) (tor (x_name x) (get_text d RunnerName)) else x in
  let x := mkExctr (tor (x_type x) found) (x_name x) in
  (x, get_runner (x_type x) (x_name x)).
(** mpi_resources.py:88-94 (get_MPI_runner) and resources.py:214: the launcher for the probe *)
Definition launcher (d : dict) (found : option text) : option text :=
  tor (get_text d RunnerName)
      (match tor (get_text d MpiRunner) found with
       | Some t => if teqb t (T "mpich") || teqb t (T "openmpi") then Some (T "mpirun") else Some t
       | None => None
       end).
