(** Model of the MPI arithmetic: libensemble/resources/mpi_resources.py, the
    MPIRunner classes of executors/mpi_runner.py and the parts of
    worker_resources.py and mpi_executor.py that feed them.

    Integers given by the user are Z. Not modelled: the command-line parser
    applied to extra_args (its result is an input), the text of the command
    line, environment variables other than the GPU list, string-valued counts
    ("8" for 8), negative GPU requests. *)
From Coq Require Import String.
From Verif Require Import Base RsetModel.
Local Notation length := List.length.
Local Open Scope Z_scope.

(** MPIResourcesException; ExecutorException raised by jassert; AttributeError. *)
Definition EMpi : err := EOther 10.
Definition EExec : err := EOther 11.
Definition EAttr : err := EOther 12.

(** Python's [if x] for an optional int; [int(x) if x else None],
    mpi_resources.py:105-107. *)
Definition norm (x : option Z) : option Z := match x with Some 0 => None | _ => x end.
Definition given (x : option Z) : bool := match norm x with Some _ => true | None => false end.

Definition checked (p n k : Z) : res (Z * Z * Z) := if p =? n * k then Ok (p, n, k) else Err EMpi.

(** mpi_resources.py:97-127 without a machine file *)
Definition task_partition (procs nodes ppn : option Z) : res (Z * Z * Z) :=
  match norm procs, norm nodes, norm ppn with
  | None, Some n, Some k => checked (n * k) n k
  | None, _, _ => Err EMpi
  | Some p, None, k => let k := match k with Some k => k | None => p end in checked p (p / k) k
  | Some p, Some n, None => checked p n (p / n)
  | Some p, Some n, Some k => checked p n k
  end.

(** ** What a worker knows about its resources (WorkerResources attributes) *)
Record wres := mkWres {
  w_nodes : list node;               (* local_nodelist *)
  w_even : bool; w_match : bool;     (* even_slots, matching_slots *)
  w_on_node : option (list nat);     (* slots_on_node *)
  w_count : option nat;              (* slot_count *)
  w_sets : nat;                      (* largest local_rsets_list entry of the team *)
  w_procs : nat;                     (* procs_per_rset_per_node *)
  w_gpus : nat;                      (* gpus_per_rset_per_node *)
  w_has_gpus : bool                  (* doihave_gpus() *)
}.

(** worker_resources.py:296-350 (set_rset_team, doihave_gpus) for a non-empty
    team, rset_resources.py:57-90 for the numbers, mpi_resources.py:130-135. *)
Definition worker_view (num_workers : nat) (p : platform) (team : list nat) : res wres :=
  bindr (rman_init num_workers p) (fun m =>
  bindr (get_split_list (total_rsets num_workers p) (p_nodes p)) (fun sl =>
  bindr (get_local_nodelist team (rm_split m) (rm_per_node m)) (fun ns =>
    match set_slot_count (snd ns), team with
    | Some (e, mt, on, c), i :: _ =>
        Ok (mkWres (fst ns) e mt on c (maxl (map (fun j => nth j (snd sl) 0%nat) team))
              (procs_per_rset (rm_per_node m) (p_cores p) 1)
              (if (rm_gpu_per_node m =? 0)%nat then 0%nat else (p_gpus_per_node p / rm_gpu_per_node m)%nat)
              (match nth_error (rm_rsets m) i with Some r => rs_gpu r | None => false end))
    | _, _ => Err EValue
    end))).

(** mpi_resources.py:138-233. [cores]: logical_ or physical_cores_avail_per_node;
    [enforce]: enforce_worker_core_bounds. Line 168 multiplies by slot_count
    before line 171 tests even_slots, so uneven slots end in a TypeError. *)
Definition get_resources (w : wres) (cores : Z) (enforce : bool) (procs nodes ppn : option Z) : res (Z * Z * Z) :=
  match w_nodes w with
  | [] => Err EMpi
  | _ :: _ =>
    if (w_sets w =? 0)%nat then Err EZeroDiv else
    match w_count w with
    | None => Err EType
    | Some c =>
      let avail := cores / Z.of_nat (w_sets w) * Z.of_nat c in
      let local := Z.of_nat (length (w_nodes w)) in
      if negb (w_even w) then Err EMpi else
      bindr (if negb (given procs) && negb (given ppn) then
               if 0 <? avail then Ok (procs, (if given nodes then nodes else Some local), Some avail) else Err EMpi
             else if negb (given nodes) && negb (given ppn) then
               match procs with
               | Some x => Ok (procs, (if x <=? avail then Some 1 else Some local), ppn)
               | None => Err EType
               end
             else if negb (given procs) && negb (given nodes) then Ok (procs, Some local, ppn)
             else Ok (procs, nodes, ppn))
      (fun q => let '(a, b, k) := q in
      bindr (task_partition a b k) (fun t => let '(p', n', k') := t in
        if negb (n' <=? local) then Err EMpi
        else if enforce && negb (k' <=? cores) then Err EMpi
        else if enforce && negb (k' <=? avail) then Err EMpi
        else if enforce && negb (p' <=? cores * local) then Err EMpi
        else Ok (p', n', k')))
    end
  end.

(** node_list[:n] *)
Definition py_first {A} (n : Z) (l : list A) : list A :=
  firstn (Z.to_nat (if n <? 0 then Z.of_nat (length l) + n else n)) l.

(** mpi_resources.py:266-273 *)
Definition get_hostlist (w : wres) (n : Z) : list node := py_first n (w_nodes w).
(** mpi_resources.py:236-263: the lines of the file; creation fails if it is empty. *)
Definition create_machinefile (w : wres) (n k : Z) : list node :=
  flat_map (fun x => repeat x (Z.to_nat k)) (py_first n (w_nodes w)).

(** ** mpi_runner.py *)

(** The ways of telling the runner about GPUs. *)
Inductive gpu_opt := PerTask | PerNode.
Inductive gpu_how := GEnv (ids : list nat) | GOpt (o : gpu_opt) (value : Z).
(** How hosts are named: MPIRunner.express_spec 98-107, OPENMPI 408-428, JSRUN 503-505. *)
Inductive express := XHosts | XMachinefile | XNothing.
(** platform_info["gpu_setting_type"], if not runner_default; [named]: platform_info has gpu_setting_name *)
Inductive plat_set := PEnv | POpt (o : gpu_opt) (named : bool).

Record runner := mkRunner {
  r_express : express;
  r_mfile : bool;                       (* mfile_support *)
  r_rm_rpn : bool;                      (* rm_rpn *)
  r_gpu_default : option gpu_opt;       (* default_gpu_arg_type *)
  r_gpu_args : option (gpu_opt -> bool);(* default_gpu_args: does the option have a name *)
  r_platform : option plat_set }.

(** mpi_runner.py:365-506 with platform setting [p] *)
Definition mpich p := mkRunner XHosts true false None None p.
Definition openmpi p := mkRunner XMachinefile true false None None p.
Definition aprun p := mkRunner XHosts false false None None p.
Definition msmpi p := mkRunner XHosts false false None None p.
Definition srun p := mkRunner XHosts false false (Some PerTask) (Some (fun _ => true)) p.
Definition jsrun p := mkRunner XNothing false true (Some PerTask) (Some (fun o => match o with PerTask => true | PerNode => false end)) p.

(** worker_resources.py:211-231 (get_slots_as_string, without the tile names) *)
Definition gpu_ids (on : list nat) (mult : nat) (limit : Z) : list nat :=
  firstn (Z.to_nat limit) (flat_map (fun i => seq (i * mult) mult) on).

(** mpi_runner.py:109-122 and 124-128 *)
Definition cli_option (w : wres) (o : gpu_opt) (v : Z) : res gpu_how := if w_even w then Ok (GOpt o v) else Err EExec.
Definition env_setting (w : wres) (per_node : Z) : res gpu_how :=
  if w_match w then match w_on_node w with Some on => Ok (GEnv (gpu_ids on (w_gpus w) per_node)) | None => Err EType end else Err EExec.
Definition opt_value (o : gpu_opt) (per_node ppn : Z) : res Z :=
  match o with PerTask => if ppn =? 0 then Err EZeroDiv else Ok (per_node / ppn) | PerNode => Ok per_node end.

(** mpi_runner.py:130-155 and 208-225: the default argument is looked up (and
    may raise) also when the platform names the option itself. *)
Definition set_gpus (r : runner) (w : wres) (per_node ppn : Z) : res gpu_how :=
  match r_platform r with
  | None =>
      match r_gpu_default r with
      | Some o => bindr (opt_value o per_node ppn) (fun v =>
                    match r_gpu_args r with
                    | Some f => if f o then cli_option w o v else Err EExec
                    | None => Err EType
                    end)
      | None => env_setting w per_node
      end
  | Some (POpt o _) =>
      bindr (opt_value o per_node ppn) (fun v =>
        match r_gpu_args r with
        | Some f => if f o then cli_option w o v else Err EExec
        | None => Err EExec
        end)
  | Some PEnv => env_setting w per_node
  end.

(** mpi_runner.py:229-256 *)
Definition ceil_q (a b : Z) : res Z := if b =? 0 then Err EZeroDiv else Ok ((a + b - 1) / b).
Definition get_min_nodes (w : option wres) (procs ppn nodes gpus : option Z) : res (option Z) :=
  match nodes, w with
  | Some n, _ => Ok (Some n)
  | None, None => Ok None
  | None, Some w =>
      if given ppn then Ok None
      else match w_count w with
           | None => Err EType
           | Some c =>
               if negb (given procs) && match gpus with None => true | Some _ => false end then Ok None
               else
                 bindr (match norm procs with Some x => ceil_q x (Z.of_nat (c * w_procs w)) | None => Ok 1 end) (fun pm =>
                 bindr (match norm gpus with Some x => ceil_q x (Z.of_nat (c * w_gpus w)) | None => Ok 1 end) (fun gm =>
                   let n := Z.min (Z.max pm gm) (Z.of_nat (length (w_nodes w))) in
                   Ok (Some (match norm procs with Some x => Z.min n x | None => n end))))
           end
  end.

(** mpi_runner.py:258-277 *)
Definition adjust (w : wres) (nodes units : option Z) (per : nat) : res (option Z) :=
  match units, norm nodes with
  | Some u, Some n =>
      if u mod n =? 0 then Ok units
      else match w_count w with
           | None => Err EType
           | Some c => let t := u + (n - u mod n) in
                       Ok (if t <=? Z.of_nat (c * per) * n then Some t else Some u)
           end
  | _, _ => Ok units
  end.
Definition adjust_procs (w : option wres) (procs nodes gpus : option Z) : res (option Z * option Z) :=
  match w with
  | None => Ok (procs, gpus)
  | Some w => bindr (adjust w nodes gpus (w_gpus w)) (fun g => bindr (adjust w nodes procs (w_procs w)) (fun p => Ok (p, g)))
  end.

(** mpi_runner.py:157-227: procs, nodes, ppn, GPUs per node (task.ngpus_req), setting *)
Definition assign_gpus (r : runner) (w : option wres) (procs nodes ppn gpus : option Z) (matching : bool)
  : res (option Z * option Z * option Z * Z * option gpu_how) :=
  match w with
  | None => Err EAttr
  | Some w =>
      bindr (if w_has_gpus w then match w_count w with Some c => Ok (Z.of_nat (c * w_gpus w)) | None => Err EType end else Ok 0) (fun avail =>
      let local := Z.of_nat (length (w_nodes w)) in
      let n := match nodes with
               | Some n => n
               | None => match norm procs with
                         | Some x => match norm ppn with Some k => x / k | None => Z.min x local end
                         | None => local
                         end
               end in
      bindr (match gpus with
             | Some g => if n =? 0 then Err EZeroDiv else Ok (Z.min (g / n) avail)
             | None => Ok avail
             end) (fun per_node =>
      bindr (if matching then if 0 <? n * per_node then Ok (Some (n * per_node), Some per_node) else Err EExec
             else Ok (procs, ppn)) (fun pk =>
      let (procs, ppn) := pk in
      if match gpus with Some 0 => true | _ => false end then Ok (procs, Some n, ppn, per_node, None)
      else
        bindr (match ppn with
               | Some k => Ok k
               | None => match procs with None => Err EType | Some x => if n =? 0 then Err EZeroDiv else Ok (x / n) end
               end) (fun k =>
        bindr (set_gpus r w per_node k) (fun how => Ok (procs, Some n, Some k, per_node, Some how))))))
  end.

(** The specification handed to the command line. [s_mfile]: the lines of a
    machine file written by libEnsemble, or the user's own (None inside). *)
Record specs := mkSpecs {
  s_procs : option Z; s_nodes : option Z; s_ppn : option Z;
  s_hosts : option (list node); s_mfile : option (option (list node));
  s_gpus : option (Z * option gpu_how) }.

(** What the parser finds in extra_args, mpi_runner.py:56-73. *)
Definition fill (x y : option Z) : option Z := match x with None => y | Some _ => x end.
(** mpi_runner.py:75-87 *)
Definition drop (x found : option Z) : option Z := match found with Some _ => None | None => x end.

(** mpi_runner.py:279-362. [extra]: None if extra_args is empty. [cores] and
    [enforce] as in [get_resources]; [mfile]: the user gave a machine file. *)
Definition get_mpi_specs (r : runner) (w : option wres) (cores : Z) (enforce : bool)
  (procs nodes ppn gpus : option Z) (extra : option (option Z * option Z * option Z))
  (mfile auto matching : bool) : res specs :=
  let '(ep, en, ek) := match extra with Some e => e | None => (None, None, None) end in
  let procs := fill procs ep in
  let nodes := fill nodes en in
  let ppn := fill ppn ek in
  let no_config := negb (given procs || given ppn) in
  if matching && negb no_config then Err EExec else
  bindr (get_min_nodes w procs ppn nodes gpus) (fun nodes =>
  bindr (adjust_procs w procs nodes gpus) (fun pg => let (procs, gpus) := pg in
  bindr (if auto || match gpus with Some _ => true | None => false end
         then bindr (assign_gpus r w procs nodes ppn gpus (matching || no_config)) (fun x =>
                let '(a, b, k, g, h) := x in Ok (a, b, k, Some (g, h)))
         else Ok (procs, nodes, ppn, None)) (fun x =>
  let '(procs, nodes, ppn, gset) := x in
  let rm := r_rm_rpn r && match ppn, nodes with None, None => true | _, _ => false end in
  let mfile := mfile && r_mfile r in
  bindr (match mfile, w with
         | false, Some w =>
             bindr (get_resources w cores enforce procs nodes ppn) (fun t => let '(a, b, k) := t in
               match r_express r with
               | XHosts => Ok (Some a, Some b, Some k, Some (get_hostlist w b), None)
               | XMachinefile => match create_machinefile w b k with
                                 | [] => Err EExec
                                 | l => Ok (Some a, Some b, Some k, None, Some (Some l))
                                 end
               | XNothing => Ok (Some a, Some b, Some k, None, None)
               end)
         | true, _ => Ok (None, None, None, None, Some None)
         | false, None => bindr (task_partition procs nodes ppn) (fun t => let '(a, b, k) := t in Ok (Some a, Some b, Some k, None, None))
         end) (fun y =>
  let '(a, b, k, h, mf) := y in
  let k := drop k ek in
  Ok (mkSpecs (drop a ep) (drop b en) (if rm then None else k) h mf gset))))).

(** mpi_executor.py:323-327: values set by the generator for this point are the
    defaults. *)
Definition submit_specs (r : runner) (w : option wres) (cores : Z) (enforce : bool)
  (gen_procs gen_gpus procs nodes ppn gpus : option Z) (extra : option (option Z * option Z * option Z))
  (mfile auto matching : bool) : res specs :=
  get_mpi_specs r w cores enforce
    (if negb (given procs) && negb matching then gen_procs else procs) nodes ppn
    (match gpus with None => gen_gpus | Some _ => gpus end) extra mfile auto matching.
