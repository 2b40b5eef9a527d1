(** Properties of MPI task layout: C32, C51, C52, C53. *)
From Coq Require Import String.
From Verif Require Import Base BaseLemmas RsetModel RsetSpec RsetProofs RsetLayout RsetWalk RsetGroups MpiModel MpiSpec MpiProofs MpiLayout MpiGpu.
Local Notation length := List.length.
Local Open Scope Z_scope.

(** ** C32: process and node arithmetic *)

(** A decomposition is returned exactly when it is consistent, keeps what the
    user set, and enough was set to determine it. *)
Theorem C32_partition p n k P N K :
  task_partition p n k = Ok (P, N, K) <->
  completes p n k P N K /\ (isset p \/ isset n /\ isset k) /\ (~ isset n -> ~ isset k -> N = 1).
Proof. apply partition_spec. Qed.
Print Assumptions C32_partition.

(** In every other case the documented exception is raised. *)
Theorem C32_partition_raises p n k : (forall P N K, task_partition p n k <> Ok (P, N, K)) -> task_partition p n k = Err EMpi.
Proof. apply partition_err. Qed.
Print Assumptions C32_partition_raises.

Example C32_partition_example : task_partition (Some 12) None (Some 4) = Ok (12, 3, 4) /\ task_partition (Some 12) (Some 5) None = Err EMpi
  /\ task_partition None (Some 5) None = Err EMpi /\ task_partition (Some 12) (Some 4) (Some 4) = Err EMpi.
Proof. repeat split. Qed.

(** What a worker with resources adds to an incomplete request: nothing given:
    all its nodes and all its cores; only processes: one node if they fit there,
    else all nodes; only processes per node: all nodes. The core bounds hold if
    they are enforced. *)
Theorem C32_worker_defaults w cores enforce p n k P N K :
  get_resources w cores enforce p n k = Ok (P, N, K) <->
  exists c, usable w c /\ completes p n k P N K /\ N <= local w /\
    (enforce = true -> K <= cores /\ K <= core_share w cores c /\ P <= cores * local w) /\
    (~ isset p -> ~ isset k -> 0 < core_share w cores c /\ K = core_share w cores c /\ (~ isset n -> N = local w)) /\
    (isset p -> ~ isset n -> ~ isset k -> (P <= core_share w cores c -> N = 1) /\ (core_share w cores c < P -> N = local w)) /\
    (~ isset p -> isset k -> ~ isset n -> N = local w).
Proof. apply resources_spec. Qed.
Print Assumptions C32_worker_defaults.

Open Scope string_scope.
Open Scope list_scope.
Open Scope Z_scope.
(** Two nodes with two slots each. *)
Definition two_nodes := mkPlat ["a"; "b"] (Some 4%nat) [] 4 None 8.
Definition wide := mkWres ["a"; "b"] true true (Some [0; 1]%nat) (Some 2%nat) 2 4 2 true.
Example wide_view : worker_view 4 two_nodes [0; 1; 2; 3]%nat = Ok wide.
Proof. reflexivity. Qed.
Example C32_worker_defaults_example : get_resources wide 8 true None None None = Ok (16, 2, 8) /\ get_resources wide 8 true (Some 6) None None = Ok (6, 1, 6)
  /\ get_resources wide 8 true (Some 12) None None = Ok (12, 2, 6) /\ get_resources wide 8 true None None (Some 3) = Ok (6, 2, 3)
  /\ get_resources wide 8 true None None (Some 9) = Err EMpi /\ get_resources wide 8 false None None (Some 9) = Ok (18, 2, 9)
  /\ get_resources wide 8 true (Some 4) (Some 3) None = Err EMpi.
Proof. repeat split. Qed.

(** The task that is launched: processes = nodes * processes per node, no more
    nodes than the worker has, what the user set is kept (processes may be
    rounded up to the next multiple of the nodes, if its slots allow); a host list names the
    worker's first nodes, and a machine file has one line per process. *)
Theorem C32_task_layout r w cores enforce p n k g auto m s : sane p -> sane n -> sane k -> sane g ->
  get_mpi_specs r (Some w) cores enforce p n k g None false auto m = Ok s ->
  exists P N K, s_procs s = Some P /\ s_nodes s = Some N /\ (s_ppn s = Some K \/ r_rm_rpn r = true /\ s_ppn s = None) /\
    P = N * K /\ 1 <= N <= local w /\ 1 <= K /\ honours n N /\ honours k K /\
    (forall z, p = Some z -> z <> 0 -> P = z \/ rounded_up z N P /\ exists c, w_count w = Some c /\ P <= N * Z.of_nat (c * w_procs w)) /\
    (forall h, s_hosts s = Some h -> Z.of_nat (length h) = N /\ exists rest, w_nodes w = h ++ rest) /\
    (forall f, s_mfile s = Some (Some f) -> Z.of_nat (length f) = P /\
       (NoDup (w_nodes w) -> exists h rest, w_nodes w = h ++ rest /\ Z.of_nat (length h) = N /\
          forall x, (In x h -> Z.of_nat (occurs x f) = K) /\ (~ In x h -> occurs x f = 0%nat))) /\
    (r_express r = XHosts -> s_hosts s <> None) /\ (r_express r = XMachinefile -> exists f, s_mfile s = Some (Some f)).
Proof.
  intros Sp Sn Sk Sg E. destruct (specs_spec _ _ _ _ _ _ _ _ _ _ _ Sp Sn Sk Sg E) as (P & N & K & c & p1 & n1 & k1 & Hu & Hr & HN & HK & EP & EN & EK & Hn & Hk & _ & _ & _ & Hp & _ & _ & _ & EH & EM).
  apply resources_spec in Hr as (c' & _ & (Hc & _) & Hl & _).
  exists P, N, K. split; [exact EP|]. split; [exact EN|]. split; [exact EK|]. split; [exact Hc|]. split; [lia|]. split; [exact HK|]. split; [exact Hn|]. split; [exact Hk|]. split; [intros z Ez Hz; destruct (Hp z Ez Hz) as [H|(H & H')]; [left; exact H|right; split; [exact H|exists c; split; [apply Hu|exact H']]]|].
  unfold local in Hl. assert (HL : length (py_first N (w_nodes w)) = Z.to_nat N) by (apply py_first_length; lia).
  assert (Hpre : exists rest, w_nodes w = py_first N (w_nodes w) ++ rest). { unfold py_first. destruct (Z.ltb_spec N 0); [lia|]. eexists. symmetry. apply firstn_skipn. }
  split; [|split; [|split]].
  - intros h Eh. rewrite EH in Eh. destruct (r_express r); [|discriminate|discriminate]. injection Eh as <-. unfold get_hostlist. split; [lia|exact Hpre].
  - intros f Ef. rewrite EM in Ef. destruct (r_express r); [discriminate| |discriminate]. injection Ef as <-. unfold create_machinefile. split.
    + assert (X : forall l : list node, length (flat_map (fun x => repeat x (Z.to_nat K)) l) = (length l * Z.to_nat K)%nat).
      { induction l as [|y l IH]; [reflexivity|]. cbn [flat_map length]. rewrite app_length, repeat_length, IH. lia. }
      rewrite X, HL. rewrite Nat2Z.inj_mul, !Z2Nat.id by lia. lia.
    + intros Hnd. destruct Hpre as (rest & Hpre). exists (py_first N (w_nodes w)), rest. split; [exact Hpre|]. split; [lia|]. intros x.
      assert (Hnd' : NoDup (py_first N (w_nodes w))) by (unfold py_first; apply firstn_NoDup; exact Hnd).
      destruct (machinefile_spec _ (Z.to_nat K) Hnd') as (M & _). rewrite M. split.
      * intros Hx. replace (existsb (String.eqb x) (py_first N (w_nodes w))) with true; [lia|]. symmetry. apply existsb_exists. exists x. split; [exact Hx|apply String.eqb_refl].
      * intros Hx. destruct (existsb (String.eqb x) (py_first N (w_nodes w))) eqn:Ex; [|reflexivity]. apply existsb_exists in Ex as (y & Hy & Ey). apply String.eqb_eq in Ey. subst. contradiction.
  - intros Ex. rewrite EH, Ex. discriminate.
  - intros Ex. rewrite EM, Ex. eauto.
Qed.
Print Assumptions C32_task_layout.

Example C32_task_layout_example : get_mpi_specs (openmpi None) (Some wide) 8 true (Some 11) (Some 2) None None None false false false
  = Ok (mkSpecs (Some 12) (Some 2) (Some 6) None (Some (Some ["a"; "a"; "a"; "a"; "a"; "a"; "b"; "b"; "b"; "b"; "b"; "b"])) None)
  /\ get_mpi_specs (mpich None) (Some wide) 8 true (Some 3) None None None None false false false = Ok (mkSpecs (Some 3) (Some 1) (Some 3) (Some ["a"]) None None).
Proof. split; reflexivity. Qed.

Lemma sane_none : sane None. Proof. intros z E. discriminate. Qed.

(** When only a number of processes (and perhaps of GPUs) is given, the task runs
    on the fewest nodes whose slots hold them, but on no more nodes than the
    worker has and on no more nodes than there are processes. *)
Theorem C32_fewest_nodes r w cores enforce z g auto m s c : 0 < z -> sane g -> w_count w = Some c ->
  get_mpi_specs r (Some w) cores enforce (Some z) None None g None false auto m = Ok s ->
  exists M, (1 <= M /\ z <= M * Z.of_nat (c * w_procs w) /\ (forall G, g = Some G -> G <= M * Z.of_nat (c * w_gpus w))) /\
    (forall M', 1 <= M' -> z <= M' * Z.of_nat (c * w_procs w) -> (forall G, g = Some G -> G <= M' * Z.of_nat (c * w_gpus w)) -> M <= M') /\
    s_nodes s = Some (Z.min (Z.min M (local w)) z).
Proof.
  intros Hz Sg Hc E. assert (Sz : sane (Some z)) by (intros x Ex; injection Ex as <-; lia).
  assert (E0 := E). unfold get_mpi_specs in E. change (fill (Some z) None) with (Some z) in E. cbn [fill drop] in E. destruct (m && _); [discriminate|].
  destruct (get_min_nodes (Some w) (Some z) None None g) as [q0|] eqn:Eq; [|discriminate]. clear E.
  assert (Hq0 : exists q, q0 = Some q). { unfold get_min_nodes in Eq. rewrite Hc in Eq. replace (given (Some z)) with true in Eq by (destruct z; [lia|reflexivity|reflexivity]). cbn [given norm negb andb] in Eq.
    apply bindr_ok in Eq as (x & _ & Eq). apply bindr_ok in Eq as (y & _ & Eq). injection Eq as <-. eauto. }
  destruct Hq0 as (q & ->). destruct (min_nodes_least _ _ _ _ _ Hz Sg Hc Eq) as (M & A & B & C). exists M. split; [exact A|]. split; [exact B|].
  rewrite <- C. destruct (specs_spec _ _ _ _ _ _ _ _ _ _ _ Sz sane_none sane_none Sg E0) as (P & N & K & c' & p1 & n1 & k1 & (Hu & _) & _).
  apply (specs_nodes _ _ _ _ _ _ _ _ _ _ _ _ Sz sane_none sane_none Sg E0 Eq). unfold local in C. destruct (w_nodes w); [congruence|]. cbn [length] in C. lia.
Qed.
Print Assumptions C32_fewest_nodes.
Example C32_fewest_nodes_example : get_mpi_specs (mpich None) (Some wide) 8 true (Some 9) None None None None false false false = Ok (mkSpecs (Some 10) (Some 2) (Some 5) (Some ["a"; "b"]) None None)
  /\ get_mpi_specs (mpich None) (Some wide) 8 true (Some 2) None None (Some 5) None false false false = Ok (mkSpecs (Some 2) (Some 2) (Some 1) (Some ["a"; "b"]) None (Some (3, Some (GEnv [0; 1; 2]%nat)))).
Proof. split; reflexivity. Qed.

(** Counts in extra_args are taken as the user's and not repeated by libEnsemble. *)
Theorem C32_extra_args r w cores enforce p n k g ep en ek auto m :
  get_mpi_specs r w cores enforce p n k g (Some (ep, en, ek)) false auto m =
  match get_mpi_specs r w cores enforce (match p with None => ep | _ => p end) (match n with None => en | _ => n end) (match k with None => ek | _ => k end) g None false auto m with
  | Ok s => Ok (mkSpecs (if ep then None else s_procs s) (if en then None else s_nodes s) (if ek then None else s_ppn s) (s_hosts s) (s_mfile s) (s_gpus s))
  | Err e => Err e
  end.
Proof.
  unfold get_mpi_specs. set (p' := match p with None => ep | _ => p end). set (n' := match n with None => en | _ => n end). set (k' := match k with None => ek | _ => k end).
  replace (fill p ep) with p' by (destruct p; reflexivity). replace (fill n en) with n' by (destruct n; reflexivity). replace (fill k ek) with k' by (destruct k; reflexivity).
  replace (fill p' None) with p' by (destruct p'; reflexivity). replace (fill n' None) with n' by (destruct n'; reflexivity). replace (fill k' None) with k' by (destruct k'; reflexivity).
  destruct (m && _); [reflexivity|]. destruct (get_min_nodes w p' k' n' g) as [n2|]; [|reflexivity]. cbn [bindr]. destruct (adjust_procs w p' n2 g) as [[p2 g2]|]; [|reflexivity]. cbn [bindr].
  match goal with |- bindr ?x _ = _ => destruct x as [[[[p3 n3] k3] gs]|] end; [|reflexivity]. cbn [bindr andb].
  match goal with |- bindr ?x _ = _ => destruct x as [[[[[a b] c] h] mf]|] end; [|reflexivity]. cbn [bindr].
  f_equal. unfold drop. destruct ep, en, ek, (r_rm_rpn r && _); reflexivity.
Qed.
Print Assumptions C32_extra_args.
Example C32_extra_args_example : get_mpi_specs (mpich None) (Some wide) 8 true None None None None (Some (Some 12, None, None)) false false false
  = Ok (mkSpecs None (Some 2) (Some 6) (Some ["a"; "b"]) None None).
Proof. reflexivity. Qed.

(** A count of zero is not "no processes": the task runs on all cores of the worker. *)
Theorem C32_zero_procs_refuted : exists r w cores p s, p = Some 0 /\ get_mpi_specs r (Some w) cores true p None None None None false false false = Ok s /\ s_procs s <> p.
Proof. exists (mpich None), wide, 8, (Some 0). eexists. split; [reflexivity|]. split; [reflexivity|]. cbn. discriminate. Qed.
Print Assumptions C32_zero_procs_refuted.

(** A request that cannot be met does not always end in the documented exception:
    more processes per node than processes, with GPUs, is a division by zero; a
    team with unequal slots is a type error. *)
Theorem C32_exception_refuted : exists r p team w, worker_view 4 p team = Ok w /\
  get_mpi_specs r (Some w) 8 true (Some 2) None (Some 3) (Some 2) None false false false = Err EZeroDiv.
Proof. exists (mpich None), two_nodes, [0; 1]%nat. eexists. split; reflexivity. Qed.
Print Assumptions C32_exception_refuted.
Theorem C32_uneven_exception_refuted : exists r p team w, worker_view 4 p team = Ok w /\
  get_mpi_specs r (Some w) 8 true (Some 2) None None None None false false false = Err EType.
Proof. exists (mpich None), two_nodes, [0; 1; 2]%nat. eexists. split; reflexivity. Qed.
Print Assumptions C32_uneven_exception_refuted.

(** ** C51: GPUs are not shared between workers *)

Lemma env_gpus nw p t w s per ids : task_on nw p t w s -> visible_gpus s per ids -> exists on, w_on_node w = Some on /\ w_match w = true /\ ids = gpu_ids on (w_gpus w) per /\ exists c, w_count w = Some c /\ 0 <= per <= gpu_share w c.
Proof.
  intros (V & r & cores & e & a & b & k & g & au & m & Sa & Sb & Sk & Sg & E) Hv. unfold visible_gpus in Hv.
  destruct (specs_spec _ _ _ _ _ _ _ _ _ _ _ Sa Sb Sk Sg E) as (P & N & K & c & p1 & n1 & k1 & (_ & _ & Hc & _) & _ & _ & _ & _ & _ & _ & _ & _ & _ & _ & _ & _ & _ & G1 & G2 & _).
  assert (Hg : au = true \/ g <> None). { destruct au; [now left|]. destruct g; [right; discriminate|]. destruct (G1 eq_refl eq_refl) as (G & _). congruence. }
  destruct (G2 Hg) as (per' & how & E1 & E2 & _ & _ & E3). rewrite Hv in E1. injection E1 as <- <-. destruct E3 as (_ & on & H1 & H2 & H3). exists on. split; [exact H1|]. split; [exact H2|]. split; [exact H3|]. eauto.
Qed.

(** Tasks of two workers with disjoint teams never see the same GPU of a node. *)
Theorem C51_gpus_disjoint nw p t1 t2 w1 w2 s1 s2 per1 per2 ids1 ids2 x z : NoDup (p_nodes p) ->
  task_on nw p t1 w1 s1 -> task_on nw p t2 w2 s2 -> (forall i, In i t1 -> ~ In i t2) ->
  visible_gpus s1 per1 ids1 -> visible_gpus s2 per2 ids2 -> In x (w_nodes w1) -> In x (w_nodes w2) ->
  In z ids1 -> ~ In z ids2.
Proof.
  intros Hnd T1 T2 Hd V1 V2 X1 X2 Z1 Z2. destruct (env_gpus _ _ _ _ _ _ _ T1 V1) as (on1 & O1 & _ & -> & _). destruct (env_gpus _ _ _ _ _ _ _ T2 V2) as (on2 & O2 & _ & -> & _).
  destruct T1 as (T1 & _). destruct T2 as (T2 & _). exact (gpus_disjoint _ _ _ _ _ _ _ _ _ _ _ _ Hnd T1 T2 Hd X1 X2 O1 O2 Z1 Z2).
Qed.
Print Assumptions C51_gpus_disjoint.

(** A task sees as many different GPUs per node as its setting says. *)
Theorem C51_gpus_distinct nw p t w s per ids : NoDup (p_nodes p) -> NoDup t -> task_on nw p t w s -> visible_gpus s per ids ->
  NoDup ids /\ Z.of_nat (length ids) = per.
Proof.
  intros Hnd Ht T V. destruct (env_gpus _ _ _ _ _ _ _ T V) as (on & O & _ & -> & c & Hc & Hp). destruct T as (T & r & cores & e & a & b & k & g & au & m & Sa & Sb & Sk & Sg & E).
  destruct (specs_spec _ _ _ _ _ _ _ _ _ _ _ Sa Sb Sk Sg E) as (_ & _ & _ & c' & _ & _ & _ & (Hne & _) & _). destruct (w_nodes w) as [|x ns] eqn:En; [congruence|].
  assert (X : In x (w_nodes w)) by (rewrite En; now left). destruct (gpus_own _ _ _ _ _ x per Hnd T Ht X O) as (H1 & H2). split; [exact H1|].
  destruct (view_spec _ _ _ _ Hnd T) as (m0 & loc0 & _ & _ & _ & _ & _ & _ & A7 & _). destruct (A7 _ O) as (A7' & _). rewrite Hc in A7'. injection A7' as ->. rewrite H2 by exact Hp. lia.
Qed.
Print Assumptions C51_gpus_distinct.

(** The GPUs exist on the node, if the sets divide evenly over the nodes (or
    each set has nodes of its own), no group size is set and the team consists of
    GPU sets. *)
Theorem C51_gpus_exist nw p t w s per ids z : NoDup (p_nodes p) -> task_on nw p t w s -> visible_gpus s per ids ->
  p_gpus_per_group p = None -> (total_rsets nw p mod length (p_nodes p) = 0 \/ total_rsets nw p < length (p_nodes p))%nat ->
  (forall m i r, rman_init nw p = Ok m -> In i t -> nth_error (rm_rsets m) i = Some r -> rs_gpu r = true) ->
  In z ids -> (z < p_gpus_per_node p)%nat.
Proof.
  intros Hnd T V Hgg Hev Hg Hz. destruct (env_gpus _ _ _ _ _ _ _ T V) as (on & O & _ & -> & _). destruct T as (T & r & cores & e & a & b & k & g & au & m & Sa & Sb & Sk & Sg & E).
  destruct (specs_spec _ _ _ _ _ _ _ _ _ _ _ Sa Sb Sk Sg E) as (_ & _ & _ & c' & _ & _ & _ & (Hne & _) & _). destruct (w_nodes w) as [|x ns] eqn:En; [congruence|].
  assert (X : In x (w_nodes w)) by (rewrite En; now left). destruct (view_spec _ _ _ _ Hnd T) as (m0 & _ & M & _).
  eapply (gpus_exist nw p t w on x per z m0); eauto.
Qed.
Print Assumptions C51_gpus_exist.

Definition gpu_task := mkSpecs (Some 2) (Some 1) (Some 2) (Some ["a"]) None (Some (2, Some (GEnv [0; 1]%nat))).
Definition gpu_task' := mkSpecs (Some 2) (Some 1) (Some 2) (Some ["a"]) None (Some (2, Some (GEnv [2; 3]%nat))).
Lemma sane_some z : 0 <= z -> sane (Some z). Proof. intros H y E. injection E as <-. exact H. Qed.
Local Hint Resolve sane_none sane_some : core.
Example C51_example : exists w w', task_on 4 two_nodes [0]%nat w gpu_task /\ task_on 4 two_nodes [1]%nat w' gpu_task' /\
  visible_gpus gpu_task 2 [0; 1]%nat /\ visible_gpus gpu_task' 2 [2; 3]%nat /\ In "a" (w_nodes w) /\ In "a" (w_nodes w').
Proof.
  eexists. eexists. split; [split; [vm_compute; reflexivity|]|split; [split; [vm_compute; reflexivity|]|]].
  - exists (mpich None), 8, true, None, None, None, None, true, false. repeat (split; [apply sane_none|]). reflexivity.
  - exists (mpich None), 8, true, None, None, None, None, true, false. repeat (split; [apply sane_none|]). reflexivity.
  - split; [reflexivity|]. split; [reflexivity|]. split; left; reflexivity.
Qed.
Example C51_exist_example : (total_rsets 4 two_nodes mod length (p_nodes two_nodes) = 0)%nat /\ exists m, rman_init 4 two_nodes = Ok m /\ forall i r, In i [0]%nat -> nth_error (rm_rsets m) i = Some r -> rs_gpu r = true.
Proof. split; [reflexivity|]. eexists. split; [reflexivity|]. intros i r [<-|[]] E. injection E as <-. reflexivity. Qed.

(** The numbers can name a GPU that does not exist when the nodes are unequal: 7
    sets on 3 nodes of 2 GPUs; the worker with a set of the third node, a GPU set,
    is given GPU 2. *)
Definition uneven := mkPlat ["a"; "b"; "c"] (Some 7%nat) [] 2 None 8.
Definition uneven_task := mkSpecs (Some 1) (Some 1) (Some 1) (Some ["c"]) None (Some (1, Some (GEnv [2]%nat))).
Theorem C51_uneven_refuted : exists nw p t w s per ids z m, NoDup (p_nodes p) /\ task_on nw p t w s /\ visible_gpus s per ids /\ p_gpus_per_group p = None /\
  rman_init nw p = Ok m /\ (forall i r, In i t -> nth_error (rm_rsets m) i = Some r -> rs_gpu r = true) /\ In z ids /\ (p_gpus_per_node p <= z)%nat.
Proof.
  destruct (rman_init 7 uneven) as [m|] eqn:Em; [|discriminate]. exists 7%nat, uneven, [5]%nat. eexists. exists uneven_task, 1, [2]%nat, 2%nat, m.
  split; [repeat constructor; cbn; intuition discriminate|]. split; [split; [vm_compute; reflexivity|]|].
  - exists (mpich None), 8, true, None, None, None, None, true, false. repeat (split; [apply sane_none|]). reflexivity.
  - split; [reflexivity|]. split; [reflexivity|]. split; [exact Em|]. vm_compute in Em. injection Em as <-. split; [|split; [now left|cbn; lia]]. intros i r [<-|[]] E. injection E as <-. reflexivity.
Qed.
Print Assumptions C51_uneven_refuted.

(** The same happens for a team whose first set is a GPU set and another is not,
    on equal nodes: one node, 4 sets, 2 GPUs, team 1, 2, 3. *)
Definition mixed := mkPlat ["a"] (Some 4%nat) [] 2 None 8.
Definition mixed_task := mkSpecs (Some 3) (Some 1) (Some 3) (Some ["a"]) None (Some (3, Some (GEnv [1; 2; 3]%nat))).
Theorem C51_mixed_team_refuted : exists nw p t w s per ids z, NoDup (p_nodes p) /\ NoDup t /\ task_on nw p t w s /\ visible_gpus s per ids /\ p_gpus_per_group p = None /\
  (total_rsets nw p mod length (p_nodes p) = 0)%nat /\ In z ids /\ (p_gpus_per_node p <= z)%nat.
Proof.
  exists 4%nat, mixed, [1; 2; 3]%nat. eexists. exists mixed_task, 3, [1; 2; 3]%nat, 3%nat.
  split; [repeat constructor; cbn; intuition discriminate|]. split; [repeat constructor; cbn; intuition discriminate|]. split; [split; [vm_compute; reflexivity|]|].
  - exists (mpich None), 8, true, None, None, None, None, true, false. repeat (split; [apply sane_none|]). reflexivity.
  - split; [reflexivity|]. split; [reflexivity|]. split; [reflexivity|]. split; [cbn; auto|cbn; lia].
Qed.
Print Assumptions C51_mixed_team_refuted.

(** ** C52: no core is oversubscribed *)

(** For any number of workers with disjoint teams, each running one task, the
    ranks that the tasks place on a node are no more than its cores, provided each
    task has its core bounds enforced or left the numbers to libEnsemble. *)
Theorem C52_no_oversubscription nw p cores l x : NoDup (p_nodes p) -> NoDup (concat (map fst l)) -> 0 <= cores ->
  (forall team s, In (team, s) l -> bounded_task nw p cores team s) -> all_ranks x (map snd l) <= cores.
Proof. apply no_oversubscription. Qed.
Print Assumptions C52_no_oversubscription.

Definition cpu_task := mkSpecs (Some 8) (Some 1) (Some 8) (Some ["a"]) None None.
Definition cpu_half := mkSpecs (Some 4) (Some 1) (Some 4) (Some ["b"]) None None.
Example C52_example : (forall team s, In (team, s) [([0; 1]%nat, cpu_task); ([2]%nat, cpu_half); ([3]%nat, cpu_half)] -> bounded_task 4 two_nodes 8 team s) /\
  all_ranks "a" [cpu_task; cpu_half; cpu_half] = 8 /\ all_ranks "b" [cpu_task; cpu_half; cpu_half] = 8.
Proof.
  split; [|split; reflexivity]. intros team s [E|[E|[E|[]]]]; injection E as <- <-; eexists; exists (mpich None), false, None, None, None, None, false, false;
  (split; [vm_compute; reflexivity|]); repeat (split; [apply sane_none|]); (split; [reflexivity|]); right; repeat split; auto; intros (z & E & _); discriminate.
Qed.

(** Without the bounds a task may: 20 processes on 8 cores. *)
Theorem C52_unbounded_refuted : exists nw p team w cores s, worker_view nw p team = Ok w /\
  get_mpi_specs (mpich None) (Some w) cores false (Some 20) None None None None false false false = Ok s /\ exists x, cores < ranks x s.
Proof. exists 4%nat, two_nodes, [0; 1]%nat. eexists. exists 8. eexists. split; [reflexivity|]. split; [reflexivity|]. exists "a". reflexivity. Qed.
Print Assumptions C52_unbounded_refuted.

(** ** C53: the number of GPUs of a task *)

(** With a GPU request (or auto assignment) the task is told to use, on each of
    its nodes, its share of the request, at most what its worker has there; with
    no process counts it runs one process per GPU. [G'] is the request, or the
    request rounded up to a multiple of the nodes. *)
Theorem C53_gpu_count r w cores enforce p n k g auto m s : sane p -> sane n -> sane k -> sane g ->
  get_mpi_specs r (Some w) cores enforce p n k g None false auto m = Ok s -> auto = true \/ g <> None ->
  exists P N K c per how, usable w c /\ s_procs s = Some P /\ s_nodes s = Some N /\ P = N * K /\ s_gpus s = Some (per, how) /\
    0 <= per <= gpu_share w c /\
    match g with
    | None => per = gpu_share w c
    | Some G => exists G', (G' = G \/ rounded_up G N G') /\ per = Z.min (G' / N) (gpu_share w c)
    end /\
    (~ isset p -> ~ isset k -> K = per /\ P = N * per) /\
    match how with
    | None => g = Some 0
    | Some (GEnv _) => g <> Some 0
    | Some (GOpt PerNode v) => v = per
    | Some (GOpt PerTask v) => v = per / K
    end.
Proof.
  intros Sp Sn Sk Sg E Hg. destruct (specs_spec _ _ _ _ _ _ _ _ _ _ _ Sp Sn Sk Sg E) as (P & N & K & c & p1 & n1 & k1 & Hu & Hr & _ & _ & EP & EN & _ & _ & _ & _ & _ & _ & _ & _ & _ & G2 & _).
  apply resources_spec in Hr as (c' & _ & (Hc & _) & _). destruct (G2 Hg) as (per & how & E1 & E2 & E3 & E4 & E5).
  exists P, N, K, c, per, how. split; [exact Hu|]. split; [exact EP|]. split; [exact EN|]. split; [exact Hc|]. split; [exact E1|]. split; [exact E2|]. split; [exact E3|].
  split; [intros H1 H2; specialize (E4 H1 H2); subst; auto|]. destruct how as [[ids|[] v]|]; cbn in E5; intuition.
Qed.
Print Assumptions C53_gpu_count.
Example C53_example : get_mpi_specs (srun None) (Some wide) 8 true None None None (Some 6) None false false false = Ok (mkSpecs (Some 6) (Some 2) (Some 3) (Some ["a"; "b"]) None (Some (3, Some (GOpt PerTask 1))))
  /\ get_mpi_specs (mpich None) (Some wide) 8 true (Some 8) (Some 2) None (Some 3) None false false false = Ok (mkSpecs (Some 8) (Some 2) (Some 4) (Some ["a"; "b"]) None (Some (2, Some (GEnv [0; 1]%nat)))).
Proof. split; reflexivity. Qed.

(** Counts attached to the point by the generator hold unless the simulation
    sets its own. *)
Theorem C53_generator_counts r w cores enforce G s n : sane G -> sane n ->
  submit_specs r (Some w) cores enforce None G None n None None None false false false = Ok s -> G <> None ->
  exists N c per how, s_nodes s = Some N /\ usable w c /\ s_gpus s = Some (per, how) /\
    forall g, G = Some g -> exists g', (g' = g \/ rounded_up g N g') /\ per = Z.min (g' / N) (gpu_share w c) /\ s_procs s = Some (N * per).
Proof.
  intros Sg Sn E HG. unfold submit_specs in E. cbn [given norm negb andb] in E.
  destruct (C53_gpu_count _ _ _ _ _ _ _ _ _ _ _ sane_none Sn sane_none Sg E (or_intror HG)) as (P & N & K & c & per & how & Hu & EP & EN & Hc & E1 & E2 & E3 & E4 & _).
  exists N, c, per, how. split; [exact EN|]. split; [exact Hu|]. split; [exact E1|]. intros g ->. destruct E3 as (g' & H1 & H2). exists g'. split; [exact H1|]. split; [exact H2|].
  destruct E4 as (_ & E4); [intros (z & Ez & _); discriminate|intros (z & Ez & _); discriminate|]. congruence.
Qed.
Print Assumptions C53_generator_counts.
Theorem C53_generator_procs r w cores enforce P n s : sane P -> sane n ->
  submit_specs r (Some w) cores enforce P None None n None None None false false false = Ok s ->
  forall z, P = Some z -> z <> 0 -> exists N q, s_nodes s = Some N /\ s_procs s = Some q /\ (q = z \/ rounded_up z N q).
Proof.
  intros Sp Sn E z -> Hz. unfold submit_specs in E. cbn [given norm negb andb] in E.
  destruct (C32_task_layout _ _ _ _ _ _ _ _ _ _ _ Sp Sn sane_none sane_none E) as (q & N & K & EP & EN & _ & _ & _ & _ & _ & _ & H & _). exists N, q. split; [exact EN|]. split; [exact EP|]. destruct (H z eq_refl Hz) as [X|(X & _)]; auto.
Qed.
Print Assumptions C53_generator_procs.
Example C53_generator_example : submit_specs (mpich None) (Some wide) 8 true (Some 5) None None None None None None false false false = Ok (mkSpecs (Some 5) (Some 1) (Some 5) (Some ["a"]) None None)
  /\ submit_specs (mpich None) (Some wide) 8 true (Some 5) (Some 2) (Some 3) None None (Some 1) None false false false = Ok (mkSpecs (Some 3) (Some 1) (Some 3) (Some ["a"]) None (Some (1, Some (GEnv [0]%nat)))).
Proof. split; reflexivity. Qed.

(** More ranks than GPUs on a node: with srun the option reads 0 GPUs per task,
    though the request was for 3 on each node. *)
Theorem C53_per_task_zero_refuted : exists r w cores p g s per, get_mpi_specs r (Some w) cores true p None None g None false false false = Ok s /\
  s_gpus s = Some (per, Some (GOpt PerTask 0)) /\ 0 < per.
Proof. exists (srun None), wide, 8, (Some 12), (Some 5). eexists. exists 3. split; [reflexivity|]. split; [reflexivity|lia]. Qed.
Print Assumptions C53_per_task_zero_refuted.

(** A platform that names the GPU option itself is refused by a runner without a
    default for it: the default is looked up before it is known to be needed. *)
Theorem C53_platform_option_refuted : exists w cores o, get_mpi_specs (mpich (Some (POpt o true))) (Some w) cores true None None None (Some 2) None false false false = Err EExec /\
  exists s, get_mpi_specs (mpich (Some PEnv)) (Some w) cores true None None None (Some 2) None false false false = Ok s.
Proof. exists wide, 8, PerNode. split; [reflexivity|]. eexists. reflexivity. Qed.
Print Assumptions C53_platform_option_refuted.
