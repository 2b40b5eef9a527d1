(** C79, second part: the numbers of a node and the MPI runner. *)
From Coq Require Import Ascii String.
From Verif Require Import Base BaseLemmas TextModel TextProofs EnvModel PlatformModel PropsPlatform.
Local Open Scope nat_scope.
Local Notation length := List.length.

(** ** Detection *)

(** [k] is the least of the numbers that satisfy [P] *)
Definition least (P : nat -> Prop) (k : nat) : Prop := P k /\ forall j, P j -> k <= j.
(** how often compute node [n] is named in the list *)
Definition named_times (t : text) (k : nat) : Prop := exists n, In n (words t []) /\ contains (T "batch") n = false /\ k = countb (teqb n) (filter compute (words t [])).
(** the short form names compute node and number of cores in turn *)
Definition listed_cores (t : text) (k : nat) : Prop := exists n c, In (n, c) (pairs (words t [])) /\ contains (T "batch") n = false /\ int_of c = Ok k.

Lemma fold_min l : forall x, In (fold_left Nat.min l x) (x :: l) /\ forall y, In y (x :: l) -> fold_left Nat.min l x <= y.
Proof.
  induction l as [|z l IH]; intros x; cbn [fold_left]; [split; [now left|intros y [<-|[]]; lia]|]. destruct (IH (Nat.min x z)) as [A B]. split.
  - destruct A as [A|A]; [|now right; right]. rewrite <- A. destruct (Nat.min_dec x z) as [->| ->]; [now left|right; now left].
  - intros y [<-|[<-|H]]; [pose proof (B _ (or_introl eq_refl)); lia|pose proof (B _ (or_introl eq_refl)); lia|apply B; now right].
Qed.
Lemma minr_least l k (P : nat -> Prop) : minr l = Ok k -> (forall j, In j l <-> P j) -> least P k.
Proof. destruct l as [|x l]; [discriminate|]. intros [= <-] H. destruct (fold_min l x) as [A B]. split; [now apply H|]. intros j J. apply B, H, J. Qed.
Lemma counts_in l k : In k (counts l) <-> exists n, In n l /\ k = countb (teqb n) l.
Proof.
  unfold counts. rewrite in_map_iff. unfold unique. split; intros (n & A & B); exists n.
  - split; auto. now apply nubs_In in B as [B _].
  - split; auto. apply nubs_In. split; auto.
Qed.
Lemma mapr_forall2 {A B} (f : A -> res B) : forall l r, mapr f l = Ok r -> Forall2 (fun a b => f a = Ok b) l r.
Proof.
  induction l as [|a l IH]; cbn; intros r E; [injection E as <-; constructor|]. destruct (f a) as [b|] eqn:F; [|discriminate]. cbn in E.
  destruct (mapr f l) as [bs|]; [|discriminate]. cbn in E. injection E as <-. constructor; auto.
Qed.
Lemma forall2_in {A B} (R : A -> B -> Prop) l r : Forall2 R l r -> (forall b, In b r -> exists a, In a l /\ R a b) /\ (forall a, In a l -> exists b, In b r /\ R a b).
Proof.
  induction 1 as [|a b l r H H' [I1 I2]]; [split; intros ? []|]. split.
  - intros x [<-|X]; [exists a; split; auto; now left|destruct (I1 x X) as (y & Y & Z); exists y; split; auto; now right].
  - intros x [<-|X]; [exists b; split; auto; now left|destruct (I2 x X) as (y & Y & Z); exists y; split; auto; now right].
Qed.

(** The first tool that answers decides: a zero is an answer too. *)
Theorem C79_first_tool : forall answers n, get_num_gpus answers = Some n <-> exists before after, answers = before ++ Some n :: after /\ Forall (fun a => a = None) before.
Proof.
  induction answers as [|[x|] l IH]; intros n; cbn.
  - split; [discriminate|]. intros (b & a & H & _). destruct b; discriminate.
  - split; [intros [= <-]; now exists [], l|]. intros (b & a & H & F). destruct b as [|y b]; [now injection H as ->|]. injection H as <- H. inversion F; discriminate.
  - rewrite IH. split; intros (b & a & H & F).
    + exists (None :: b), a. split; [now rewrite H|now constructor].
    + destruct b as [|y b]; [discriminate|]. injection H as <- H. exists b, a. split; auto. now inversion F.
Qed.
Print Assumptions C79_first_tool.
Example C79_first_tool_applies : get_num_gpus [None; Some 0; Some 4] = Some 0. Proof. reflexivity. Qed.

(** What is found out about a node. Numbers in the environment come first: the
    cores from LSF (the least number of times that a compute node is named, or the
    least number listed), the GPUs from Slurm. What is not there comes from a probe
    job, if the detection is remote, and from this node otherwise; what remains
    unknown is 0. *)
Definition cores_found (m : machine) (remote : bool) (p l : nat) : Prop :=
  match m_lsf m, m_lsf_short m with
  | Some t, _ => p = l /\ least (named_times t) p
  | None, Some t => p = l /\ least (listed_cores t) p
  | None, None =>
      if remote then exists a b g rest t, m_probe m = Ok t /\ words t [] = a :: b :: g :: rest /\
        ((int_of a = Ok p /\ int_of b = Ok l) \/ (p = 0 /\ l = 0 /\ ((exists e, int_of a = Err e) \/ (exists e, int_of b = Err e))))
      else (m_physical m = Some p \/ m_physical m = None /\ p = 0) /\ (m_logical m = Some l \/ m_logical m = None /\ l = 0)
  end.
Definition gpus_found (m : machine) (remote : bool) (n : nat) : Prop :=
  match (if m_slurm m then m_slurm_gpus m else None) with
  | Some t => int_of t = Ok n
  | None =>
      if remote then exists a b g rest t, m_probe m = Ok t /\ words t [] = a :: b :: g :: rest /\ (int_of g = Ok n \/ (n = 0 /\ exists e, int_of g = Err e))
      else get_num_gpus (m_gpu_answers m) = Some n \/ get_num_gpus (m_gpu_answers m) = None /\ n = 0
  end.
Lemma cpus_env_least m c : cpus_from_env (m_lsf m) (m_lsf_short m) = Ok (Some c) -> forall remote, cores_found m remote c c.
Proof.
  unfold cpus_from_env, cores_found. intros E remote. destruct (m_lsf m) as [t|]; [|destruct (m_lsf_short m) as [t|]; [|discriminate]]; (split; [reflexivity|]).
  - destruct (minr (counts _)) as [k|] eqn:M; cbn in E; [|discriminate]. injection E as <-. apply (minr_least _ _ _ M). intros j. rewrite counts_in. unfold named_times.
    split; intros (n & A & B); exists n.
    + apply filter_In in A as [A1 A2]. split; auto. split; auto. unfold compute in A2. now destruct (contains _ n).
    + destruct B as [B1 B2]. split; auto. apply filter_In. split; auto. unfold compute. now rewrite B1.
  - destruct (mapr int_of _) as [l|] eqn:L; cbn in E; [|discriminate]. destruct (minr l) as [k|] eqn:M; cbn in E; [|discriminate]. injection E as <-.
    apply (minr_least _ _ _ M). intros j. destruct (forall2_in _ _ _ (mapr_forall2 _ _ _ L)) as [I1 I2]. unfold listed_cores. split.
    + intros J. destruct (I1 j J) as (x & X & Y). apply in_map_iff in X as ([n c] & <- & X). apply filter_In in X as [X1 X2]. exists n, c. split; auto. split; auto.
      cbn in X2. unfold compute in X2. now destruct (contains _ n).
    + intros (n & x & A & B & C). destruct (I2 x) as (y & Y & Z); [|congruence].
      apply in_map_iff. exists (n, x). split; auto. apply filter_In. split; auto. cbn. unfold compute. now rewrite B.
Qed.
Lemma zero_or o : o = Some (zero o) \/ o = None /\ zero o = 0. Proof. destruct o; cbn; auto. Qed.
Lemma cpus_env_none m : cpus_from_env (m_lsf m) (m_lsf_short m) = Ok None -> m_lsf m = None /\ m_lsf_short m = None.
Proof.
  unfold cpus_from_env. destruct (m_lsf m) as [t|]; [destruct (minr _); discriminate|]. destruct (m_lsf_short m) as [t|]; auto.
  destruct (mapr _ _) as [l|]; cbn; [|discriminate]. destruct (minr l); discriminate.
Qed.
Theorem C79_detected : forall m remote p l g, get_sub_node m remote = Ok (p, l, g) -> cores_found m remote p l /\ gpus_found m remote g.
Proof.
  intros m remote p l g. unfold get_sub_node. destruct (cpus_from_env (m_lsf m) (m_lsf_short m)) as [cpu|] eqn:C; cbn [bindr]; [|discriminate].
  destruct (get_gpus_from_env (m_slurm m) (m_slurm_gpus m)) as [gpu|] eqn:G; cbn [bindr]; [|discriminate].
  assert (C1 : forall c, cpu = Some c -> cores_found m remote c c) by (intros c ->; now apply cpus_env_least).
  assert (C0 : cpu = None -> m_lsf m = None /\ m_lsf_short m = None) by (intros ->; now apply cpus_env_none).
  assert (G1 : forall n, gpu = Some n -> gpus_found m remote n).
  { intros n ->. unfold get_gpus_from_env in G. unfold gpus_found. destruct (m_slurm m); [|discriminate]. destruct (m_slurm_gpus m) as [t|]; [|discriminate].
    destruct (int_of t) as [x|]; cbn in G; [|discriminate]. now injection G as ->. }
  assert (G0 : gpu = None -> (if m_slurm m then m_slurm_gpus m else None) = None).
  { intros ->. unfold get_gpus_from_env in G. destruct (m_slurm m); auto. destruct (m_slurm_gpus m) as [t|]; auto. destruct (int_of t); discriminate. }
  clear C G. assert (K : (exists c n, cpu = Some c /\ gpu = Some n) \/ (cpu = None \/ gpu = None)) by (destruct cpu, gpu; eauto).
  destruct K as [(c & n & -> & ->)|K]; [intros [= <- <- <-]; auto|].
  replace (match cpu with Some c => match gpu with Some g0 => Ok (c, c, g0) | None => _ end | None => _ end) with
    (if remote then
        bindr (m_probe m) (fun t => bindr (read_probe t) (fun r =>
          let (p, l) := match cpu with Some c => (c, c) | None => match fst r with Some (p, l) => (p, l) | None => (0, 0) end end in
          Ok (p, l, zero (match gpu with Some g => Some g | None => snd r end))))
      else
        let (p, l) := match cpu with Some c => (c, c) | None => (zero (m_physical m), zero (m_logical m)) end in
        Ok (p, l, zero (match gpu with Some g => Some g | None => get_num_gpus (m_gpu_answers m) end))) by (destruct cpu, gpu; auto; destruct K; discriminate).
  clear K. destruct remote.
  - destruct (m_probe m) as [t|] eqn:Pr; cbn [bindr]; [|discriminate]. unfold read_probe. destruct (words t []) as [|a [|b [|gg rest]]] eqn:W; cbn [bindr]; try discriminate.
    cbn [fst snd]. intros E. split.
    + destruct cpu as [c|]; [injection E as <- <- _; auto|]. destruct (C0 eq_refl) as [L1 L2]. unfold cores_found. rewrite L1, L2. exists a, b, gg, rest, t. split; auto. split; auto.
      destruct (int_of a) as [x|], (int_of b) as [y|]; cbn in E; injection E as <- <- _; eauto 6.
    + destruct gpu as [n|].
      * destruct cpu as [c|]; [injection E as _ _ <-; now apply G1|]. destruct (ok_of (int_of a)), (ok_of (int_of b)); injection E as _ _ <-; now apply G1.
      * unfold gpus_found. rewrite (G0 eq_refl). exists a, b, gg, rest, t. split; auto. split; auto. assert (Eg : zero (ok_of (int_of gg)) = g).
        { destruct cpu as [c|]; [now injection E|]. destruct (ok_of (int_of a)), (ok_of (int_of b)); now injection E. }
        destruct (int_of gg); cbn in Eg; subst; eauto.
  - intros E. split.
    + destruct cpu as [c|]; [injection E as <- <- _; auto|]. destruct (C0 eq_refl) as [L1 L2]. unfold cores_found. rewrite L1, L2. injection E as <- <- _. split; apply zero_or.
    + assert (Eg : zero (match gpu with Some g => Some g | None => get_num_gpus (m_gpu_answers m) end) = g) by (destruct cpu; now injection E).
      destruct gpu as [n|]; [cbn in Eg; subst; auto|]. unfold gpus_found. rewrite (G0 eq_refl). rewrite <- Eg. apply zero_or.
Qed.
Print Assumptions C79_detected.
(** Hypotheses met: LSF with a batch node and compute nodes of 2 and 3 cores; a probe that finds 64 cores and no GPU tool *)
Definition m_ex1 : machine := mkMachine false None (Some (T "batch1 n1 n1 n2 n2 n2")) None (Ok []) (Some 8) (Some 16) [None; Some 4].
Definition m_ex2 : machine := mkMachine true None None None (Ok (T "64 128 None")) (Some 8) (Some 16) [Some 4].
Example C79_detected_applies : get_sub_node m_ex1 false = Ok (2, 2, 4) /\ get_sub_node m_ex2 true = Ok (64, 128, 0).
Proof. split; vm_compute; reflexivity. Qed.

(** ** The numbers of a node *)

(** the number of cores that the user states, or the platform if the user states
    none at all; [phys]: physical cores (else logical) *)
Definition told_cores (phys : bool) (ucores : option (option nat * option nat)) (d : dict) : option nat :=
  match ucores with
  | Some (a, b) => if phys then a else b
  | None => get_nat d (if phys then Cores else LogicalCores)
  end.
(** the number of GPUs that the user states, else the platform, 0 counting as not stated *)
Inductive told_gpus (ugpus : option nat) (d : dict) : nat -> Prop :=
| gpus_user n : ugpus = Some n -> n > 0 -> told_gpus ugpus d n
| gpus_platform n : (ugpus = None \/ ugpus = Some 0) -> get_nat d Gpus = Some n -> n > 0 -> told_gpus ugpus d n.
(** tiles that count as GPUs *)
Definition per_gpu (tiles : bool) (d : dict) (ze k : nat) : Prop :=
  if tiles then (exists n, get_nat d Tiles = Some (S n) /\ k = S n) \/ ((get_nat d Tiles = None \/ get_nat d Tiles = Some 0) /\ k = ze) else k = 1.

Lemma per_gpu_is tiles d ze : per_gpu tiles d ze (if tiles then zero (por (get_nat d Tiles) (Some ze)) else 1).
Proof. unfold per_gpu. destruct tiles; auto. destruct (get_nat d Tiles) as [[|n]|]; cbn; eauto. Qed.
Lemma per_gpu_unique tiles d ze a b : per_gpu tiles d ze a -> per_gpu tiles d ze b -> a = b.
Proof. unfold per_gpu. destruct tiles; [|congruence]. intros [(n & A & ->)|[[A|A] ->]] [(k & B & ->)|[[B|B] ->]]; congruence. Qed.
Lemma told_por u d n : told_gpus u d n -> por u (get_nat d Gpus) = Some n.
Proof. intros [k -> H|k [-> | ->] -> H]; auto. cbn. destruct k; [lia|reflexivity]. Qed.

(** Each number that is told (and not 0) is used as it was told, and each number that
    is not told is the detected one. *)
Theorem C79_node_numbers : forall ucores ugpus d tiles ze remote m p l g, node_numbers ucores ugpus d tiles ze remote m = Ok (p, l, g) ->
  (forall n, told_cores true ucores d = Some n -> n > 0 -> p = n) /\
  (forall n, told_cores false ucores d = Some n -> n > 0 -> l = n) /\
  (forall n k, told_gpus ugpus d n -> per_gpu tiles d ze k -> g = n * k) /\
  (told_cores true ucores d = None -> exists l' g', get_sub_node m remote = Ok (p, l', g')) /\
  (told_cores false ucores d = None -> exists p' g', get_sub_node m remote = Ok (p', l, g')) /\
  ((ugpus = None \/ ugpus = Some 0) -> get_nat d Gpus = None -> exists p' l' g' k, get_sub_node m remote = Ok (p', l', g') /\ per_gpu tiles d ze k /\ g = g' * k).
Proof.
  intros ucores ugpus d tiles ze remote m p l g E. unfold node_numbers in E. pose proof (per_gpu_is tiles d ze) as K.
  set (k0 := if tiles then zero (por (get_nat d Tiles) (Some ze)) else 1) in *. clearbody k0.
  set (a := told_cores true ucores d). set (b := told_cores false ucores d).
  assert (EC : match ucores with Some c => c | None => (get_nat d Cores, get_nat d LogicalCores) end = (a, b)) by (unfold a, b, told_cores; destruct ucores as [[x y]|]; reflexivity).
  rewrite EC in E. clearbody a b. clear EC.
  assert (GT : forall n, told_gpus ugpus d n -> por ugpus (get_nat d Gpus) = Some n /\ n > 0) by (intros n H; split; [now apply told_por|now destruct H]).
  assert (GN : (ugpus = None \/ ugpus = Some 0) -> get_nat d Gpus = None -> por ugpus (get_nat d Gpus) = None) by (intros [-> | ->] ->; reflexivity).
  set (gp := por ugpus (get_nat d Gpus)) in *. clearbody gp.
  assert (KU : forall k, per_gpu tiles d ze k -> k = k0) by (intros k H; exact (per_gpu_unique _ _ _ _ _ H K)).
  assert (D : (exists x y z, a = Some x /\ b = Some y /\ gp = Some z /\ p = x /\ l = y /\ g = z * k0) \/
              (exists p' l' g', get_sub_node m remote = Ok (p', l', g') /\
                 p = (match a, b with Some x, Some _ => x | _, _ => if falsy a then p' else zero a end) /\
                 l = (match a, b with Some _, Some y => y | _, _ => if falsy b then l' else zero b end) /\
                 g = (if falsy gp then g' else zero gp) * k0)).
  { destruct a as [x|], b as [y|], gp as [z|]; try (left; exists x, y, z; cbn in E; injection E as <- <- <-; auto 8; fail); right;
      destruct (get_sub_node m remote) as [[[p' l'] g']|] eqn:S0; cbn in E; try discriminate; exists p', l', g'; (split; [reflexivity|]);
      injection E as <- <- <-; auto. }
  destruct D as [(x & y & z & -> & -> & EG & -> & -> & ->)|(p' & l' & g' & S0 & -> & -> & ->)].
  - repeat split; try discriminate.
    + now intros n [= ->].
    + now intros n [= ->].
    + intros n k H1 H2. destruct (GT n H1) as [H3 _]. rewrite (KU k H2). congruence.
    + intros H1 H2. rewrite (GN H1 H2) in EG. discriminate.
  - repeat split.
    + intros n -> H. destruct b, n; cbn; auto; lia.
    + intros n -> H. destruct a, n; cbn; auto; lia.
    + intros n k H1 H2. destruct (GT n H1) as [-> H4]. rewrite (KU k H2). destruct n; cbn; auto; lia.
    + intros ->. cbn. now exists l', g'.
    + intros ->. exists p', g'. now destruct a.
    + intros H1 H2. rewrite (GN H1 H2). cbn. now exists p', l', g', k0.
Qed.
Print Assumptions C79_node_numbers.
Example C79_node_numbers_applies : node_numbers (Some (Some 4, None)) (Some 2) aurora true 1 false m_ex2 = Ok (4, 16, 4).
Proof. vm_compute. reflexivity. Qed.

(** If everything is told, nothing is detected: no probe job runs, whatever the machine. *)
Theorem C79_no_probe : forall ucores ugpus d tiles ze remote m p l n k, told_cores true ucores d = Some p -> told_cores false ucores d = Some l ->
  told_gpus ugpus d n -> per_gpu tiles d ze k -> node_numbers ucores ugpus d tiles ze remote m = Ok (p, l, n * k).
Proof.
  intros ucores ugpus d tiles ze remote m p l n k A B G K. unfold node_numbers. rewrite (told_por _ _ _ G), (per_gpu_unique _ _ _ _ _ K (per_gpu_is tiles d ze)).
  destruct ucores as [[x y]|]; cbn in A, B; subst; [reflexivity|]. now rewrite A, B.
Qed.
Print Assumptions C79_no_probe.
Example C79_no_probe_applies : node_numbers None None polaris false 1 true (mkMachine false None None None (Err EValue) None None []) = Ok (32, 64, 4).
Proof. vm_compute. reflexivity. Qed.

(** A user who says that the nodes have no GPUs is not heard: the number of the
    platform, or the detected one, is used. *)
Theorem C79_zero_gpus_refuted : (exists d m p l g, node_numbers (Some (Some 8, Some 16)) (Some 0) d false 1 false m = Ok (p, l, g) /\ get_nat d Gpus = Some 4 /\ g = 4) /\
  (exists m p l g, node_numbers (Some (Some 8, Some 16)) (Some 0) no_keys false 1 false m = Ok (p, l, g) /\ g = 4).
Proof. split; [exists polaris, m_ex1|exists m_ex1]; exists 8, 16, 4; repeat split. Qed.
Print Assumptions C79_zero_gpus_refuted.
(** A platform without GPUs is not believed either when a number of cores is missing. *)
Theorem C79_zero_platform_refuted : exists d p l g, get_nat d Gpus = Some 0 /\ node_numbers None None d false 1 false m_ex1 = Ok (p, l, g) /\ g = 4.
Proof. exists (of_list [(Gpus, VN 0); (Cores, VN 8)]), 8, 2, 4. repeat split. Qed.
Print Assumptions C79_zero_platform_refuted.
(** A user who states only one of the two numbers of cores loses the other one of the
    platform: it is detected instead. *)
Theorem C79_half_cores_refuted : exists p l g, node_numbers (Some (None, Some 64)) None polaris false 1 false m_ex2 = Ok (p, l, g) /\
  get_nat polaris Cores = Some 32 /\ p = 8.
Proof. exists 8, 64, 4. repeat split. Qed.
Print Assumptions C79_half_cores_refuted.

(** ** The scheduler's match_slots and the MPI runner *)

(** match_slots: the user's, else the platform's *)
Theorem C79_match_slots : forall d o, update_match_slots d o = match o with Some v => Some v | None => d MatchSlots end.
Proof. intros d [v|]; auto. unfold update_match_slots. destruct (truthy d) eqn:H; auto. now rewrite (truthy_no d H). Qed.
Print Assumptions C79_match_slots.
Example C79_match_slots_applies : update_match_slots frontier None = Some (Some (VB false)) /\ update_match_slots frontier (Some (Some (VB true))) = Some (Some (VB true)).
Proof. now split. Qed.

(** the first of three wishes that is not empty *)
Definition first3 (a b c r : option text) : Prop :=
  (exists t, a = Some t /\ t <> [] /\ r = a) \/ (blank a /\ exists t, b = Some t /\ t <> [] /\ r = b) \/ (blank a /\ blank b /\ r = c).
Lemma tor_first a b c : first3 a b c (tor (tor a b) c).
Proof.
  unfold first3, tor. destruct a as [[|x a]|]; cbn [nonempty].
  - destruct b as [[|y b]|]; cbn [nonempty]; [right; right|right; left|right; right]; unfold blank; repeat split; auto. exists (y :: b). repeat split; auto. discriminate.
  - left. exists (x :: a). repeat split; auto. discriminate.
  - destruct b as [[|y b]|]; cbn [nonempty]; [right; right|right; left|right; right]; unfold blank; repeat split; auto. exists (y :: b). repeat split; auto. discriminate.
Qed.
(** The kind of MPI runner is the one of custom_info, else the platform's, else the
    one that is found. Its command is the one of custom_info, else the platform's,
    else the usual one of this kind. A kind that does not exist is a KeyError, and
    without any there is no runner. *)
Theorem C79_runner : forall x d found,
  match snd (add_platform_info x d found) with
  | Ok (Some (kind, command)) =>
      first3 (x_type x) (get_text d MpiRunner) found (Some kind) /\
      exists usual, In (kind, usual) runners /\
        ((exists t, x_name x = Some t /\ t <> [] /\ command = t) \/ (blank (x_name x) /\ get_text d RunnerName = Some command) \/
         (x_name x = Some [] /\ truthy d = false /\ command = []) \/ (blank (x_name x) /\ get_text d RunnerName = None /\ command = usual))
  | Ok None => first3 (x_type x) (get_text d MpiRunner) found None
  | Err _ => exists kind, first3 (x_type x) (get_text d MpiRunner) found (Some kind) /\ forall usual, ~ In (kind, usual) runners
  end.
Proof.
  intros [ty nm] d found. unfold add_platform_info. cbn [x_type x_name]. assert (N : truthy d = false -> get_text d MpiRunner = None /\ get_text d RunnerName = None).
  { intros H. unfold get_text. now rewrite !(truthy_no d H). }
  set (r := get_text d MpiRunner) in *. set (q := get_text d RunnerName) in *. clearbody r q.
  assert (F : first3 ty r found (x_type (fst (let x := if truthy d then mkExctr (tor ty r) (tor nm q) else mkExctr ty nm in (mkExctr (tor (x_type x) found) (x_name x), tt))))).
  { destruct (truthy d) eqn:H; cbn; [apply tor_first|]. destruct (N eq_refl) as [-> _]. pose proof (tor_first ty None found) as X. destruct ty as [[|c t]|]; exact X. }
  assert (M : let nm' := if truthy d then tor nm q else nm in
     (exists t, nm = Some t /\ t <> [] /\ nm' = Some t) \/ (blank nm /\ exists t, q = Some t /\ nm' = Some t) \/ (nm = Some [] /\ truthy d = false /\ nm' = Some []) \/ (blank nm /\ q = None /\ nm' = None)).
  { cbn zeta. unfold blank. destruct (truthy d) eqn:H.
    - destruct nm as [[|c t]|]; cbn; [destruct q as [u|]; [right; left|right; right; right]; eauto| |destruct q as [u|]; [right; left|right; right; right]; eauto].
      left. exists (c :: t). repeat split. discriminate.
    - destruct (N eq_refl) as [_ ->]. destruct nm as [[|c t]|]; [right; right; left; auto| |right; right; right; auto]. left. exists (c :: t). repeat split. discriminate. }
  cbn zeta in M, F. destruct (truthy d); cbn [x_type x_name fst snd] in *; clear N;
  (unfold get_runner; match goal with |- context [match ?k with Some t => match assoc _ _ with _ => _ end | None => _ end] => destruct k as [kind|] end; [|exact F];
   destruct (assoc runners kind) as [usual|] eqn:A; [|exists kind; split; auto; now apply assoc_not];
   split; auto; exists usual; split; [now apply assoc_in|];
   destruct M as [(t & H1 & H2 & ->)|[(H1 & t & H2 & ->)|[(H1 & H2 & ->)|(H1 & H2 & ->)]]]; eauto 8).
Qed.
Print Assumptions C79_runner.
Example C79_runner_applies : snd (add_platform_info (mkExctr None None) polaris (Some (T "openmpi"))) = Ok (Some (T "mpich", T "mpiexec")) /\
  snd (add_platform_info (mkExctr (Some (T "srun")) None) summit None) = Ok (Some (T "srun", T "srun")).
Proof. now split. Qed.

(** The two wishes are independent: a user who asks for srun on a platform that
    names its own command gets that command with the options of srun. *)
Theorem C79_foreign_command_refuted : snd (add_platform_info (mkExctr (Some (T "srun")) None) polaris None) = Ok (Some (T "srun", T "mpiexec")).
Proof. reflexivity. Qed.
Print Assumptions C79_foreign_command_refuted.
(** An executor that is used in a second run of libE keeps the runner of the first one
    although another platform is given. *)
Theorem C79_second_run_refuted : let x := fst (add_platform_info (mkExctr None None) polaris None) in
  snd (add_platform_info x summit None) = Ok (Some (T "mpich", T "mpiexec")) /\ get_text summit MpiRunner = Some (T "jsrun").
Proof. now split. Qed.
Print Assumptions C79_second_run_refuted.
