(** C79: the settings libEnsemble works with are the user's, then the platform's,
    then what is detected. *)
From Coq Require Import Ascii String.
From Verif Require Import Base BaseLemmas TextModel TextProofs EnvModel PlatformModel.
Local Open Scope nat_scope.
Local Notation length := List.length.

(** ** Specification *)

Definition blank (o : option text) : Prop := o = None \/ o = Some [].
(** the partition of the job, if the environment tells one *)
Definition job_in (e : envv) (p : text) : Prop := e_partition e = Some p /\ p <> [].
Definition no_job (e : envv) : Prop := blank (e_partition e).
(** the domain of a machine in the table of libEnsemble *)
Definition domain_of (host : option text) (n : text) : Prop := exists out, host = Some out /\ In (rstrip out, n) detect_systems.
Definition no_domain (host : option text) : Prop := forall out n, host = Some out -> ~ In (rstrip out, n) detect_systems.
(** what the variables of Perlmutter and LUMI say *)
Inductive env_says (e : envv) : option text -> Prop :=
| says_lumi_g p : e_cluster e = Some (T "lumi") -> job_in e p -> (exists q, p = q ++ T "-g") -> env_says e (Some (T "lumi_g"))
| says_lumi p : e_cluster e = Some (T "lumi") -> job_in e p -> (forall q, p <> q ++ T "-g") -> env_says e (Some (T "lumi"))
| says_lumi_login : e_cluster e = Some (T "lumi") -> no_job e -> env_says e (Some (T "lumi"))
| says_gpu p a b : e_cluster e <> Some (T "lumi") -> e_nersc e = Some (T "perlmutter") -> job_in e p -> p = a ++ T "gpu_" ++ b -> env_says e (Some (T "perlmutter_g"))
| says_cpu p : e_cluster e <> Some (T "lumi") -> e_nersc e = Some (T "perlmutter") -> job_in e p -> (forall a b, p <> a ++ T "gpu_" ++ b) -> env_says e (Some (T "perlmutter_c"))
| says_login : e_cluster e <> Some (T "lumi") -> e_nersc e = Some (T "perlmutter") -> no_job e -> env_says e (Some (T "perlmutter"))
| says_nothing : e_cluster e <> Some (T "lumi") -> e_nersc e <> Some (T "perlmutter") -> env_says e None.
(** which known platform is meant: the option, then LIBE_PLATFORM, then the domain, then the variables *)
Inductive meant (opt host : option text) (e : envv) : option text -> Prop :=
| by_option n : opt = Some n -> n <> [] -> meant opt host e (Some n)
| by_variable n : blank opt -> e_platform e = Some n -> n <> [] -> meant opt host e (Some n)
| by_domain n : blank opt -> blank (e_platform e) -> domain_of host n -> meant opt host e (Some n)
| by_env r : blank opt -> blank (e_platform e) -> no_domain host -> env_says e r -> meant opt host e r.

(** the value that the user gives a field *)
Definition user_gives (g : given) (f : field) (v : val) : Prop :=
  match g with
  | NotGiven | GivenNone => False
  | GivenDict d => d f = Some (Some v)
  | GivenObject o | ViaEnsemble o => o f = Some v
  end.

(** ** Lemmas *)

Lemma nonempty_blank o : nonempty o = None <-> blank o.
Proof. unfold blank. destruct o as [[|c t]|]; cbn; split; intros H; auto; try discriminate; destruct H; discriminate. Qed.
Lemma nonempty_some o n : nonempty o = Some n <-> o = Some n /\ n <> [].
Proof.
  destruct o as [[|c t]|]; cbn; split; intros H; try discriminate.
  - destruct H as [H1 H2]. injection H1 as <-. now destruct H2.
  - injection H as <-. now split.
  - apply H.
  - destruct H; discriminate.
Qed.
Lemma assoc_in {A} (l : list (text * A)) k x : assoc l k = Some x -> In (k, x) l.
Proof. unfold assoc. destruct (find _ l) as [[k' y]|] eqn:E; [|discriminate]. intros [= <-]. apply List.find_some in E as [E1 E2]. cbn in *. destruct (teqb_spec k' k) as [->|]; [exact E1|discriminate]. Qed.
Lemma assoc_not {A} (l : list (text * A)) k : assoc l k = None -> forall x, ~ In (k, x) l.
Proof. unfold assoc. destruct (find _ l) as [p|] eqn:E; [discriminate|]. intros _ x H. pose proof (List.find_none _ _ E _ H) as F. cbn in F. now rewrite teqb_refl in F. Qed.
Lemma assoc_unique {A} (l : list (text * A)) k x : NoDup (map fst l) -> In (k, x) l -> assoc l k = Some x.
Proof.
  intros ND H. destruct (assoc l k) as [y|] eqn:E; [|destruct (assoc_not l k E x H)]. f_equal. apply assoc_in in E.
  induction l as [|[k' z] l IH]; [destruct H|]. cbn in ND. inversion_clear ND as [|? ? N1 N2]. destruct H as [H|H], E as [E|E]; auto; try congruence.
  - destruct N1. injection H as -> ->. now apply (in_map fst) in E.
  - destruct N1. injection E as -> ->. now apply (in_map fst) in H.
Qed.
Lemma domains_distinct : NoDup (map fst detect_systems).
Proof. repeat constructor; cbn; intros H; repeat destruct H as [H|H]; try discriminate; try destruct H. Qed.
Lemma is_true o t : is o t = true <-> o = Some t.
Proof. destruct o as [x|]; cbn; [|split; discriminate]. destruct (teqb_spec x t) as [->|N]; split; auto; try discriminate. intros [= ->]. now destruct N. Qed.
Lemma is_false o t : is o t = false <-> o <> Some t.
Proof. rewrite <- is_true. destruct (is o t); split; intros H; auto; try discriminate. now destruct H. Qed.
Lemma prefixb_ex p : forall t, prefixb p t = true <-> exists q, t = p ++ q.
Proof.
  induction p as [|c p IH]; intros t; cbn; [split; [intros _; now exists t|reflexivity]|]. destruct t as [|d t]; cbn.
  { split; [discriminate|]. intros (q & H). discriminate. }
  split; intros H.
  - apply andb_prop in H as [H1 H2]. apply Ascii.eqb_eq in H1 as ->. apply IH in H2 as (q & ->). now exists q.
  - destruct H as (q & H). injection H as -> ->. unfold ceqb. rewrite Ascii.eqb_refl. cbn. apply IH. now exists q.
Qed.
Lemma endswith_ex p t : endswith p t = true <-> exists q, t = q ++ p.
Proof.
  unfold endswith. rewrite prefixb_ex. split; intros (q & H).
  - exists (rev q). rewrite <- (rev_involutive t), H, rev_app_distr, rev_involutive. reflexivity.
  - exists (rev q). rewrite H, rev_app_distr. reflexivity.
Qed.
Lemma contains_ex p : forall t, contains p t = true <-> exists a b, t = a ++ p ++ b.
Proof.
  induction t as [|c t IH]; cbn [contains]; rewrite orb_true_iff, prefixb_ex; split.
  - intros [(q & H)|H]; [now exists [], q|discriminate].
  - intros (a & b & H). left. exists b. now destruct a.
  - intros [(q & H)|H]; [now exists [], q|]. apply IH in H as (a & b & ->). now exists (c :: a), b.
  - intros (a & b & H). destruct a as [|d a]; [left; now exists b|right]. injection H as -> ->. apply IH. now exists a, b.
Qed.
Lemma not_true b : b = false <-> b <> true. Proof. destruct b; split; intros; auto; congruence. Qed.

Lemma known_envs_says e : env_says e (known_envs e).
Proof.
  unfold known_envs. destruct (is (e_cluster e) (T "lumi")) eqn:L.
  - apply is_true in L. destruct (nonempty (e_partition e)) as [p|] eqn:P.
    + apply nonempty_some in P. destruct (endswith (T "-g") p) eqn:G.
      * apply endswith_ex in G. now apply (says_lumi_g e p).
      * apply (says_lumi e p); auto. intros q Q. apply not_true in G. apply G, endswith_ex. now exists q.
    + apply nonempty_blank in P. now apply says_lumi_login.
  - apply is_false in L. destruct (is (e_nersc e) (T "perlmutter")) eqn:N.
    + apply is_true in N. destruct (nonempty (e_partition e)) as [p|] eqn:P.
      * apply nonempty_some in P. destruct (contains (T "gpu_") p) eqn:G.
        -- apply contains_ex in G as (a & b & G). now apply (says_gpu e p a b).
        -- apply (says_cpu e p); auto. intros a b Q. apply not_true in G. apply G, contains_ex. now exists a, b.
      * apply nonempty_blank in P. now apply says_login.
    + apply is_false in N. now apply says_nothing.
Qed.
Lemma env_says_known e r : env_says e r -> known_envs e = r.
Proof.
  unfold known_envs, job_in, no_job. intros [p L J [q Q]|p L J Q|L J|p a b L N J Q|p L N J Q|L N J|L N];
    try (rewrite (proj2 (is_true _ _) L)); try (rewrite (proj2 (is_false _ _) L)); try (rewrite (proj2 (is_true _ _) N)); try (rewrite (proj2 (is_false _ _) N)); auto;
    try (rewrite (proj2 (nonempty_blank _) J); reflexivity); rewrite (proj2 (nonempty_some _ _) J).
  - replace (endswith (T "-g") p) with true; auto. symmetry. apply endswith_ex. now exists q.
  - replace (endswith (T "-g") p) with false; auto. symmetry. apply not_true. intros E. apply endswith_ex in E as (q & E). now apply (Q q).
  - replace (contains (T "gpu_") p) with true; auto. symmetry. apply contains_ex. now exists a, b.
  - replace (contains (T "gpu_") p) with false; auto. symmetry. apply not_true. intros E. apply contains_ex in E as (a & b & E). now apply (Q a b).
Qed.
Lemma meant_name opt host e n : meant opt host e n <-> platform_name opt host e = n.
Proof.
  unfold platform_name, known_system_detect. split.
  - intros [m H1 H2|m H1 H2 H3|m H1 H2 (out & -> & H3)|r H1 H2 H3 H4].
    + now rewrite (proj2 (nonempty_some opt m) (conj H1 H2)).
    + now rewrite (proj2 (nonempty_blank _) H1), (proj2 (nonempty_some _ m) (conj H2 H3)).
    + rewrite (proj2 (nonempty_blank _) H1), (proj2 (nonempty_blank _) H2). now rewrite (assoc_unique _ _ _ domains_distinct H3).
    + rewrite (proj2 (nonempty_blank _) H1), (proj2 (nonempty_blank _) H2). rewrite <- (env_says_known e r H4).
      destruct host as [out|]; auto. destruct (assoc detect_systems (rstrip out)) as [m|] eqn:E; auto. destruct (H3 out m eq_refl (assoc_in _ _ _ E)).
  - intros <-. destruct (nonempty opt) as [m|] eqn:E1; [apply nonempty_some in E1 as [H1 H2]; now apply by_option|]. apply nonempty_blank in E1.
    destruct (nonempty (e_platform e)) as [m|] eqn:E2; [apply nonempty_some in E2 as [H1 H2]; now apply by_variable|]. apply nonempty_blank in E2.
    destruct host as [out|]; [|apply by_env; auto; [intros o x [=]|apply known_envs_says]].
    destruct (assoc detect_systems (rstrip out)) as [m|] eqn:E.
    + apply by_domain; auto. exists out. split; auto. now apply assoc_in.
    + apply by_env; auto; [|apply known_envs_says]. intros o x [= <-]. now apply assoc_not.
Qed.
Lemma known_nil : known [] = None. Proof. reflexivity. Qed.
Lemma detected_known host e n : known_system_detect host e = Some n -> n <> [] /\ known n <> None.
Proof.
  assert (E : known_envs e = Some n -> n <> [] /\ known n <> None).
  { intros H. pose proof (known_envs_says e) as K. rewrite H in K. inversion K; subst; split; discriminate. }
  unfold known_system_detect. destruct host as [out|]; auto. destruct (assoc detect_systems (rstrip out)) as [m|] eqn:A; auto.
  intros [= <-]. apply assoc_in in A. cbn in A. repeat destruct A as [A|A]; try (injection A as _ <-; split; discriminate). destruct A.
Qed.
Lemma meant_nonempty opt host e n : meant opt host e (Some n) -> n <> [].
Proof.
  intros H. pose proof (proj1 (meant_name _ _ _ _) H) as E. inversion H as [m H1 H2|m H1 H2 H3|m H1 H2 H3|r H1 H2 H3 H4]; subst; auto; unfold platform_name in E;
  rewrite (proj2 (nonempty_blank _) H1), (proj2 (nonempty_blank _) H2) in E; now apply (detected_known host e).
Qed.
Lemma truthy_no d : truthy d = false -> forall f, d f = None.
Proof.
  unfold truthy. intros H f. destruct (d f) as [v|] eqn:E; auto. apply not_true in H. destruct H. apply existsb_exists. exists f. rewrite E. split; auto. destruct f; cbn; auto 20.
Qed.
Lemma truthy_yes d f v : d f = Some v -> truthy d = true.
Proof. intros E. destruct (truthy d) eqn:H; auto. rewrite (truthy_no d H f) in E. discriminate. Qed.

(** ** Theorems *)

(** Exactly one platform, or none, is meant, whatever the machine: what the user
    says comes before what is detected. *)
Theorem C79_which_platform : forall opt host e, exists n, meant opt host e n /\ forall n', meant opt host e n' -> n' = n.
Proof. intros opt host e. exists (platform_name opt host e). split; [now apply meant_name|]. intros n' H. apply meant_name in H. congruence. Qed.
Print Assumptions C79_which_platform.

(** If platform n is meant and known, then each setting is the one given in
    platform_specs, if any, and the one of n otherwise. If no platform is meant,
    the settings are those in platform_specs that are not None. The only failure
    is an unknown platform, and only the user can cause it. *)
Theorem C79_platform : forall opt specs host e,
  match get_platform opt specs host e with
  | Ok info =>
      (exists n d, meant opt host e (Some n) /\ known n = Some d /\
        forall f, info f = match specs with Some p => match p f with Some v => Some v | None => d f end | None => d f end) \/
      (meant opt host e None /\ forall f v, info f = v <-> match specs with Some p => (exists x, p f = Some (Some x) /\ v = Some (Some x)) \/ ((p f = None \/ p f = Some None) /\ v = None) | None => v = None end)
  | Err er => exists n, meant opt host e (Some n) /\ known n = None /\ (opt = Some n \/ e_platform e = Some n)
  end.
Proof.
  intros opt specs host e. unfold get_platform. destruct (platform_name opt host e) as [n|] eqn:N.
  - pose proof (proj2 (meant_name _ _ _ _) N) as M. rewrite (proj2 (nonempty_some (Some n) n) (conj eq_refl (meant_nonempty _ _ _ _ M))).
    destruct (known n) as [d|] eqn:K.
    + assert (G : forall info, (forall f, info f = match specs with Some p => match p f with Some v => Some v | None => d f end | None => d f end) ->
        (exists n0 d0, meant opt host e (Some n0) /\ known n0 = Some d0 /\
        forall f, info f = match specs with Some p => match p f with Some v => Some v | None => d0 f end | None => d0 f end)) by (intros info I; now exists n, d).
      destruct specs as [p|]; [destruct (truthy p) eqn:Tp|]; left; apply G; intros f; auto. now rewrite (truthy_no p Tp f).
    + exists n. split; auto. split; auto. inversion M as [m H1 H2|m H1 H2 H3|m H1 H2 (out & -> & H3)|r H1 H2 H3 H4]; subst; auto; exfalso;
        unfold platform_name in N; rewrite (proj2 (nonempty_blank _) H1), (proj2 (nonempty_blank _) H2) in N; now apply (proj2 (detected_known _ e n N)).
  - pose proof (proj2 (meant_name _ _ _ _) N) as M. cbn [nonempty]. destruct specs as [p|]; [destruct (truthy p) eqn:Tp|]; right; split; auto; intros f v.
    + destruct (p f) as [[x|]|]; split; intros H; subst; eauto; destruct H as [(y & A & B)|[A B]]; try congruence; destruct A; congruence.
    + rewrite (truthy_no p Tp f). split; [intros <-; auto|]. intros [(y & A & B)|[A B]]; [discriminate|now subst].
    + unfold no_keys. split; congruence.
Qed.
Print Assumptions C79_platform.
(** a platform that is detected is known, so without a wish of the user libE does not fail here *)
Theorem C79_detection_safe : forall opt specs host e, blank opt -> blank (e_platform e) -> exists info, get_platform opt specs host e = Ok info.
Proof.
  intros opt specs host e H1 H2. pose proof (C79_platform opt specs host e) as P. destruct (get_platform opt specs host e) as [info|er]; [now exists info|exfalso].
  destruct P as (n & M & K & [E|E]); subst; [destruct H1 as [H1|H1]|rewrite E in H2; destruct H2 as [H2|H2]]; try discriminate; apply (meant_nonempty _ _ _ _ M); congruence.
Qed.
Print Assumptions C79_detection_safe.

(** Hypotheses met: a GPU job on Perlmutter, with the user's number of GPUs *)
Example C79_platform_applies : exists info,
  get_platform None (Some (of_list [(Gpus, VN 2)])) None (mkEnvv None (Some (T "perlmutter")) (Some (T "gpu_regular")) None) = Ok info /\
  info Gpus = Some (Some (VN 2)) /\ info Cores = Some (Some (VN 64)) /\ info MatchSlots = Some (Some (VB false)).
Proof. eexists. split; [reflexivity|]. now repeat split. Qed.
Example C79_unknown_applies : get_platform (Some (T "sumit")) None None (mkEnvv None None None None) = Err EPlatform.
Proof. reflexivity. Qed.

(** In libE, what the user gives in platform_specs is what is used, in whatever way
    it is given. *)
Theorem C79_user_specs : forall opt g host e info f v, libE_platform opt g host e = Ok info -> user_gives g f v -> info f = Some (Some v).
Proof.
  intros opt g host e info f v E U. unfold libE_platform in E. pose proof (C79_platform opt (dumped_specs g) host e) as P. rewrite E in P.
  assert (D : exists p, dumped_specs g = Some p /\ p f = Some (Some v)).
  { destruct g as [| |d|o|o]; cbn in U |- *; try contradiction; eexists; (split; [reflexivity|]); unfold dump, dump_some, make_platform; rewrite U; reflexivity. }
  destruct D as (p & D1 & D2). rewrite D1 in P. destruct P as [(n & d & _ & _ & P)|[_ P]].
  - rewrite (P f), D2. reflexivity.
  - apply P. left. now exists v.
Qed.
Print Assumptions C79_user_specs.
Example C79_user_specs_applies : exists info, libE_platform (Some (T "summit")) (GivenDict (of_list [(Gpus, VN 4)])) None (mkEnvv None None None None) = Ok info /\
  user_gives (GivenDict (of_list [(Gpus, VN 4)])) Gpus (VN 4).
Proof. eexists. split; reflexivity. Qed.

(** Settings of the known platform that the user does not give are kept if
    platform_specs is not given at all, or comes by way of an Ensemble (there with
    the exception of scheduler_match_slots). *)
Definition keeps (g : given) (f : field) : Prop :=
  match g with NotGiven | GivenNone => True | ViaEnsemble o => o f = None | _ => False end.
Theorem C79_known_kept : forall opt g host e n d info f, libE_platform opt g host e = Ok info -> meant opt host e (Some n) -> known n = Some d -> keeps g f -> info f = d f.
Proof.
  intros opt g host e n d info f E M K H. unfold libE_platform in E. pose proof (C79_platform opt (dumped_specs g) host e) as P. rewrite E in P.
  apply meant_name in M. destruct P as [(n' & d' & M' & K' & P)|[M' _]]; apply meant_name in M'; rewrite M in M'; [|discriminate]. injection M' as <-.
  rewrite K in K'. injection K' as <-. rewrite (P f). destruct g as [| |x|o|o]; cbn in H |- *; try contradiction; auto. unfold dump_some. now rewrite H.
Qed.
Print Assumptions C79_known_kept.
Example C79_known_kept_applies : exists info, libE_platform (Some (T "summit")) (ViaEnsemble (fun f => match f with Gpus => Some (VN 4) | _ => default f end)) None (mkEnvv None None None None) = Ok info /\
  info Cores = Some (Some (VN 42)) /\ info Gpus = Some (Some (VN 4)).
Proof. eexists. split; [reflexivity|]. now split. Qed.

(** But a dictionary or an object given to libE directly blots out the known
    platform: a field that the user does not give is None (scheduler_match_slots:
    True), whatever the platform that is asked for has there. *)
Theorem C79_known_lost : forall opt d host e n info f, libE_platform opt (GivenDict d) host e = Ok info -> meant opt host e (Some n) -> d f = None -> info f = Some (default f).
Proof.
  intros opt d host e n info f E M H. unfold libE_platform in E. pose proof (C79_platform opt (dumped_specs (GivenDict d)) host e) as P. rewrite E in P.
  apply meant_name in M. destruct P as [(n' & d' & _ & _ & P)|[M' _]]; [|apply meant_name in M'; rewrite M in M'; discriminate].
  rewrite (P f). cbn. unfold dump, make_platform. now rewrite H.
Qed.
Print Assumptions C79_known_lost.
(** platform="summit" and platform_specs={"gpus_per_node": 4} in libE: the cores and
    the MPI runner of Summit are lost, although only the GPUs are given; an empty
    dictionary loses them as well. *)
Theorem C79_specs_added_refuted : ~ (forall opt g host e n d info f, libE_platform opt g host e = Ok info -> meant opt host e (Some n) -> known n = Some d ->
    (forall v, ~ user_gives g f v) -> info f = d f).
Proof.
  intros H. assert (A : Some (@None val) = Some (Some (VN 42))); [|discriminate].
  refine (H (Some (T "summit")) (GivenDict (of_list [(Gpus, VN 4)])) None (mkEnvv None None None None) (T "summit") summit _ Cores eq_refl (by_option _ _ _ _ eq_refl _) eq_refl _); discriminate.
Qed.
Print Assumptions C79_specs_added_refuted.
Example C79_empty_specs_lose : exists info, libE_platform (Some (T "frontier")) (GivenDict no_keys) None (mkEnvv None None None None) = Ok info /\
  info MpiRunner = Some None /\ info Gpus = Some None /\ info MatchSlots = Some (Some (VB true)).
Proof. eexists. split; [reflexivity|]. now repeat split. Qed.
(** By way of an Ensemble, scheduler_match_slots is reset: a Platform that only sets
    the GPUs turns Frontier's False into True. *)
Theorem C79_match_slots_reset_refuted : exists o info, o Gpus = Some (VN 4) /\ (forall f, f <> Gpus -> o f = default f) /\
  libE_platform (Some (T "frontier")) (ViaEnsemble o) None (mkEnvv None None None None) = Ok info /\
  frontier MatchSlots = Some (Some (VB false)) /\ info MatchSlots = Some (Some (VB true)).
Proof.
  exists (fun f => match f with Gpus => Some (VN 4) | _ => default f end). eexists. split; auto. split; [intros [] F; auto; now destruct F|]. split; [reflexivity|]. now split.
Qed.
Print Assumptions C79_match_slots_reset_refuted.
