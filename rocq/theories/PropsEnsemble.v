(** * C74: the command line and the Ensemble object pass on the user's settings

    tools/parse_args.py, ensemble.py, tools/tools.py; model in EnsembleModel. *)
From Coq Require Import String.
From Verif Require Import Base BaseLemmas EnsembleModel.
Local Open Scope nat_scope.

(** ** The command line *)
(** The communication is the one given; without one, local if a number of workers is given
    and MPI otherwise. With local communication there are as many workers as given; if none
    (or 0) are given, one more than simulation workers; without either, four. The resource
    sets are those given, or else as many as simulation workers (local, threads and MPI).
    Arguments raise only for ssh without workers and a client without a server. *)
Definition media (c : cmdline) : medium :=
  match g_comms c, g_nworkers c with Some m, _ => m | None, Some _ => MLocal | None, None => MMpi end.
Theorem C74_command_line size rank c :
  match parse_args size rank c with
  | Err e => e = EType /\ ((media c = MSsh /\ g_workers c = None) \/ (media c = MClient /\ g_server c = false))
  | Ok p =>
      ~ (media c = MSsh /\ g_workers c = None) /\ ~ (media c = MClient /\ g_server c = false) /\
      (media c = MMpi -> p_comms p = EMpi /\ p_n p = size - 1 /\ (p_manager p = true <-> rank = 0)) /\
      (media c = MLocal -> p_comms p = ELocal) /\ (media c = MThreads -> p_comms p = EThreads) /\
      (In (media c) [MTcp; MSsh; MClient] -> p_comms p = ETcp) /\
      (In (media c) [MLocal; MThreads] ->
         p_spec_n p = Some (p_n p) /\ p_manager p = true /\
         (forall n, g_nworkers c = Some n -> 0 < n -> p_n p = n) /\
         (forall k, g_nworkers c = None -> g_nsim c = Some k -> p_n p = k + 1) /\
         (g_nworkers c = None -> g_nsim c = None -> p_n p = 4)) /\
      (In (media c) [MLocal; MThreads; MMpi] ->
         (forall r, g_nres c = Some r -> p_nres p = Some r) /\ (g_nres c = None -> p_nres p = g_nsim c)) /\
      (media c = MClient <-> p_manager p = false /\ media c <> MMpi)
  end.
Proof.
  unfold parse_args, media. destruct c as [cm nw ns nr ws sv]. cbn [g_comms g_nworkers g_nsim g_nres g_workers g_server].
  set (m := match cm with Some m => m | None => match nw with Some _ => MLocal | None => MMpi end end).
  replace (match cm with Some m0 => m0 | None => match nw with Some _ => MLocal | None => MMpi end end) with m by reflexivity.
  clearbody m.
  assert (L : let n := local_workers (mkcmd cm nw ns nr ws sv) in
    (forall k, nw = Some k -> 0 < k -> n = k) /\ (forall k, nw = None -> ns = Some k -> n = k + 1) /\ (nw = None -> ns = None -> n = 4)).
  { unfold local_workers. cbn. repeat split.
    - intros k -> Hk. destruct k; [lia|]. destruct ns; reflexivity.
    - intros k -> ->. cbn. replace (k + 1) with (S k) by lia. reflexivity.
    - intros -> ->. reflexivity. }
  assert (R : (forall r, nr = Some r -> resource_sets (mkcmd cm nw ns nr ws sv) = Some r) /\ (nr = None -> resource_sets (mkcmd cm nw ns nr ws sv) = ns)).
  { unfold resource_sets. cbn. split; [intros r -> | intros ->]; reflexivity. }
  cbv zeta in L. revert L R. generalize (local_workers (mkcmd cm nw ns nr ws sv)) (resource_sets (mkcmd cm nw ns nr ws sv)).
  intros lw rs (L1 & L2 & L3) (R1 & R2).
  destruct m; try (destruct ws); try (destruct sv); cbn [p_comms p_n p_manager p_spec_n p_nres In];
    repeat match goal with
    | |- _ /\ _ => split
    | |- _ <-> _ => split
    | |- ~ _ => intros (? & ?)
    | |- forall _, _ => intro
    | H : _ /\ _ |- _ => destruct H
    | H : _ \/ _ |- _ => destruct H
    | H : False |- _ => destruct H
    | H : (_ =? _) = true |- _ => apply Nat.eqb_eq in H
    | |- (_ =? _) = true => apply Nat.eqb_eq
    end; try discriminate; try reflexivity; try congruence; auto.
Qed.
Print Assumptions C74_command_line.

(** The help text of --nsim_workers: "If '--nworkers' has also been specified, will generate
    enough additional workers to match the other criteria." It does not: *)
Theorem C74_additional_workers_refuted :
  ~ (forall size rank c n k p, g_comms c = Some MLocal -> g_nworkers c = Some n -> g_nsim c = Some k ->
       parse_args size rank c = Ok p -> k < p_n p).
Proof. intros H. specialize (H 1 0 (mkcmd (Some MLocal) (Some 4) (Some 8) None None false) 4 8 _ eq_refl eq_refl eq_refl eq_refl). cbn in H. lia. Qed.
Print Assumptions C74_additional_workers_refuted.

(** The number of resource sets is not passed on with TCP. *)
Theorem C74_resource_sets_passed_on_refuted :
  ~ (forall size rank c r p, g_nres c = Some r -> parse_args size rank c = Ok p -> p_nres p = Some r).
Proof. intros H. specialize (H 1 0 (mkcmd (Some MTcp) (Some 4) None (Some 2) None false) 2 _ eq_refl eq_refl). discriminate. Qed.
Print Assumptions C74_resource_sets_passed_on_refuted.

Example C74_ex_command_line :
  parse_args 1 0 (mkcmd None (Some 6) (Some 5) None None false) = Ok (mkparsed 6 true ELocal (Some 6) (Some 5)) /\
  parse_args 5 2 (mkcmd None None None (Some 3) None false) = Ok (mkparsed 4 false EMpi None (Some 3)).
Proof. split; reflexivity. Qed.

(** ** The Ensemble object *)
Lemma comms_eq (a b : ecomms) : ecomms_eqb a b = true <-> a = b.
Proof. destruct a, b; cbn; split; congruence. Qed.

Lemma dump_lookup {V} (is_default : string -> V -> bool) fields (s : especs V) x : In x fields ->
  lookup (a_other (dump_specs is_default fields s)) x = if is_default x (s_other s x) then None else Some (s_other s x).
Proof.
  intros Hx. unfold dump_specs, lookup. cbn [a_other]. induction fields as [|y l IH]; [destruct Hx|]. cbn [filter].
  destruct (is_default y (s_other s y)) eqn:D; cbn [negb map find fst].
  - destruct (string_dec y x) as [->|Ne].
    + rewrite D. destruct (in_dec string_dec x l) as [Hl|Hl]; [rewrite (IH Hl), D; reflexivity|].
      clear IH Hx. induction l as [|z l IH]; [reflexivity|]. cbn [filter].
      assert (Hz : z <> x) by (intros ->; apply Hl; left; reflexivity).
      assert (Hl' : ~ In x l) by (intros Hi; apply Hl; right; exact Hi).
      destruct (is_default z (s_other s z)); cbn [negb map find fst]; [exact (IH Hl')|].
      rewrite (proj2 (String.eqb_neq z x) Hz). exact (IH Hl').
    + destruct Hx as [->|Hx]; [congruence|]. exact (IH Hx).
  - destruct (string_dec y x) as [->|Ne].
    + rewrite String.eqb_refl, D. reflexivity.
    + rewrite (proj2 (String.eqb_neq y x) Ne). destruct Hx as [->|Hx]; [congruence|]. exact (IH Hx).
Qed.

Section Ens.
Context {V : Type}.
Variable default : string -> V.
Variable is_default : string -> V -> bool.
Variable num : nat -> V.
Variable fields : list string.
Variable mpi_env : bool.
Notation create := (create default num mpi_env).
Notation set_specs := (set_specs default is_default fields mpi_env).
Notation make_specs := (make_specs default mpi_env).

(** *** From the command line to the run *)
(** An ensemble made with the parsed arguments runs with the communication, the number of
    workers and the resource sets parsed; the other settings are those of the object given,
    or the defaults. Its number of workers is the parsed one. *)
Theorem C74_parsed_arguments_are_used p mpi arg (h h' : heap V) e :
  create (Some p) mpi arg h = Ok (h', e) ->
  exists s, run h' e = Ok s /\
    s_comms s = p_comms p /\
    (forall n, p_spec_n p = Some n -> s_n s = n) /\
    (forall r, p_nres p = Some r -> s_other s "num_resource_sets"%string = num r) /\
    (forall x, (x = "num_resource_sets"%string -> p_nres p = None) ->
       match arg with
       | AObj a => exists s0, nth_error h a = Some s0 /\ s_other s x = s_other s0 x
       | _ => s_other s x = default x
       end) /\
    (0 < p_n p -> nworkers h' e = Ok (p_n p)) /\
    (p_comms p <> ELocal -> saves e = p_manager p) /\ (p_comms p = ELocal -> saves e = true).
Proof.
  intros H.
  assert (Look : forall x, (x = "num_resource_sets"%string -> p_nres p = None) ->
    lookup (a_other (parsed_settings num p)) x = None).
  { intros x Hx. unfold parsed_settings. cbn. destruct (p_nres p); [|reflexivity].
    unfold lookup. cbn [find fst]. destruct (String.eqb "num_resource_sets" x) eqn:E; [|reflexivity].
    apply String.eqb_eq in E. discriminate (Hx (eq_sym E)). }
  assert (F : forall h0 a s0, nth_error h0 a = Some s0 -> s_comms s0 = p_comms p ->
     finish true mpi h0 (mkens (Some a) (p_n p) (p_manager p) (Some (s_comms s0))) = Ok (h', e) ->
     run h' e = Ok s0 /\ (0 < p_n p -> nworkers h' e = Ok (p_n p)) /\
     (p_comms p <> ELocal -> saves e = p_manager p) /\ (p_comms p = ELocal -> saves e = true)).
  { intros h0 a s0 N C Q. unfold finish in Q. cbn [e_known e_addr e_n] in Q. rewrite <- C.
    assert (G : h' = h0 /\ e_addr e = Some a /\ e_n e = p_n p /\ e_known e = Some (s_comms s0) /\
       e_manager e = match s_comms s0 with ELocal => true | _ => p_manager p end).
    { destruct (s_comms s0); try (injection Q as <- <-; repeat split; reflexivity).
      destruct (nworkers h0 _) as [n|]; [|discriminate]. cbn in Q. destruct (n =? 0); [discriminate|].
      injection Q as <- <-. repeat split; reflexivity. }
    destruct G as (-> & Ga & Gn & Gk & Gm). unfold run, nworkers, saves. rewrite Ga, N, Gk, Gn, Gm.
    rewrite (proj2 (comms_eq _ _) eq_refl). split; [reflexivity|]. split.
    - destruct (p_n p); [lia|reflexivity].
    - destruct (s_comms s0); split; congruence. }
  assert (Fresh : finish true mpi (h ++ [make_specs (parsed_settings num p)])
      (mkens (Some (length h)) (p_n p) (p_manager p) (Some (s_comms (make_specs (parsed_settings num p))))) = Ok (h', e) ->
     exists s, run h' e = Ok s /\
    s_comms s = p_comms p /\
    (forall n, p_spec_n p = Some n -> s_n s = n) /\
    (forall r, p_nres p = Some r -> s_other s "num_resource_sets"%string = num r) /\
    (forall x, (x = "num_resource_sets"%string -> p_nres p = None) -> s_other s x = default x) /\
    (0 < p_n p -> nworkers h' e = Ok (p_n p)) /\
    (p_comms p <> ELocal -> saves e = p_manager p) /\ (p_comms p = ELocal -> saves e = true)).
  { intros Q. apply F in Q; [| rewrite nth_error_app2, Nat.sub_diag by lia; reflexivity | reflexivity].
    destruct Q as (Q1 & Q2 & Q3). eexists. split; [exact Q1|]. split; [reflexivity|]. split.
    - intros n Hn. unfold make_specs. cbn. rewrite Hn. reflexivity.
    - split.
      + intros r Hr. unfold EnsembleModel.make_specs, parsed_settings. cbn. rewrite Hr. reflexivity.
      + split; [|auto]. intros x Hx. unfold EnsembleModel.make_specs. cbn [s_other]. rewrite (Look x Hx). reflexivity. }
  unfold EnsembleModel.create in H. destruct arg as [|a|a].
  - exact (Fresh H).
  - destruct (empty_dict a); [|discriminate]. exact (Fresh H).
  - destruct (nth_error h a) as [s0|] eqn:N; [|discriminate].
    apply F in H; [| rewrite (upd_nth_same _ _ _ _ N); reflexivity | reflexivity ].
    destruct H as (Q1 & Q2 & Q3). eexists. split; [exact Q1|]. split; [reflexivity|]. split.
    + intros n Hn. cbn. rewrite Hn. reflexivity.
    + split.
      * intros r Hr. unfold update_specs, parsed_settings. cbn. rewrite Hr. reflexivity.
      * split; [|auto]. intros x Hx. exists s0. split; [reflexivity|]. unfold update_specs. cbn [s_other]. rewrite (Look x Hx). reflexivity.
Qed.

(** *** Communication is fixed when the ensemble is made *)
(** A program that makes ensembles and assigns to them. Arguments of the constructor are a
    dictionary or an object; with parsed arguments, an object no other ensemble has. *)
Inductive op := Create (p : option parsed) (mpi : nat * bool) (arg : sarg V) | Assign (i : nat) (new : sarg V) | Workers (i n : nat).
Definition world := (heap V * list ensemble)%type.
Definition allowed (w : world) (o : op) : Prop :=
  match o with
  | Create None _ NoSpecs => False
  | Create (Some _) _ (AObj a) => forall e, In e (snd w) -> e_addr e <> Some a
  | _ => True
  end.
(** An operation that raises leaves things as they were. *)
Definition step (w : world) (o : op) : world :=
  match o with
  | Create p mpi arg => match create p mpi arg (fst w) with Ok (h, e) => (h, snd w ++ [e]) | Err _ => w end
  | Assign i new =>
      match nth_error (snd w) i with
      | Some e => match set_specs new (fst w) e with Ok (h, e') => (h, upd (snd w) i (fun _ => e')) | Err _ => w end
      | None => w
      end
  | Workers i n =>
      match nth_error (snd w) i with
      | Some e => let '(h, e') := set_nworkers n (fst w) e in (h, upd (snd w) i (fun _ => e'))
      | None => w
      end
  end.
Inductive leads : world -> world -> Prop :=
| LSame w : leads w w
| LStep w1 w2 o : leads w1 w2 -> allowed w2 o -> leads w1 (step w2 o).

Definition fixed (w : world) : Prop :=
  forall e, In e (snd w) -> exists a s, e_addr e = Some a /\ nth_error (fst w) a = Some s /\ e_known e = Some (s_comms s).

Lemma create_fixed p mpi arg (h h' : heap V) e :
  create p mpi arg h = Ok (h', e) -> (p = None -> arg <> NoSpecs) ->
  (exists a s, e_addr e = Some a /\ nth_error h' a = Some s /\ e_known e = Some (s_comms s)) /\
  (forall a s, nth_error h a = Some s -> (p <> None -> arg <> AObj a) -> nth_error h' a = Some s).
Proof.
  intros H A.
  assert (F : forall parse h0 e0, finish parse mpi h0 e0 = Ok (h', e) -> h' = h0 /\ e_addr e = e_addr e0 /\ e_known e = e_known e0).
  { intros parse h0 e0 Q. unfold finish in Q. destruct (e_known e0) as [c|] eqn:K.
    - destruct c.
      + destruct parse; injection Q as <- <-; cbn; auto.
      + destruct (nworkers h0 _) as [n|]; [|discriminate]. cbn in Q. destruct (n =? 0); [discriminate|]. injection Q as <- <-. cbn. auto.
      + injection Q as <- <-; auto.
      + injection Q as <- <-; auto.
    - injection Q as <- <-; auto. }
  assert (New : forall parse s n m, finish parse mpi (h ++ [s]) (mkens (Some (length h)) n m (Some (s_comms s))) = Ok (h', e) ->
    (exists a s, e_addr e = Some a /\ nth_error h' a = Some s /\ e_known e = Some (s_comms s)) /\
    (forall a s, nth_error h a = Some s -> (p <> None -> arg <> AObj a) -> nth_error h' a = Some s)).
  { intros parse s n m Q. apply F in Q. destruct Q as (-> & Qa & Qk). cbn in Qa, Qk. split.
    - exists (length h), s. rewrite nth_error_app2, Nat.sub_diag by lia. auto.
    - intros a s0 N _. rewrite nth_error_app1; [exact N|]. apply nth_error_Some. congruence. }
  unfold EnsembleModel.create in H. destruct p as [q|].
  - destruct arg as [|a|a].
    + eapply New, H.
    + destruct (empty_dict a); [|discriminate]. eapply New, H.
    + destruct (nth_error h a) as [s0|] eqn:N; [|discriminate].
      apply F in H. destruct H as (-> & Qa & Qk). cbn [e_addr e_known] in Qa, Qk. split.
      * exists a, (update_specs s0 (parsed_settings num q)). rewrite (upd_nth_same _ _ _ _ N). auto.
      * intros b s Nb Hb. rewrite upd_nth_other; [exact Nb|]. intros ->. apply Hb; congruence.
  - destruct arg as [|a|a].
    + exfalso. apply A; reflexivity.
    + eapply New, H.
    + destruct (nth_error h a) as [s0|] eqn:N; [|discriminate].
      apply F in H. destruct H as (-> & Qa & Qk). cbn [e_addr e_known] in Qa, Qk. split; [|auto].
      exists a, s0. auto.
Qed.

Lemma set_fixed new (h h' : heap V) e e' a0 s0 :
  e_addr e = Some a0 -> nth_error h a0 = Some s0 -> set_specs new h e = Ok (h', e') ->
  e' = e /\ (forall a s, nth_error h a = Some s -> exists s', nth_error h' a = Some s' /\ s_comms s' = s_comms s).
Proof.
  intros Ea N H. unfold EnsembleModel.set_specs in H. rewrite Ea, N in H.
  match type of H with bindr ?x _ = _ => destruct x as [a|] end; [|discriminate]. cbn [bindr] in H.
  destruct (a_comms a) eqn:C; [discriminate|]. injection H as <- <-. split; [reflexivity|].
  intros b s Nb. destruct (Nat.eq_dec a0 b) as [->|D].
  - rewrite (upd_nth_same _ _ _ _ Nb). eexists. split; [reflexivity|]. cbn. rewrite C. congruence.
  - rewrite upd_nth_other by exact D. eauto.
Qed.

Lemma step_fixed w o : fixed w -> allowed w o ->
  fixed (step w o) /\
  (forall i e, nth_error (snd w) i = Some e -> exists e', nth_error (snd (step w o)) i = Some e' /\ e_known e' = e_known e).
Proof.
  intros I A. destruct o as [p mpi arg|i new|i n].
  - cbn [step]. destruct (create p mpi arg (fst w)) as [[h e]|] eqn:H; [|split; eauto].
    apply create_fixed in H.
    2: { intros ->. destruct arg; [contradiction|discriminate|discriminate]. }
    destruct H as [H1 H2]. split.
    + intros e0. cbn [snd fst]. intros Hin. apply in_app_or in Hin. destruct Hin as [Hin|[<-|[]]].
      * destruct (I e0 Hin) as (a & s & E1 & E2 & E3). exists a, s. split; [exact E1|]. split; [|exact E3].
        apply H2; [exact E2|]. intros Hp ->. destruct p as [q|]; [|congruence]. exact (A e0 Hin E1).
      * exact H1.
    + intros i e0 Hi. cbn [snd]. exists e0. split; [|reflexivity]. rewrite nth_error_app1; [exact Hi|]. apply nth_error_Some. congruence.
  - cbn [step]. destruct (nth_error (snd w) i) as [e|] eqn:Hi; [|split; eauto].
    destruct (set_specs new (fst w) e) as [[h e']|] eqn:H; [|split; eauto].
    destruct (I e (nth_error_In _ _ Hi)) as (a & s & E1 & E2 & E3).
    destruct (set_fixed new _ _ _ _ _ _ E1 E2 H) as [-> G].
    assert (U : upd (snd w) i (fun _ => e) = snd w).
    { apply nth_error_ext. intros j. rewrite upd_nth. destruct (Nat.eqb i j) eqn:D; [|reflexivity].
      apply Nat.eqb_eq in D. subst j. rewrite Hi. reflexivity. }
    rewrite U. split; [|cbn [snd]; eauto].
    intros e0 Hin. cbn [snd fst] in *. destruct (I e0 Hin) as (a1 & s1 & F1 & F2 & F3).
    destruct (G a1 s1 F2) as (s' & G1 & G2). exists a1, s'. rewrite G2. auto.
  - cbn [step]. destruct (nth_error (snd w) i) as [e|] eqn:Hi; [|split; eauto].
    destruct (I e (nth_error_In _ _ Hi)) as (a & s & E1 & E2 & E3).
    unfold set_nworkers. rewrite E1. cbn [fst snd]. split.
    + intros e0 Hin. cbn [snd fst] in *. apply In_nth_error in Hin. destruct Hin as [j Hj]. rewrite upd_nth in Hj.
      assert (G : forall a1 s1, nth_error (fst w) a1 = Some s1 ->
         exists s', nth_error (upd (fst w) a (fun s => mkes (s_comms s) n (s_other s))) a1 = Some s' /\ s_comms s' = s_comms s1).
      { intros a1 s1 N1. rewrite upd_nth. rewrite N1. destruct (Nat.eqb a a1); cbn; eauto. }
      destruct (Nat.eqb i j) eqn:D.
      * apply Nat.eqb_eq in D. subst j. rewrite Hi in Hj. cbn in Hj. injection Hj as <-. cbn [e_addr e_known].
        destruct (G a s E2) as (s' & G1 & G2). exists a, s'. rewrite G2. auto.
      * apply nth_error_In in Hj. destruct (I e0 Hj) as (a1 & s1 & F1 & F2 & F3).
        destruct (G a1 s1 F2) as (s' & G1 & G2). exists a1, s'. rewrite G2. auto.
    + intros j e0 Hj. rewrite upd_nth. rewrite Hj. destruct (Nat.eqb i j) eqn:D; cbn; [|eauto].
      apply Nat.eqb_eq in D. subst j. rewrite Hi in Hj. injection Hj as <-. eexists. split; [reflexivity|]. reflexivity.
Qed.

Lemma leads_fixed w w' : leads w w' -> fixed w -> fixed w' /\
  (forall i e, nth_error (snd w) i = Some e -> exists e', nth_error (snd w') i = Some e' /\ e_known e' = e_known e).
Proof.
  intros L. induction L as [|w1 w2 o L IH A]; intros I; [split; eauto|].
  destruct (IH I) as [I2 K]. destruct (step_fixed w2 o I2 A) as [I3 K3]. split; [exact I3|].
  intros i e Hi. destruct (K i e Hi) as (e1 & Hi1 & Q1). destruct (K3 i e1 Hi1) as (e2 & Hi2 & Q2). exists e2. split; congruence.
Qed.

Lemma fixed_run w e : fixed w -> In e (snd w) -> exists s, run (fst w) e = Ok s /\ e_known e = Some (s_comms s).
Proof.
  intros I Hin. destruct (I e Hin) as (a & s & E1 & E2 & E3). exists s. unfold run. rewrite E1, E2, E3.
  rewrite (proj2 (comms_eq _ _) eq_refl). auto.
Qed.

(** Whatever is assigned, each ensemble runs, always with the communication it was made with. *)
Theorem C74_communication_is_kept h0 w w' i e s :
  leads (h0, []) w -> nth_error (snd w) i = Some e -> run (fst w) e = Ok s -> leads w w' ->
  exists e' s', nth_error (snd w') i = Some e' /\ run (fst w') e' = Ok s' /\ s_comms s' = s_comms s.
Proof.
  intros L0 Hi Hr L.
  destruct (leads_fixed _ _ L0 ltac:(intros ? [])) as [I _].
  destruct (leads_fixed _ _ L I) as [I' K]. destruct (K i e Hi) as (e' & Hi' & Kn).
  destruct (fixed_run _ e I (nth_error_In _ _ Hi)) as (s1 & R1 & Q1).
  destruct (fixed_run _ e' I' (nth_error_In _ _ Hi')) as (s2 & R2 & Q2).
  exists e', s2. repeat split; auto. congruence.
Qed.
(** The hypothesis that it runs is met by every ensemble of such a program. *)
Theorem C74_runs h0 w e : leads (h0, []) w -> In e (snd w) -> exists s, run (fst w) e = Ok s.
Proof.
  intros L0 Hin. destruct (leads_fixed _ _ L0 ltac:(intros ? [])) as [I _].
  destruct (fixed_run _ e I Hin) as (s & R & _). eauto.
Qed.

(** *** Assignment to libE_specs *)
(** What is assigned: the values of the dictionary, or those of the object that are not
    defaults. It is refused exactly if it names a communication (an object: one that is not
    MPI); otherwise the run has the values assigned, and the others as before. *)
Theorem C74_assignment_to_specs (h : heap V) e s new :
  run h e = Ok s -> match new with NoSpecs => False | ADict _ => True | AObj b => exists s', nth_error h b = Some s' end ->
  match set_specs new h e with
  | Err x => x = EValue /\
             match new with
             | ADict d => a_comms d <> None
             | AObj b => exists s', nth_error h b = Some s' /\ s_comms s' <> EMpi
             | NoSpecs => False
             end
  | Ok (h', e') =>
      e' = e /\
      match new with
      | NoSpecs => False
      | ADict d =>
          a_comms d = None /\
          exists s', run h' e = Ok s' /\ s_comms s' = s_comms s /\
            (forall n, a_n d = Some n -> s_n s' = n) /\ (a_n d = None -> s_n s' = s_n s) /\
            (forall x v, lookup (a_other d) x = Some v -> s_other s' x = v) /\
            (forall x, lookup (a_other d) x = None -> s_other s' x = s_other s x)
      | AObj b =>
          exists sb s', nth_error h b = Some sb /\ s_comms sb = EMpi /\ run h' e = Ok s' /\ s_comms s' = s_comms s /\
            (0 < s_n sb -> s_n s' = s_n sb) /\ (s_n sb = 0 -> s_n s' = s_n s) /\
            (forall x, In x fields -> s_other s' x = if is_default x (s_other sb x) then s_other s x else s_other sb x)
      end
  end.
Proof. clear num.
  intros R Hn. unfold run in R. destruct (e_addr e) as [a0|] eqn:Ea; [|discriminate].
  destruct (nth_error h a0) as [s0|] eqn:N; [|discriminate]. destruct (e_known e) as [c|] eqn:K; [|discriminate].
  destruct (ecomms_eqb (s_comms s0) c) eqn:C; [|discriminate]. injection R as <-. apply comms_eq in C.
  assert (Run : forall d, a_comms d = None -> run (upd h a0 (fun _ => update_specs s0 d)) e = Ok (update_specs s0 d)).
  { intros d Hd. unfold run. rewrite Ea, (upd_nth_same _ _ _ _ N), K. cbn. rewrite Hd.
    rewrite (proj2 (comms_eq _ _) C). reflexivity. }
  unfold EnsembleModel.set_specs. rewrite Ea, N. destruct new as [|d|b]; [contradiction| |].
  - cbn [bindr]. destruct (a_comms d) eqn:Cd; [split; [reflexivity|discriminate]|].
    split; [reflexivity|]. split; [reflexivity|]. exists (update_specs s0 d). split; [exact (Run d Cd)|].
    unfold update_specs. cbn. rewrite Cd. split; [reflexivity|]. split; [intros n ->; reflexivity|]. split; [intros ->; reflexivity|].
    split; [intros x v ->; reflexivity|intros x ->; reflexivity].
  - destruct Hn as [sb Nb]. rewrite Nb.
    destruct (s_comms sb) eqn:Cb.
    2,3,4: destruct (negb (ecomms_eqb _ EMpi) && negb (ecomms_eqb _ (s_comms s0))); cbn [bindr]; unfold dump_specs; cbn [a_comms]; try rewrite Cb;
       (split; [reflexivity|]); exists sb; split; congruence.
    cbn [ecomms_eqb negb andb bindr]. unfold dump_specs at 1. cbn [a_comms]. rewrite Cb.
    assert (Hd : a_comms (dump_specs is_default fields sb) = None) by (unfold dump_specs; cbn; rewrite Cb; reflexivity).
    split; [reflexivity|]. exists sb, (update_specs s0 (dump_specs is_default fields sb)).
    split; [reflexivity|]. split; [exact Cb|]. split; [exact (Run _ Hd)|].
    unfold update_specs. cbn [s_comms s_n s_other]. rewrite Hd. split; [reflexivity|].
    unfold dump_specs at 1 2. cbn [a_n]. split; [destruct (s_n sb); [lia|reflexivity]|]. split; [intros ->; reflexivity|].
    intros x Hx. rewrite (dump_lookup is_default fields sb x Hx). destruct (is_default x (s_other sb x)); reflexivity.
Qed.

(** *** The number of workers *)
(** After an assignment of a number of workers both the ensemble and its run have it; so do
    ensembles made without parsed arguments unless communication is MPI. *)
Theorem C74_workers_assigned (h : heap V) e s n :
  run h e = Ok s -> 0 < n ->
  let (h', e') := set_nworkers n h e in
  nworkers h' e' = Ok n /\ exists s', run h' e' = Ok s' /\ s_n s' = n /\ s_comms s' = s_comms s /\ s_other s' = s_other s.
Proof. clear default is_default num fields mpi_env.
  intros R Hn. unfold run in R. destruct (e_addr e) as [a0|] eqn:Ea; [|discriminate].
  destruct (nth_error h a0) as [s0|] eqn:N; [|discriminate]. destruct (e_known e) as [c|] eqn:K; [|discriminate].
  destruct (ecomms_eqb (s_comms s0) c) eqn:C; [|discriminate]. injection R as <-.
  unfold set_nworkers. rewrite Ea, K. split; [destruct n; [lia|reflexivity]|].
  unfold run. cbn [e_addr e_known]. rewrite (upd_nth_same _ _ _ _ N). cbn [s_comms]. rewrite C. eexists. split; [reflexivity|]. auto.
Qed.

Theorem C74_workers_of_the_run mpi arg (h h' : heap V) e s :
  create None mpi arg h = Ok (h', e) -> run h' e = Ok s ->
  (s_comms s <> EMpi -> nworkers h' e = Ok (s_n s)) /\
  (s_comms s = ELocal -> 0 < s_n s /\ saves e = true) /\
  (s_comms s = EMpi -> 0 < fst mpi -> nworkers h' e = Ok (fst mpi)) /\ (s_comms s = EMpi -> saves e = snd mpi).
Proof. clear is_default fields.
  intros H R.
  assert (F : forall h0 a k, finish false mpi h0 (mkens a 0 false k) = Ok (h', e) ->
    h' = h0 /\ e_addr e = a /\ e_known e = k /\ (k <> Some EMpi -> e_n e = 0) /\ (k = Some EMpi -> e_n e = fst mpi /\ e_manager e = snd mpi) /\
    (k = Some ELocal -> e_manager e = true /\ exists n, nworkers h0 (mkens a 0 true k) = Ok (S n))).
  { intros h0 a k Q. unfold finish in Q. cbn [e_known e_addr e_n] in Q. destruct k as [[]|].
    - injection Q as <- <-. cbn. repeat split; congruence.
    - destruct (nworkers h0 _) as [[|n]|] eqn:W; cbn in Q; try discriminate. injection Q as <- <-. cbn. repeat split; try congruence. eauto.
    - injection Q as <- <-. cbn. repeat split; congruence.
    - injection Q as <- <-. cbn. repeat split; congruence.
    - injection Q as <- <-. cbn. repeat split; congruence. }
  assert (G : exists h0 a k, finish false mpi h0 (mkens a 0 false k) = Ok (h', e)).
  { unfold EnsembleModel.create in H. destruct arg as [|d|b]; eauto. destruct (nth_error h b); [eauto|discriminate]. }
  destruct G as (h0 & a & k & Q). destruct (F _ _ _ Q) as (<- & Ea & Ek & F1 & F2 & F3). clear F H Q.
  unfold run in R. rewrite Ea in R. destruct a as [a|]; [|discriminate]. destruct (nth_error h' a) as [s0|] eqn:N; [|discriminate].
  rewrite Ek in R. destruct k as [c|]; [|discriminate]. destruct (ecomms_eqb (s_comms s0) c) eqn:C; [|discriminate]. injection R as ->.
  apply comms_eq in C. subst c. unfold nworkers, saves. rewrite Ea, N. split; [|split; [|split]].
  - intros D. rewrite F1 by congruence. reflexivity.
  - intros D. rewrite D in F3. destruct (F3 eq_refl) as [M [n W]]. split; [|exact M]. unfold nworkers in W. cbn in W. rewrite N in W. injection W as W. lia.
  - intros D P. rewrite D in F2. destruct (F2 eq_refl) as [W _]. rewrite W. destruct (fst mpi); [lia|reflexivity].
  - intros D. rewrite D in F2. exact (proj2 (F2 eq_refl)).
Qed.
End Ens.
Print Assumptions C74_parsed_arguments_are_used.
Print Assumptions C74_communication_is_kept.
Print Assumptions C74_runs.
Print Assumptions C74_assignment_to_specs.
Print Assumptions C74_workers_assigned.
Print Assumptions C74_workers_of_the_run.

(** *** What does not hold *)
(** For the examples: the values are numbers, the default of every field is 0. *)
Definition dflt (_ : string) : nat := 0.
Definition isd (_ : string) (v : nat) : bool := v =? 0.
Definition flds : list string := ["num_resource_sets"; "save_every_k_sims"]%string.
Notation mk := (create dflt (fun n => n) false).
Notation asg := (set_specs dflt isd flds false).
Definition no_settings : settings nat := mkset None None [].
(** The object that is the default argument of the constructor *)
Definition heap0 : heap nat := [make_specs dflt false no_settings].
Definition parsed4 : parsed := mkparsed 4 true ELocal (Some 4) None.

(** The default LibeSpecs() is shared: after an ensemble made without arguments, another one
    that parses its arguments changes the communication of the first, which then raises. *)
Theorem C74_ensembles_are_separate_refuted :
  ~ (forall p mpi (h h1 h2 : heap nat) e1 e2 s, mk None mpi (AObj 0) h = Ok (h1, e1) -> run h1 e1 = Ok s ->
       mk (Some p) mpi (AObj 0) h1 = Ok (h2, e2) -> run h2 e1 = Ok s).
Proof. intros H. specialize (H parsed4 (3, true) heap0 _ _ _ _ _ eq_refl eq_refl eq_refl). discriminate. Qed.
Print Assumptions C74_ensembles_are_separate_refuted.

(** An ensemble made with libE_specs=None never runs, whatever is assigned. *)
Theorem C74_runs_without_specs_refuted mpi (h h1 : heap nat) e new h2 e2 :
  mk None mpi NoSpecs h = Ok (h1, e) -> asg new h1 e = Ok (h2, e2) -> exists x, run h2 e2 = Err x.
Proof.
  cbn. intros H H2. injection H as <- <-. unfold set_specs in H2. cbn in H2.
  destruct new; injection H2 as <- <-; unfold run; cbn; eauto.
  - rewrite nth_error_app2, Nat.sub_diag by lia. cbn. eauto.
  - destruct (nth_error h addr); eauto.
Qed.
Print Assumptions C74_runs_without_specs_refuted.

(** With parsed arguments a dictionary for libE_specs is refused, unless it is empty. *)
Theorem C74_dictionary_with_parsed_arguments_refuted p mpi d (h : heap nat) :
  empty_dict d = false -> mk (Some p) mpi (ADict d) h = Err EKey.
Proof. intros E. cbn. rewrite E. reflexivity. Qed.
Print Assumptions C74_dictionary_with_parsed_arguments_refuted.

(** Assigning an object cannot set a field back to its default. *)
Theorem C74_assigned_object_is_used_refuted :
  ~ (forall (h h' : heap nat) e b sb s', nth_error h b = Some sb -> asg (AObj b) h e = Ok (h', e) -> run h' e = Ok s' ->
       forall x, In x flds -> s_other s' x = s_other sb x).
Proof.
  intros H.
  specialize (H [make_specs dflt false (mkset (Some ELocal) (Some 4) [("save_every_k_sims"%string, 5)]); make_specs dflt false no_settings] _
    (mkens (Some 0) 0 true (Some ELocal)) 1 _ _ eq_refl eq_refl eq_refl "save_every_k_sims"%string ltac:(cbn; auto)). discriminate.
Qed.
Print Assumptions C74_assigned_object_is_used_refuted.

(** Assigning LibeSpecs(nworkers=8) raises, also for an ensemble with local communication:
    giving the number of workers makes the communication of the object local. *)
Theorem C74_object_with_workers_refuted n (h : heap nat) e s b :
  run h e = Ok s -> nth_error h b = Some (make_specs dflt false (mkset None (Some n) [])) -> asg (AObj b) h e = Err EValue.
Proof.
  intros R N. pose proof (C74_assignment_to_specs dflt isd flds false h e s (AObj b) R (ex_intro _ _ N)) as A.
  destruct (asg (AObj b) h e) as [[h' e']|x]; [|destruct A as [-> _]; reflexivity].
  destruct A as (_ & sb & s' & N' & C & _). rewrite N in N'. injection N' as <-. discriminate.
Qed.
Print Assumptions C74_object_with_workers_refuted.

(** After parsed arguments, a number of workers assigned with libE_specs is used by the run,
    but the ensemble still says the parsed one, and makes random streams for that many. *)
Theorem C74_workers_agree_refuted :
  ~ (forall p mpi a d (h h1 h2 : heap nat) e1 e2 s, mk (Some p) mpi (AObj a) h = Ok (h1, e1) ->
       asg (ADict d) h1 e1 = Ok (h2, e2) -> run h2 e2 = Ok s -> nworkers h2 e2 = Ok (s_n s)).
Proof.
  intros H. specialize (H parsed4 (0, true) 0 (mkset None (Some 8) []) heap0 _ _ _ _ _ eq_refl eq_refl eq_refl). discriminate.
Qed.
Print Assumptions C74_workers_agree_refuted.

(** With communication by threads and no parsed arguments, save_output writes nothing. *)
Theorem C74_threads_save_refuted mpi n (h : heap nat) :
  exists h' e s, mk None mpi (ADict (mkset (Some EThreads) (Some n) [])) h = Ok (h', e) /\ run h' e = Ok s /\
    s_n s = n /\ saves e = false.
Proof.
  do 3 eexists. split; [reflexivity|]. unfold run. cbn. rewrite nth_error_app2, Nat.sub_diag by lia. cbn. repeat split.
Qed.
Print Assumptions C74_threads_save_refuted.

Example C74_ex_program : exists w e s,
  leads dflt isd (fun n => n) flds false (heap0, []) w /\ nth_error (snd w) 0 = Some e /\ run (fst w) e = Ok s /\
  s_n s = 6 /\ s_other s "save_every_k_sims"%string = 7 /\ s_comms s = ELocal.
Proof.
  do 3 eexists. split.
  { eapply LStep with (o := Workers 0 6); [|exact Logic.I].
    eapply LStep with (o := Assign 0 (ADict (mkset None None [("save_every_k_sims"%string, 7)]))); [|exact Logic.I].
    eapply LStep with (o := Create (Some parsed4) (0, true) (AObj 0)); [apply LSame|]. intros e []. }
  vm_compute. repeat split.
Qed.

(** ** Random streams *)
(** The entries of the first workers (and of the manager) get their number and a stream seeded
    with the number, or with the seed given; the rest of these entries and the other entries
    are as before. *)
Lemma add_streams_spec {V} is : forall (p : persis V) s i, NoDup is ->
  add_streams is s p i = if in_dec Nat.eq_dec i is then Some (with_stream s i (match p i with Some e => e | None => fun _ => None end)) else p i.
Proof.
  induction is as [|k is IH]; intros p s i ND; [reflexivity|]. inversion ND as [|? ? Hk ND']; subst. cbn [add_streams].
  rewrite IH by exact ND'. destruct (Nat.eq_dec i k) as [->|Ne].
  - rewrite Nat.eqb_refl. destruct (in_dec Nat.eq_dec k is); [contradiction|].
    destruct (in_dec Nat.eq_dec k (k :: is)) as [_|H]; [reflexivity|exfalso; apply H; left; reflexivity].
  - rewrite (proj2 (Nat.eqb_neq i k) Ne). destruct (in_dec Nat.eq_dec i is) as [H|H], (in_dec Nat.eq_dec i (k :: is)) as [H2|H2]; try reflexivity.
    + exfalso. apply H2. right. exact H.
    + exfalso. destruct H2 as [->|H2]; [apply Ne; reflexivity|exact (H H2)].
Qed.
Theorem C74_random_streams {V} num_streams n s (p : persis V) :
  let k := if num_streams =? 0 then n else num_streams in
  let q := add_random_streams num_streams n s p in
  (forall i, i <= k -> exists e, q i = Some e /\ e "worker_num"%string = Some (WorkerNum i) /\
     e "rand_stream"%string = Some (Stream match s with NoSeed => Some (Z.of_nat i) | Seed z => Some z | NoneSeed => None end) /\
     (forall x, x <> "worker_num"%string -> x <> "rand_stream"%string -> e x = match p i with Some e0 => e0 x | None => None end)) /\
  (forall i, k < i -> q i = p i).
Proof.
  cbv zeta. unfold add_random_streams, add_unique_random_streams. set (k := if num_streams =? 0 then n else num_streams).
  split; intros i Hi; rewrite add_streams_spec by apply seq_NoDup.
  - destruct (in_dec Nat.eq_dec i (seq 0 (k + 1))) as [_|H]; [|exfalso; apply H, in_seq; lia].
    eexists. split; [reflexivity|]. split; [reflexivity|]. split; [destruct s; reflexivity|].
    intros x H1 H2. unfold with_stream. rewrite (proj2 (String.eqb_neq x "rand_stream") H2), (proj2 (String.eqb_neq x "worker_num") H1).
    destruct (p i); reflexivity.
  - destruct (in_dec Nat.eq_dec i (seq 0 (k + 1))) as [H|_]; [apply in_seq in H; lia|reflexivity].
Qed.
Print Assumptions C74_random_streams.

(** Without a seed, no two workers share a stream. *)
Theorem C74_streams_differ {V} k n (p : persis V) i j ei ej s :
  i <= (if k =? 0 then n else k) -> j <= (if k =? 0 then n else k) ->
  add_random_streams k n NoSeed p i = Some ei -> add_random_streams k n NoSeed p j = Some ej ->
  ei "rand_stream"%string = Some (Stream s) -> ej "rand_stream"%string = Some (Stream s) -> i = j.
Proof.
  intros Hi Hj Qi Qj Si Sj. destruct (C74_random_streams k n NoSeed p) as [A _].
  destruct (A i Hi) as (e1 & R1 & _ & S1 & _), (A j Hj) as (e2 & R2 & _ & S2 & _).
  rewrite Qi in R1. injection R1 as <-. rewrite Qj in R2. injection R2 as <-.
  rewrite S1 in Si. rewrite S2 in Sj. injection Si as Si. injection Sj as Sj. subst s. injection Sj as Sj. lia.
Qed.
Print Assumptions C74_streams_differ.

Example C74_ex_streams :
  let q := add_random_streams 0 3 NoSeed (fun i => if i =? 1 then Some (fun x => if String.eqb x "x0" then Some (User 5) else None) else None) in
  match q 1, q 3, q 4 with
  | Some e, Some e3, None => e "x0"%string = Some (User 5) /\ e "worker_num"%string = Some (WorkerNum 1) /\ e3 "rand_stream"%string = Some (Stream (Some 3%Z))
  | _, _, _ => False
  end.
Proof. vm_compute. repeat split. Qed.

(** ** Settings from a file *)
(** Values of the file replace those of the dictionary; the others stay. Of two names for the
    same setting, both with a value, the shorter is kept - for the inputs, or else the outputs. *)
Theorem C74_settings_from_a_file {V} (truthy : V -> bool) d loaded x :
  let both a b := (exists v, (loaded a = Some v \/ (loaded a = None /\ d a = Some v)) /\ truthy v = true) /\
                  (exists v, (loaded b = Some v \/ (loaded b = None /\ d b = Some v)) /\ truthy v = true) in
  let r := parameterize truthy (ODict d) loaded in
  (forall v, x <> "inputs"%string -> x <> "outputs"%string -> loaded x = Some v -> r x = Some v) /\
  (x <> "inputs"%string -> x <> "outputs"%string -> loaded x = None -> r x = d x) /\
  (both "in"%string "inputs"%string -> r "inputs"%string = None) /\
  (~ both "in"%string "inputs"%string -> both "out"%string "outputs"%string -> r "outputs"%string = None).
Proof.
  cbv zeta.
  set (m := fun x => match loaded x with Some v => Some v | None => d x end).
  set (has := fun x => match m x with Some v => truthy v | None => false end).
  assert (Q : parameterize truthy (ODict d) loaded =
    if has "in"%string && has "inputs"%string then fun x => if String.eqb x "inputs" then None else m x
      else if has "out"%string && has "outputs"%string then fun x => if String.eqb x "outputs" then None else m x
      else m) by reflexivity.
  rewrite Q. clear Q.
  assert (Hh : forall a, has a = true <-> exists v, (loaded a = Some v \/ (loaded a = None /\ d a = Some v)) /\ truthy v = true).
  { intros a. unfold has, m. split.
    - destruct (loaded a) as [v|] eqn:E; [intros T; exists v; split; [left; reflexivity|exact T]|].
      destruct (d a) as [v|] eqn:E2; [|discriminate]. intros T. exists v. split; [right; split; reflexivity|exact T].
    - intros (v & [E|[E E2]] & T); rewrite E; [exact T|rewrite E2; exact T]. }
  assert (HH : forall a b, has a && has b = true <->
     (exists v, (loaded a = Some v \/ (loaded a = None /\ d a = Some v)) /\ truthy v = true) /\
     (exists v, (loaded b = Some v \/ (loaded b = None /\ d b = Some v)) /\ truthy v = true)).
  { intros a b. rewrite andb_true_iff, (Hh a), (Hh b). reflexivity. }
  assert (P : x <> "inputs"%string -> x <> "outputs"%string ->
    (if has "in"%string && has "inputs"%string then fun x => if String.eqb x "inputs" then None else m x
      else if has "out"%string && has "outputs"%string then fun x => if String.eqb x "outputs" then None else m x
      else m) x = m x).
  { intros N1 N2. destruct (has "in"%string && has "inputs"%string); [rewrite (proj2 (String.eqb_neq x "inputs") N1); reflexivity|].
    destruct (has "out"%string && has "outputs"%string); [rewrite (proj2 (String.eqb_neq x "outputs") N2); reflexivity|reflexivity]. }
  split; [|split; [|split]].
  - intros v N1 N2 L. etransitivity; [exact (P N1 N2)|]. unfold m. rewrite L. reflexivity.
  - intros N1 N2 L. etransitivity; [exact (P N1 N2)|]. unfold m. rewrite L. reflexivity.
  - intros B. apply HH in B. rewrite B. reflexivity.
  - intros NB B. apply HH in B. destruct (has "in"%string && has "inputs"%string) eqn:E; [apply HH in E; contradiction|]. rewrite B. reflexivity.
Qed.
Print Assumptions C74_settings_from_a_file.

(** If both pairs clash, the outputs keep both names, and the new object is refused (two
    values for one field). *)
Theorem C74_no_clash_is_left_refuted :
  ~ (forall (d loaded : string -> option nat),
       let r := parameterize (fun v => negb (v =? 0)) (ODict d) loaded in
       forall v w, r "out"%string = Some v -> r "outputs"%string = Some w -> v = 0 \/ w = 0).
Proof.
  intros H. specialize (H (fun _ => Some 1) (fun _ => Some 1) 1 1 eq_refl eq_refl). lia.
Qed.
Print Assumptions C74_no_clash_is_left_refuted.

Example C74_ex_file :
  let r := parameterize (fun v => negb (v =? 0)) (ODict (fun x => if String.eqb x "in" then Some 3 else if String.eqb x "user" then Some 4 else None))
             (fun x => if String.eqb x "inputs" then Some 5 else if String.eqb x "sim_f" then Some 6 else None) in
  (r "in", r "inputs", r "user", r "sim_f")%string = (Some 3, None, Some 4, Some 6).
Proof. reflexivity. Qed.
