(** C39: nested directory changes. *)
From Verif Require Import Base LocModel LocSpec.
Local Open Scope nat_scope.

Lemma memb_In x l : memb x l = true <-> In x l.
Proof. unfold memb. rewrite existsb_exists. split; [intros (y & H & E); apply Nat.eqb_eq in E; now subst|]. intros H. exists x. split; [exact H|apply Nat.eqb_refl]. Qed.

(** The directories missing later are missing already or removed by the code. *)
Lemma run_gone c : forall s d, In d (l_gone (fst (run c s))) -> In d (l_gone s) \/ In d (removed c).
Proof.
  assert (C : forall d s, l_gone (fst (chdir d s)) = l_gone s) by (intros d s; unfold chdir; destruct (memb d (l_gone s)); reflexivity).
  assert (P : forall s, l_gone (fst (pop s)) = l_gone s) by (intros s; unfold pop; destruct (l_stack s) as [|[d|] st]; [reflexivity| |reflexivity]; now rewrite C).
  assert (Q : forall d s, l_gone (fst (push d s)) = l_gone s) by (intros [d|] s; unfold push; [destruct (memb (l_cwd s) (l_gone s)); [reflexivity|now rewrite C]|reflexivity]).
  induction c as [|e|e|e|e|a IHa b IHb|a IHa b IHb|t a IHa]; intros s d; cbn [run removed].
  - auto.
  - rewrite C. auto.
  - cbn. tauto.
  - cbn. intros H. apply filter_In in H. tauto.
  - auto.
  - unfold bindx. destruct (run a s) as [s' [e|]] eqn:E; specialize (IHa s d); rewrite E in IHa; cbn [fst] in IHa |- *; rewrite in_app_iff; [tauto|]. intros H. apply IHb in H. tauto.
  - destruct (run a s) as [s' [e|]] eqn:E; specialize (IHa s d); rewrite E in IHa; cbn [fst] in IHa |- *; rewrite in_app_iff; [intros H; apply IHb in H; tauto|tauto].
  - specialize (Q t s). destruct (push t s) as [s1 [e|]]; cbn [fst] in Q; [cbn [fst]; rewrite Q; auto|]. specialize (IHa s1 d). destruct (run a s1) as [s2 r]. cbn [fst] in IHa. specialize (P s2). destruct (pop s2) as [s3 [e|]]; cbn [fst] in P |- *; rewrite P, Q in *; auto.
Qed.

Lemma refines c : forall s, (forall d, In d (targets c) -> ~ In d (l_gone s) /\ ~ In d (removed c)) ->
  l_stack (fst (run c s)) = l_stack s /\ (place_of (fst (run c s)), snd (run c s)) = scoped c (place_of s).
Proof.
  assert (C : forall d s, l_stack (fst (chdir d s)) = l_stack s /\ (place_of (fst (chdir d s)), snd (chdir d s)) = go d (place_of s)).
  { intros d s. unfold chdir, go, place_of. cbn [p_gone p_log]. destruct (memb d (l_gone s)); split; reflexivity. }
  induction c as [|e|e|e|e|a IHa b IHb|a IHa b IHb|t a IHa]; intros s H; cbn [run scoped]; try (split; reflexivity).
  - apply C.
  - cbn [targets removed] in H. destruct (IHa s) as (A1 & A2). { intros d Hd. destruct (H d) as (H1 & H2); [apply in_or_app; auto|]. split; [exact H1|]. intros X. apply H2, in_or_app. auto. }
    rewrite <- A2. assert (G := run_gone a s). destruct (run a s) as [s' [e|]]; cbn [fst snd bindx] in *; [auto|]. destruct (IHb s') as (B1 & B2); [|rewrite B1; auto].
    intros d Hd. destruct (H d) as (H1 & H2); [apply in_or_app; auto|]. rewrite in_app_iff in H2. split; [|tauto]. intros X. apply G in X. tauto.
  - cbn [targets removed] in H. destruct (IHa s) as (A1 & A2). { intros d Hd. destruct (H d) as (H1 & H2); [apply in_or_app; auto|]. split; [exact H1|]. intros X. apply H2, in_or_app. auto. }
    rewrite <- A2. assert (G := run_gone a s). destruct (run a s) as [s' [e|]]; cbn [fst snd] in *; [|auto]. destruct (IHb s') as (B1 & B2); [|rewrite B1; auto].
    intros d Hd. destruct (H d) as (H1 & H2); [apply in_or_app; auto|]. rewrite in_app_iff in H2. split; [|tauto]. intros X. apply G in X. tauto.
  - destruct t as [d|]; cbn [push targets removed] in *.
    + change (p_cwd (place_of s)) with (l_cwd s). change (p_gone (place_of s)) with (l_gone s). destruct (memb (l_cwd s) (l_gone s)); [split; reflexivity|].
      set (s0 := mkLoc (l_cwd s) (Some (l_cwd s) :: l_stack s) (l_gone s) (l_log s)). change (place_of s) with (place_of s0). destruct (C d s0) as (C1 & C2). rewrite <- C2.
      assert (Hd : memb d (l_gone s0) = false). { destruct (memb d (l_gone s0)) eqn:E; [|reflexivity]. apply memb_In in E. destruct (H d (or_introl eq_refl)) as (H1 & _). contradiction. }
      assert (E0 : chdir d s0 = (mkLoc d (l_stack s0) (l_gone s0) (l_log s0), None)) by (unfold chdir; now rewrite Hd). rewrite E0. cbn [fst snd].
      destruct (IHa (mkLoc d (l_stack s0) (l_gone s0) (l_log s0))) as (A1 & A2). { intros x Hx. apply H. now right. }
      rewrite <- A2. destruct (run a _) as [s2 r]. cbn [fst snd] in *. unfold pop. rewrite A1. cbn [l_stack s0].
      destruct (C (l_cwd s) (mkLoc (l_cwd s2) (l_stack s) (l_gone s2) (l_log s2))) as (D1 & D2). change (place_of (mkLoc (l_cwd s2) (l_stack s) (l_gone s2) (l_log s2))) with (place_of s2) in D2. rewrite <- D2.
      clear C1 C2 E0. destruct (chdir (l_cwd s) (mkLoc (l_cwd s2) (l_stack s) (l_gone s2) (l_log s2))) as [s3 [e|]]; cbn [fst snd] in *; auto.
    + destruct (IHa (mkLoc (l_cwd s) (None :: l_stack s) (l_gone s) (l_log s))) as (A1 & A2); [exact H|]. change (place_of (mkLoc (l_cwd s) (None :: l_stack s) (l_gone s) (l_log s))) with (place_of s) in A2. rewrite <- A2.
      destruct (run a _) as [s2 r]. cbn [fst snd] in *. unfold pop. rewrite A1. cbn. auto.
Qed.

(** Nested blocks behave as if each remembered its own starting directory, also
    when the body raises or changes directory itself, as long as the directories
    they enter exist; and the stack is left as it was found. *)
Theorem C39_scoped c s : (forall d, In d (targets c) -> ~ In d (l_gone s) /\ ~ In d (removed c)) ->
  l_stack (fst (run c s)) = l_stack s /\ (place_of (fst (run c s)), snd (run c s)) = scoped c (place_of s).
Proof. apply refines. Qed.
Print Assumptions C39_scoped.

(** In particular a block ends in the directory it began in, with the body's
    result, if that directory still exists. *)
Theorem C39_returns d a s : (forall x, In x (targets (With (Some d) a)) -> ~ In x (l_gone s) /\ ~ In x (removed a)) -> ~ In (l_cwd s) (l_gone s) -> ~ In (l_cwd s) (removed a) ->
  l_cwd (fst (run (With (Some d) a) s)) = l_cwd s /\
  snd (run (With (Some d) a) s) = snd (scoped a (mkPlace d (l_gone s) (l_log s))).
Proof.
  intros H H1 H2. assert (E1 : memb (l_cwd s) (l_gone s) = false) by (destruct (memb _ _) eqn:E; [apply memb_In in E; contradiction|reflexivity]).
  assert (E2 : memb d (l_gone s) = false) by (clear E1; destruct (memb d (l_gone s)) eqn:E; [apply memb_In in E; destruct (H d (or_introl eq_refl)); contradiction|reflexivity]).
  cbn [run push]. rewrite E1. unfold chdir at 1 2. cbn [l_gone l_stack l_log]. rewrite E2.
  destruct (refines a (mkLoc d (Some (l_cwd s) :: l_stack s) (l_gone s) (l_log s))) as (A1 & A2). { intros x Hx. apply H. now right. }
  change (place_of (mkLoc d (Some (l_cwd s) :: l_stack s) (l_gone s) (l_log s))) with (mkPlace d (l_gone s) (l_log s)) in A2. rewrite <- A2.
  assert (G := run_gone a (mkLoc d (Some (l_cwd s) :: l_stack s) (l_gone s) (l_log s)) (l_cwd s)). destruct (run a _) as [s2 r]. cbn [fst snd l_gone l_stack] in *. unfold pop. rewrite A1. unfold chdir. cbn [l_gone].
  destruct (memb (l_cwd s) (l_gone s2)) eqn:E; [apply memb_In in E; apply G in E; tauto|]. split; reflexivity.
Qed.
Print Assumptions C39_returns.
Example C39_example : let c := With (Some 1) (Seq Note (Seq (Try (With (Some 2) (Seq (Chdir 7) (Seq Note (Raise EValue)))) Note) (Seq Note (Raise EKey)))) in
  run c (mkLoc 0 [] [] []) = (mkLoc 0 [] [] [1; 7; 1; 1], Some EKey) /\ targets c = [1; 2] /\ removed c = [].
Proof. vm_compute. repeat split. Qed.

(** A block that cannot enter its directory leaves its entry on the stack: the
    enclosing block, going back, takes that entry and ends in the wrong place. *)
Theorem C39_failed_enter_refuted : exists a s, ~ In (l_cwd s) (l_gone s) /\ removed a = [] /\ snd (run (With (Some 1) a) s) = None /\ l_cwd (fst (run (With (Some 1) a) s)) <> l_cwd s
  /\ l_stack (fst (run (With (Some 1) a) s)) <> l_stack s.
Proof. exists (Try (With (Some 2) Note) Note), (mkLoc 0 [] [2] []). split; [now intros [H|[]]|]. split; [reflexivity|]. split; [reflexivity|]. split; vm_compute; discriminate. Qed.
Print Assumptions C39_failed_enter_refuted.

(** A block for an unknown location does not undo the body's own changes. *)
Theorem C39_unknown_location_refuted : exists a s, snd (run (With None a) s) = None /\ l_cwd (fst (run (With None a) s)) <> l_cwd s.
Proof. exists (Chdir 3), (mkLoc 0 [] [] []). split; [reflexivity|]. vm_compute. discriminate. Qed.
Print Assumptions C39_unknown_location_refuted.
