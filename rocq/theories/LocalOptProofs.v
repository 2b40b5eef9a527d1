(** Proofs for LocalOptModel: one invariant that says whose turn it is. *)
From Verif Require Import Base BaseLemmas LocalOptModel LocalOptSpec.
Local Open Scope nat_scope.

Section Proofs.
Context {X V : Type}.
Variable act : list V -> @request X.
Variable same : X -> V -> bool.
Variable starts : X -> bool.
Notation sys := (@sys X V).
Notation hears := (hears act same).
Notation step := (step act same starts).
Notation Run := (Run act same starts).

(** Everything in [g] was for the point asked for. *)
Definition conv (g : list V) : Prop := forall t, hears [] (g ++ t) = hears g t.
Definition log (r : list (@reply X)) (g : list V) : Prop :=
  forall k y, nth_error r k = Some y -> y = hears [] (firstn (S k) g).
Lemma log_app r g t : length r <= length g -> log r g -> log r (g ++ t).
Proof.
  intros L h k y E. rewrite (h k y E). assert (K : k < length r) by (apply nth_error_Some; congruence).
  rewrite firstn_app. replace (S k - length g) with 0 by lia. rewrite firstn_O, app_nil_r. reflexivity.
Qed.
Lemma log_snoc r g : length g = S (length r) -> log r g -> log (r ++ [hears [] g]) g.
Proof.
  intros L h k y E. destruct (Nat.lt_ge_cases k (length r)) as [K|K].
  - rewrite nth_error_app1 in E by exact K. apply (h k y E).
  - rewrite nth_error_app2 in E by exact K. destruct (k - length r) as [|d] eqn:D; [|destruct d; discriminate].
    injection E as <-. rewrite firstn_all2 by lia. reflexivity.
Qed.
Lemma conv_nil : conv [].
Proof. intros t. reflexivity. Qed.
Lemma conv_snoc g a v : conv g -> act g = Ask a -> same a v = true -> conv (g ++ [v]).
Proof.
  intros C A E t. rewrite <- app_assoc. rewrite C. cbn [app LocalOptSpec.hears]. rewrite A, E. reflexivity.
Qed.
Lemma conv_bad g a v : conv g -> act g = Ask a -> same a v = false -> hears [] (g ++ [v]) = RRaise.
Proof. intros C A E. rewrite C. cbn [LocalOptSpec.hears]. rewrite A, E. reflexivity. Qed.
Lemma conv_says g : conv g -> hears [] g = says (act g).
Proof. intros C. rewrite <- (app_nil_r g) at 1. rewrite C. cbn [LocalOptSpec.hears]. destruct (act g); reflexivity. Qed.

(** An item on its way: put and not yet written, or in the pipe. *)
Definition onway (m : @item X V) (b p : list item) : Prop := (b = [m] /\ p = []) \/ (b = [] /\ p = [m]).
(** How many replies there are when [i] is the kind of call. *)
Definition due (i : bool) (r : list (@reply X)) (g : list V) : Prop :=
  if i then g = [] /\ r = [] else length g = S (length r).
(** The item that the optimizer's process has put, and what it does then. *)
Definition answer (g : list V) (m : @item X V) (n : option X) (f : list V) : Prop :=
  got m = hears [] g /\ f = g /\
  match n with
  | Some a => m = IPoint a /\ conv g /\ act g = Ask a
  | None => match m with IBad | IDone _ _ => True | _ => False end
  end.

Inductive Phase : sys -> Prop :=
| ph_run i g r : due i r g -> log r g -> conv g -> Phase (mksys [] [] [] false false CRun (PWait i) g g r)
| ph_put i g r f m n b p : due i r g -> log r g -> answer g m n f -> onway m b p ->
    Phase (mksys p b [] false false (CSet n) (PWait i) f g r)
| ph_set i g r f m n b p c q : due i r g -> log r g -> answer g m n f -> onway m b p ->
    match n with Some a => c = CWait a | None => c = CEnd \/ (c = CDead /\ b = []) end ->
    q = PWait i \/ q = PGet i ->
    Phase (mksys p b [] true false c q f g r)
| ph_idle g r a : length r = length g -> log r g -> conv g -> act g = Ask a ->
    Phase (mksys [] [] [] true false (CWait a) PIdle g g r)
| ph_clear g r a v pc q : length r = length g -> log r g -> conv g -> act g = Ask a ->
    (pc = true /\ q = PClear v) \/ (pc = false /\ q = PPut v) ->
    Phase (mksys [] [] [] pc false (CWait a) q g (g ++ [v]) r)
| ph_pset g r a v b p : length r = length g -> log r g -> conv g -> act g = Ask a -> onway (IValues v) b p ->
    Phase (mksys p [] b false false (CWait a) PSet g (g ++ [v]) r)
| ph_wait g r a v b p c : length r = length g -> log r g -> conv g -> act g = Ask a -> onway (IValues v) b p ->
    c = CWait a \/ c = CGet a ->
    Phase (mksys p [] b false true c (PWait false) g (g ++ [v]) r)
| ph_cclear g r a v : length r = length g -> log r g -> conv g -> act g = Ask a ->
    Phase (mksys [] [] [] false true (CClear a v) (PWait false) g (g ++ [v]) r)
| ph_over g r pc cc c q : length r = length g -> log r g ->
    match q with
    | PJoin => c = CEnd \/ c = CDead
    | PDrain | PClosed => c = CDead
    | PRaised false => c = CEnd \/ c = CDead
    | PRaised true => g = [] /\ (c = CEnd \/ c = CDead \/ (exists a, c = CWait a /\ act [] = Ask a /\ starts a = false /\ cc = false))
    | _ => False
    end ->
    Phase (mksys [] [] [] pc cc c q g g r).

Lemma due_snoc i r g : due i r g -> i = false -> length g = S (length r).
Proof. intros D ->. exact D. Qed.

Lemma step_Phase s s' : Phase s -> step s s' -> Phase s'.
Proof.
  intros P St. destruct P.
  - (* run *)
    destruct St as [s' E|s' E|s' E|s' E]; cbn in E; try discriminate. injection E as <-.
    pose proof (conv_says g H1) as Hs.
    destruct (act g) as [a|a b|] eqn:Ea; unfold put_c; cbn [pipe cbuf pbuf pcr ccr pa fed given replies app];
      eapply ph_put; try eassumption; try (left; split; reflexivity); split; auto.
  - (* put *)
    destruct St as [s' E|s' E|s' E|s' E]; cbn in E; try discriminate.
    + injection E as <-. eapply ph_set; try eassumption; [|left; reflexivity]. destruct n; auto.
    + destruct H2 as [[-> ->]|[-> ->]]; [|discriminate]. injection E as <-. eapply ph_put; try eassumption. right. auto.
  - (* set *)
    destruct St as [s' E|s' E|s' E|s' E].
    + cbn in E. destruct n as [a|].
      * subst c. discriminate.
      * destruct H3 as [->|[-> ->]]; [|discriminate]. cbn in E. destruct b as [|m' b]; [|discriminate].
        injection E as <-. eapply (ph_set i g r f m None); try eassumption. auto.
    + destruct H4 as [->| ->]; cbn in E.
      * injection E as <-. eapply ph_set; try eassumption. auto.
      * destruct H2 as [[-> ->]|[-> ->]]; [discriminate|]. injection E as <-. destruct H1 as (Hg & -> & Hn).
        destruct i.
        -- destruct H as [-> ->]. destruct n as [a|].
           ++ destruct Hn as (-> & Hc & Ha). subst c. cbn [after_get]. destruct (starts a) eqn:Es.
              ** apply ph_idle; auto.
              ** apply ph_over; auto. split; [reflexivity|]. right. right. exists a. auto.
           ++ assert (Hc : c = CEnd \/ c = CDead) by (destruct H3 as [->|[-> _]]; auto).
              destruct m; try contradiction; cbn [after_get]; apply ph_over; auto; split; auto; destruct Hc; auto.
        -- cbn in H. assert (L : length (r ++ [got m]) = length g) by (rewrite app_length; cbn; lia).
           assert (Lg : log (r ++ [got m]) g) by (rewrite Hg; apply log_snoc; assumption).
           destruct n as [a|].
           ++ destruct Hn as (-> & Hc & Ha). subst c. cbn [after_get]. apply ph_idle; auto.
           ++ assert (Hc : c = CEnd \/ c = CDead) by (destruct H3 as [->|[-> _]]; auto).
              destruct m; try contradiction; cbn [after_get]; apply ph_over; auto.
    + cbn in E. destruct H2 as [[-> ->]|[-> ->]]; [|discriminate]. injection E as <-.
      eapply ph_set; try eassumption; [right; auto|]. destruct n; auto. destruct H3 as [->|[-> h]]; auto.
    + discriminate.
  - (* idle *) destruct St as [s' E|s' E|s' E|s' E]; discriminate.
  - (* clear *)
    destruct St as [s' E|s' E|s' E|s' E]; try discriminate.
    destruct H3 as [[-> ->]|[-> ->]]; cbn in E; injection E as <-.
    + apply ph_clear with (a := a); auto.
    + apply ph_pset with (a := a); auto. left. auto.
  - (* pset *)
    destruct St as [s' E|s' E|s' E|s' E]; try discriminate; cbn in E.
    + injection E as <-. apply ph_wait with (a := a); auto.
    + destruct H3 as [[-> ->]|[-> ->]]; [|discriminate]. injection E as <-. apply ph_pset with (a := a); auto. right. auto.
  - (* wait *)
    destruct St as [s' E|s' E|s' E|s' E]; try discriminate; cbn in E.
    + destruct H4 as [->| ->]; cbn in E.
      * injection E as <-. apply ph_wait with (a := a); auto.
      * destruct H3 as [[-> ->]|[-> ->]]; [discriminate|]. injection E as <-. apply ph_cclear; auto.
    + destruct H3 as [[-> ->]|[-> ->]]; [|discriminate]. injection E as <-. apply ph_wait with (a := a); auto. right. auto.
  - (* cclear *)
    assert (D : due false r (g ++ [v])) by (cbn; rewrite app_length; cbn; lia).
    assert (L : log r (g ++ [v])) by (apply log_app; [lia | assumption]).
    destruct St as [s' E|s' E|s' E|s' E]; try discriminate; cbn in E.
    injection E as <-. destruct (same a v) eqn:Ea.
    + apply ph_run; auto. apply (conv_snoc g a); auto.
    + unfold put_c. cbn [pipe cbuf pbuf pcr ccr pa fed given replies app].
      eapply (ph_put false _ _ _ IBad None); eauto; [|left; auto]. split; [|split; [reflexivity | exact Logic.I]]. symmetry. apply (conv_bad g a); auto.
  - (* over *)
    destruct St as [s' E|s' E|s' E|s' E]; try discriminate; cbn in E.
    + assert (Hc : c = CEnd \/ c = CDead \/ exists a, c = CWait a /\ cc = false).
      { destruct q as [| | | | | | | | |[|]]; try contradiction; try tauto.
        destruct H1 as (_ & [h|[h|(a & h & _ & _ & h')]]); eauto. }
      destruct Hc as [->|[->|(a & -> & ->)]]; try discriminate.
      injection E as <-. apply ph_over; auto. destruct q as [| | | | | | | | |[|]]; try contradiction; try (cbn; tauto); try (right; reflexivity); try reflexivity.
    + destruct q; try discriminate; cbn in E; try contradiction.
      * destruct c; try discriminate. injection E as <-. apply ph_over; auto.
      * injection E as <-. apply ph_over; auto.
Qed.

Lemma iterate_Phase s s' v : Phase s -> call_iterate v s = Some s' -> Phase s'.
Proof.
  intros P E. destruct P; cbn in E; try discriminate.
  - destruct H4 as [->| ->]; discriminate.
  - injection E as <-. apply ph_clear; auto.
  - destruct H3 as [[_ ->]|[_ ->]]; discriminate.
  - destruct q; try discriminate; contradiction.
Qed.
Lemma destroy_Phase s s' : Phase s -> call_destroy s = Some s' -> Phase s'.
Proof.
  intros P E. destruct P; cbn in E; try discriminate.
  - destruct H4 as [->| ->]; discriminate.
  - injection E as <-. apply ph_over; auto.
  - destruct H3 as [[_ ->]|[_ ->]]; discriminate.
  - destruct q as [| | | | | | | | |[|]]; try discriminate; try contradiction; injection E as <-; apply ph_over; auto.
Qed.
Lemma Run_Phase s : Run s -> Phase s.
Proof.
  induction 1.
  - apply ph_run; [split; reflexivity | | apply conv_nil]. intros k y E. destruct k; discriminate.
  - eapply step_Phase; eassumption.
  - eapply iterate_Phase; eassumption.
  - eapply destroy_Phase; eassumption.
Qed.
Lemma steps_Phase n s s' : steps act same starts n s s' -> Phase s -> Phase s'.
Proof. induction 1; auto. intros P. apply IHsteps. eapply step_Phase; eassumption. Qed.

(** ** Every call returns *)
Definition wc (s : sys) : nat :=
  match ch s with
  | CRun => 5 | CSet _ => 2 | CWait _ => if ccr s then 9 else 0 | CGet _ => 8 | CClear _ _ => 7
  | CMixed => 4 | CEnd => 1 | CDead => 0 end.
Definition wp (s : sys) : nat :=
  match pa s with
  | PWait _ => 6 | PGet _ => 5 | PSet => 16 | PPut _ => 18 | PClear _ => 19 | PJoin => 2 | PDrain => 1 | _ => 0 end.
Definition todo (s : sys) : nat := wc s + wp s + length (cbuf s) + length (pbuf s).

Lemma onway_len m b p : onway m b p -> length b <= 1.
Proof. intros [[-> _]|[-> _]]; cbn; lia. Qed.
Lemma todo_bound s : Phase s -> todo s <= 19.
Proof.
  intros P. destruct P; unfold todo, wc, wp; cbn [ch ccr pa cbuf pbuf length];
    try match goal with o : onway _ _ _ |- _ => apply onway_len in o end; try lia.
  - destruct H4 as [->| ->]; destruct n; [subst c | destruct H3 as [->|[-> _]] | subst c | destruct H3 as [->|[-> _]]]; lia.
  - destruct H3 as [[_ ->]|[_ ->]]; lia.
  - destruct H4 as [->| ->]; lia.
  - destruct q as [| | | | | | | | |[|]]; try contradiction; try (destruct H1 as [->| ->]; lia); try (subst c; lia).
    destruct H1 as (_ & [->|[->|(a & -> & _ & _ & ->)]]); lia.
Qed.
Lemma step_todo s s' : Phase s -> step s s' -> todo s' < todo s.
Proof.
  intros P St. destruct St as [s' E|s' E|s' E|s' E].
  - assert (Hc : ch s <> CMixed).
    { destruct P; cbn; try discriminate.
      - destruct n; [subst c; discriminate | destruct H3 as [->|[-> _]]; discriminate].
      - destruct H4 as [->| ->]; discriminate.
      - intros ->. destruct q as [| | | | | | | | |[|]]; intuition (try congruence).
        match goal with h : exists _, _ |- _ => destruct h as (? & h & _); discriminate end. }
    assert (Hn : forall n, ch s = CSet n -> ccr s = false).
    { intros n En. destruct P; cbn in En |- *; try discriminate; try reflexivity.
      - destruct H4 as [->| ->]; discriminate.
      - subst c. destruct q as [| | | | | | | | |[|]]; intuition (try congruence).
        match goal with h : exists _, _ |- _ => destruct h as (? & h & _); discriminate end. }
    assert (Hg : forall a m l, ch s = CGet a -> pipe s = m :: l -> exists v, m = IValues v).
    { intros a0 m0 l0 En Ep. destruct P; cbn in En, Ep; try discriminate.
      - destruct n; [subst c; discriminate | destruct H3 as [->|[-> _]]; discriminate].
      - destruct H3 as [[_ ->]|[_ ->]]; [discriminate|]. injection Ep as <- _. eauto. }
    unfold child_step in E. unfold todo, wc, wp.
    destruct (ch s) as [|n|a|a|a v| | |] eqn:Ec; try congruence.
    + injection E as <-. destruct (act (fed s)); unfold put_c; cbn [ch pa ccr cbuf pbuf]; rewrite app_length; cbn; lia.
    + injection E as <-. specialize (Hn n eq_refl). destruct n; cbn [ch pa ccr cbuf pbuf]; [rewrite Hn|]; lia.
    + destruct (ccr s); [|discriminate]. injection E as <-. cbn. lia.
    + destruct (pipe s) as [|m l] eqn:Ep; [discriminate|]. destruct (Hg a m l eq_refl eq_refl) as [v ->].
      injection E as <-. cbn. lia.
    + injection E as <-. destruct (same a v); unfold put_c; cbn [ch pa ccr cbuf pbuf]; [|rewrite app_length; cbn]; lia.
    + destruct (cbuf s) eqn:Eb; [|discriminate]. injection E as <-. cbn. rewrite Eb. cbn. lia.
  - unfold parent_step in E. unfold todo, wc, wp.
    destruct (pa s) as [i|i| |v|v| | | | |] eqn:Ep; try discriminate.
    + destruct (pcr s); [|discriminate]. injection E as <-. cbn [ch pa ccr cbuf pbuf set_pa]. lia.
    + destruct (pipe s) as [|m l]; [discriminate|]. injection E as <-. cbn [ch pa ccr cbuf pbuf].
      destruct i, m as [a0| | |]; cbn; try (destruct (starts a0)); lia.
    + injection E as <-. cbn [ch pa ccr cbuf pbuf]. lia.
    + injection E as <-. cbn [ch pa ccr cbuf pbuf]. rewrite app_length. cbn [length]. lia.
    + injection E as <-. cbn [ch pa ccr cbuf pbuf]. destruct (ch s); destruct (ccr s); lia.
    + destruct (ch s) eqn:Ec; try discriminate. injection E as <-. cbn [ch pa ccr cbuf pbuf set_pa]. rewrite Ec. lia.
    + destruct (pbuf s) eqn:Eb; [|discriminate]. injection E as <-. cbn [ch pa ccr cbuf pbuf set_pa]. rewrite Eb. cbn [length]. lia.
  - unfold child_flush in E. destruct (cbuf s) as [|m l] eqn:Eb; [discriminate|]. injection E as <-.
    unfold todo, wc, wp. cbn [ch pa ccr cbuf pbuf]. rewrite Eb. cbn [length]. lia.
  - unfold parent_flush in E. destruct (pbuf s) as [|m l] eqn:Eb; [discriminate|]. injection E as <-.
    unfold todo, wc, wp. cbn [ch pa ccr cbuf pbuf]. rewrite Eb. cbn [length]. lia.
Qed.
Lemma steps_todo n s s' : steps act same starts n s s' -> Phase s -> n + todo s' <= todo s.
Proof.
  induction 1; intros P; [lia|]. pose proof (step_todo _ _ P H). specialize (IHsteps (step_Phase _ _ P H)). lia.
Qed.
Lemma busy_moves s : Phase s -> busy s -> exists s', step s s'.
Proof.
  intros P B. destruct P.
  - eexists. apply step_child. reflexivity.
  - eexists. apply step_child. reflexivity.
  - destruct H4 as [->| ->].
    + eexists. apply step_parent. reflexivity.
    + destruct H2 as [[-> ->]|[-> ->]].
      * eexists. apply step_cflush. reflexivity.
      * eexists. apply step_parent. reflexivity.
  - contradiction B.
  - destruct H3 as [[-> ->]|[-> ->]]; eexists; apply step_parent; reflexivity.
  - eexists. apply step_parent. reflexivity.
  - destruct H4 as [->| ->].
    + eexists. apply step_child. reflexivity.
    + destruct H3 as [[-> ->]|[-> ->]].
      * eexists. apply step_pflush. reflexivity.
      * eexists. apply step_child. reflexivity.
  - eexists. apply step_child. reflexivity.
  - destruct q; try contradiction.
    + destruct H1 as [->| ->]; eexists; [apply step_child | apply step_parent]; reflexivity.
    + eexists. apply step_parent. reflexivity.
Qed.
End Proofs.
