(** Successive calls of pausing_alloc (fast_alloc_and_pausing). *)
From Coq Require Import String Permutation Sorted.
From Verif Require Import Base BaseLemmas HistoryModel HistoryProofs WorkModel RsetModel RsetSpec SchedModel SchedSpec SchedServe AllocModel AllocSpec AllocProofs AllocLoops AllocFacts AllocFast AllocPersis AllocModel2 AllocSpec2 AllocMore AllocMore2 AllocMore3 AllocMore4 AllocMore5 AllocMore6.
Local Notation length := List.length.
Local Open Scope list_scope.
Local Open Scope nat_scope.

Definition ps_fine (p : ps_state) : Prop := NoDup (ps_need p) /\ forall i, In i (ps_need p) -> i < ps_len p.

Lemma nan_same H G z : same_but [F_paused] H G -> In z (nan_ids G) <-> In z (nan_ids H).
Proof.
  intros S. rewrite !nan_ids_spec. unfold nan_point. split; intros (i & P & F); exists i; (split; [eapply (point_same [F_paused] H G i z S); auto; intros [X|[]]; discriminate|]).
  - pose proof (same_but_cell _ _ _ (F_user "f_i") i S) as X. unfold fcell in *. destruct P as (r & E & _). destruct (same_but_back _ _ _ _ _ S E) as (r0 & E0 & FF). rewrite E in F. rewrite E0. rewrite <- FF; auto. intros [Y|[]]; discriminate.
  - unfold fcell in *. destruct P as (r & E & _). destruct (proj2 S _ _ E) as (r0 & E0 & FF). rewrite E in F. rewrite E0. rewrite FF; auto. intros [Y|[]]; discriminate.
Qed.

(** Who is paused, and why. *)
Lemma pause_sims_paused c d u : forall ws j need pd H wk s H' wk' s' need' pd' e,
  pause_sims c d u ws j need pd H wk s = (H', wk', s', (need', pd'), e) ->
  incl need' need /\ (forall z, In z pd' -> In z pd \/ pz_nans u = true /\ nan_point H z \/ exists t, In z (pz_partial u t)) /\
  (forall z i, pz_nans u = true -> nan_point H z -> ~ In z pd -> point_of H i z -> In i need' -> ~ In z pd').
Proof.
  induction ws as [|w ws IH]; intros j need pd H wk s H' wk' s' need' pd' e; cbn [pause_sims].
  - intros [= <- <- <- <- <- <-]. split; [apply incl_refl|]. split; auto.
  - destruct need as [|n0 need0] eqn:En; [intros [= <- <- <- <- <- <-]; split; [apply incl_refl|]; split; auto|]. rewrite <- En in *. clear n0 need0 En.
    set (ids := (if pz_nans u then nan_ids H else []) ++ pz_partial u j). destruct (pause_points ids pd need H) as [[pd1 need1] H1] eqn:Ep.
    assert (IN : forall z, In z pd1 -> In z pd \/ In z ids). { unfold pause_points in Ep. destruct (forallb _ ids); injection Ep as <- <- <-; auto. intros z Hz. now apply in_app_or in Hz. }
    apply pause_points_spec in Ep as (P1 & P2 & P3 & P4 & P5 & P6 & P7 & P8 & P9).
    assert (HI : forall z, In z ids -> pz_nans u = true /\ nan_point H z \/ exists t, In z (pz_partial u t)).
    { intros z Hz. apply in_app_or in Hz. destruct Hz as [Hz|Hz]; [|right; eauto]. left. destruct (pz_nans u); [|destruct Hz]. split; auto. now apply nan_ids_spec. }
    assert (KEY : forall z i, pz_nans u = true -> nan_point H z -> ~ In z pd -> point_of H i z -> ~ In i need1).
    { intros z i Hn Hz Hpd Hp. apply (P8 z i); auto. apply in_or_app. left. rewrite Hn. now apply nan_ids_spec. }
    assert (Stop : forall need2 wk2 s2 e2, incl need2 need1 -> (H1, wk2, s2, (need2, pd1), e2) = (H', wk', s', (need', pd'), e) ->
      incl need' need /\ (forall z, In z pd' -> In z pd \/ pz_nans u = true /\ nan_point H z \/ exists t, In z (pz_partial u t)) /\
      (forall z i, pz_nans u = true -> nan_point H z -> ~ In z pd -> point_of H i z -> In i need' -> ~ In z pd')).
    { intros need2 wk2 s2 e2 I2 [= <- <- <- <- <- <-]. split; [eapply incl_tran; eauto|]. split; [intros z Hz; destruct (IN z Hz); auto|].
      intros z i Hn Hz Hpd Hp Hi. exfalso. apply (KEY z i); auto. }
    destruct (ac_ord c need1) as [|i l]; [apply Stop; apply incl_refl|].
    assert (FI : incl (filter (fun n => negb (n =? i)) need1) need1) by (intros m Hm; apply filter_In in Hm; apply Hm).
    destruct (sim_work c d H1 w [i] false s) as [[k|er] s1].
    + intros EE. destruct (IH _ _ _ _ _ _ _ _ _ _ _ _ EE) as (I1 & I2 & _). split; [eapply incl_tran; [exact I1|]; eapply incl_tran; eauto|]. split.
      * intros z Hz. destruct (I2 z Hz) as [X|[[X Y]|X]]; [destruct (IN z X); auto| |auto]. right. left. split; auto. apply nan_ids_spec. apply (nan_same H H1 z P1). now apply nan_ids_spec.
      * intros z m Hn Hz Hpd Hp Hi. exfalso. apply (KEY z m); auto.
    + destruct er; apply Stop; auto using incl_refl.
Qed.

Section Step.
Variables (c : actx) (d : dtype) (u : ps_user) (g : nat) (p p' : ps_state) (H : list row) (out : aout).
Hypothesis (Hids : ids_distinct (ac_W c)) (Hres : resources_ok c) (Hfine : ps_fine p) (Hnum : numbered H) (Hlen : ps_len p <= length H).
Hypothesis Hrun : pausing_alloc c d u false g p H = (out, p').

Lemma step_give : NoDup (to_give p H) /\ forall i, In i (to_give p H) <-> In i (ps_need p) \/ ps_len p <= i < length H.
Proof. apply to_give_spec; auto; apply Hfine. Qed.

Lemma step_fine : ps_fine p' /\ ps_len p' = length H.
Proof.
  destruct step_give as [G1 G2]. destruct (pausing_facts c d u g p p' H out Hids Hres G1 Hrun) as (_ & _ & _ & F1 & F2 & F3 & _).
  split; auto. split; auto. intros i Hi. apply F3, G2 in Hi. rewrite F1. destruct Hi as [Hi|Hi]; [apply Hfine in Hi|]; lia.
Qed.
Lemma step_given : NoDup (sim_rows (o_work out)) /\ forall i, In i (sim_rows (o_work out)) -> (In i (ps_need p) \/ ps_len p <= i < length H) /\ ~ In i (ps_need p').
Proof.
  destruct step_give as [G1 G2]. destruct (pausing_facts c d u g p p' H out Hids Hres G1 Hrun) as ((s & A) & _ & _ & F1 & F2 & F3 & F4 & _).
  split; [apply A|]. intros i Hi. split; [|intros X; now apply (F4 i)]. apply G2. now apply (acc_points _ _ _ _ _ A).
Qed.
Lemma step_paused : (forall z, In z (ps_paused p') -> In z (ps_paused p) \/ pz_nans u = true /\ nan_point H z \/ exists t, In z (pz_partial u t)) /\
  (forall z i, pz_nans u = true -> nan_point H z -> ~ In z (ps_paused p) -> point_of H i z -> In i (ps_need p') -> ~ In z (ps_paused p')).
Proof.
  revert Hrun. unfold pausing_alloc.
  destruct (avail_workers _ None false None (Some false)) as [ws|] eqn:Ew; [|cbn in Ew; discriminate].
  destruct (avail_workers _ None false None (Some true)) as [gs|] eqn:Eg; [|cbn in Eg; discriminate].
  destruct (pause_sims _ _ _ _ _ _ _ _ _ _) as [[[[H1 wk1] s1] [need1 pd1]] e1] eqn:E1. apply pause_sims_paused in E1 as (_ & X).
  destruct e1; [intros [= <- <-]; exact X|]. destruct (pause_gens _ _ _ _ _ _ _ _ _) as [[[[wk2 s2] calls] last] e2]. intros [= <- <-]. exact X.
Qed.
End Step.

(** ** Successive calls *)
Section Calls.
Variables (d : dtype) (nans : bool) (part : nat -> nat -> list Z) (num : option nat) (batch : bool).
Let f := pausing_call d nans part num batch.
Definition st (s : nat * ps_state * nat) : ps_state := snd (fst s).

Lemma call_inv c g p n H out s1 : f c (g, p, n) H = (out, s1) -> pausing_alloc c d (mkPZ nans (part n) num batch) false g p H = (out, st s1) /\ snd s1 = S n.
Proof. unfold f, pausing_call. destruct (pausing_alloc _ _ _ _ _ _ _) as [o p']. intros [= <- <-]. auto. Qed.

Lemma pausing_never_twice s l s' : calls_of f s l s' -> ps_fine (st s) -> calls_fit l -> (forall c H out, In (c, H, out) l -> numbered H) ->
  (forall c H out, nth_error l 0 = Some (c, H, out) -> ps_len (st s) <= length H) ->
  NoDup (all_given l) /\ forall i, In i (all_given l) -> In i (ps_need (st s)) \/ ps_len (st s) <= i.
Proof.
  intros C. induction C as [s|s s1 s2 c H out l E C IH]; intros Hf Fit Hn HL; [split; [constructor|intros i []]|].
  destruct s as [[g p] n]. destruct (call_inv _ _ _ _ _ _ _ E) as [E' _]. cbn [st fst snd] in *. destruct (proj1 Fit c H out (or_introl eq_refl)) as [Hi Hr].
  pose proof (Hn c H out (or_introl eq_refl)) as N1. pose proof (HL c H out eq_refl) as L1.
  destruct (step_fine _ _ _ _ _ _ _ _ Hi Hr Hf N1 L1 E') as [Hf1 L2]. destruct (step_given _ _ _ _ _ _ _ _ Hi Hr Hf N1 L1 E') as [D1 D2].
  destruct IH as [I1 I2]; auto; [eapply calls_fit_tail; eauto|intros c0 H0 o0 Hin; apply (Hn c0 H0 o0); now right| |].
  { intros c0 H0 o0 N0. pose proof (proj2 Fit 0 c H out c0 H0 o0 eq_refl N0). lia. }
  unfold all_given in *. cbn [map concat snd]. split.
  - apply NoDup_app_intro; auto. intros i X Y. destruct (D2 i X) as [A B]. destruct (I2 i Y) as [Z|Z]; [contradiction|]. rewrite L2 in Z. destruct A as [A|A]; [apply Hf in A|]; lia.
  - intros i Hin. apply in_app_or in Hin. destruct Hin as [Hin|Hin]; [destruct (D2 i Hin) as [[A|A] _]; auto; right; lia|].
    destruct (I2 i Hin) as [Z|Z]; [|rewrite L2 in Z; right; lia]. destruct Hf1 as [_ Hf1]. 
    destruct (step_give p H Hf N1 L1) as [G1 G2]. destruct (pausing_facts c d _ g p _ H out Hi Hr G1 E') as (_ & _ & _ & _ & _ & F3 & _).
    apply F3, G2 in Z. destruct Z as [Z|Z]; [auto|right; lia].
Qed.

(** A row is not given while the history shows a NaN of its point. *)
Lemma pausing_nan i z s l s' : nans = true -> (forall n t, part n t = []) -> calls_of f s l s' -> ps_fine (st s) -> calls_fit l -> (forall c H out, In (c, H, out) l -> numbered H) ->
  (forall c H out, nth_error l 0 = Some (c, H, out) -> ps_len (st s) <= length H) ->
  (forall c H out, In (c, H, out) l -> i < length H -> point_of H i z) -> (forall c H out, In (c, H, out) l -> nan_point H z -> i < length H) ->
  (In i (ps_need (st s)) \/ ps_len (st s) <= i -> ~ In z (ps_paused (st s))) ->
  forall c H out, In (c, H, out) l -> nan_point H z -> ~ In i (sim_rows (o_work out)).
Proof.
  intros En Ep C. induction C as [s|s s1 s2 c H out l E C IH]; intros Hf Fit Hn HL HP HZ HQ; [intros c H out []|].
  destruct s as [[g p] n]. destruct (call_inv _ _ _ _ _ _ _ E) as [E' _]. cbn [st fst snd] in *. destruct (proj1 Fit c H out (or_introl eq_refl)) as [Hi Hr].
  pose proof (Hn c H out (or_introl eq_refl)) as N1. pose proof (HL c H out eq_refl) as L1.
  destruct (step_fine _ _ _ _ _ _ _ _ Hi Hr Hf N1 L1 E') as [Hf1 L2]. destruct (step_paused _ _ _ _ _ _ _ _ E') as [D1 D2]. cbn [pz_nans pz_partial] in *.
  destruct (step_give p H Hf N1 L1) as [G1 G2]. destruct (pausing_facts c d _ g p _ H out Hi Hr G1 E') as ((s0 & A) & _ & _ & _ & _ & F3 & _ & _ & _ & F4 & _). cbn [pz_nans pz_partial] in *.
  intros c' H' out' [Hin|Hin] Hz.
  - injection Hin as <- <- <-. intros Hg. apply (F4 z i); auto; [|apply (HP c H out); [now left|]; apply (HZ c H out); [now left|exact Hz]].
    apply HQ. pose proof (acc_points _ _ _ _ _ A i Hg) as X. apply G2 in X. destruct X as [X|X]; [auto|right; lia].
  - apply (IH Hf1) with (c := c') (H := H'); auto.
    + eapply calls_fit_tail; eauto.
    + intros c0 H0 o0 H1. apply (Hn c0 H0 o0). now right.
    + intros c0 H0 o0 N0. pose proof (proj2 Fit 0 c H out c0 H0 o0 eq_refl N0). lia.
    + intros c0 H0 o0 H1. apply (HP c0 H0 o0). now right.
    + intros c0 H0 o0 H1. apply (HZ c0 H0 o0). now right.
    + intros Hq. assert (NZ : ~ In z (ps_paused p) /\ (nan_point H z -> In i (ps_need (st s1)))).
      { destruct Hq as [Hq|Hq].
        - split; auto. apply HQ. apply F3, G2 in Hq. destruct Hq as [Hq|Hq]; [auto|right; lia].
        - split; [apply HQ; right; lia|]. intros Hz'. specialize (HZ c H out (or_introl eq_refl) Hz'). lia. }
      intros Hin'. destruct (D1 z Hin') as [X|[[_ X]|[t X]]]; [now apply NZ| |rewrite Ep in X; destruct X].
      apply (D2 z i); auto; try apply NZ; auto. apply (HP c H out); [now left|]. apply (HZ c H out); [now left|exact X].
Qed.

(** Batch mode: every row is given, waits or is paused. *)
Definition upto (p : ps_state) : nat := match ps_last p with Some n => n | None => 0 end.
Record bat (n : nat) (G : list row) (gs : list nat) (p : ps_state) : Prop := mkBat {
  bt_fine : ps_fine p; bt_len : ps_len p = length G; bt_last : upto p <= length G;
  bt_new : forall i, In i (ps_need p) -> n <= i /\ upto p <= i /\ ~ In i gs /\ ~ paused G i;
  bt_gs : forall i, In i gs -> i < length G; bt_n : n <= length G;
  bt_cover : forall i, n <= i < length G -> In i gs \/ In i (ps_need p) \/ paused G i }.

Lemma bat_step n G gs c g p m H out s1 : batch = true -> bat n G gs p -> ids_distinct (ac_W c) -> resources_ok c ->
  numbered H -> length G <= length H -> (forall i, i < length G -> paused H i <-> paused G i) -> (forall i, length G <= i -> ~ paused H i) -> (forall i, n <= i -> ended H i -> In i gs) ->
  f c (g, p, m) H = (out, s1) -> o_err out = None ->
  bat n (o_rows out) (gs ++ sim_rows (o_work out)) (st s1) /\
  (ac_manage c = false -> (forall i, n <= i < length H -> In i (gs ++ sim_rows (o_work out)) \/ paused (o_rows out) i) \/
     forall w, idle (ac_W c) w -> (some_gen_only (ac_W c) -> ~ gen_only (ac_W c) w) -> In w (map fst (o_work out))).
Proof.
  intros Eb B Hi Hr N1 L1 K1 K2 K3 E He. destruct (call_inv _ _ _ _ _ _ _ E) as [E' _]. destruct B as [B1 B2 B3 B4 B5 B6 B7].
  assert (LP : ps_len p <= length H) by lia.
  destruct (step_fine _ _ _ _ _ _ _ _ Hi Hr B1 N1 LP E') as [Hf1 L2]. destruct (step_given _ _ _ _ _ _ _ _ Hi Hr B1 N1 LP E') as [D1 D2].
  destruct (step_give p H B1 N1 LP) as [G1 G2].
  destruct (pausing_facts c d _ g p _ H out Hi Hr G1 E') as ((s0 & A) & SB & _ & F1 & F2 & F3 & F4 & F5 & F6 & F7 & F8 & F9 & F10 & F11 & F12 & F13 & F14). cbn [pz_nans pz_partial pz_batch pz_num_gens] in *.
  assert (TG : forall i, In i (to_give p H) -> n <= i /\ upto p <= i /\ ~ In i gs /\ ~ paused H i /\ i < length H).
  { intros i Hg. apply G2 in Hg. destruct Hg as [Hg|Hg].
    - destruct (B4 i Hg) as (X1 & X2 & X3 & X4). apply B1 in Hg. split; auto. split; auto. split; auto. split; [|lia]. intros Y. apply X4, K1; auto. lia.
    - split; [lia|]. split; [lia|]. split; [intros Y; apply B5 in Y; lia|]. split; [apply K2; lia|lia]. }
  assert (NE : forall i, In i (to_give p H) -> exists r, nth_error H i = Some r /\ truthy (r F_sim_ended) = false /\ match ps_last p with Some n => n | None => 0 end <= i).
  { intros i Hg. destruct (TG i Hg) as (X1 & X2 & X3 & X4 & X5). destruct (nth_error H i) as [r|] eqn:Er; [|apply nth_error_None in Er; lia].
    exists r. split; auto. split; auto. destruct (truthy (r F_sim_ended)) eqn:Et; auto. destruct X3. apply K3; auto. exists r. auto. }
  assert (Need' : forall i, In i (ps_need (st s1)) -> n <= i /\ upto p <= i /\ ~ In i (gs ++ sim_rows (o_work out)) /\ ~ paused (o_rows out) i).
  { intros i Hg. destruct (TG i (F3 i Hg)) as (X1 & X2 & X3 & X4 & X5). split; auto. split; auto. split; [|now apply F6]. intros Y. apply in_app_or in Y. destruct Y as [Y|Y]; [auto|now apply (F4 i)]. }
  assert (Old : forall i, n <= i < length H -> In i gs \/ In i (to_give p H) \/ paused (o_rows out) i).
  { intros i Hl. destruct (Nat.lt_ge_cases i (length G)) as [Hlt|Hge]; [|right; left; apply G2; lia].
    destruct (B7 i) as [X|[X|X]]; [lia|auto|right; left; apply G2; auto|]. right. right. apply F5, K1; auto. }
  assert (GS : forall i, In i (gs ++ sim_rows (o_work out)) -> i < length (o_rows out)).
  { intros i Y. rewrite (proj1 SB). apply in_app_or in Y. destruct Y as [Y|Y]; [apply B5 in Y; lia|]. destruct (D2 i Y) as [[X|X] _]; [apply B1 in X|]; lia. }
  destruct (gens (o_work out)) as [|q0 l0] eqn:Eg.
  - specialize (F8 He eq_refl). assert (UP : upto (st s1) = upto p) by (unfold upto; now rewrite (F12 eq_refl)).
    assert (Cov : forall i, n <= i < length H -> In i (gs ++ sim_rows (o_work out)) \/ In i (ps_need (st s1)) \/ paused (o_rows out) i).
    { intros i Hl. destruct (Old i Hl) as [X|[X|X]]; [left; apply in_or_app; auto| |auto]. destruct (F8 i X) as [Y|[Y|Y]]; [auto|left; apply in_or_app; auto|auto]. }
    split.
    + split; auto; try rewrite (proj1 SB); auto; try lia. intros i Hg. rewrite UP. now apply Need'.
    + intros M. destruct (F9 M eq_refl) as [Z|Z]; [left|right; exact Z]. intros i Hl. destruct (Cov i Hl) as [X|[X|X]]; [auto|rewrite Z in X; destruct X|auto].
  - assert (NN : q0 :: l0 <> []) by discriminate. specialize (F14 Eb NN NE). destruct (F13 NN) as [Last _].
    assert (Z : ps_need (st s1) = []). { destruct (ps_need (st s1)) as [|i l]; auto. exfalso. apply (proj2 (proj2 (proj2 (Need' i (or_introl eq_refl))))). apply F14, F3. now left. }
    assert (Cov : forall i, n <= i < length H -> In i (gs ++ sim_rows (o_work out)) \/ paused (o_rows out) i).
    { intros i Hl. destruct (Old i Hl) as [X|[X|X]]; [left; apply in_or_app; auto|right; now apply F14|auto]. }
    split; [|intros _; now left]. split; auto; try rewrite (proj1 SB); auto.
    + unfold upto. rewrite Last. lia.
    + rewrite Z. intros i [].
    + lia.
    + intros i Hl. destruct (Cov i Hl); auto.
Qed.

Lemma pausing_batch n s l s' : batch = true -> calls_of f s l s' -> forall G gs, bat n G gs (st s) -> kept_from n G gs l -> calls_fit l -> (forall c H out, In (c, H, out) l -> o_err out = None) ->
  forall j c H out, nth_error l j = Some (c, H, out) -> ac_manage c = false ->
  (forall i, n <= i < length H -> In i (gs ++ all_given (firstn (S j) l)) \/ paused (o_rows out) i) \/
  forall w, idle (ac_W c) w -> (some_gen_only (ac_W c) -> ~ gen_only (ac_W c) w) -> In w (map fst (o_work out)).
Proof.
  intros Eb C. induction C as [s|s s1 s2 c H out l E C IH]; intros G gs B K Fit HE j c' H' out' Nj M; [destruct j; discriminate|].
  destruct s as [[g p] m]. cbn [st fst snd] in *. destruct K as (K1 & K2 & K3 & K4 & K5 & K6). destruct (proj1 Fit c H out (or_introl eq_refl)) as [Hi Hr].
  destruct (bat_step _ _ _ _ _ _ _ _ _ _ Eb B Hi Hr K1 K2 K3 K4 K5 E (HE _ _ _ (or_introl eq_refl))) as [B' R].
  destruct j as [|j].
  - injection Nj as <- <- <-. cbn [firstn all_given map concat snd]. unfold all_given. cbn [map concat snd]. rewrite app_nil_r. auto.
  - cbn [nth_error] in Nj. assert (Hl : forall c H out, In (c, H, out) l -> o_err out = None) by (intros c0 H0 o0 X; apply (HE c0 H0 o0); now right).
    specialize (IH _ _ B' K6 (calls_fit_tail _ _ _ _ Fit) Hl j c' H' out' Nj M).
    destruct IH as [I|I]; [left|now right]. intros i Hx. specialize (I i Hx). rewrite <- app_assoc in I. exact I.
Qed.

Lemma bat_init n H : n <= length H -> bat n (firstn n H) [] (mkPS n [] [] None 0).
Proof.
  intros L. assert (E : length (firstn n H) = n) by (rewrite firstn_length; lia). split; cbn; try rewrite E; try lia; auto; try (intros i []).
  split; [constructor|intros i []].
Qed.
End Calls.
