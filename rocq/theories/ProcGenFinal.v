(** Lemmas about the end of a generator function behind an object. *)
From Verif Require Import Base BaseLemmas MapModel MapSpec MapProofs ProcGenModel ProcGenSpec ProcGenProofs ProcGenSample ProcGenRun.
Local Open Scope nat_scope.

Definition msg_of (e : ended) : pout := match e with EndResult v => MResult v | EndExc => MExc end.
Definition at_end (l : list pout) (k : nat) (e : ended) : Prop := nth_error l k = Some (msg_of e) /\ Forall is_points (firstn k l).
Lemma at_end_app l r k e : at_end l k e -> at_end (l ++ r) k e.
Proof.
  intros [A B]. assert (L : k < length l) by (apply nth_error_Some; congruence). split; [now rewrite nth_error_app1|].
  rewrite firstn_app. replace (k - length l) with 0 by lia. cbn. now rewrite app_nil_r.
Qed.
Lemma at_end_with l k e : at_end l k e -> ended_with l (msg_of e).
Proof.
  intros [A B]. apply nth_error_split in A as (pts&rest&->&<-). exists pts, rest. split; auto. split.
  - rewrite firstn_app, Nat.sub_diag in B. cbn in B. now rewrite app_nil_r, firstn_all in B.
  - now destruct e.
Qed.
Lemma ended_with_unique l m m' : ended_with l m -> ended_with l m' -> m = m'.
Proof.
  intros (p&r&->&F&N) (p'&r'&E&F'&N'). revert p' E F'. induction p as [|x p IH]; intros [|y p'] E F'; cbn in E.
  - now injection E.
  - injection E as <- _. inversion F'; subst. contradiction.
  - injection E as <- _. inversion F; subst. contradiction.
  - injection E as <- E. inversion F; inversion F'; subst. eapply IH; eauto.
Qed.

Lemma final_spec : forall l k e, final l = Some (k, e) -> exists j, k = S j /\ at_end l j e.
Proof.
  induction l as [|[a|v|] l IH]; intros k e H; cbn in H; try discriminate.
  - destruct (final l) as [[k' e']|] eqn:E; [|discriminate]. injection H as <- <-. destruct (IH _ _ eq_refl) as (j&->&A&B).
    exists (S j). split; auto. split; auto. cbn. constructor; [exact I|auto].
  - injection H as <- <-. exists 0. split; [auto|]. split; [reflexivity|constructor].
  - injection H as <- <-. exists 0. split; [auto|]. split; [reflexivity|constructor].
Qed.
Lemma final_some : forall l m, ended_with l m -> exists k e, final l = Some (k, e) /\ msg_of e = m.
Proof.
  intros l m (p&r&->&F&NP). induction F as [|x p X F IH]; cbn.
  - destruct m as [a|v|]; [now destruct NP|exists 1, (EndResult v); auto|exists 1, EndExc; auto].
  - destruct x; try contradiction. destruct IH as (k&e&->&E). eauto.
Qed.

Section F.
Variable gen : gfun.
Variable N : nat.
Variable pi : list name.
Hypothesis ST : steady gen.

Record finv (o : obj) : Prop := {
  fi_sane : sane o;
  fi_taken : o_taken o <= length (outbox gen o);
  fi_none : o_done o = None -> Forall is_points (firstn (o_taken o) (outbox gen o));
  fi_some : forall e, o_done o = Some e -> exists k, o_taken o = S k /\ at_end (outbox gen o) k e;
  fi_result : forall v, o_result o = Some v -> o_done o = Some (EndResult v) }.

Record same (o o' : obj) : Prop := {
  sm_made : o_made o' = o_made o; sm_run : o_running o' = o_running o; sm_in : o_in o' = o_in o;
  sm_taken : o_taken o' = o_taken o; sm_done : o_done o' = o_done o; sm_res : o_result o' = o_result o }.
Lemma finv_same o o' : finv o -> same o o' -> finv o'.
Proof.
  intros [A B C D E] [X1 X2 X3 X4 X5 X6]. assert (OB : outbox gen o' = outbox gen o) by (unfold outbox; now rewrite X2, X3).
  split; rewrite ?X4, ?X5, ?X6, ?OB; auto. unfold sane. rewrite X1, X2. exact A.
Qed.
Lemma finv_grown o o' : finv o -> grown o o' -> sane o' -> finv o'.
Proof.
  intros [A B C D E] G HS. destruct (grown_outbox gen ST o o' G) as [r OB].
  split; rewrite ?(gr_taken _ _ G), ?(gr_done _ _ G), ?(gr_result _ _ G), ?OB; auto.
  - rewrite app_length. lia.
  - intros X. rewrite firstn_app. replace (o_taken o - length (outbox gen o)) with 0 by lia. cbn. rewrite app_nil_r. auto.
  - intros e X. destruct (D e X) as (k&K1&K2). exists k. split; auto. now apply at_end_app.
Qed.
Lemma finv_new : finv new_obj.
Proof. split; cbn; auto; try discriminate. intros _. reflexivity. Qed.

Lemma firstn_S_at {A} (l : list A) k x : nth_error l k = Some x -> firstn (S k) l = firstn k l ++ [x].
Proof. apply firstn_S_snoc. Qed.

Lemma recv_finv o o' r : finv o -> recv gen o = (o', r) -> finv o'.
Proof.
  intros I H. unfold recv in H. destruct (o_done o) eqn:ED; [injection H as <- <-; exact I|].
  destruct (nth_error (outbox gen o) (o_taken o)) as [m|] eqn:E; [|injection H as <- <-; exact I].
  assert (L : o_taken o < length (outbox gen o)) by (apply nth_error_Some; congruence).
  destruct I as [A B C D R]. specialize (C ED).
  assert (NR : o_result o = None) by (destruct (o_result o) eqn:X; auto; specialize (R _ eq_refl); congruence).
  destruct m as [a|v|]; injection H as <- <-; split; cbn [set_proc o_taken o_done o_result]; auto; try (rewrite NR; discriminate);
    try (intros; unfold outbox in *; cbn [set_proc o_running o_in]; auto; fail); try discriminate.
  - intros _. unfold outbox in *. cbn [set_proc o_running o_in]. rewrite (firstn_S_at _ _ _ E). apply Forall_app. split; auto. repeat constructor.
  - intros e [= <-]. exists (o_taken o). split; auto. split; [exact E|exact C].
  - intros e [= <-]. exists (o_taken o). split; auto. split; [exact E|exact C].
Qed.
Lemma result_finv o o' r : finv o -> result gen o = (o', r) ->
  finv o' /\ (forall v, r = Ret v -> o_done o' = Some (EndResult v)) /\ (forall e, r = Raise e -> e = ERemote /\ o_done o' = Some EndExc) /\ o_in o' = o_in o /\ o_running o' = o_running o /\ o_made o' = o_made o.
Proof.
  intros I H. unfold result in H. destruct (o_done o) as [e|] eqn:ED.
  - destruct e; injection H as <- <-; (split; [exact I|]); (split; [intros ? K; congruence|]); (split; [intros ? K; split; congruence|]); auto.
  - destruct (final (skipn (o_taken o) (outbox gen o))) as [[k e]|] eqn:E.
    2: { injection H as <- <-. split; auto. repeat split; intros; discriminate. }
    apply final_spec in E as (j&->&A1&A2).
    assert (NN : nth_error (outbox gen o) (o_taken o + j) = Some (msg_of e)).
    { rewrite <- A1. rewrite <- (firstn_skipn (o_taken o) (outbox gen o)) at 1. rewrite nth_error_app2; rewrite firstn_length, Nat.min_l by apply I; [f_equal; lia|lia]. }
    assert (L : o_taken o + j < length (outbox gen o)) by (apply nth_error_Some; congruence).
    assert (FF : Forall is_points (firstn (o_taken o + j) (outbox gen o))).
    { rewrite <- (firstn_skipn (o_taken o) (outbox gen o)). rewrite firstn_app, firstn_length, Nat.min_l by apply I.
      rewrite firstn_firstn, Nat.min_r by lia. replace (o_taken o + j - o_taken o) with j by lia. apply Forall_app. split; auto. now apply (fi_none _ I). }
    destruct I as [A B C D R].
    assert (NR : o_result o = None) by (destruct (o_result o) eqn:X; auto; specialize (R _ eq_refl); congruence).
    set (o1 := set_proc o (o_made o) (o_running o) (o_in o) (o_taken o + S j) (Some e) (o_result o)) in *.
    assert (OB : outbox gen o1 = outbox gen o) by reflexivity.
    assert (I1 : finv o1).
    { split; rewrite ?OB; auto.
      - cbn [o1 o_taken set_proc]. lia.
      - discriminate.
      - intros e' [= <-]. exists (o_taken o + j). split; [cbn; lia|]. split; auto.
      - cbn [o1 o_result set_proc]. rewrite NR. discriminate. }
    destruct e; injection H as <- <-; (split; [exact I1|]); (split; [intros ? K; try discriminate; now injection K as <-|]); (split; [intros ? K; try discriminate; now injection K as <-|]); auto.
Qed.

Lemma finalize_finv o o' r : finv o -> finalize gen pi o = (o', r) -> finv o' /\
  (r = Ret tt -> exists v, o_result o' = Some v /\ o_in o' = o_in o ++ [PNone true] /\ o_running o' = o_running o) /\
  (o_made o = false -> o' = o /\ r = Raise ERuntime).
Proof.
  intros I H. unfold finalize in H. destruct (o_made o) eqn:M.
  - destruct (base_ingest pi (set_first MIngest o) None true) as [o0 x0] eqn:E0. cbn [fst] in H.
    assert (S0 := first_sane MIngest _ (fi_sane _ I)). assert (E0' := E0). apply base_ingest_grown in E0' as (G0&S1&_); auto.
    assert (I1 : finv (set_call MIngest (o_num o) o0)).
    { eapply finv_grown; [exact I| |exact S1]. eapply grown_trans; [apply grown_first|]. eapply grown_trans; [exact G0|apply grown_call]. }
    assert (X0 : o_in o0 = o_in o ++ [PNone true] /\ o_running o0 = o_running o).
    { unfold base_ingest in E0. injection E0 as <- _. unfold start, set_first. destruct (o_first o); cbn; rewrite M; auto. }
    set (o1 := set_call MIngest (o_num o) o0) in *.
    destruct (result gen o1) as [o2 x] eqn:E2. apply result_finv in E2 as (I2&V&RM&IN&RN&_); auto.
    destruct x as [v|e|]; injection H as <- <-; (split; [|split; [|discriminate]]).
    + destruct I2 as [A B C D R]. split; auto. cbn. intros v' [= <-]. now apply V.
    + intros _. exists v. cbn. rewrite IN, RN. unfold o1. cbn. destruct X0 as [-> ->]. auto.
    + exact I2. + discriminate. + exact I2. + discriminate.
  - injection H as <- <-. split; auto. split; [discriminate|auto].
Qed.

Lemma hand_out_same n o o' r : hand_out n o = (o', r) -> same o o'.
Proof. unfold hand_out. destruct (o_last o); [destruct (0 <? n)|]; intros [= <- <-]; split; auto. Qed.
Lemma sugg_same o a b c : same o (set_sugg o a b c).
Proof. split; auto. Qed.
Lemma start_finv o : finv o -> finv (start o).
Proof. intros I. eapply finv_grown; [exact I|apply start_grown, I|apply start_sane]. Qed.
Lemma fetch_finv n o o' r : finv o -> fetch gen pi n o = (o', r) -> finv o'.
Proof.
  intros I H. unfold fetch in H. assert (I1 := finv_same _ _ I (sugg_same o 0 (o_last o) (o_minima o))).
  destruct (_ && _).
  - destruct (finalize gen pi _) as [o2 x] eqn:E. apply finalize_finv in E as [E _]; auto. destruct x; injection H as <- <-; exact E.
  - destruct (base_suggest gen _) as [o2 x] eqn:E. unfold base_suggest in E. apply recv_finv in E; [|now apply start_finv].
    destruct x as [l|e|]; [|injection H as <- <-; exact E|injection H as <- <-; exact E].
    unfold lift in H. destruct (column LOCAL_MIN l); [|injection H as <- <-; eapply finv_same; [exact E|apply sugg_same]].
    destruct (existsb is_min (a_rows l)); injection H as <- <-; eapply finv_same; try exact E; split; auto.
Qed.
Lemma step_finv c o o' r : finv o -> step gen N pi c o = (o', r) -> finv o'.
Proof.
  intros I H. destruct c as [n|a| | |]; cbn [step] in H.
  - destruct (suggest gen pi n o) as [o1 x] eqn:E. injection H as <- <-. unfold suggest in E.
    assert (I0 : finv (set_first MSuggest o)) by (eapply finv_grown; [exact I|apply grown_first|apply first_sane, I]).
    unfold lift in E. destruct (ready (set_first MSuggest o)) as [b|e]; [|injection E as <- <-; exact I0].
    destruct b.
    + destruct (fetch gen pi n (set_first MSuggest o)) as [o2 y] eqn:E2. apply fetch_finv in E2; auto.
      destruct y; [|injection E as <- <-; exact E2|injection E as <- <-; exact E2]. eapply finv_same; [exact E2|eapply hand_out_same; eauto].
    + eapply finv_same; [exact I0|eapply hand_out_same; eauto].
  - destruct (ingest N pi (Some a) false o) as [o1 x] eqn:E. injection H as <- <-. apply ingest_grown in E as (G&S1&_); [|apply I]. eapply finv_grown; eauto.
  - injection H as <- <-. eapply finv_same; [exact I|]. split; auto.
  - destruct (finalize gen pi o) as [o1 x] eqn:E. injection H as <- <-. now apply finalize_finv in E as [E _].
  - destruct (setup o) as [o1 x] eqn:E. injection H as <- <-. unfold setup in E. destruct (o_made o) eqn:M; injection E as <- <-; auto.
    destruct I as [A B C D R]. split; auto. unfold sane. discriminate.
Qed.
Lemma run_finv : forall cs o o' rs, finv o -> run gen N pi cs o = (o', rs) -> finv o'.
Proof.
  induction cs as [|c cs IH]; intros o o' rs I H; cbn [run] in H; [now injection H as <- <-|].
  destruct (step gen N pi c o) as [o1 r] eqn:E. apply step_finv in E; auto. destruct (hangs r); [now injection H as <- <-|].
  destruct (run gen N pi cs o1) as [o2 rs'] eqn:E2. injection H as <- <-. eapply IH; eauto.
Qed.

(** Stopping a running, obedient function *)
Lemma finalize_obedient o b : obedient gen -> finv o -> o_made o = true -> o_running o = Some b -> o_done o <> Some EndExc ->
  exists o', finalize gen pi o = (o', Ret tt).
Proof.
  intros OB I M R ND. unfold finalize. rewrite M.
  destruct (base_ingest pi (set_first MIngest o) None true) as [o0 x0] eqn:E0. cbn [fst].
  assert (S0 := first_sane MIngest _ (fi_sane _ I)). assert (E0' := E0). apply base_ingest_grown in E0' as (G0&S1&_); auto.
  assert (GG : grown o (set_call MIngest (o_num o) o0)).
  { eapply grown_trans; [apply grown_first|]. eapply grown_trans; [exact G0|apply grown_call]. }
  assert (I1 := finv_grown _ _ I GG S1).
  assert (X0 : o_in o0 = o_in o ++ [PNone true] /\ o_running o0 = o_running o).
  { unfold base_ingest in E0. injection E0 as <- _. unfold start, set_first. destruct (o_first o); cbn; rewrite M; auto. }
  set (o1 := set_call MIngest (o_num o) o0) in *.
  assert (OX : outbox gen o1 = gen b (o_in o ++ [PNone true])) by (unfold outbox, o1; cbn; destruct X0 as [-> ->]; now rewrite R).
  destruct (OB b (o_in o)) as (v&EW). rewrite <- OX in EW.
  assert (K : exists o2 w, result gen o1 = (o2, Ret w)); [|destruct K as (o2&w&->); eauto].
  unfold result. assert (ED : o_done o1 = o_done o) by apply (gr_done _ _ GG). rewrite <- ED in ND.
  destruct (o_done o1) as [[w|]|] eqn:E1; [eauto|congruence|].
  assert (EW' : ended_with (skipn (o_taken o1) (outbox gen o1)) (MResult v)).
  { destruct EW as (p&r&EE&F&NP). assert (FT := fi_none _ I1 E1). assert (LE : o_taken o1 <= length p).
    { destruct (le_lt_dec (o_taken o1) (length p)) as [?|LT]; auto. exfalso. rewrite EE in FT.
      assert (H : In (MResult v) (firstn (o_taken o1) (p ++ MResult v :: r))).
      { rewrite firstn_app. apply in_app_iff. right. destruct (o_taken o1 - length p) eqn:Q; [lia|]. now left. }
      rewrite Forall_forall in FT. now apply FT in H. }
    exists (skipn (o_taken o1) p), r. rewrite EE, skipn_app. replace (o_taken o1 - length p) with 0 by lia. split; auto. split; auto.
    rewrite <- (firstn_skipn (o_taken o1) p) in F. now apply Forall_app in F. }
  destruct (final_some _ _ EW') as (k&e&->&EM). destruct e; [eauto|discriminate].
Qed.
End F.
