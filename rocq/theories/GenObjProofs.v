(** Proofs about generator objects. *)
From Verif Require Import Base MapModel MapSpec MapProofs GenObjModel GenObjSpec.
Local Open Scope nat_scope.

Section Run.
Context {P Q : Type}.
Variable (R : runner P Q) (sp : gspec) (g : list (ev Q) -> res P).

Lemma ingested_app (a b : list (ev Q)) : ingested (a ++ b) = ingested a ++ ingested b.
Proof. apply flat_map_app. Qed.
Lemma suggested_app (a b : list (ev Q)) : suggested (a ++ b) = suggested a ++ suggested b.
Proof. apply flat_map_app. Qed.
Lemma finalized_app (a b : list (ev Q)) : finalized (a ++ b) = finalized a + finalized b.
Proof. unfold finalized. now rewrite filter_app, app_length. Qed.

Lemma call_quiet evs k evs' r : call g evs k = (evs', r) -> quiet r -> k = (evs', r).
Proof. unfold call. destruct (g evs); auto. intros [= <- <-] H. now destruct (H e). Qed.
Lemma finish_quiet evs h evs' r : finish g evs h = (evs', r) -> quiet r -> evs' = evs ++ [Finalize] /\ r = GReturn h.
Proof. unfold finish. intros H1 H2. apply call_quiet in H1; auto. injection H1 as <- <-. auto. Qed.

Definition next (dt : list field) (a : arr) : list field := match dt with [] => [] | _ => a_dt a end.
Definition good_ask (evs : list (ev Q)) (dt : list field) (n : nat) (a : arr) : Prop :=
  exists p, g (evs ++ [Suggest n]) = Ok p /\ r_out R p dt = Ok a.
Lemma ask_quiet dt n evs k evs' r : ask R g dt n evs k = (evs', r) -> quiet r ->
  exists a, good_ask evs dt n a /\ k (next dt a) (evs ++ [Suggest n; Send a]) = (evs', r).
Proof.
  unfold ask. destruct (g (evs ++ [Suggest n])) as [p|e] eqn:E; [|intros [= <- <-] H; now destruct (H e)].
  destruct (r_out R p dt) as [a|e] eqn:E2; [|intros [= <- <-] H; now destruct (H e)].
  intros H _. exists a. split; [exists p; auto|]. rewrite <- app_assoc in H. exact H.
Qed.

Definition size (h : arr) : nat := if g_batch sp =? 0 then length (a_rows h) else g_batch sp.

(** Every request is answered, converted and sent at once, after the results of
    the one before were handed over. [evs]: the events before. *)
Definition orderly (dt0 : list field) (evs l : list (ev Q)) : Prop :=
  forall pre n post, l = pre ++ Suggest n :: post ->
    length (suggested pre) = length (ingested pre) /\
    exists dt a post', (dt0 = [] -> dt = []) /\ good_ask (evs ++ pre) dt n a /\ post = Send a :: post'.

Lemma split_cons {A} (x y : A) l pre post : x :: l = pre ++ y :: post -> (pre = [] /\ x = y /\ l = post) \/ (exists pre', pre = x :: pre' /\ l = pre' ++ y :: post).
Proof. destruct pre as [|z pre]; cbn; intros [= -> H]; subst; eauto. Qed.

Lemma loop_shape msgs : forall dt h evs evs' r, loop R sp g dt h msgs evs = (evs', r) -> quiet r ->
  exists l, evs' = evs ++ l /\
    map Ok (ingested l) = map (r_in R) (batches msgs) /\
    suggested l = size h :: map size (answered msgs) /\
    orderly dt evs l /\
    match stop msgs with
    | Some f => r = GReturn f /\ exists l', l = l' ++ [Finalize] /\ finalized l' = 0
    | None => r = GWait /\ finalized l = 0
    end.
Proof.
  induction msgs as [|m msgs IH]; intros dt h evs evs' r H HQ; cbn [loop] in H; fold (size h) in H;
    apply ask_quiet in H as (a & HA & H); auto.
  - injection H as <- <-. exists [Suggest (size h); Send a]. cbn. split; auto. split; auto. split; auto. split; auto.
    intros pre n post E. apply split_cons in E as [(->&[= <-]&<-)|(pre'&->&E)].
    + split; auto. exists dt, a, []. rewrite app_nil_r. auto.
    + apply split_cons in E as [(_&E&_)|(pre2&_&E)]; [discriminate|]. destruct pre2; discriminate.
  - destruct m as [st x|].
    + destruct (r_in R x) as [q|e] eqn:EQ; [|injection H as <- <-; now destruct (HQ e)].
      apply call_quiet in H; auto.
      destruct st.
      * apply finish_quiet in H as [-> ->]; auto. exists ([Suggest (size h); Send a; Ingest q; Finalize]).
        rewrite <- !app_assoc. split; auto. cbn. rewrite EQ. split; auto. split; auto. split; auto.
        2: { split; auto. exists [Suggest (size h); Send a; Ingest q]. auto. }
        intros pre n post E. apply split_cons in E as [(->&[= <-]&<-)|(pre'&->&E)].
        { split; auto. exists dt, a, [Ingest q; Finalize]. rewrite app_nil_r. auto. }
        apply split_cons in E as [(_&E&_)|(pre2&_&E)]; [discriminate|].
        apply split_cons in E as [(_&E&_)|(pre3&_&E)]; [discriminate|].
        apply split_cons in E as [(_&E&_)|(pre4&_&E)]; [discriminate|]. destruct pre4; discriminate.
      * apply IH in H as (l&->&H1&H2&H3&H4); auto.
        exists (Suggest (size h) :: Send a :: Ingest q :: l). rewrite <- !app_assoc. split; auto.
        split; [change (Ok q :: map Ok (ingested l) = r_in R x :: map (r_in R) (batches msgs)); now rewrite EQ, H1|].
        split; [change (size h :: suggested l = size h :: size x :: map size (answered msgs)); now rewrite H2|]. cbn [stop]. split.
        2: { destruct (stop msgs); [|auto]. destruct H4 as [-> (l'&->&H4)]. split; auto.
             exists (Suggest (size h) :: Send a :: Ingest q :: l'). auto. }
        intros pre n post E. apply split_cons in E as [(->&[= <-]&<-)|(pre'&->&E)].
        { split; auto. exists dt, a, (Ingest q :: l). rewrite app_nil_r. auto. }
        apply split_cons in E as [(_&E&_)|(pre2&->&E)]; [discriminate|].
        apply split_cons in E as [(_&E&_)|(pre3&->&E)]; [discriminate|].
        destruct (H3 pre3 n post E) as (L&dt'&a'&post'&D1&D2&D3). split; [change (S (length (suggested pre3)) = S (length (ingested pre3))); lia|].
        exists dt', a', post'. split; [intros ->; apply D1; reflexivity|]. split; auto.
        rewrite <- !app_assoc in D2. exact D2.
    + apply finish_quiet in H as [-> ->]; auto. exists ([Suggest (size h); Send a; Finalize]).
      rewrite <- !app_assoc. split; auto. cbn. split; auto. split; auto. split.
      2: { split; auto. exists [Suggest (size h); Send a]. auto. }
      intros pre n post E. apply split_cons in E as [(->&[= <-]&<-)|(pre'&->&E)].
      { split; auto. exists dt, a, [Finalize]. rewrite app_nil_r. auto. }
      apply split_cons in E as [(_&E&_)|(pre2&_&E)]; [discriminate|].
      apply split_cons in E as [(_&E&_)|(pre3&_&E)]; [discriminate|]. destruct pre3; discriminate.
Qed.

(** What is ingested after the first request, given what the first message is. *)
Definition ingests0 (msgs : list gmsg) : list (res Q) :=
  match msgs with
  | [] => []
  | GSignal :: _ => [r_in0 R None]
  | GData true x :: _ => [r_in0 R (Some x)]
  | GData false x :: r => r_in0 R (Some x) :: map (r_in R) (batches r)
  end.

Lemma first_shape dt0 msgs evs evs' r : ask R g dt0 (initial_batch sp) evs (fun dt evs1 => start_loop R sp g dt msgs evs1) = (evs', r) -> quiet r ->
  exists l, evs' = evs ++ l /\
    map Ok (ingested l) = ingests0 msgs /\
    suggested l = initial_batch sp :: map size (answered msgs) /\
    orderly dt0 evs l /\
    match stop msgs with
    | Some f => r = GReturn f /\ exists l', l = l' ++ [Finalize] /\ finalized l' = 0
    | None => r = GWait /\ finalized l = 0
    end.
Proof.
  intros H HQ. apply ask_quiet in H as (a & HA & H); auto. set (n0 := initial_batch sp) in *.
  destruct msgs as [|m msgs]; cbn [start_loop] in H.
  - injection H as <- <-. exists [Suggest n0; Send a]. cbn. split; auto. split; auto. split; auto. split; auto.
    intros pre n post E. apply split_cons in E as [(->&[= <-]&<-)|(pre'&->&E)].
    + split; auto. exists dt0, a, []. rewrite app_nil_r. auto.
    + apply split_cons in E as [(_&E&_)|(pre2&_&E)]; [discriminate|]. destruct pre2; discriminate.
  - destruct (r_in0 R (match m with GData _ x => Some x | GSignal => None end)) as [q|e] eqn:EQ;
      [|injection H as <- <-; now destruct (HQ e)].
    apply call_quiet in H; auto. destruct m as [[] x|].
    + apply finish_quiet in H as [-> ->]; auto. exists ([Suggest n0; Send a; Ingest q; Finalize]).
      rewrite <- !app_assoc. split; auto. cbn. rewrite EQ. split; auto. split; auto. split; auto.
      2: { split; auto. exists [Suggest n0; Send a; Ingest q]. auto. }
      intros pre n post E. apply split_cons in E as [(->&[= <-]&<-)|(pre'&->&E)].
      { split; auto. exists dt0, a, [Ingest q; Finalize]. rewrite app_nil_r. auto. }
      apply split_cons in E as [(_&E&_)|(pre2&_&E)]; [discriminate|].
      apply split_cons in E as [(_&E&_)|(pre3&_&E)]; [discriminate|].
      apply split_cons in E as [(_&E&_)|(pre4&_&E)]; [discriminate|]. destruct pre4; discriminate.
    + apply loop_shape in H as (l&->&H1&H2&H3&H4); auto.
      exists (Suggest n0 :: Send a :: Ingest q :: l). rewrite <- !app_assoc. split; auto.
      split; [change (Ok q :: map Ok (ingested l) = r_in0 R (Some x) :: map (r_in R) (batches msgs)); now rewrite EQ, H1|].
      split; [change (n0 :: suggested l = n0 :: size x :: map size (answered msgs)); now rewrite H2|]. cbn [stop]. split.
      2: { destruct (stop msgs); [|auto]. destruct H4 as [-> (l'&->&H4)]. split; auto.
           exists (Suggest n0 :: Send a :: Ingest q :: l'). auto. }
      intros pre n post E. apply split_cons in E as [(->&[= <-]&<-)|(pre'&->&E)].
      { split; auto. exists dt0, a, (Ingest q :: l). rewrite app_nil_r. auto. }
      apply split_cons in E as [(_&E&_)|(pre2&->&E)]; [discriminate|].
      apply split_cons in E as [(_&E&_)|(pre3&->&E)]; [discriminate|].
      destruct (H3 pre3 n post E) as (L&dt'&a'&post'&D1&D2&D3). split; [change (S (length (suggested pre3)) = S (length (ingested pre3))); lia|].
      exists dt', a', post'. split; [intros ->; apply D1; reflexivity|]. split; auto.
      rewrite <- !app_assoc in D2. exact D2.
    + apply finish_quiet in H as [-> ->]; auto. exists ([Suggest n0; Send a; Ingest q; Finalize]).
      rewrite <- !app_assoc. split; auto. cbn. rewrite EQ. split; auto. split; auto. split; auto.
      2: { split; auto. exists [Suggest n0; Send a; Ingest q]. auto. }
      intros pre n post E. apply split_cons in E as [(->&[= <-]&<-)|(pre'&->&E)].
      { split; auto. exists dt0, a, [Ingest q; Finalize]. rewrite app_nil_r. auto. }
      apply split_cons in E as [(_&E&_)|(pre2&_&E)]; [discriminate|].
      apply split_cons in E as [(_&E&_)|(pre3&_&E)]; [discriminate|].
      apply split_cons in E as [(_&E&_)|(pre4&_&E)]; [discriminate|]. destruct pre4; discriminate.
Qed.

Lemma run_shape H0 msgs evs r : run_gen R sp g H0 msgs = (evs, r) -> quiet r ->
  exists h l, evs = h ++ l /\ suggested h = [] /\ finalized h = 0 /\ sent h = [] /\
    map Ok (ingested h) = map (fun a => r_in0 R (Some a)) (given H0) /\
    map Ok (ingested l) = ingests0 msgs /\
    suggested l = initial_batch sp :: map size (answered msgs) /\
    orderly (g_out sp) h l /\
    match stop msgs with
    | Some f => r = GReturn f /\ exists l', l = l' ++ [Finalize] /\ finalized l' = 0
    | None => r = GWait /\ finalized l = 0
    end.
Proof.
  intros H HQ. unfold run_gen in H.
  assert (B : forall h, ask R g (g_out sp) (initial_batch sp) h (fun dt evs1 => start_loop R sp g dt msgs evs1) = (evs, r) ->
    suggested h = [] -> finalized h = 0 -> sent h = [] -> map Ok (ingested h) = map (fun a => r_in0 R (Some a)) (given H0) ->
    exists h l, evs = h ++ l /\ suggested h = [] /\ finalized h = 0 /\ sent h = [] /\
    map Ok (ingested h) = map (fun a => r_in0 R (Some a)) (given H0) /\
    map Ok (ingested l) = ingests0 msgs /\
    suggested l = initial_batch sp :: map size (answered msgs) /\
    orderly (g_out sp) h l /\
    match stop msgs with
    | Some f => r = GReturn f /\ exists l', l = l' ++ [Finalize] /\ finalized l' = 0
    | None => r = GWait /\ finalized l = 0
    end).
  { intros h E H1 H2 H3 H4. apply first_shape in E as (l&->&E1&E2&E3&E4); auto. exists h, l. auto 12. }
  destruct H0 as [a|].
  - destruct (Nat.eqb_spec (length (a_rows a)) 0) as [EL|NL].
    + apply (B []); auto. unfold given. destruct (a_rows a); auto; discriminate.
    + destruct (r_in0 R (Some a)) as [q|e] eqn:EQ; [|injection H as <- <-; now destruct (HQ e)].
      apply call_quiet in H; auto. apply (B [Ingest q]); auto. unfold given. destruct (a_rows a); [now destruct NL|]. cbn. now rewrite EQ.
  - apply (B []); auto.
Qed.
End Run.
