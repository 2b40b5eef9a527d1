(** C55: how a worker drives a generator object. *)
From Verif Require Import Base MapModel MapSpec MapProofs GenObjModel GenObjSpec GenObjProofs PropsMap.
Local Open Scope nat_scope.

(** For every generator, conversion, first order and sequence of messages, if
    nothing raises and a stop without rows is not the first message: ingest gets
    the rows of the first order (if any), then each batch of results once, in
    order, and nothing else. *)
Theorem C55_results_ingested P Q (R : runner P Q) sp g H0 msgs evs r :
  result R sp g true H0 msgs = (evs, r) -> quiet r -> hd_error msgs <> Some GSignal ->
  map Ok (ingested evs) = map (fun a => r_in0 R (Some a)) (given H0 ++ firstn 1 (batches msgs)) ++ map (r_in R) (skipn 1 (batches msgs)).
Proof.
  intros H HQ HS. apply run_shape in H as (h&l&->&_&_&_&H1&H2&_); auto.
  rewrite ingested_app, map_app, H1, H2, map_app, <- app_assoc. f_equal.
  destruct msgs as [|[[] x|] msgs]; auto. now destruct HS.
Qed.
Print Assumptions C55_results_ingested.

(** The points asked for: first the initial batch, then after each batch of
    results the batch size, or as many as there were results. *)
Theorem C55_points_asked P Q (R : runner P Q) sp g H0 msgs evs r :
  result R sp g true H0 msgs = (evs, r) -> quiet r ->
  suggested evs =
    match g_init sp, g_batch sp with S n, _ => S n | O, S n => S n | O, O => g_libe sp end
    :: map (fun h => match g_batch sp with O => length (a_rows h) | S n => S n end) (answered msgs).
Proof.
  intros H HQ. apply run_shape in H as (h&l&->&H0'&_&_&_&_&H1&_); auto.
  rewrite suggested_app, H0', H1. cbn [app]. f_equal.
  - unfold initial_batch. destruct (g_init sp), (g_batch sp); reflexivity.
  - apply map_ext. intros a. unfold size. destruct (g_batch sp); reflexivity.
Qed.
Print Assumptions C55_points_asked.

(** The points are requested only when the results of all the points before were
    handed over, and what the object gives is converted and sent at once. *)
Theorem C55_points_sent P Q (R : runner P Q) sp g H0 msgs evs r pre n post :
  result R sp g true H0 msgs = (evs, r) -> quiet r -> evs = pre ++ Suggest n :: post ->
  length (suggested pre) + length (given H0) = length (ingested pre) /\
  exists p dt a post', g (pre ++ [Suggest n]) = Ok p /\ (g_out sp = [] -> dt = []) /\ r_out R p dt = Ok a /\ post = Send a :: post'.
Proof.
  intros H HQ E. apply run_shape in H as (h&l&->&Hs&_&_&Hi&_&_&HO&_); auto.
  assert (L : length (ingested h) = length (given H0)) by (erewrite <- map_length, Hi; apply map_length).
  apply app_eq_app in E as (m & [[-> E]|[-> E]]).
  - (* pre inside h *) destruct m as [|x m].
    + cbn in E. rewrite app_nil_r in *. destruct (HO [] n post (eq_sym E)) as (_&dt&a&post'&D1&(p&D2&D3)&D4).
      rewrite app_nil_r in D2. rewrite Hs. cbn [length]. split; [lia|]. exists p, dt, a, post'. auto.
    + injection E as <- ->. exfalso. rewrite suggested_app in Hs. apply app_eq_nil in Hs as [_ Hs]. discriminate Hs.
  - destruct (HO m n post E) as (L2&dt&a&post'&D1&(p&D2&D3)&D4).
    rewrite suggested_app, ingested_app, !app_length, Hs. cbn [length]. split; [lia|]. exists p, dt, a, post'.
    auto.
Qed.
Print Assumptions C55_points_sent.

(** Nothing is sent but those points: one array for each request. *)
Lemma sent_count P Q (R : runner P Q) sp g msgs : forall dt h evs evs' r, loop R sp g dt h msgs evs = (evs', r) -> quiet r ->
  exists l, evs' = evs ++ l /\ length (sent l) = length (suggested l).
Proof.
  induction msgs as [|m msgs IH]; intros dt h evs evs' r H HQ; cbn [loop] in H; apply ask_quiet in H as (a & _ & H); auto.
  - injection H as <- <-. eexists. split; [reflexivity|]. reflexivity.
  - destruct m as [st x|].
    + destruct (r_in R x) as [q|e]; [|injection H as <- <-; now destruct (HQ e)]. apply call_quiet in H; auto. destruct st.
      * apply finish_quiet in H as [-> _]; auto. rewrite <- !app_assoc. eexists. split; [reflexivity|]. reflexivity.
      * apply IH in H as (l&->&E); auto. rewrite <- !app_assoc. eexists. split; [reflexivity|].
        cbn [app]. change (S (length (sent l)) = S (length (suggested l))). now rewrite E.
    + apply finish_quiet in H as [-> _]; auto. rewrite <- !app_assoc. eexists. split; [reflexivity|]. reflexivity.
Qed.
Theorem C55_nothing_else_sent P Q (R : runner P Q) sp g H0 msgs evs r :
  result R sp g true H0 msgs = (evs, r) -> quiet r -> length (sent evs) = length (suggested evs).
Proof.
  intros H HQ. unfold result, run_gen in H.
  assert (B : forall h, ask R g (g_out sp) (initial_batch sp) h (fun dt evs1 => start_loop R sp g dt msgs evs1) = (evs, r) ->
    sent h = [] -> suggested h = [] -> length (sent evs) = length (suggested evs)).
  { intros h E S1 S2. apply ask_quiet in E as (a & _ & E); auto.
    assert (K : exists l, evs = h ++ Suggest (initial_batch sp) :: Send a :: l /\ length (sent l) = length (suggested l)).
    { unfold start_loop in E. destruct msgs as [|m msgs']; [injection E as <- <-; exists []; auto|].
      destruct (r_in0 R _) as [q|e]; [|injection E as <- <-; now destruct (HQ e)]. apply call_quiet in E; auto.
      destruct m as [[] x|].
      - apply finish_quiet in E as [-> _]; auto. rewrite <- !app_assoc. eexists. split; [reflexivity|]. reflexivity.
      - apply sent_count in E as (l&->&E); auto. rewrite <- !app_assoc. eexists. split; [reflexivity|]. exact E.
      - apply finish_quiet in E as [-> _]; auto. rewrite <- !app_assoc. eexists. split; [reflexivity|]. reflexivity. }
    destruct K as (l&->&K). unfold sent, suggested in *. rewrite !flat_map_app, S1, S2. cbn. now rewrite K. }
  destruct H0 as [a|]; [|now apply (B [])]. destruct (length (a_rows a) =? 0); [now apply (B [])|].
  destruct (r_in0 R (Some a)) as [q|e]; [|injection H as <- <-; now destruct (HQ e)]. apply call_quiet in H; auto. now apply (B [Ingest q]).
Qed.
Print Assumptions C55_nothing_else_sent.

(** The end: finalize is called once, as the last call, when the stop arrives, and
    the last rows are returned; until then it is not called. *)
Theorem C55_finalized P Q (R : runner P Q) sp g H0 msgs evs r :
  result R sp g true H0 msgs = (evs, r) -> quiet r ->
  match stop msgs with
  | Some last => r = GReturn last /\ finalized evs = 1 /\ exists before, evs = before ++ [Finalize]
  | None => r = GWait /\ finalized evs = 0
  end.
Proof.
  intros H HQ. apply run_shape in H as (h&l&->&_&Hf&_&_&_&_&_&HE); auto.
  destruct (stop msgs) as [f|].
  - destruct HE as [-> (l'&->&HE)]. split; auto. rewrite !finalized_app, Hf, HE. split; [reflexivity|].
    exists (h ++ l'). now rewrite app_assoc.
  - destruct HE as [-> HE]. split; auto. now rewrite finalized_app, Hf, HE.
Qed.
Print Assumptions C55_finalized.

(** Objects outside persistent mode are refused before any call. *)
Theorem C55_persistent_only P Q (R : runner P Q) sp g H0 msgs : result R sp g false H0 msgs = ([], GRaise EValue).
Proof. reflexivity. Qed.
Print Assumptions C55_persistent_only.

(** A generator that gives the same two points again and again; two batches of
    results and a stop with the last one. *)
Definition res1 : arr := mkArr [mkF SIM_ID TInt None; mkF X TFloat (Some 2); mkF F TFloat None]
  [[(SIM_ID, Sc (SI 0)); (X, Vec [SF 100; SF 200]); (F, Sc (SF 5))];
   [(SIM_ID, Sc (SI 1)); (X, Vec [SF 300; SF (-400)]); (F, Sc (SF 6))]].
Definition gen1 : list (ev (list dict)) -> res (list dict) :=
  fun _ => Ok [[(x0, Sc (SF 1)); (x1, Sc (SF 2))]; [(x0, Sc (SF 3)); (x1, Sc (SF 4))]].
Definition sp1 : gspec := mkGS [] 2 0 8.
Definition msgs1 : list gmsg := [GData false res1; GData false res1; GData true res1].
Example C55_used : exists evs, result (standard mp1) sp1 gen1 true (Some res1) msgs1 = (evs, GReturn (Some res1)) /\
  hd_error msgs1 <> Some GSignal /\ suggested evs = [2; 2; 2] /\ length (ingested evs) = 4 /\ length (sent evs) = 3 /\ finalized evs = 1.
Proof. eexists. split; [vm_compute; reflexivity|]. split; [discriminate|]. vm_compute. auto. Qed.

(** It is not true that the end is always clean: if the stop comes before the first
    results (all simulations allowed were in the first batch, say), an object with
    suggest/ingest is neither given anything nor finalized: the worker fails with
    TypeError. An object with suggest_numpy/ingest_numpy gets None. *)
Theorem C55_early_stop_refuted :
  (forall mp sp g H0 rest evs r, result (standard mp) sp g true H0 (GSignal :: rest) = (evs, r) -> exists e, r = GRaise e) /\
  (exists evs, result (standard []) sp1 gen1 true None [GSignal] = (evs, GRaise EType) /\ length (suggested evs) = 1 /\ finalized evs = 0) /\
  (forall sp g H0 rest evs r, result numpy sp g true H0 (GSignal :: rest) = (evs, r) -> quiet r -> In None (ingested evs)).
Proof.
  split; [|split].
  - intros mp sp g H0 rest evs r H. destruct r as [h|e|]; [|eauto|].
    + apply run_shape in H as (hh&l&_&_&_&_&_&H&_); [|discriminate]. destruct (ingested l); discriminate H.
    + apply run_shape in H as (hh&l&_&_&_&_&_&H&_); [|discriminate]. destruct (ingested l); discriminate H.
  - eexists. split; [vm_compute; reflexivity|]. vm_compute. auto.
  - intros sp g H0 rest evs r H HQ. apply run_shape in H as (hh&l&->&_&_&_&_&H&_); auto.
    rewrite ingested_app. apply in_or_app. right. destruct (ingested l) as [|q q']; [discriminate|]. injection H as -> _. now left.
Qed.
Print Assumptions C55_early_stop_refuted.

(** Nor that an object with a mapping gets its points back under the names it
    gave: true of the first results only, the later ones come under the names of
    the array. Without a mapping they agree. *)
Theorem C55_names_refuted :
  exists evs b0 b1, result (standard mp1) sp1 gen1 true None [GData false res1; GData false res1] = (evs, GWait) /\
    ingested evs = [b0; b1] /\
    (forall d, In d b0 -> get x0 d <> None /\ get x1 d <> None /\ get X d = None) /\
    (forall d, In d b1 -> get x0 d = None /\ get x1 d = None /\ get X d <> None).
Proof.
  eexists _, _, _. split; [vm_compute; reflexivity|]. split; [vm_compute; reflexivity|].
  split; intros d [<- | [<- | []]]; repeat split; vm_compute; congruence.
Qed.
Print Assumptions C55_names_refuted.
Theorem C55_names_plain a : r_in0 (standard []) (Some a) = r_in (standard []) a.
Proof. reflexivity. Qed.
Print Assumptions C55_names_plain.
