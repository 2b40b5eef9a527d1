(** C78: a simulation function of the gest-api sees each point, and its results
    go to that point. *)
From Verif Require Import Base BaseLemmas MapModel MapProofs SimWrapModel.
Local Open Scope nat_scope.

(** ** Specification *)
(** [d] is the point of [row]: the variables and constants, and nothing else. *)
Definition point_of (v : vocs) (row d : dict) : Prop :=
  (forall n, In n (v_variables v) \/ In n (v_constants v) -> get n d = get n row /\ get n row <> None) /\
  (forall n, ~ In n (v_variables v) -> ~ In n (v_constants v) -> get n d = None).
Definition result_name (v : vocs) (n : name) : Prop := In n (v_objectives v) \/ In n (v_observables v) \/ In n (v_constraints v).
(** [r] holds what [o] says: each result that [o] names, as the field takes it, and zeros elsewhere. *)
Definition results_of (v : vocs) (dt : list field) (o r : dict) : Prop :=
  map fst r = map f_name dt /\
  forall f, In f dt ->
    (forall x, result_name v (f_name f) -> get (f_name f) o = Some x -> exists y, assign f x = Ok y /\ get (f_name f) r = Some y) /\
    (~ result_name v (f_name f) \/ get (f_name f) o = None -> get (f_name f) r = Some (zero_value f)).

(** ** Proofs *)
Lemma input_spec ns : forall row d d', input_of ns row d = Ok d' ->
  (forall n, In n ns -> get n d' = get n row /\ get n row <> None) /\ (forall n, ~ In n ns -> get n d' = get n d).
Proof.
  induction ns as [|n ns IH]; cbn; intros row d d' E; [injection E as <-; split; [tauto|auto]|].
  destruct (get n row) as [v|] eqn:G; [|discriminate]. apply IH in E as [E1 E2]. split.
  - intros m [<-|Hm]; auto. destruct (in_dec Nat.eq_dec n ns) as [Hi|Hi]; [now apply E1|]. rewrite E2 by auto. rewrite get_put_same. split; congruence.
  - intros m Hm. rewrite E2 by tauto. apply get_put_other. intros ->. tauto.
Qed.
Lemma input_ok ns : forall row d, (forall n, In n ns -> get n row <> None) -> exists d', input_of ns row d = Ok d'.
Proof.
  induction ns as [|n ns IH]; cbn; intros row d H; [eauto|]. destruct (get n row) as [v|] eqn:G; [|destruct (H n (or_introl eq_refl) G)]. apply IH. auto.
Qed.
Lemma outputs_spec dt ns o : NoDup (map f_name dt) -> forall r r', map fst r = map f_name dt -> outputs dt ns o r = Ok r' ->
  map fst r' = map f_name dt /\ forall f, In f dt ->
    (forall x, In (f_name f) ns -> get (f_name f) o = Some x -> exists y, assign f x = Ok y /\ get (f_name f) r' = Some y) /\
    (~ In (f_name f) ns \/ get (f_name f) o = None -> get (f_name f) r' = get (f_name f) r).
Proof.
  intros ND. induction ns as [|n ns IH]; cbn; intros r r' Hr E.
  { injection E as <-. split; auto. intros f Hf. split; [tauto|auto]. }
  destruct (get n o) as [v|] eqn:G.
  - destruct (field_of n dt) as [f0|] eqn:Ef; [|discriminate]. destruct (field_of_Some _ _ _ Ef) as [Hf0 <-].
    destruct (assign f0 v) as [w|] eqn:Ea; [|discriminate]. cbn in E. assert (Hr' : map fst (put (f_name f0) w r) = map f_name dt).
    { rewrite put_keys; auto. rewrite Hr. now apply in_map. }
    apply (IH _ _ Hr') in E as [E1 E2]. split; auto. intros f Hf. destruct (E2 f Hf) as [E3 E4]. split.
    + intros x [Hn|Hn] Hx; auto. destruct (in_dec Nat.eq_dec (f_name f) ns) as [Hi|Hi]; [auto|].
      assert (f = f0) as -> by (pose proof (field_of_In _ _ _ ND Hf (eq_sym Hn)); congruence). rewrite G in Hx. injection Hx as <-.
      exists w. split; auto. rewrite E4 by auto. apply get_put_same.
    + intros [Hn|Hn].
      * rewrite E4 by tauto. apply get_put_other. intros H. apply Hn. now left.
      * rewrite E4 by tauto. apply get_put_other. intros H. rewrite H in Hn. congruence.
  - apply (IH _ _ Hr) in E as [E1 E2]. split; auto. intros f Hf. destruct (E2 f Hf) as [E3 E4]. split.
    + intros x [Hn|Hn] Hx; auto. rewrite <- Hn in Hx. congruence.
    + intros [Hn|Hn]; apply E4; auto.
Qed.
Lemma outputs_ok dt ns o : forall r, (forall n x, In n ns -> get n o = Some x -> exists f y, field_of n dt = Some f /\ assign f x = Ok y) -> exists r', outputs dt ns o r = Ok r'.
Proof.
  induction ns as [|n ns IH]; cbn; intros r H; [eauto|]. destruct (get n o) as [v|] eqn:G; [|apply IH; eauto].
  destruct (H n v (or_introl eq_refl) G) as (f & y & -> & Ea). rewrite Ea. cbn. apply IH. eauto.
Qed.
Lemma row_spec v dt o r : NoDup (map f_name dt) -> outputs dt (output_fields v) o (zero_row dt) = Ok r -> results_of v dt o r.
Proof.
  intros ND E. apply outputs_spec in E as [E1 E2]; auto; [|apply zero_row_keys]. split; auto. intros f Hf. destruct (E2 f Hf) as [E3 E4].
  assert (R : In (f_name f) (output_fields v) <-> result_name v (f_name f)) by (unfold output_fields, result_name; rewrite !in_app_iff; tauto).
  split; [intros x Hx; apply E3, R, Hx|]. intros H. rewrite E4; [now apply get_zero_row|]. rewrite R. exact H.
Qed.
Lemma point_spec v row d : input_of (input_fields v) row [] = Ok d -> point_of v row d.
Proof.
  intros E. apply input_spec in E as [E1 E2]. split.
  - intros n Hn. apply E1. unfold input_fields. now rewrite in_app_iff.
  - intros n H1 H2. rewrite E2; auto. unfold input_fields. rewrite in_app_iff. tauto.
Qed.

(** A call that returns has run the function; the last run gives the value. *)
Lemma call_spec f d l l1 o : call f d l = (l1, Ok o) -> exists l0 b, l1 = l0 ++ [(b, d)] /\ s_body f l0 b d = Ok o /\
  (l0 = l \/ l0 = l ++ [(true, d)] /\ s_body f l true d = Err EType).
Proof.
  unfold call, invoke. destruct (s_takes f); cbn.
  - intros [= <- E]. eauto 10.
  - destruct (s_body f l true d) as [x|[]] eqn:E; intros [= <- E']; try discriminate; subst; eauto 10.
  - destruct (s_body f l true d) as [x|[]] eqn:E; intros [= <- E']; try discriminate; subst; eauto 10.
Qed.

Lemma points_spec f v dt : NoDup (map f_name dt) -> forall rows l l2 out, points f v dt rows l = (l2, Ok out) ->
  (exists q, l2 = l ++ q) /\
  Forall2 (fun row r => exists d o b l0 q, point_of v row d /\ s_body f l0 b d = Ok o /\ l2 = l0 ++ (b, d) :: q /\ results_of v dt o r) rows out.
Proof.
  intros ND. induction rows as [|row rows IH]; cbn; intros l l2 out E.
  { injection E as <- <-. split; [exists []; now rewrite app_nil_r|constructor]. }
  destruct (input_of (input_fields v) row []) as [d|] eqn:Ei; [|discriminate]. destruct (call f d l) as [l1 [o|]] eqn:Ec; [|discriminate].
  destruct (outputs dt (output_fields v) o (zero_row dt)) as [r|] eqn:Eo; [|discriminate]. destruct (points f v dt rows l1) as [l3 [rs|]] eqn:Ep; [|discriminate]. injection E as <- <-.
  destruct (IH _ _ _ Ep) as [(q & ->) IH2]. destruct (call_spec _ _ _ _ _ Ec) as (l0 & b & -> & Eb & Hl). split.
  - destruct Hl as [->|[-> _]]; rewrite <- !app_assoc; eauto.
  - constructor; auto. exists d, o, b, l0, q. split; [now apply point_spec|]. split; auto. split; [now rewrite <- app_assoc|]. now apply row_spec.
Qed.

(** Whenever the wrapper returns, there is one row per point, and row i holds the
    results of a run of the user's function on point i: exactly the variables
    and constants of row i went in, and what came out stands in the fields named. *)
Theorem C78_results_at_their_points : forall f v dt rows l out, gest_api_sim f v dt rows = (l, Ok out) ->
  length out = length rows /\
  forall i row, nth_error rows i = Some row -> exists d o r b l0 q, point_of v row d /\ s_body f l0 b d = Ok o /\ l = l0 ++ (b, d) :: q /\
    nth_error out i = Some r /\ results_of v dt o r.
Proof.
  intros f v dt rows l out E. unfold gest_api_sim, check_dt in E. destruct (nodupb (map f_name dt)) eqn:ND; [|discriminate]. apply nodupb_iff in ND.
  apply points_spec in E as [_ E]; auto. split; [symmetry; eapply Forall2_length; eauto|]. clear ND. induction E as [|x y rows out H _ IH]; intros [|i] row Hi; try discriminate.
  - injection Hi as ->. destruct H as (d & o & b & l0 & q & H1 & H2 & H3 & H4). exists d, o, y, b, l0, q. auto.
  - cbn in Hi. destruct (IH i row Hi) as (d & o & r & b & l0 & q & H1 & H2 & H3 & H4 & H5). exists d, o, r, b, l0, q. auto 10.
Qed.
Print Assumptions C78_results_at_their_points.

(** A function that does not itself raise TypeError is run once per point, in the
    order of the points, each time with libE_info if it has such a parameter. *)
Theorem C78_one_run_per_point : forall f v dt rows l out, (forall l d, s_body f l true d <> Err EType) -> gest_api_sim f v dt rows = (l, Ok out) ->
  length l = length rows /\
  forall i row, nth_error rows i = Some row -> exists d, nth_error l i = Some (match s_takes f with TakesNot => false | _ => true end, d) /\ point_of v row d.
Proof.
  intros f v dt rows l out HN E. unfold gest_api_sim in E. destruct (check_dt dt); [|discriminate].
  assert (G : forall rows l0 l out, points f v dt rows l0 = (l, Ok out) -> exists q, l = l0 ++ q /\
    Forall2 (fun row p => fst p = (match s_takes f with TakesNot => false | _ => true end) /\ point_of v row (snd p)) rows q).
  { clear - HN. induction rows as [|row rows IH]; cbn; intros l0 l out E; [injection E as <- <-; exists []; rewrite app_nil_r; auto|].
    destruct (input_of (input_fields v) row []) as [d|] eqn:Ei; [|discriminate]. destruct (call f d l0) as [l1 [o|]] eqn:Ec; [|discriminate].
    destruct (outputs dt (output_fields v) o (zero_row dt)) as [r|]; [|discriminate]. destruct (points f v dt rows l1) as [l3 [rs|]] eqn:Ep; [|discriminate]. injection E as <- <-.
    destruct (IH _ _ _ Ep) as (q & -> & IH2). assert (El : l1 = l0 ++ [(match s_takes f with TakesNot => false | _ => true end, d)]).
    { unfold call, invoke in Ec. specialize (HN l0 d). destruct (s_takes f); cbn in Ec; [congruence| |]; destruct (s_body f l0 true d) as [x|[]]; congruence. }
    subst l1. exists ((match s_takes f with TakesNot => false | _ => true end, d) :: q). rewrite <- app_assoc. split; auto. constructor; auto. split; auto. now apply point_spec. }
  apply G in E as (q & -> & F). cbn [app]. split; [symmetry; eapply Forall2_length; eauto|]. clear - F. induction F as [|x y rows q [H1 H2] _ IH]; intros [|i] row Hi; try discriminate; [|exact (IH i row Hi)].
  injection Hi as <-. destruct y as [b d]. cbn in *. subst b. eauto.
Qed.
Print Assumptions C78_one_run_per_point.

(** And it does return if the columns are there, the function returns each time and
    its results fit the fields. *)
Theorem C78_returns : forall f v dt rows, NoDup (map f_name dt) -> s_takes f <> TakesNot ->
  (forall row n, In row rows -> In n (v_variables v) \/ In n (v_constants v) -> get n row <> None) ->
  (forall l row d, In row rows -> point_of v row d -> exists o, s_body f l true d = Ok o /\
     forall n x, result_name v n -> get n o = Some x -> exists g y, In g dt /\ f_name g = n /\ assign g x = Ok y) ->
  exists l out, gest_api_sim f v dt rows = (l, Ok out).
Proof.
  intros f v dt rows ND HT HI HB. unfold gest_api_sim, check_dt. rewrite (proj2 (nodupb_iff _) ND). generalize (@nil (bool * dict)) as l.
  induction rows as [|row rows IH]; intros l; cbn; [eauto|].
  destruct (input_ok (input_fields v) row []) as (d & Ed). { intros n Hn. apply (HI row n); [now left|]. unfold input_fields in Hn. now apply in_app_iff in Hn. }
  rewrite Ed. destruct (HB l row d (or_introl eq_refl) (point_spec _ _ _ Ed)) as (o & Eo & Ho).
  assert (Ec : call f d l = (l ++ [(true, d)], Ok o)) by (unfold call, invoke; destruct (s_takes f); [congruence| |]; now rewrite Eo). rewrite Ec.
  destruct (outputs_ok dt (output_fields v) o (zero_row dt)) as (r & Er).
  { intros n x Hn Hx. destruct (Ho n x) as (g & y & G1 & G2 & G3); auto.
    - unfold output_fields in Hn. rewrite !in_app_iff in Hn. unfold result_name. tauto.
    - exists g, y. split; auto. now apply field_of_In. }
  rewrite Er. destruct (IH (fun r0 n H => HI r0 n (or_intror H)) (fun l0 r0 d0 H => HB l0 r0 d0 (or_intror H)) (l ++ [(true, d)])) as (l2 & out & ->). cbn. eauto.
Qed.
Print Assumptions C78_returns.

(** ** Cases *)
(** Names: 10, 11 variables, 12 a constant, 20 an objective, 21 a constraint. *)
Definition v_two : vocs := mkV [10; 11] [12] [20] [] [21].
Definition out_dt : list field := [mkF 20 TFloat None; mkF 21 TFloat None].
Definition row_a : dict := [(0, Sc (SI 0)); (10, Sc (SF 1000)); (11, Sc (SF 2000)); (12, Sc (SF 5000))].
Definition row_b : dict := [(0, Sc (SI 1)); (10, Sc (SF 3000)); (11, Sc (SF 4000)); (12, Sc (SF 5000))].
Definition num (n : name) (d : dict) : Z := match get n d with Some (Sc (SF z)) => z | _ => 0%Z end.
Definition adder (t : takes) : simulator := mkSim t (fun _ _ d => Ok [(20, Sc (SF (num 10 d + num 11 d))); (21, Sc (SF (num 12 d)))]).
Example C78_case : gest_api_sim (adder TakesMaybe) v_two out_dt [row_a; row_b] =
  ([(true, [(10, Sc (SF 1000)); (11, Sc (SF 2000)); (12, Sc (SF 5000))]); (true, [(10, Sc (SF 3000)); (11, Sc (SF 4000)); (12, Sc (SF 5000))])],
   Ok [[(20, Sc (SF 3000)); (21, Sc (SF 5000))]; [(20, Sc (SF 7000)); (21, Sc (SF 5000))]]) /\
  (forall l d, s_body (adder TakesMaybe) l true d <> Err EType).
Proof. split; [vm_compute; reflexivity|intros l d; discriminate]. Qed.
Example C78_no_libE_info_case : map fst (fst (gest_api_sim (adder TakesNot) v_two out_dt [row_a; row_b])) = [false; false].
Proof. vm_compute. reflexivity. Qed.
Example C78_returns_case : NoDup (map f_name out_dt) /\ s_takes (adder TakesMust) <> TakesNot /\
  (forall row n, In row [row_a; row_b] -> In n (v_variables v_two) \/ In n (v_constants v_two) -> get n row <> None) /\
  (forall l row d, In row [row_a; row_b] -> point_of v_two row d -> exists o, s_body (adder TakesMust) l true d = Ok o /\
     forall n x, result_name v_two n -> get n o = Some x -> exists g y, In g out_dt /\ f_name g = n /\ assign g x = Ok y).
Proof.
  split; [repeat constructor; cbn; intuition discriminate|]. split; [discriminate|]. split.
  - intros row n [<-|[<-|[]]] [[<-|[<-|[]]]|[<-|[]]]; discriminate.
  - intros l row d _ _. eexists. split; [reflexivity|]. intros n x [[<-|[]]|[[]|[<-|[]]]] Hx; cbn in Hx; injection Hx as <-.
    + exists (mkF 20 TFloat None). eexists. split; [left; reflexivity|]. split; reflexivity.
    + exists (mkF 21 TFloat None). eexists. split; [right; left; reflexivity|]. split; reflexivity.
Qed.

(** ** What does not hold *)
(** A function that takes libE_info and raises a TypeError of its own is run a
    second time for the same point, without libE_info, and if that run returns,
    nobody hears of the error. *)
Definition fails_with_info : simulator := mkSim TakesMaybe (fun _ lib d => if lib then Err EType else Ok [(20, Sc (SF 1)); (21, Sc (SF 2))]).
Theorem C78_type_error_runs_twice_refuted : exists f v dt rows l out, gest_api_sim f v dt rows = (l, Ok out) /\ s_takes f <> TakesNot /\
  length rows = 1 /\ length l = 2 /\ exists d, l = [(true, d); (false, d)] /\ s_body f [] true d = Err EType.
Proof.
  exists fails_with_info, v_two, out_dt, [row_a]. eexists. eexists. split; [vm_compute; reflexivity|]. split; [discriminate|]. split; [reflexivity|]. split; [reflexivity|].
  eexists. split; reflexivity.
Qed.
Print Assumptions C78_type_error_runs_twice_refuted.

(** An objective that the function leaves out of its dictionary is not reported:
    the history gets the value 0 for it. *)
Definition forgets : simulator := mkSim TakesMaybe (fun _ _ d => Ok [(21, Sc (SF 2000))]).
Theorem C78_missing_objective_refuted : exists f v dt rows l out r, gest_api_sim f v dt rows = (l, Ok out) /\ In 20 (v_objectives v) /\
  (forall l d o, s_body f l true d = Ok o -> get 20 o = None) /\ nth_error out 0 = Some r /\ get 20 r = Some (Sc (SF 0)).
Proof.
  exists forgets, v_two, out_dt, [row_a]. eexists. eexists. eexists. split; [vm_compute; reflexivity|]. split; [now left|]. split; [intros l d o [= <-]; reflexivity|]. split; reflexivity.
Qed.
Print Assumptions C78_missing_objective_refuted.
