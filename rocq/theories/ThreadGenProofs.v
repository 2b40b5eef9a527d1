(** Lemmas about the relay between the manager and a generator function. *)
From Verif Require Import Base BaseLemmas MapModel MapSpec MapProofs ProcGenModel ProcGenSpec ProcGenProofs ProcGenSample ProcGenRun ProcGenFinal ThreadGenModel ThreadGenSpec.
Local Open Scope nat_scope.

Lemma points_sent_app a b : points_sent (a ++ b) = points_sent a ++ points_sent b.
Proof. apply flat_map_app. Qed.
Lemma updates_sent_app a b : updates_sent (a ++ b) = updates_sent a ++ updates_sent b.
Proof. apply flat_map_app. Qed.
Lemma points_updates l : points_sent (map SUpdate l) = [].
Proof. induction l; auto. Qed.
Lemma updates_updates l : updates_sent (map SUpdate l) = l.
Proof. induction l as [|a l IH]; auto. cbn. now f_equal. Qed.
Lemma plain_filter l : filter (fun r => negb (is_min r)) l = filter (fun r => negb (minimum r)) l.
Proof. apply filter_ext. intros r. now rewrite minimum_is. Qed.
Lemma min_filter l : filter is_min l = filter minimum l.
Proof. apply filter_ext. intros r. apply minimum_is. Qed.
Lemma no_min l : existsb is_min l = false -> filter (fun r => negb (minimum r)) l = l /\ filter minimum l = [].
Proof.
  induction l as [|r l IH]; intros H; [auto|]. cbn in H. apply orb_false_iff in H as [A B]. destruct (IH B) as [C D].
  rewrite minimum_is in A. cbn. rewrite A. cbn. rewrite C, D. auto.
Qed.

Lemma Forall2_len {A B} (R : A -> B -> Prop) l m : Forall2 R l m -> length l = length m.
Proof. induction 1; cbn; auto. Qed.

Section P.
Variable gen : gfun.
Variable N : nat.
Variable pi : list name.
Variable mp : mapping.
Hypothesis ST : steady gen.

(** A request for everything *)
Record fetched (o o' : obj) (l a : arr) : Prop := {
  fe_msg : nth_error (outbox gen o') (o_taken o) = Some (MPoints l);
  fe_out : exists r, outbox gen o' = outbox gen o ++ r;
  fe_dt : a_dt a = a_dt l;
  fe_rows : a_rows a = filter (fun r => negb (minimum r)) (a_rows l);
  fe_taken : o_taken o' = S (o_taken o);
  fe_min : flat_map a_rows (o_minima o') = flat_map a_rows (o_minima o) ++ filter minimum (a_rows l);
  fe_last : o_last o' = None;
  fe_sane : sane o';
  fe_in : o_in o' = o_in o;
  fe_told : o_told o' = o_told o;
  fe_n : o_n o' = o_n o;
  fe_buf : o_buf o' = o_buf o;
  fe_run : o_running o' = o_running o \/ o_made o = false;
  fe_done : o_done o' = None;
  fe_result : o_result o' = o_result o }.
Lemma suggest0 o o' a : sane o -> o_last o = None -> suggest gen pi 0 o = (o', Ret a) -> exists l, fetched o o' l a.
Proof.
  intros HS HL H. unfold suggest in H.
  assert (S0 := first_sane MSuggest o HS). assert (G0 := grown_first MSuggest o).
  assert (F0 : o_told (set_first MSuggest o) = o_told o /\ o_n (set_first MSuggest o) = o_n o /\ o_buf (set_first MSuggest o) = o_buf o /\ o_in (set_first MSuggest o) = o_in o /\
    o_made (set_first MSuggest o) = o_made o /\ o_running (set_first MSuggest o) = o_running o) by (unfold set_first; destruct (o_first o); repeat split).
  destruct F0 as (F1&F2&F3&F4&F5&F6). set (o0 := set_first MSuggest o) in *.
  assert (L0 : o_last o0 = None) by (rewrite (gr_last _ _ G0); exact HL).
  assert (RE : ready o0 = Ok true) by (unfold ready; now rewrite L0). rewrite RE in H. cbn [lift] in H.
  destruct (fetch gen pi 0 o0) as [o1 x] eqn:EF. destruct x as [y|e|]; try discriminate.
  unfold fetch in EF. destruct (_ && _); [destruct (finalize gen pi _) as [? []]; discriminate|].
  unfold base_suggest in EF. set (p0 := set_sugg o0 0 (o_last o0) (o_minima o0)) in *.
  assert (SP : sane p0) by exact S0. assert (GP := start_grown p0 SP). assert (SS := start_sane p0).
  assert (RUN : o_running (start p0) = o_running o \/ o_made o = false).
  { unfold start, p0. cbn [o_made set_sugg]. rewrite F5. destruct (o_made o); auto. }
  assert (KR : o_result (start p0) = o_result o).
  { rewrite (gr_result _ _ GP). cbn. apply (gr_result _ _ G0). }
  assert (KP : o_told (start p0) = o_told o /\ o_n (start p0) = o_n o /\ o_buf (start p0) = o_buf o /\ o_in (start p0) = o_in o).
  { unfold start, p0. destruct (o_made _); cbn; auto. }
  destruct KP as (K1&K2&K3&K4). set (p := start p0) in *.
  assert (TP : o_taken p = o_taken o) by (rewrite (gr_taken _ _ GP); cbn; apply (gr_taken _ _ G0)).
  assert (MP : o_minima p = o_minima o) by (rewrite (gr_minima _ _ GP); cbn; apply (gr_minima _ _ G0)).
  assert (OB : exists r, outbox gen p = outbox gen o ++ r).
  { destruct (grown_outbox gen ST _ _ GP) as [r R]. exists r. rewrite R. f_equal. unfold outbox, p0. cbn. rewrite F6, F4. reflexivity. }
  unfold recv in EF. destruct (o_done p) eqn:ED; [discriminate|].
  destruct (nth_error (outbox gen p) (o_taken p)) as [[l|v|]|] eqn:EN; try discriminate.
  unfold lift in EF. destruct (column LOCAL_MIN l); [|discriminate]. injection EF as EO EY. subst y.
  exists l. rewrite TP in EN.
  assert (HO : hand_out 0 o1 = (set_call MSuggest 0 (set_sugg o1 (o_idx o1) None (o_minima o1)), match o_last o1 with Some b => Ret b | None => Raise EType end) \/ o_last o1 = None).
  { unfold hand_out. destruct (o_last o1); auto. }
  destruct (existsb is_min (a_rows l)) eqn:EM; subst o1; cbn [o_last set_sugg set_proc hand_out Nat.ltb Nat.leb] in H; unfold hand_out in H; cbn [o_last set_sugg set_proc Nat.ltb Nat.leb] in H;
    injection H as <- <-; (split; cbn; auto; try (rewrite TP; reflexivity); try exact EN; try exact OB; try exact SS).
  all: try rewrite MP.
  - rewrite flat_map_app. cbn. now rewrite app_nil_r, min_filter.
  - symmetry. now apply no_min.
  - destruct (no_min _ EM) as [_ ->]. now rewrite app_nil_r.
Qed.

(** The messages read and what was sent to the manager *)
Record relayed (o : obj) (out : list sent) : Prop := {
  rl_sane : sane o;
  rl_last : o_last o = None;
  rl_done : o_done o = None;
  rl_result : o_result o = None;
  rl_taken : o_taken o <= length (outbox gen o);
  rl_points : Forall2 (relayed_as mp) (firstn (o_taken o) (outbox gen o)) (points_sent out);
  rl_min : filter minimum (rows_of (firstn (o_taken o) (outbox gen o))) = flat_map a_rows (updates_sent out) ++ flat_map a_rows (o_minima o);
  rl_pend : o_taken o <= 1 \/ o_minima o = [] }.

Lemma relayed_grown o o' out : relayed o out -> grown o o' -> sane o' -> relayed o' out.
Proof.
  intros [A B DN RN C D E F] G HS. destruct (grown_outbox gen ST _ _ G) as [r R].
  assert (FF : firstn (o_taken o') (outbox gen o') = firstn (o_taken o) (outbox gen o)).
  { rewrite (gr_taken _ _ G), R, firstn_app. replace (o_taken o - length (outbox gen o)) with 0 by lia. cbn. now rewrite app_nil_r. }
  split; auto.
  - rewrite (gr_last _ _ G). exact B.
  - now rewrite (gr_done _ _ G).
  - now rewrite (gr_result _ _ G).
  - rewrite (gr_taken _ _ G), R, app_length. lia.
  - now rewrite FF.
  - rewrite FF, (gr_minima _ _ G). exact E.
  - rewrite (gr_taken _ _ G), (gr_minima _ _ G). exact F.
Qed.
Lemma relayed_new : relayed new_obj [].
Proof. split; cbn; auto; try (intros _; reflexivity). Qed.

(** One message read and its points sent; the minima are still with the object *)
Lemma relayed_fetched o o' out l a p : relayed o out -> fetched o o' l a -> unmap_np a mp = Ok p ->
  sane o' /\ o_last o' = None /\ o_taken o' = S (o_taken o) /\ o_taken o' <= length (outbox gen o') /\
  Forall2 (relayed_as mp) (firstn (o_taken o') (outbox gen o')) (points_sent (out ++ [SPoints p])) /\
  filter minimum (rows_of (firstn (o_taken o') (outbox gen o'))) = flat_map a_rows (updates_sent out) ++ flat_map a_rows (o_minima o').
Proof.
  intros [A B DN RN C D E F] FE U. destruct (fe_out _ _ _ _ FE) as [r R]. assert (EN := fe_msg _ _ _ _ FE). assert (T := fe_taken _ _ _ _ FE).
  assert (FF : firstn (o_taken o) (outbox gen o') = firstn (o_taken o) (outbox gen o)).
  { rewrite R, firstn_app. replace (o_taken o - length (outbox gen o)) with 0 by lia. cbn. now rewrite app_nil_r. }
  assert (LT : o_taken o < length (outbox gen o')) by (apply nth_error_Some; congruence).
  assert (FS : firstn (S (o_taken o)) (outbox gen o') = firstn (o_taken o) (outbox gen o) ++ [MPoints l]) by (rewrite (firstn_S_snoc _ _ _ EN), FF; reflexivity).
  split; [apply FE|]. split; [apply FE|]. split; auto. rewrite T, FS, points_sent_app. split; [lia|]. split.
  - apply Forall2_app; auto. constructor; [|constructor]. exists l, a. repeat split; auto; apply FE.
  - rewrite rows_of_app, filter_app, E, (fe_min _ _ _ _ FE), app_assoc. cbn. now rewrite app_nil_r.
Qed.

Lemma forward_relayed : forall k o out o' out' r, relayed o out -> forward gen pi mp k o out = (o', out', r) -> r = None -> relayed o' out'.
Proof.
  induction k as [|k IH]; intros o out o' out' r I H E; cbn [forward] in H; [now injection H as <- <- <-|].
  destruct (nth_error _ _) as [m0|]; [|now injection H as <- <- <-].
  destruct (suggest gen pi 0 o) as [o1 x] eqn:ES. destruct x as [a|e|]; [|injection H as <- <- <-; discriminate|injection H as <- <- <-; discriminate].
  destruct (unmap_np a mp) as [p|] eqn:EU; [|injection H as <- <- <-; discriminate].
  destruct (suggest0 o o1 a (rl_sane _ _ I) (rl_last _ _ I) ES) as [l FE].
  destruct (relayed_fetched o o1 out l a p I FE EU) as (A&B&C&D&E1&E2).
  eapply IH; [|exact H|exact E]. split; auto.
  - apply FE.
  - cbn. rewrite (fe_result _ _ _ _ FE). apply I.
  - change (outbox gen (fst (updates o1))) with (outbox gen o1). cbn [fst updates o_taken set_sugg].
    rewrite points_sent_app in *. cbn [points_sent flat_map] in *. fold (points_sent (map SUpdate (o_minima o1))). now rewrite points_updates.
  - change (outbox gen (fst (updates o1))) with (outbox gen o1). cbn [fst updates o_taken set_sugg o_minima flat_map].
    rewrite app_nil_r, E2, updates_sent_app, flat_map_app. cbn [updates_sent flat_map app]. fold (updates_sent (map SUpdate (o_minima o1))). now rewrite updates_updates.
Qed.

Lemma ingest_relayed x s o o' out : relayed o out -> ingest N pi x s o = (o', Ret tt) -> relayed o' out.
Proof. intros I H. apply ingest_grown in H as (G&HS&_); [|apply I]. eapply relayed_grown; eauto. Qed.
Lemma deliver_relayed : forall ms o o' out, relayed o out -> deliver gen N pi mp ms o = (o', None) -> relayed o' out.
Proof.
  induction ms as [|m ms IH]; intros o o' out I H; cbn [deliver] in H; [now injection H as <-|].
  destruct (map_in mp (rows_in m)) as [x|]; [|discriminate]. destruct (ingest N pi x (stops m) o) as [o1 [[]|e|]] eqn:E; try discriminate.
  destruct (stops m); [unfold conclude in H; destruct (result gen o1) as [? []]; try discriminate; destruct (finalize gen pi _) as [? []]; discriminate|].
  eapply IH; [|exact H]. eapply ingest_relayed; eauto.
Qed.

(** The end: everything that was relayed still holds of what the function put out. *)
Record settled (o : obj) (out : list sent) : Prop := {
  se_points : Forall2 (relayed_as mp) (firstn (length (points_sent out)) (outbox gen o)) (points_sent out);
  se_min : exists pending, filter minimum (rows_of (firstn (length (points_sent out)) (outbox gen o))) = flat_map a_rows (updates_sent out) ++ pending /\
           (1 < length (points_sent out) -> pending = []) }.
Lemma relayed_settled o out : relayed o out -> settled o out.
Proof.
  intros [A B DN RN C D E F]. assert (L := Forall2_len _ _ _ D). rewrite firstn_length, Nat.min_l in L by auto.
  split; rewrite <- L; auto. exists (flat_map a_rows (o_minima o)). split; auto. intros G. destruct F as [F|F]; [lia|]. now rewrite F.
Qed.
Lemma settled_more o o' out r : outbox gen o' = outbox gen o ++ r -> length (points_sent out) <= length (outbox gen o) -> settled o out -> settled o' out.
Proof.
  intros R L [A B]. assert (FF : firstn (length (points_sent out)) (outbox gen o') = firstn (length (points_sent out)) (outbox gen o)).
  { rewrite R, firstn_app. replace (length (points_sent out) - length (outbox gen o)) with 0 by lia. cbn. now rewrite app_nil_r. }
  split; now rewrite FF.
Qed.
Lemma result_outbox o o' r : result gen o = (o', r) -> outbox gen o' = outbox gen o /\ (sane o -> sane o').
Proof.
  unfold result. destruct (o_done o) as [[]|]; [intros [= <- <-]; auto|intros [= <- <-]; auto|].
  destruct (final _) as [[k []]|]; intros [= <- <-]; auto.
Qed.
Lemma finalize_outbox o o' r : sane o -> finalize gen pi o = (o', r) -> exists x, outbox gen o' = outbox gen o ++ x.
Proof.
  intros HS H. unfold finalize in H. destruct (o_made o); [|injection H as <- <-; exists []; now rewrite app_nil_r].
  destruct (base_ingest pi (set_first MIngest o) None true) as [o0 x0] eqn:E0. cbn [fst] in H.
  apply base_ingest_grown in E0 as (G0&S1&_); [|now apply first_sane].
  assert (G : grown o (set_call MIngest (o_num o) o0)) by (eapply grown_trans; [apply grown_first|]; eapply grown_trans; [exact G0|apply grown_call]).
  destruct (grown_outbox gen ST _ _ G) as [x X]. exists x. rewrite <- X.
  destruct (result gen _) as [o2 y] eqn:E. apply result_outbox in E as [E _]. destruct y; injection H as <- <-; rewrite <- E; reflexivity.
Qed.
Lemma conclude_outbox o o' r : sane o -> conclude gen pi o = (o', r) -> exists x, outbox gen o' = outbox gen o ++ x.
Proof.
  intros HS H. unfold conclude in H. destruct (result gen o) as [o1 y] eqn:E. apply result_outbox in E as [E E2].
  destruct y as [v|e|]; [|injection H as <- <-; exists []; now rewrite app_nil_r, E|injection H as <- <-; exists []; now rewrite app_nil_r, E].
  destruct (finalize gen pi o1) as [o2 z] eqn:EF. apply finalize_outbox in EF as [x X]; auto. rewrite E in X. exists x. destruct z; injection H as <- <-; exact X.
Qed.
Lemma deliver_settled : forall ms o o' out v, relayed o out -> deliver gen N pi mp ms o = (o', Some (Returned v)) -> settled o' out.
Proof.
  induction ms as [|m ms IH]; intros o o' out v I H; cbn [deliver] in H; [discriminate|].
  destruct (map_in mp (rows_in m)) as [x|]; [|discriminate]. destruct (ingest N pi x (stops m) o) as [o1 [[]|e|]] eqn:E; try discriminate.
  assert (I1 := ingest_relayed _ _ _ _ _ I E). destruct (stops m); [|eapply IH; eauto].
  apply conclude_outbox in H as [y Y]; [|apply I1]. eapply settled_more; [exact Y| |now apply relayed_settled].
  destruct I1 as [_ _ _ _ C D _ _]. apply Forall2_len in D. rewrite firstn_length in D. lia.
Qed.
Lemma loop_settled : forall turns o out o' out' r, relayed o out -> loop gen N pi mp turns o out = (o', out', r) ->
  r = Running \/ (exists v, r = Returned v) -> settled o' out'.
Proof.
  induction turns as [|[k ms] turns IH]; intros o out o' out' r I H E; cbn [loop] in H; [injection H as <- <- <-; now apply relayed_settled|].
  destruct (forward gen pi mp k o out) as [[o1 out1] [x|]] eqn:EF.
  - injection H as <- <- <-. exfalso. clear -EF E. revert o out EF. induction k as [|k IHk]; intros o out EF; cbn [forward] in EF; [discriminate|].
    destruct (nth_error _ _) as [m0|]; [|discriminate]. destruct (suggest gen pi 0 o) as [o2 [a|e|]].
    + destruct (unmap_np a mp); [eapply IHk; eauto|injection EF as <- <- <-; destruct E as [E|[v E]]; discriminate].
    + injection EF as <- <- <-; destruct E as [E|[v E]]; discriminate.
    + injection EF as <- <- <-; destruct E as [E|[v E]]; discriminate.
  - assert (I1 := forward_relayed _ _ _ _ _ _ I EF eq_refl).
    destruct (deliver gen N pi mp ms o1) as [o2 [x|]] eqn:ED.
    + injection H as <- <- <-. destruct E as [->|[v ->]]; [|eapply deliver_settled; eauto].
      exfalso. clear -ED. revert o1 ED. induction ms as [|m ms IHm]; intros o1 ED; cbn [deliver] in ED; [discriminate|].
      destruct (map_in mp (rows_in m)); [|discriminate]. destruct (ingest N pi _ (stops m) o1) as [o3 [[]|e|]]; try discriminate.
      destruct (stops m); [unfold conclude in ED; destruct (result gen o3) as [? []]; try discriminate; destruct (finalize gen pi _) as [? []]; discriminate|eauto].
    + eapply IH; [|exact H|exact E]. eapply deliver_relayed; eauto.
Qed.
Lemma begin_settled first turns o o' out' r : relayed o [] -> o_taken o = 0 -> begin gen N pi mp first turns o = (o', out', r) ->
  r = Running \/ (exists v, r = Returned v) -> settled o' out'.
Proof.
  intros I T H E. unfold begin in H. destruct (suggest gen pi 0 o) as [o1 x] eqn:ES.
  destruct x as [a|e|]; [|injection H as <- <- <-; destruct E as [E|[v E]]; discriminate|injection H as <- <- <-; destruct E as [E|[v E]]; discriminate].
  destruct (unmap_np a mp) as [p|] eqn:EU; [|injection H as <- <- <-; destruct E as [E|[v E]]; discriminate].
  destruct (suggest0 o o1 a (rl_sane _ _ I) (rl_last _ _ I) ES) as [l FE].
  destruct (relayed_fetched o o1 [] l a p I FE EU) as (A&B&C&D&E1&E2).
  assert (I1 : relayed o1 [SPoints p]) by (split; auto; [apply FE|rewrite (fe_result _ _ _ _ FE); apply I|left; lia]).
  destruct first as [m|]; [|injection H as <- <- <-; now apply relayed_settled].
  unfold first_results in H. destruct (map_in mp (rows_in m)) as [y|]; [|injection H as <- <- <-; destruct E as [E|[v E]]; discriminate].
  destruct (ingest N pi y false o1) as [o2 [[]|e|]] eqn:EI; [|injection H as <- <- <-; destruct E as [E|[v E]]; discriminate|injection H as <- <- <-; destruct E as [E|[v E]]; discriminate].
  eapply loop_settled; [|exact H|exact E]. eapply ingest_relayed; eauto.
Qed.
Lemma relay_settled H0 first turns o out r : relay gen N pi mp H0 first turns = (o, out, r) ->
  r = Running \/ (exists v, r = Returned v) -> settled o out.
Proof.
  intros H E. unfold relay in H. destruct H0 as [a|]; [|eapply begin_settled; eauto using relayed_new].
  destruct (length (a_rows a) =? 0); [eapply begin_settled; eauto using relayed_new|].
  destruct (map_np a mp) as [b|]; [|injection H as <- <- <-; destruct E as [E|[v E]]; discriminate].
  destruct (ingest N pi (Some b) false new_obj) as [o1 [[]|e|]] eqn:EI; [|injection H as <- <- <-; destruct E as [E|[v E]]; discriminate|injection H as <- <- <-; destruct E as [E|[v E]]; discriminate].
  eapply begin_settled; [| |exact H|exact E].
  - eapply ingest_relayed; [apply relayed_new|exact EI].
  - apply ingest_grown in EI as (G&_); [|intros _; reflexivity]. now rewrite (gr_taken _ _ G).
Qed.

(** The state while the worker is in the loop *)
Lemma loop_relayed : forall turns o out o' out', relayed o out -> loop gen N pi mp turns o out = (o', out', Running) -> relayed o' out' /\ exists r, out' = out ++ r.
Proof.
  induction turns as [|[k ms] turns IH]; intros o out o' out' I H; cbn [loop] in H; [injection H as <- <-; split; auto; exists []; now rewrite app_nil_r|].
  destruct (forward gen pi mp k o out) as [[o1 out1] [x|]] eqn:EF.
  - exfalso. injection H as <- <- ->. clear -EF. revert o out EF. induction k as [|k IHk]; intros o out EF; cbn [forward] in EF; [discriminate|].
    destruct (nth_error _ _) as [m0|]; [|discriminate]. destruct (suggest gen pi 0 o) as [o2 [a|e|]]; try discriminate. destruct (unmap_np a mp); [eauto|discriminate].
  - destruct (deliver gen N pi mp ms o1) as [o2 [x|]] eqn:ED.
    + exfalso. injection H as <- <- ->. clear -ED. revert o1 ED. induction ms as [|m ms IHm]; intros o1 ED; cbn [deliver] in ED; [discriminate|].
      destruct (map_in mp (rows_in m)); [|discriminate]. destruct (ingest N pi _ (stops m) o1) as [o3 [[]|e|]]; try discriminate.
      destruct (stops m); [unfold conclude in ED; destruct (result gen o3) as [? []]; try discriminate; destruct (finalize gen pi _) as [? []]; discriminate|eauto].
    + assert (X : exists r, out1 = out ++ r).
      { clear -EF. revert o out EF. induction k as [|k IHk]; intros o out EF; cbn [forward] in EF; [injection EF as <- <-; exists []; now rewrite app_nil_r|].
        destruct (nth_error _ _) as [m0|]; [|injection EF as <- <-; exists []; now rewrite app_nil_r].
        destruct (suggest gen pi 0 o) as [o2 [a|e|]]; try discriminate. destruct (unmap_np a mp); [|discriminate].
        apply IHk in EF as [r ->]. eexists. now rewrite <- app_assoc. }
      destruct X as [r ->]. apply IH in H as [A [r' ->]].
      * split; auto. eexists. now rewrite <- app_assoc.
      * eapply deliver_relayed; eauto. eapply forward_relayed; eauto.
Qed.
Lemma loop_app : forall t1 t2 o out o' out', loop gen N pi mp t1 o out = (o', out', Running) -> loop gen N pi mp (t1 ++ t2) o out = loop gen N pi mp t2 o' out'.
Proof.
  induction t1 as [|[k ms] t1 IH]; intros t2 o out o' out' H; cbn [loop app] in *; [now injection H as <- <-|].
  destruct (forward gen pi mp k o out) as [[o1 out1] [x|]] eqn:EF.
  - exfalso. injection H as <- <- ->. clear -EF. revert o out EF. induction k as [|k IHk]; intros o out EF; cbn [forward] in EF; [discriminate|].
    destruct (nth_error _ _) as [m0|]; [|discriminate]. destruct (suggest gen pi 0 o) as [o2 [a|e|]]; try discriminate. destruct (unmap_np a mp); [eauto|discriminate].
  - destruct (deliver gen N pi mp ms o1) as [o2 [x|]] eqn:ED; [|eauto].
    exfalso. injection H as <- <- ->. clear -ED. revert o1 ED. induction ms as [|m ms IHm]; intros o1 ED; cbn [deliver] in ED; [discriminate|].
    destruct (map_in mp (rows_in m)); [|discriminate]. destruct (ingest N pi _ (stops m) o1) as [o3 [[]|e|]]; try discriminate.
    destruct (stops m); [unfold conclude in ED; destruct (result gen o3) as [? []]; try discriminate; destruct (finalize gen pi _) as [? []]; discriminate|eauto].
Qed.
Lemma relay_running H0 m turns o out : relay gen N pi mp H0 (Some m) turns = (o, out, Running) ->
  relayed o out /\ (exists p r, out = SPoints p :: r) /\
  forall t2, relay gen N pi mp H0 (Some m) (turns ++ t2) = loop gen N pi mp t2 o out.
Proof.
  assert (B : forall o0, relayed o0 [] -> o_taken o0 = 0 -> begin gen N pi mp (Some m) turns o0 = (o, out, Running) ->
     relayed o out /\ (exists p r, out = SPoints p :: r) /\ forall t2, begin gen N pi mp (Some m) (turns ++ t2) o0 = loop gen N pi mp t2 o out).
  { intros o0 I T H. unfold begin in *. destruct (suggest gen pi 0 o0) as [o1 [a|e|]] eqn:ES; try discriminate.
    destruct (unmap_np a mp) as [p|] eqn:EU; [|discriminate].
    destruct (suggest0 o0 o1 a (rl_sane _ _ I) (rl_last _ _ I) ES) as [l FE].
    destruct (relayed_fetched o0 o1 [] l a p I FE EU) as (A1&A2&A3&A4&A5&A6).
    assert (I1 : relayed o1 [SPoints p]) by (split; auto; [apply FE|rewrite (fe_result _ _ _ _ FE); apply I|left; lia]).
    unfold first_results in *. destruct (map_in mp (rows_in m)) as [y|]; [|discriminate].
    destruct (ingest N pi y false o1) as [o2 [[]|e|]] eqn:EI; try discriminate.
    assert (I2 := ingest_relayed _ _ _ _ _ I1 EI). destruct (loop_relayed _ _ _ _ _ I2 H) as [I3 [r ->]].
    split; auto. split; [cbn; eauto|]. intros t2. now rewrite (loop_app _ _ _ _ _ _ H). }
  unfold relay. destruct H0 as [a|]; [|apply B; [apply relayed_new|reflexivity]].
  destruct (length (a_rows a) =? 0); [apply B; [apply relayed_new|reflexivity]|].
  destruct (map_np a mp) as [b|]; [|discriminate].
  destruct (ingest N pi (Some b) false new_obj) as [o1 [[]|e|]] eqn:EI; try discriminate.
  apply B; [exact (ingest_relayed _ _ _ _ _ relayed_new EI)|].
  apply ingest_grown in EI as (G&_); [|intros _; reflexivity]. now rewrite (gr_taken _ _ G).
Qed.
Lemma relayed_finv o out : relayed o out -> finv gen o.
Proof.
  intros [A B DN RN C D E F]. split; auto; try congruence.
  intros _. clear -D. remember (firstn _ _) as l. remember (points_sent out) as q. clear -D. induction D as [|m s l q (a&p&->&_) D IH]; constructor; auto. exact I.
Qed.
(** The stop *)
Lemma stop_obedient o out b : obedient gen -> relayed o out -> o_made o = true -> o_running o = Some b ->
  exists o' v, deliver gen N pi mp [Signal] o = (o', Some (Returned v)) /\ o_in o' = o_in o ++ [PNone true; PNone true] /\
    ended_with (gen b (o_in o ++ [PNone true])) (MResult v).
Proof.
  intros OB RL M R. assert (I := relayed_finv _ _ RL). cbn [deliver rows_in map_in stops].
  unfold ingest. cbn [orb]. set (o0 := set_first MIngest o).
  assert (Z : o_made o0 = true /\ o_running o0 = Some b /\ o_in o0 = o_in o) by (unfold o0, set_first; destruct (o_first o); auto). destruct Z as (Z1&Z2&Z3).
  assert (G0 : grown o o0) by apply grown_first. assert (S0 : sane o0) by (apply first_sane, I).
  destruct (base_ingest pi o0 None true) as [oq x] eqn:EB. assert (EB' := EB). apply base_ingest_grown in EB' as (GB&SB&_); auto.
  unfold base_ingest, start in EB. rewrite Z1 in EB. injection EB as EQ <-. set (o1 := set_call MIngest (o_num oq) oq).
  assert (GG : grown o o1) by (eapply grown_trans; [exact G0|eapply grown_trans; [exact GB|apply grown_call]]).
  assert (I1 : finv gen o1) by (eapply finv_grown; eauto).
  assert (X1 : o_in o1 = o_in o ++ [PNone true] /\ o_running o1 = Some b /\ o_made o1 = true) by (unfold o1; rewrite <- EQ; cbn; rewrite Z3; auto).
  destruct X1 as (X1&X2&X3).
  assert (OX : outbox gen o1 = gen b (o_in o ++ [PNone true])) by (unfold outbox; now rewrite X1, X2).
  destruct (OB b (o_in o)) as (v&EW). assert (EW0 := EW). rewrite <- OX in EW.
  assert (E1 : o_done o1 = None) by (rewrite (gr_done _ _ GG); apply RL).
  assert (K : exists o2, result gen o1 = (o2, Ret v)).
  { unfold result. rewrite E1.
    assert (EW' : ended_with (skipn (o_taken o1) (outbox gen o1)) (MResult v)).
    { destruct EW as (p&r&EE&F&NP). assert (FT := fi_none _ _ I1 E1). assert (LE : o_taken o1 <= length p).
      { destruct (le_lt_dec (o_taken o1) (length p)) as [?|LT]; auto. exfalso. rewrite EE in FT.
        assert (H : In (MResult v) (firstn (o_taken o1) (p ++ MResult v :: r))).
        { rewrite firstn_app. apply in_app_iff. right. destruct (o_taken o1 - length p) eqn:Q; [lia|]. now left. }
        rewrite Forall_forall in FT. now apply FT in H. }
      exists (skipn (o_taken o1) p), r. rewrite EE, skipn_app. replace (o_taken o1 - length p) with 0 by lia. split; auto. split; auto.
      rewrite <- (firstn_skipn (o_taken o1) p) in F. now apply Forall_app in F. }
    destruct (final_some _ _ EW') as (k&e&EF&ME). rewrite EF. destruct e; [|discriminate]. injection ME as ->. eauto. }
  destruct K as [o2 K]. unfold conclude. rewrite K. destruct (result_finv gen _ _ _ I1 K) as (I2&D2&_&IN2&RN2&MD2).
  specialize (D2 _ eq_refl).
  destruct (finalize_obedient gen N pi ST o2 b OB I2) as [o3 E3]; try congruence. rewrite E3.
  exists o3, v. split; auto. split; auto. destruct (finalize_finv gen N pi ST _ _ _ I2 E3) as (_&V&_). destruct (V eq_refl) as (w&_&V2&_).
  rewrite V2, IN2, X1, <- app_assoc. reflexivity.
Qed.
(** What is returned *)
Lemma conclude_returned o o' v : finv gen o -> conclude gen pi o = (o', Some (Returned v)) -> ended_with (outbox gen o') (MResult v) /\ export o' = Some v.
Proof.
  intros I H. unfold conclude in H. destruct (result gen o) as [o1 [w|e|]] eqn:ER; try discriminate.
  destruct (result_finv gen _ _ _ I ER) as (I1&D1&_). specialize (D1 _ eq_refl).
  destruct (finalize gen pi o1) as [o2 [[]|e|]] eqn:EF; try discriminate. injection H as <- <-.
  destruct (finalize_finv gen N pi ST _ _ _ I1 EF) as (I2&V&_). destruct (V eq_refl) as (u&V1&_&_).
  assert (D2 := fi_result _ _ I2 _ V1). destruct (fi_some _ _ I2 _ D2) as (k&_&K). apply at_end_with in K. cbn in K.
  destruct (fi_some _ _ I1 _ D1) as (k'&_&K'). destruct (finalize_outbox o1 o2 _ (fi_sane _ _ I1) EF) as [r R].
  apply (at_end_app _ r) in K'. rewrite <- R in K'. apply at_end_with in K'. cbn in K'.
  assert (Q := ended_with_unique _ _ _ K K'). injection Q as ->. auto.
Qed.
Lemma deliver_returned : forall ms o o' out v, relayed o out -> deliver gen N pi mp ms o = (o', Some (Returned v)) -> ended_with (outbox gen o') (MResult v) /\ export o' = Some v.
Proof.
  induction ms as [|m ms IH]; intros o o' out v I H; cbn [deliver] in H; [discriminate|].
  destruct (map_in mp (rows_in m)) as [x|]; [|discriminate]. destruct (ingest N pi x (stops m) o) as [o1 [[]|e|]] eqn:E; try discriminate.
  assert (I1 := ingest_relayed _ _ _ _ _ I E). destruct (stops m); [|eapply IH; eauto].
  eapply conclude_returned; eauto. eapply relayed_finv; eauto.
Qed.
Lemma loop_returned : forall turns o out o' out' v, relayed o out -> loop gen N pi mp turns o out = (o', out', Returned v) -> ended_with (outbox gen o') (MResult v) /\ export o' = Some v.
Proof.
  induction turns as [|[k ms] turns IH]; intros o out o' out' v I H; cbn [loop] in H; [discriminate|].
  destruct (forward gen pi mp k o out) as [[o1 out1] [x|]] eqn:EF.
  - exfalso. injection H as <- <- ->. clear -EF. revert o out EF. induction k as [|k IHk]; intros o out EF; cbn [forward] in EF; [discriminate|].
    destruct (nth_error _ _) as [m0|]; [|discriminate]. destruct (suggest gen pi 0 o) as [o2 [a|e|]]; try discriminate. destruct (unmap_np a mp); [eauto|discriminate].
  - assert (I1 := forward_relayed _ _ _ _ _ _ I EF eq_refl). destruct (deliver gen N pi mp ms o1) as [o2 [x|]] eqn:ED.
    + injection H as <- <- ->. eapply deliver_returned; eauto.
    + eapply IH; [|exact H]. eapply deliver_relayed; eauto.
Qed.
Lemma relay_returned H0 first turns o out v : relay gen N pi mp H0 first turns = (o, out, Returned v) -> ended_with (outbox gen o) (MResult v) /\ export o = Some v.
Proof.
  assert (B : forall o0, relayed o0 [] -> o_taken o0 = 0 -> begin gen N pi mp first turns o0 = (o, out, Returned v) -> ended_with (outbox gen o) (MResult v) /\ export o = Some v).
  { intros o0 I T H. unfold begin in *. destruct (suggest gen pi 0 o0) as [o1 [a|e|]] eqn:ES; try discriminate.
    destruct (unmap_np a mp) as [p|] eqn:EU; [|discriminate]. destruct first as [m|]; [|discriminate].
    destruct (suggest0 o0 o1 a (rl_sane _ _ I) (rl_last _ _ I) ES) as [l FE].
    destruct (relayed_fetched o0 o1 [] l a p I FE EU) as (A1&A2&A3&A4&A5&A6).
    assert (I1 : relayed o1 [SPoints p]) by (split; auto; [apply FE|rewrite (fe_result _ _ _ _ FE); apply I|left; lia]).
    unfold first_results in *. destruct (map_in mp (rows_in m)) as [y|]; [|discriminate].
    destruct (ingest N pi y false o1) as [o2 [[]|e|]] eqn:EI; try discriminate.
    eapply loop_returned; [|exact H]. eapply ingest_relayed; eauto. }
  unfold relay. destruct H0 as [a|]; [|apply B; [apply relayed_new|reflexivity]].
  destruct (length (a_rows a) =? 0); [apply B; [apply relayed_new|reflexivity]|].
  destruct (map_np a mp) as [b|]; [|discriminate].
  destruct (ingest N pi (Some b) false new_obj) as [o1 [[]|e|]] eqn:EI; try discriminate.
  apply B; [exact (ingest_relayed _ _ _ _ _ relayed_new EI)|].
  apply ingest_grown in EI as (G&_); [|intros _; reflexivity]. now rewrite (gr_taken _ _ G).
Qed.

(** The calls of a run, as a program for the object *)
Definition tr (o : obj) (bs : list arr) : Prop :=
  exists cs rs, run gen N pi cs new_obj = (o, rs) /\ Forall points_fine rs /\ (forall c, In c cs -> ~ ends c) /\ batches cs = bs.
Lemma tr_new : tr new_obj [].
Proof. exists [], []. repeat split; auto. Qed.
Lemma tr_step o o' bs c r : tr o bs -> step gen N pi c o = (o', r) -> points_fine r -> ~ ends c -> tr o' (bs ++ batches [c]).
Proof.
  intros (cs&rs&A&B&C&D) E F G. exists (cs ++ [c]), (rs ++ [r]). rewrite (run_app _ _ _ _ _ _ _ _ A B). cbn [run]. rewrite E.
  assert (hangs r = false) as -> by (destruct r as [[]|l|[]]; cbn in F |- *; auto; destruct F). cbn [fst snd].
  split; auto. split; [apply Forall_app; split; auto|]. split.
  - intros x Hx. apply in_app_iff in Hx as [Hx|[<- |[]]]; auto.
  - rewrite batches_app, D. reflexivity.
Qed.
Lemma tr_suggest o o' bs a : tr o bs -> suggest gen pi 0 o = (o', Ret a) -> tr o' bs.
Proof.
  intros T E. rewrite <- (app_nil_r bs). change (@nil arr) with (batches [Suggest 0]). eapply tr_step with (r := Points (Ret a)); eauto; [|exact I|discriminate].
  cbn [step]. now rewrite E.
Qed.
Lemma tr_updates o bs : tr o bs -> tr (fst (updates o)) bs.
Proof. intros T. rewrite <- (app_nil_r bs). change (@nil arr) with (batches [Updates]). eapply tr_step with (r := Minima (o_minima o)); eauto; [exact I|discriminate]. Qed.
Lemma tr_ingest o o' bs b : tr o bs -> ingest N pi (Some b) false o = (o', Ret tt) -> tr o' (bs ++ [b]).
Proof.
  intros T E. change [b] with (batches [Ingest b]). eapply tr_step with (r := Done (Ret tt)); eauto; [|exact I|discriminate].
  cbn [step]. now rewrite E.
Qed.
Lemma tr_forward bs : forall k o out o' out' r, tr o bs -> forward gen pi mp k o out = (o', out', r) -> r = None -> tr o' bs.
Proof.
  induction k as [|k IH]; intros o out o' out' r T H E; cbn [forward] in H; [now injection H as <- <- <-|].
  destruct (nth_error _ _) as [m0|]; [|now injection H as <- <- <-].
  destruct (suggest gen pi 0 o) as [o1 [a|e|]] eqn:ES; [|injection H as <- <- <-; discriminate|injection H as <- <- <-; discriminate].
  destruct (unmap_np a mp) as [p|]; [|injection H as <- <- <-; discriminate].
  eapply IH; [|exact H|exact E]. eapply tr_updates, tr_suggest; eauto.
Qed.
Lemma tr_deliver : forall ms bs' bs o o' r, tr o bs -> deliver gen N pi mp ms o = (o', r) -> r = None -> Forall2 (arrives mp) ms bs' -> tr o' (bs ++ bs').
Proof.
  induction ms as [|m ms IH]; intros bs' bs o o' r T H E F; inversion F as [|? b ? bs'' (a&->&Ma) FF]; subst; cbn [deliver] in H; [injection H as <-; now rewrite app_nil_r|].
  cbn [rows_in map_in stops] in H. unfold bindr in H. rewrite Ma in H. destruct (ingest N pi (Some b) false o) as [o1 [[]|e|]] eqn:EI; try discriminate.
  change (b :: bs'') with ([b] ++ bs''). rewrite app_assoc. eapply IH; eauto. eapply tr_ingest; eauto.
Qed.
Lemma tr_loop : forall turns bs' bs o out o' out', tr o bs -> loop gen N pi mp turns o out = (o', out', Running) -> Forall2 (arrives mp) (flat_map snd turns) bs' -> tr o' (bs ++ bs').
Proof.
  induction turns as [|[k ms] turns IH]; intros bs' bs o out o' out' T H F; cbn [loop flat_map snd] in H, F; [inversion F; injection H as <- <-; subst; now rewrite app_nil_r|].
  apply Forall2_app_inv_l in F as (b1&b2&F1&F2&->).
  destruct (forward gen pi mp k o out) as [[o1 out1] [x|]] eqn:EF.
  - exfalso. injection H as <- <- ->. clear -EF. revert o out EF. induction k as [|k IHk]; intros o out EF; cbn [forward] in EF; [discriminate|].
    destruct (nth_error _ _) as [m0|]; [|discriminate]. destruct (suggest gen pi 0 o) as [o2 [a|e|]]; try discriminate. destruct (unmap_np a mp); [eauto|discriminate].
  - destruct (deliver gen N pi mp ms o1) as [o2 [x|]] eqn:ED.
    + exfalso. injection H as <- <- ->. clear -ED. revert o1 ED. induction ms as [|m ms IHm]; intros o1 ED; cbn [deliver] in ED; [discriminate|].
      destruct (map_in mp (rows_in m)); [|discriminate]. destruct (ingest N pi _ (stops m) o1) as [o3 [[]|e|]]; try discriminate.
      destruct (stops m); [unfold conclude in ED; destruct (result gen o3) as [? []]; try discriminate; destruct (finalize gen pi _) as [? []]; discriminate|eauto].
    + rewrite app_assoc. eapply IH; [|exact H|exact F2]. exact (tr_deliver _ _ _ _ _ _ (tr_forward _ _ _ _ _ _ _ T EF eq_refl) ED eq_refl F1).
Qed.
Lemma tr_begin first turns bs bs' o o' out' : tr o bs -> begin gen N pi mp first turns o = (o', out', Running) ->
  Forall2 (arrives mp) (mails first turns) bs' -> tr o' (bs ++ bs').
Proof.
  intros T H F. unfold begin in H. destruct (suggest gen pi 0 o) as [o1 [a|e|]] eqn:ES; try discriminate.
  destruct (unmap_np a mp) as [p|]; [|discriminate]. assert (T1 := tr_suggest _ _ _ _ T ES).
  destruct first as [m|]; cbn [mails] in F; [|inversion F; subst; injection H as <- <-; now rewrite app_nil_r].
  inversion F as [|? b ? bs'' (x&->&Mx) FF]; subst. unfold first_results in H. cbn [rows_in map_in] in H. unfold bindr in H. rewrite Mx in H.
  destruct (ingest N pi (Some b) false o1) as [o2 [[]|e|]] eqn:EI; try discriminate.
  change (b :: bs'') with ([b] ++ bs''). rewrite app_assoc. eapply tr_loop; eauto. eapply tr_ingest; eauto.
Qed.
Lemma tr_relay H0 first turns b0 bs o out : relay gen N pi mp H0 first turns = (o, out, Running) -> started_with mp H0 b0 ->
  Forall2 (arrives mp) (mails first turns) bs -> tr o (b0 ++ bs).
Proof.
  intros H S0 F. unfold relay, started_with in *. destruct H0 as [a|]; [|subst b0; eapply tr_begin; eauto using tr_new].
  destruct (length (a_rows a) =? 0); [subst b0; eapply tr_begin; eauto using tr_new|].
  destruct S0 as (b&Mb&->). rewrite Mb in H. destruct (ingest N pi (Some b) false new_obj) as [o1 [[]|e|]] eqn:EI; try discriminate.
  eapply tr_begin; eauto. change [b] with ([] ++ [b]). eapply tr_ingest; eauto using tr_new.
Qed.
Lemma batches_split : forall cs pre a post, batches cs = pre ++ a :: post -> exists c1 c2, cs = c1 ++ Ingest a :: c2 /\ batches c1 = pre /\ batches c2 = post.
Proof.
  induction cs as [|c cs IH]; intros pre a post H; [now destruct pre|].
  assert (K : (exists b, c = Ingest b) \/ batches (c :: cs) = batches cs) by (destruct c; eauto). destruct K as [[b ->]|K].
  - change (batches (Ingest b :: cs)) with (b :: batches cs) in H. destruct pre as [|x pre]; cbn [app] in H.
    + injection H as -> <-. exists [], cs. auto.
    + injection H as -> H. destruct (IH _ _ _ H) as (c1&c2&->&A&B). exists (Ingest x :: c1), c2. split; auto. split; auto. cbn. now f_equal.
  - rewrite K in H. destruct (IH _ _ _ H) as (c1&c2&->&A&B). exists (c :: c1), c2. split; auto. split; auto. rewrite <- A.
    destruct c; auto. exfalso. clear -K. apply (f_equal (@length arr)) in K. unfold batches in K. cbn [flat_map app length] in K. lia.
Qed.
Lemma taken_batches cs : taken_in cs = flat_map a_rows (batches cs).
Proof. induction cs as [|[] cs IH]; auto. change (a_rows a ++ taken_in cs = a_rows a ++ flat_map a_rows (batches cs)). now rewrite IH. Qed.
Lemma batches_map l : batches (map Ingest l) = l.
Proof. induction l as [|a l IH]; auto. cbn. now f_equal. Qed.
End P.

(** A manager in step *)
Section L.
Variable gen : gfun.
Variable N : nat.
Variable pi : list name.
Variable dt : list field.
Variable mp : mapping.
Hypothesis AG : answering gen N.
Hypothesis OE : one_each gen.
Hypothesis NP : 0 < N.
Hypothesis IDS : forall f, In f dt -> f_name f = SIM_ID \/ f_name f = ID -> f_ty f = TInt /\ f_dim f = None.
Hypothesis NE : ~ In SIM_ENDED (names dt).
Hypothesis PI1 : In SIM_ID pi.
Hypothesis PI2 : ~ In ID pi.
Hypothesis HI : In SIM_ID (names dt).
Hypothesis UN : forall l a p, In (MPoints a) (gen true l) -> a_dt p = a_dt a -> incl (a_rows p) (a_rows a) -> exists s, unmap_np p mp = Ok s.

Definition pos (o : obj) (bs : list arr) : Prop :=
  (o_told o = true /\ N <= length (flat_map a_rows bs)) \/ phase N dt o (flat_map a_rows bs).
Record lock (o : obj) (bs : list arr) : Prop := {
  lk_run : running o;
  lk_last : o_last o = None;
  lk_pos : pos o bs;
  lk_taken : o_taken o = S (nrows (o_in o)) \/ (o_taken o = nrows (o_in o) /\ o_call o = Some MIngest) }.

Lemma suggest0_ok o : sane o -> o_last o = None -> o_call o <> Some MSuggest -> (running o /\ o_taken o <= nrows (o_in o)) \/ o = new_obj -> 
  exists o' a, suggest gen pi 0 o = (o', Ret a).
Proof.
  intros SN L NC K. unfold suggest. destruct (first_same MSuggest o) as (F1&F2&F3&F4&F5&_).
  assert (FC : o_call (set_first MSuggest o) = o_call o) by (unfold set_first; destruct (o_first o); auto).
  assert (FM : (o_made (set_first MSuggest o) = true /\ o_running (set_first MSuggest o) = Some true /\ o_done (set_first MSuggest o) = None /\ quiet_in (o_in o) /\ o_taken o <= nrows (o_in o)) \/ o = new_obj).
  { destruct K as [[[A B C D] K2]|K]; [left|auto]. unfold set_first. destruct (o_first o); cbn; auto. }
  set (o0 := set_first MSuggest o) in *.
  assert (RE : ready o0 = Ok true) by (unfold ready; now rewrite F4, L). rewrite RE. cbn [lift]. unfold fetch. rewrite FC.
  assert (XX : match o_call o with Some MSuggest => true | _ => false end = false) by (destruct (o_call o) as [[]|]; congruence). rewrite XX. cbn [andb].
  unfold base_suggest. set (p := start _).
  assert (PP : o_done p = None /\ o_running p = Some true /\ quiet_in (o_in p) /\ o_taken p <= nrows (o_in p)).
  { destruct FM as [(A&B&C&D&E)|E].
    - unfold p, start. cbn [o_made set_sugg]. rewrite A. cbn. rewrite F2, F3. auto.
    - unfold p, o0. rewrite E. cbn. repeat split; auto. intros m []. }
  destruct PP as (P1&P2&P3&P4). unfold recv. rewrite P1. unfold outbox. rewrite P2.
  destruct (an_answers _ _ AG (o_in p) P3) as [G1 G2]. fold (nrows (o_in p)) in G2.
  destruct (nth_error (gen true (o_in p)) (o_taken p)) as [m|] eqn:E; [|apply nth_error_None in E; lia].
  assert (RD : readable m) by (eapply Forall_forall; [exact G1|eapply nth_error_In; eauto]).
  destruct RD as (a&->&HL). cbn [lift]. unfold column. apply memb_In in HL. unfold names in HL. rewrite HL. cbn [lift].
  unfold hand_out. destruct (existsb is_min (a_rows a)); cbn; eauto.
Qed.
Lemma ingest_call x s o o' : ingest N pi x s o = (o', Ret tt) -> o_call o' = Some MIngest.
Proof.
  unfold ingest. intros H. destruct (_ || _).
  - destruct (base_ingest pi _ x s) as [o1 [[]|e|]]; try discriminate. injection H as <-. reflexivity.
  - destruct x as [a|]; [|discriminate].
    assert (HH : forall p, hand_over N pi a s p = (o', Ret tt) -> o_call o' = Some MIngest).
    { clear H. intros p H. unfold hand_over in H. destruct (enough N p); [|injection H as <-; reflexivity].
      destruct (o_buf p); [|discriminate]. destruct (if _ : bool then _ else _); [|discriminate].
      destruct (base_ingest pi _ _ s) as [o1 [[]|e|]]; try discriminate. injection H as <-. reflexivity. }
    destruct (enough N _); [eauto|]. destruct (o_buf _); [|discriminate]. destruct (slot a _ _) as [b' [e|]]; [discriminate|eauto].
Qed.

Lemma lock_fetched o o' bs l a : lock o bs -> fetched gen o o' l a -> o_taken o = nrows (o_in o) -> running o' /\ pos o' bs /\ o_taken o' = S (nrows (o_in o')).
Proof.
  intros [R L P T] FE TK. destruct (fe_run _ _ _ _ _ FE) as [FR|FR]; [|rewrite (rn_made _ R) in FR; discriminate].
  assert (RR : running o').
  { destruct R as [A B C D]. split; [|congruence|apply FE|now rewrite (fe_in _ _ _ _ _ FE)].
    destruct (o_made o') eqn:E; auto. apply (fe_sane _ _ _ _ _ FE) in E. congruence. }
  split; auto. split; [|rewrite (fe_taken _ _ _ _ _ FE), (fe_in _ _ _ _ _ FE), TK; reflexivity].
  destruct P as [[P1 P2]|P]; [left; split; auto; now rewrite (fe_told _ _ _ _ _ FE)|right]. eapply phase_same; eauto; apply FE.
Qed.
Lemma fetched_unmaps o o' l a : fetched gen o o' l a -> running o' -> exists s, unmap_np a mp = Ok s.
Proof.
  intros FE R. apply (UN (o_in o') l); [|apply FE|].
  - assert (E := fe_msg _ _ _ _ _ FE). unfold outbox in E. rewrite (rn_run _ R) in E. eapply nth_error_In; eauto.
  - rewrite (fe_rows _ _ _ _ _ FE). intros x Hx. now apply filter_In in Hx.
Qed.
Lemma lock_none o bs : lock o bs -> o_taken o = S (nrows (o_in o)) -> nth_error (outbox gen o) (o_taken o) = None.
Proof.
  intros [R _ _ _] T. apply nth_error_None. unfold outbox. rewrite (rn_run _ R), T. apply OE, R.
Qed.
Lemma lock_forward bs k : forall o out, lock o bs -> exists o' out', forward gen pi mp k o out = (o', out', None) /\ lock o' bs /\ (0 < k -> o_taken o' = S (nrows (o_in o'))).
Proof.
  assert (DN : forall k o out, lock o bs -> o_taken o = S (nrows (o_in o)) -> forward gen pi mp k o out = (o, out, None)).
  { intros k' o out LK T. destruct k'; [reflexivity|]. cbn [forward]. now rewrite (lock_none _ _ LK T). }
  intros o out LK. destruct (lk_taken _ _ LK) as [T|[T C]]; [exists o, out; rewrite DN; auto|].
  destruct k as [|k]; [exists o, out; repeat split; auto; try apply LK; lia|]. cbn [forward].
  assert (SN : sane o) by (intros M; rewrite (rn_made _ (lk_run _ _ LK)) in M; discriminate).
  destruct (nth_error (outbox gen o) (o_taken o)) as [m0|] eqn:E.
  2: { apply nth_error_None in E. unfold outbox in E. rewrite (rn_run _ (lk_run _ _ LK)) in E.
       destruct (an_answers _ _ AG (o_in o) (rn_quiet _ (lk_run _ _ LK))) as [_ F2]. fold (nrows (o_in o)) in F2. lia. }
  destruct (suggest0_ok o SN (lk_last _ _ LK)) as (o1&a&ES); [congruence|left; split; [apply LK|lia]|]. rewrite ES.
  destruct (suggest0 gen pi (an_steady _ _ AG) o o1 a SN (lk_last _ _ LK) ES) as [l FE].
  destruct (lock_fetched _ _ _ _ _ LK FE T) as (R1&P1&T1). destruct (fetched_unmaps _ _ _ _ FE R1) as [p EP]. rewrite EP.
  assert (LK1 : lock (fst (updates o1)) bs).
  { split; [destruct R1; split; auto|apply FE| |left; exact T1]. destruct P1 as [P1|P1]; [left; exact P1|right]. eapply phase_same; eauto; try reflexivity. apply FE. }
  rewrite DN; auto. eexists _, _. split; [reflexivity|]. split; auto.
Qed.

Lemma lock_ingest o bs b : lock o bs -> o_taken o = S (nrows (o_in o)) -> array_ok b -> a_dt b = dt ->
  (length (flat_map a_rows bs) < N -> length (flat_map a_rows (bs ++ [b])) <= N) ->
  exists o', ingest N pi (Some b) false o = (o', Ret tt) /\ lock o' (bs ++ [b]).
Proof.
  intros LK T A1 A2 FT. assert (ND : NoDup (names dt)) by (rewrite <- A2; apply A1). destruct LK as [R L P TK].
  assert (SN : sane o) by (intros M; rewrite (rn_made _ R) in M; discriminate).
  rewrite flat_map_app, app_length in FT. cbn [flat_map] in FT. rewrite app_nil_r in FT.
  assert (TOT : flat_map a_rows (bs ++ [b]) = flat_map a_rows bs ++ a_rows b) by (rewrite flat_map_app; cbn; now rewrite app_nil_r).
  destruct P as [[P1 P2]|PH].
  - destruct (ingest N pi (Some b) false o) as [o' x] eqn:E. assert (E' := E). apply ingest_grown in E' as (G&S'&_); auto. assert (E1 := E).
    unfold ingest in E. set (o0 := set_first MIngest o) in *.
    assert (E0 : o_told o0 = true /\ o_in o0 = o_in o) by (unfold o0, set_first; destruct (o_first o); auto).
    destruct E0 as [E01 E02]. rewrite E01 in E. cbn [orb] in E.
    destruct (base_direct pi b o0) as (ms&B1&B2); auto; try (rewrite A2; auto; fail). rewrite B1 in E. injection E as E <-.
    assert (ST : o_told (start o0) = true /\ o_in (start o0) = o_in o) by (unfold start; destruct (o_made o0); auto). destruct ST as [ST1 ST2].
    apply carries_quiet in B2 as [Q1 Q2]. exists o'. split; [reflexivity|].
    assert (IN : o_in o' = o_in o ++ ms) by (rewrite <- E; cbn; now rewrite ST2).
    split.
    + eapply grown_running; eauto. rewrite IN. intros m Hm. apply in_app_iff in Hm as [Hm|Hm]; [now apply (rn_quiet _ R)|now apply Q1].
    + now rewrite (gr_last _ _ G).
    + left. split; [rewrite <- E; exact ST1|]. rewrite TOT, app_length. lia.
    + right. split; [|eapply ingest_call; eauto]. rewrite (gr_taken _ _ G), IN, nrows_app, Q2. lia.
  - assert (PL := ph_less _ _ _ _ PH). specialize (FT PL).
    destruct (ingest_sampling N pi dt ND IDS NE PI1 PI2 o _ b PH A1 A2 FT) as (o'&I1&I2&I3).
    exists o'. split; [exact I1|]. assert (I1' := I1). apply ingest_grown in I1' as (G&S'&_); auto.
    assert (NI : o_in o = []) by apply PH. rewrite NI in T. cbn in T.
    destruct (Nat.eq_dec (length (flat_map a_rows bs) + length (a_rows b)) N) as [EQ|NQ].
    + destruct (I3 EQ) as (T'&_&C). apply carries_quiet in C as [Q1 Q2]. split.
      * eapply grown_running; eauto.
      * now rewrite (gr_last _ _ G).
      * left. split; auto. rewrite TOT, app_length. lia.
      * right. split; [rewrite Q2, (gr_taken _ _ G); lia|eapply ingest_call; eauto].
    + assert (P2 := I2 ltac:(lia)). split.
      * eapply grown_running; eauto. rewrite (ph_in _ _ _ _ P2). intros m [].
      * now rewrite (gr_last _ _ G).
      * right. now rewrite TOT.
      * left. rewrite (gr_taken _ _ G), (ph_in _ _ _ _ P2). exact T.
Qed.

Lemma fits_next bs b rest : fits N (bs ++ b :: rest) -> length (flat_map a_rows bs) < N -> length (flat_map a_rows (bs ++ [b])) <= N.
Proof.
  intros F L. specialize (F (length bs)).
  assert (A : firstn (length bs) (bs ++ b :: rest) = bs) by (rewrite firstn_app, Nat.sub_diag, firstn_all; cbn; now rewrite app_nil_r).
  assert (B : firstn (S (length bs)) (bs ++ b :: rest) = bs ++ [b]).
  { rewrite firstn_app, firstn_all2 by lia. replace (S (length bs) - length bs) with 1 by lia. reflexivity. }
  rewrite A, B in F. auto.
Qed.
Lemma lock_loop : forall turns bs' bs o out, lock o bs -> in_step turns -> Forall2 (arrives mp) (flat_map snd turns) bs' ->
  (forall b, In b bs' -> array_ok b /\ a_dt b = dt) -> fits N (bs ++ bs') ->
  exists o' out', loop gen N pi mp turns o out = (o', out', Running) /\ lock o' (bs ++ bs').
Proof.
  induction turns as [|[k ms] turns IH]; intros bs' bs o out LK IS F AO FT; cbn [loop flat_map snd] in *; [inversion F; subst; rewrite app_nil_r; eauto|].
  destruct (lock_forward bs k o out LK) as (o1&out1&E1&LK1&T1). rewrite E1.
  assert (IS' : in_step turns) by (intros k' ms' H; apply IS; now right).
  destruct (IS k ms) as [I1 I2]; [now left|]. destruct ms as [|m [|m2 ms]]; [|clear I1|cbn in I1; lia].
  - cbn [deliver app] in *. eapply IH; eauto.
  - cbn [app] in F. inversion F as [|? b ? bs'' (a&->&Ma) FF]; subst. cbn [deliver rows_in map_in stops]. unfold bindr. rewrite Ma.
    destruct (AO b) as [A1 A2]; [now left|].
    destruct (lock_ingest o1 bs b LK1) as (o2&E2&LK2); auto.
    { apply T1, I2. discriminate. }
    { eapply fits_next; eauto. }
    rewrite E2. change (b :: bs'') with ([b] ++ bs'') in *. rewrite app_assoc in *. eapply IH; eauto. intros; apply AO, in_app_iff. auto.
Qed.
Lemma lock_relay m turns bs : in_step turns -> Forall2 (arrives mp) (mails (Some m) turns) bs ->
  (forall b, In b bs -> array_ok b /\ a_dt b = dt) -> fits N bs ->
  exists o out, relay gen N pi mp None (Some m) turns = (o, out, Running) /\ lock o bs.
Proof.
  intros IS F AO FT. cbn [mails] in F. inversion F as [|? b ? bs'' (a&->&Ma) FF]; subst. unfold relay, begin.
  assert (SN : sane new_obj) by (intros _; reflexivity).
  destruct (suggest0_ok new_obj SN eq_refl) as (o1&x&ES); [discriminate|auto|]. rewrite ES.
  destruct (suggest0 gen pi (an_steady _ _ AG) _ _ _ SN eq_refl ES) as [l FE].
  assert (R1 : running o1).
  { assert (E := fe_msg _ _ _ _ _ FE). unfold outbox in E. split.
    - destruct (o_made o1) eqn:M; auto. apply (fe_sane _ _ _ _ _ FE) in M. rewrite M in E. discriminate.
    - clear -ES. unfold suggest, fetch, base_suggest in ES. cbn [new_obj set_first o_first ready o_last lift o_call andb] in ES.
      unfold recv in ES. cbn [start o_made set_sugg set_proc o_done] in ES.
      destruct (nth_error _ _) as [[z|v|]|]; [|discriminate|discriminate|discriminate].
      unfold lift, hand_out in ES. cbn in ES. destruct (column LOCAL_MIN z); [|discriminate]. destruct (existsb is_min (a_rows z)); cbn in ES; injection ES as <- _; reflexivity.
    - apply FE.
    - rewrite (fe_in _ _ _ _ _ FE). intros z []. }
  destruct (fetched_unmaps _ _ _ _ FE R1) as [p ->].
  assert (LK : lock o1 []).
  { split; auto; [apply FE| |left; rewrite (fe_taken _ _ _ _ _ FE), (fe_in _ _ _ _ _ FE); reflexivity].
    right. cbn [flat_map]. eapply (phase_same N dt new_obj); [now apply new_phase|apply FE..]. }
  unfold first_results. cbn [rows_in map_in]. unfold bindr. rewrite Ma. destruct (AO b) as [A1 A2]; [now left|].
  destruct (lock_ingest o1 [] b LK) as (o2&E2&LK2); auto.
  { rewrite (fe_taken _ _ _ _ _ FE), (fe_in _ _ _ _ _ FE). reflexivity. }
  { intros L. apply (fits_next [] b bs''); auto. }
  rewrite E2. destruct (lock_loop turns bs'' [b] o2 [SPoints p] LK2) as (o3&out3&E3&LK3); auto; try (intros; apply AO; now right).
  exists o3, out3. split; auto.
Qed.
End L.
