(** Lemmas about generator functions behind an object: whole programs. *)
From Verif Require Import Base BaseLemmas MapModel MapSpec MapProofs ProcGenModel ProcGenSpec ProcGenProofs ProcGenSample.
Local Open Scope nat_scope.

Lemma taken_in_app a b : taken_in (a ++ b) = taken_in a ++ taken_in b.
Proof. apply flat_map_app. Qed.
Lemma batches_app a b : batches (a ++ b) = batches a ++ batches b.
Proof. apply flat_map_app. Qed.

Lemma run_fine_prefix gen N pi b : forall a o0 o rs o1 r1, run gen N pi (a ++ b) o0 = (o, rs) -> Forall points_fine rs -> run gen N pi a o0 = (o1, r1) -> Forall points_fine r1.
Proof.
  induction a as [|c a IH]; intros o0 o rs o1 r1 H FF E1; cbn [run app] in *; [injection E1 as <- <-; constructor|].
  destruct (step gen N pi c o0) as [o2 r]. destruct (hangs r); [injection E1 as <- <-; injection H as <- <-; exact FF|].
  destruct (run gen N pi a o2) as [o3 rr] eqn:E3. injection E1 as <- <-.
  destruct (run gen N pi (a ++ b) o2) as [o4 r4] eqn:E4. injection H as <- <-. inversion FF; subst. constructor; auto. eapply IH; eauto.
Qed.

(** The results sent directly, after the sample. *)
Lemma base_direct pi a o : In SIM_ID pi -> ~ In ID pi -> ~ In SIM_ENDED (names (a_dt a)) -> array_ok a -> In SIM_ID (names (a_dt a)) ->
  exists ms, base_ingest pi o (Some a) false = (send ms (start o), Ret tt) /\ carries pi (map (id_under SIM_ID) (a_rows a)) (a_rows a) ms.
Proof.
  intros PI1 PI2 NE [AN AR] HI. unfold base_ingest.
  set (bd := filter (fun f => memb (f_name f) pi) (a_dt a) ++ [mkF SIM_ENDED TInt None]).
  set (R1 := map (fun row => filter (fun p => memb (fst p) pi) row ++ [(SIM_ENDED, Sc (SI 1))]) (a_rows a)).
  assert (CH : prep pi a = Ok (mkArr bd R1)).
  { unfold prep. fold bd. fold R1. unfold check_dt.
    assert (X : nodupb (map f_name bd) = true).
    { apply nodupb_iff. unfold bd. rewrite map_app. apply NoDup_app_iff. split; [now apply NoDup_map_filter|].
      split; [repeat constructor; auto|]. intros x Hx [Ex | []]. cbn in Ex. apply in_map_iff in Hx as (f&E&Hf). apply filter_In in Hf as [Hf _].
      apply NE. rewrite Ex, <- E. now apply in_map. }
    now rewrite X. }
  rewrite CH. cbn [bindr]. apply memb_In in PI1.
  assert (GS : forall row, In row (a_rows a) -> exists v, get SIM_ID row = Some v).
  { intros row Hr. destruct (AR row Hr) as [K _]. apply get_keys. now rewrite K. }
  assert (CO : column SIM_ID (mkArr bd R1) = Ok (map (id_under SIM_ID) (a_rows a))).
  { unfold column. cbn [a_dt a_rows].
    assert (X : memb SIM_ID (map f_name bd) = true).
    { apply memb_In. unfold bd. rewrite map_app, in_app_iff. left. apply in_map_iff in HI as (f&E&Hf). apply in_map_iff. exists f. split; auto.
      apply filter_In. split; auto. now rewrite E. }
    rewrite X. f_equal. unfold R1. rewrite map_map. apply map_ext_in. intros row Hr. rewrite get_app, get_pick, PI1.
    unfold id_under. destruct (GS row Hr) as [v ->]. reflexivity. }
  rewrite CO. cbn [bindr]. eexists. split; [reflexivity|]. eexists. split; [reflexivity|]. split; [apply map_length|].
  cbn [a_rows]. unfold R1. clear CH CO R1 bd.
  assert (Q : forall row, In row (a_rows a) -> map fst row = names (a_dt a) /\ exists v, get SIM_ID row = Some v).
  { intros row Hr. split; [apply AR, Hr|now apply GS]. }
  clear AR GS. induction (a_rows a) as [|row rows IH]; [constructor|]. cbn [map combine]. constructor; [|apply IH; intros; apply Q; now right].
  destruct (Q row) as (K&v&G); [now left|]. cbn [fst snd]. intros n. rewrite get_app, get_pick.
  destruct (n =? SIM_ID) eqn:E1.
  - apply Nat.eqb_eq in E1 as ->. unfold id_under. now rewrite PI1, G.
  - destruct (n =? SIM_ENDED) eqn:E2.
    + apply Nat.eqb_eq in E2 as ->. assert (X : get SIM_ENDED row = None) by (apply get_None; now rewrite K).
      rewrite X. now destruct (memb SIM_ENDED pi).
    + destruct (memb n pi); [|cbn; now rewrite E2]. destruct (get n row); auto. cbn. now rewrite E2.
Qed.

Section R.
Variable gen : gfun.
Variable N : nat.
Variable pi : list name.
Variable dt : list field.
Notation run := (run gen N pi).
Hypothesis IDS : forall f, In f dt -> f_name f = SIM_ID \/ f_name f = ID -> f_ty f = TInt /\ f_dim f = None.
Hypothesis NE : ~ In SIM_ENDED (names dt).
Hypothesis PI1 : In SIM_ID pi.
Hypothesis PI2 : ~ In ID pi.

Lemma accepted_cons c cs r rs : (forall a, c = Ingest a -> r = Done (Ret tt)) -> accepted cs rs -> accepted (c :: cs) (r :: rs).
Proof. intros H A [|k] a x E1 E2; cbn in *; [injection E1 as ->; injection E2 as <-; eapply H; eauto|eapply A; eauto]. Qed.

Lemma run_length : forall cs o o' rs, run cs o = (o', rs) -> Forall points_fine rs -> length rs = length cs.
Proof.
  induction cs as [|c cs IH]; intros o o' rs H F; cbn [ProcGenModel.run] in H; [now injection H as <- <-|].
  destruct (step gen N pi c o) as [o2 r]. destruct (hangs r) eqn:HH.
  - injection H as <- <-. inversion F; subst. destruct r as [[]| |[]]; try discriminate; contradiction.
  - destruct (run cs o2) as [o3 rr] eqn:E3. injection H as <- <-. inversion F; subst. cbn. f_equal. eapply IH; eauto.
Qed.
Lemma run_sampling : forall cs o o' rs rows, phase N dt o rows -> run cs o = (o', rs) -> Forall points_fine rs -> (forall c, In c cs -> ~ ends c) ->
  (forall a, In a (batches cs) -> array_ok a /\ a_dt a = dt) -> length rows + length (taken_in cs) < N ->
  phase N dt o' (rows ++ taken_in cs) /\ accepted cs rs.
Proof.
  induction cs as [|c cs IH]; intros o o' rs rows P H F NEn OK L; cbn [ProcGenModel.run] in H.
  - injection H as <- <-. cbn. rewrite app_nil_r. split; auto. intros [|k] ? ? E; discriminate.
  - destruct (step gen N pi c o) as [o1 r] eqn:E. destruct (hangs r) eqn:HH.
    + injection H as <- <-. inversion F; subst. destruct r as [[]| |[]]; try discriminate; contradiction.
    + destruct (run cs o1) as [o2 rs'] eqn:E2. injection H as <- <-. inversion F as [|? ? F1 F2]; subst.
      assert (TC : taken_in (c :: cs) = taken_in [c] ++ taken_in cs) by apply (taken_in_app [c] cs).
      rewrite TC in *. rewrite app_length in L.
      assert (K : phase N dt o1 (rows ++ taken_in [c]) /\ forall a, c = Ingest a -> r = Done (Ret tt)).
      { destruct c as [n|a| | |].
        2: { cbn [step] in E. cbn [taken_in flat_map] in L |- *. rewrite app_nil_r in *.
             destruct (OK a) as [A1 A2]; [now left|]. 
             assert (ND : NoDup (names dt)) by (rewrite <- A2; apply A1).
             destruct (ingest_sampling N pi dt ND IDS NE PI1 PI2 o rows a P A1 A2) as (o3&I1&I2&_); [lia|].
             rewrite I1 in E. injection E as <- <-. split; [apply I2; lia|auto]. }
        all: cbn [taken_in flat_map]; rewrite ?app_nil_r; (split; [|discriminate]);
          apply step_still in E; auto; try (apply P); try (apply NEn; now left); try discriminate;
          destruct E; eapply phase_same; eauto. }
      destruct K as [K1 K2]. eapply IH in E2 as [A B]; eauto.
      * rewrite app_assoc. split; auto. now apply accepted_cons.
      * intros; apply NEn; now right.
      * intros a Ha. apply OK. change (c :: cs) with ([c] ++ cs). rewrite batches_app, in_app_iff. auto.
      * rewrite app_length. lia.
Qed.

Lemma run_told : forall cs o o' rs, o_told o = true -> sane o -> run cs o = (o', rs) -> Forall points_fine rs -> (forall c, In c cs -> ~ ends c) ->
  (forall a, In a (batches cs) -> array_ok a /\ a_dt a = dt) -> In SIM_ID (names dt) ->
  accepted cs rs /\ o_told o' = true /\ sane o' /\
  exists rest, o_in o' = o_in o ++ concat rest /\ Forall2 (fun b ms => carries pi (map (id_under SIM_ID) (a_rows b)) (a_rows b) ms) (batches cs) rest.
Proof.
  induction cs as [|c cs IH]; intros o o' rs T S H F NEn OK HI; cbn [ProcGenModel.run] in H.
  - injection H as <- <-. split; [intros [|k] ? ? E; discriminate|]. split; auto. split; auto. exists []. cbn. now rewrite app_nil_r.
  - destruct (step gen N pi c o) as [o1 r] eqn:E. destruct (hangs r) eqn:HH.
    + injection H as <- <-. inversion F; subst. destruct r as [[]| |[]]; try discriminate; contradiction.
    + destruct (run cs o1) as [o2 rs'] eqn:E2. injection H as <- <-. inversion F as [|? ? F1 F2]; subst.
      assert (K : o_told o1 = true /\ sane o1 /\ (forall a, c = Ingest a -> r = Done (Ret tt)) /\
        exists rest, o_in o1 = o_in o ++ concat rest /\ Forall2 (fun b ms => carries pi (map (id_under SIM_ID) (a_rows b)) (a_rows b) ms) (batches [c]) rest).
      { destruct c as [n|a| | |].
        2: { cbn [step] in E. destruct (OK a) as [A1 A2]; [now left|].
             unfold ingest in E. set (o0 := set_first MIngest o) in *.
             assert (E0 : o_told o0 = true /\ o_in o0 = o_in o) by (unfold o0, set_first; destruct (o_first o); auto).
             destruct E0 as [E01 E02]. rewrite E01 in E. cbn [orb] in E.
             destruct (base_direct pi a o0) as (ms&B1&B2); auto; try (rewrite A2; auto; fail).
             rewrite B1 in E. injection E as <- <-. cbn [o_told set_call send set_proc].
             assert (ST : o_told (start o0) = true /\ o_in (start o0) = o_in o) by (unfold start; destruct (o_made o0); auto).
             destruct ST as [ST1 ST2]. split; auto. split; [apply start_sane|]. split; auto.
             exists [ms]. cbn [concat batches flat_map app]. rewrite app_nil_r. split; [cbn; now rewrite ST2|]. repeat constructor. exact B2. }
        all: apply step_still in E; auto; try (apply NEn; now left); try discriminate;
          destruct E as [X1 X2 X3 X4 X5]; (split; [congruence|]); (split; [exact X5|]); (split; [discriminate|]);
          exists []; cbn; rewrite X2, app_nil_r; split; auto. }
      destruct K as (K1&K2&K3&rest1&K4&K5).
      eapply IH in E2 as (A&B&C&rest2&D1&D2); eauto.
      * split; [now apply accepted_cons|]. split; auto. split; auto.
        exists (rest1 ++ rest2). split; [now rewrite D1, K4, concat_app, app_assoc|].
        change (c :: cs) with ([c] ++ cs). rewrite batches_app. now apply Forall2_app.
      * intros; apply NEn; now right.
      * intros a Ha. apply OK. change (c :: cs) with ([c] ++ cs). rewrite batches_app, in_app_iff. auto.
Qed.

Lemma new_phase : 0 < N -> phase N dt new_obj [].
Proof. intros H. split; auto; [intros _; reflexivity|]. intros C. now destruct C. Qed.

(** The whole sample, the last batch of which is [a]. *)
Lemma run_sample cs a o' rs : run (cs ++ [Ingest a]) new_obj = (o', rs) -> Forall points_fine rs -> (forall c, In c cs -> ~ ends c) ->
  (forall b, In b (batches (cs ++ [Ingest a])) -> array_ok b /\ a_dt b = dt) ->
  length (taken_in cs) < N -> length (taken_in (cs ++ [Ingest a])) = N ->
  accepted (cs ++ [Ingest a]) rs /\ o_told o' = true /\ sane o' /\
  carries pi (sample_ids dt (taken_in (cs ++ [Ingest a]))) (taken_in (cs ++ [Ingest a])) (o_in o').
Proof.
  intros H F NEn OK L1 L2. destruct (run cs new_obj) as [o1 r1] eqn:E1.
  assert (F1 : Forall points_fine r1).
  { clear -H F E1. revert rs o' o1 r1 H F E1. generalize new_obj as o.
    induction cs as [|c cs IH]; intros o rs o' o1 r1 H F E1; cbn [ProcGenModel.run app] in *; [injection E1 as <- <-; constructor|].
    destruct (step gen N pi c o) as [o2 r]. destruct (hangs r); [injection E1 as <- <-; injection H as <- <-; exact F|].
    destruct (run cs o2) as [o3 rr] eqn:E3. injection E1 as <- <-.
    destruct (run (cs ++ [Ingest a]) o2) as [o4 r4] eqn:E4. injection H as <- <-. inversion F; subst. constructor; auto. eapply IH; eauto. }
  rewrite (run_app _ _ _ _ _ _ _ _ E1 F1) in H. assert (LL := run_length _ _ _ _ E1 F1).
  assert (P0 := new_phase ltac:(lia)).
  apply run_sampling with (rows := []) in E1 as [P1 A1]; auto.
  2: { intros b Hb. apply OK. rewrite batches_app, in_app_iff. auto. }
  cbn [app] in P1. rewrite taken_in_app in *. cbn [taken_in flat_map] in L2 |- *. rewrite app_nil_r in *. rewrite app_length in L2.
  destruct (OK a) as [B1 B2]; [rewrite batches_app, in_app_iff; right; now left|]. assert (ND : NoDup (names dt)) by (rewrite <- B2; apply B1).
  destruct (ingest_sampling N pi dt ND IDS NE PI1 PI2 o1 (taken_in cs) a P1 B1 B2) as (o3&I1&_&I2); [lia|].
  cbn [ProcGenModel.run step] in H. rewrite I1 in H. cbn in H. injection H as <- <-.
  destruct I2 as (T&S&C); auto. split; [|auto].
  intros k b r Q1 Q2. destruct (lt_dec k (length cs)) as [LT|GE].
  - rewrite nth_error_app1 in Q1 by auto. rewrite nth_error_app1 in Q2 by (rewrite LL; auto). eapply A1; eauto.
  - rewrite nth_error_app2 in Q1, Q2 by lia. rewrite LL in Q2. destruct (k - length cs) as [|[|]]; try discriminate. now injection Q2 as <-.
Qed.
End R.

(** Rounds of asking and returning *)
Section G.
Variable gen : gfun.
Variable N : nat.
Variable pi : list name.
Variable dt : list field.
Variable ev : arr -> arr.
Hypothesis AG : answering gen N.
Hypothesis NP : 0 < N.
Hypothesis IDS : forall f, In f dt -> f_name f = SIM_ID \/ f_name f = ID -> f_ty f = TInt /\ f_dim f = None.
Hypothesis NE : ~ In SIM_ENDED (names dt).
Hypothesis PI1 : In SIM_ID pi.
Hypothesis PI2 : ~ In ID pi.
Hypothesis HI : In SIM_ID (names dt).
Hypothesis EV : forall a, array_ok (ev a) /\ a_dt (ev a) = dt /\ length (a_rows (ev a)) = length (a_rows a).

Definition quiet_in (l : list pin) : Prop := forall m, In m l -> match m with PWork s _ | PRows s _ | PNone s => s = false end.
Definition nrows (l : list pin) : nat := length (filter (fun m => match m with PRows _ _ => true | _ => false end) l).
Lemma nrows_app a b : nrows (a ++ b) = nrows a + nrows b.
Proof. unfold nrows. now rewrite filter_app, app_length. Qed.
Lemma carries_quiet ids rows ms : carries pi ids rows ms -> quiet_in ms /\ nrows ms = 1.
Proof. intros (a&->&_). split; [|reflexivity]. intros m [<- | [<- | []]]; reflexivity. Qed.

Record running (o : obj) : Prop := {
  rn_made : o_made o = true;
  rn_run : o_running o = Some true;
  rn_done : o_done o = None;
  rn_quiet : quiet_in (o_in o) }.
Definition going (o : obj) : Prop := running o /\ o_told o = true /\ o_taken o <= nrows (o_in o).

Lemma grown_running o o' : grown o o' -> sane o' -> running o -> quiet_in (o_in o') -> running o'.
Proof.
  intros G S [A B C D] Q. assert (R : o_running o' = Some true) by (destruct (gr_run _ _ G) as [E|E]; congruence).
  split; auto; [|now rewrite (gr_done _ _ G)]. destruct (o_made o') eqn:E; auto. rewrite (S E) in R. discriminate.
Qed.

Lemma fetch_going k o : running o -> 0 < k -> o_taken o <= nrows (o_in o) ->
  exists o' a, fetch gen pi k o = (o', Ret a) /\ nth_error (gen true (o_in o)) (o_taken o) = Some (MPoints a) /\ running o' /\ o_in o' = o_in o /\
    o_taken o' = S (o_taken o) /\ o_told o' = o_told o /\ o_idx o' = 0 /\ o_n o' = o_n o /\ o_buf o' = o_buf o /\
    o_last o' = Some (if existsb is_min (a_rows a) then mkArr (a_dt a) (filter (fun r => negb (is_min r)) (a_rows a)) else a).
Proof.
  intros [A B C D] P L. unfold fetch. assert (X : (k =? 0) = false) by (apply Nat.eqb_neq; lia). rewrite X, andb_false_r. cbn [andb].
  unfold base_suggest, start. cbn [o_made set_sugg]. rewrite A. unfold recv. cbn [o_done set_sugg]. rewrite C.
  unfold outbox. cbn [o_running set_sugg o_in o_taken]. rewrite B.
  destruct (an_answers _ _ AG (o_in o) D) as [F1 F2]. fold (nrows (o_in o)) in F2.
  destruct (nth_error (gen true (o_in o)) (o_taken o)) as [m|] eqn:E; [|apply nth_error_None in E; lia].
  assert (RD : readable m) by (eapply Forall_forall; [exact F1|eapply nth_error_In; eauto]).
  destruct RD as (a&->&HL). cbn [lift]. unfold column. apply memb_In in HL. unfold names in HL. rewrite HL. cbn [lift].
  eexists _, a. split; [reflexivity|]. split; [reflexivity|].
  destruct (existsb is_min (a_rows a)); cbn; repeat split; auto.
Qed.

Lemma hand_out_ok k o l : 0 < k -> o_last o = Some l -> exists o', hand_out k o = (o', Ret (mkArr (a_dt l) (firstn k (skipn (o_idx o) (a_rows l))))) /\
  o' = set_call MSuggest k (set_sugg o (o_idx o + k) (Some l) (o_minima o)).
Proof. intros P E. unfold hand_out. rewrite E. apply Nat.ltb_lt in P. rewrite P. eauto. Qed.

Lemma told_ingest o a : o_told o = true -> running o ->
  exists o', ingest N pi (Some (ev a)) false o = (o', Ret tt) /\ running o' /\ o_told o' = true /\ o_taken o' = o_taken o /\ nrows (o_in o') = S (nrows (o_in o)).
Proof.
  intros T R. destruct (EV a) as (A1&A2&_).
  assert (SN : sane o) by (intros Q; rewrite (rn_made _ R) in Q; discriminate).
  destruct (ingest N pi (Some (ev a)) false o) as [o' x] eqn:E. assert (E' := E). apply ingest_grown in E' as (G&S'&_); auto.
  unfold ingest in E. set (o0 := set_first MIngest o) in *.
  assert (E0 : o_told o0 = true /\ o_in o0 = o_in o) by (unfold o0, set_first; destruct (o_first o); auto).
  destruct E0 as [E01 E02]. rewrite E01 in E. cbn [orb] in E.
  destruct (base_direct pi (ev a) o0) as (ms&B1&B2); auto; try (rewrite A2; auto; fail). rewrite B1 in E. injection E as E <-.
  assert (ST : o_told (start o0) = true /\ o_in (start o0) = o_in o) by (unfold start; destruct (o_made o0); auto). destruct ST as [ST1 ST2].
  apply carries_quiet in B2 as [Q1 Q2]. exists o'. split; [reflexivity|].
  assert (IN : o_in o' = o_in o ++ ms) by (rewrite <- E; cbn; now rewrite ST2).
  split; [eapply grown_running; eauto; rewrite IN; intros m Hm; apply in_app_iff in Hm as [Hm|Hm]; [now apply (rn_quiet _ R)|now apply Q1]|].
  split; [rewrite <- E; exact ST1|]. split; [apply (gr_taken _ _ G)|]. rewrite IN, nrows_app, Q2. lia.
Qed.

Lemma first_running o : running o -> running (set_first MSuggest o).
Proof. intros [A B C D]. unfold set_first. destruct (o_first o); split; auto. Qed.
Lemma first_same m o : o_told (set_first m o) = o_told o /\ o_in (set_first m o) = o_in o /\ o_taken (set_first m o) = o_taken o /\
  o_last (set_first m o) = o_last o /\ o_idx (set_first m o) = o_idx o /\ o_n (set_first m o) = o_n o /\ o_buf (set_first m o) = o_buf o.
Proof. unfold set_first. destruct (o_first o); repeat split. Qed.

Lemma going_round k o : going o -> 0 < k -> exists o1 a o2, suggest gen pi k o = (o1, Ret a) /\ ingest N pi (Some (ev a)) false o1 = (o2, Ret tt) /\ going o2.
Proof.
  intros (R&T&L) P. unfold suggest. destruct (first_same MSuggest o) as (F1&F2&F3&F4&F5&_). assert (R0 := first_running o R).
  set (o0 := set_first MSuggest o) in *.
  assert (FIN : forall o1 a, running o1 -> o_told o1 = true -> o_taken o1 <= S (nrows (o_in o1)) ->
     exists o2, ingest N pi (Some (ev a)) false o1 = (o2, Ret tt) /\ going o2).
  { intros o1 a R1 T1 L1. destruct (told_ingest o1 a T1 R1) as (o2&I1&I2&I3&I4&I5). exists o2. split; auto. split; auto. split; auto. lia. }
  assert (SUG : forall o1 l, running o1 -> o_told o1 = true -> o_taken o1 <= S (nrows (o_in o1)) -> o_last o1 = Some l ->
     exists o2 a, hand_out k o1 = (o2, Ret a) /\ running o2 /\ o_told o2 = true /\ o_taken o2 <= S (nrows (o_in o2))).
  { intros o1 l [A B C D] T1 L1 E. destruct (hand_out_ok k o1 l P E) as (o2&H1&->). eexists _, _. split; [exact H1|]. split; [split; auto|]. split; auto. }
  assert (RE : exists b, ready o0 = Ok b /\ (b = false -> exists l, o_last o0 = Some l)).
  { unfold ready. destruct (o_last o0) as [l|]; [|exists true; split; [auto|discriminate]]. rewrite F1, T. cbn. eexists. split; [reflexivity|]. eauto. }
  destruct RE as (b&RE&RF). rewrite RE. cbn [lift]. destruct b.
  - destruct (fetch_going k o0 R0 P) as (o1&a&G1&_&G2&G3&G4&G5&_&_&_&G6); [rewrite F3, F2; exact L|]. rewrite G1.
    destruct (SUG o1 _ G2 ltac:(rewrite G5, F1; exact T) ltac:(rewrite G4, G3, F3, F2; lia) G6) as (o2&x&S1&S2&S3&S4). rewrite S1.
    destruct (FIN o2 x S2 S3 S4) as (o3&I1&I2). eauto 8.
  - destruct RF as [l RF]; auto.
    destruct (SUG o0 l R0 ltac:(rewrite F1; exact T) ltac:(rewrite F3, F2; lia) RF) as (o2&x&S1&S2&S3&S4). rewrite S1.
    destruct (FIN o2 x S2 S3 S4) as (o3&I1&I2). eauto 8.
Qed.

(** During the sample *)
Record asking (o : obj) (rows : list dict) : Prop := {
  as_phase : phase N dt o rows;
  as_some : rows <> [];
  as_run : running o;
  as_taken : o_taken o = 1;
  as_last : exists l, o_last o = Some l /\ length (a_rows l) = N /\ In SIM_ID (names (a_dt l));
  as_idx : o_idx o = length rows }.

Lemma sampling_ingest o rows a l : phase N dt o rows -> running o -> o_taken o = 1 -> o_last o = Some l -> length (a_rows l) = N -> In SIM_ID (names (a_dt l)) ->
  0 < length (a_rows a) -> length rows + length (a_rows a) <= N -> (length rows + length (a_rows a) < N -> o_idx o = length rows + length (a_rows a)) ->
  exists o', ingest N pi (Some (ev a)) false o = (o', Ret tt) /\ (going o' \/ exists rows', asking o' rows').
Proof.
  intros PH R TK EL LL HS LP LE IX. destruct (EV a) as (A1&A2&A3). assert (ND : NoDup (names dt)) by (rewrite <- A2; apply A1).
  destruct (ingest_sampling N pi dt ND IDS NE PI1 PI2 o rows (ev a) PH A1 A2) as (o'&I1&I2&I3); [lia|].
  exists o'. split; [exact I1|]. assert (I1' := I1). apply ingest_grown in I1' as (G&S'&_); [|apply PH].
  rewrite A3 in *. destruct (Nat.eq_dec (length rows + length (a_rows a)) N) as [EQ|NQ].
  - left. destruct (I3 EQ) as (T&_&C). apply carries_quiet in C as [Q1 Q2]. split; [eapply grown_running; eauto|]. split; auto.
    rewrite Q2, (gr_taken _ _ G). lia.
  - right. exists (rows ++ a_rows (ev a)). assert (P2 := I2 ltac:(lia)). split; auto.
    + intros E. apply app_eq_nil in E as [_ E]. apply (f_equal (@length dict)) in E. rewrite A3 in E. cbn in E. lia.
    + eapply grown_running; eauto. rewrite (ph_in _ _ _ _ P2). intros m [].
    + now rewrite (gr_taken _ _ G).
    + exists l. rewrite (gr_last _ _ G). auto.
    + rewrite app_length, A3, (gr_idx _ _ G). apply IX. lia.
Qed.

Lemma asking_round k o rows : asking o rows -> 0 < k ->
  exists o1 a o2, suggest gen pi k o = (o1, Ret a) /\ ingest N pi (Some (ev a)) false o1 = (o2, Ret tt) /\ (going o2 \/ exists rows', asking o2 rows').
Proof.
  intros [PH NZ R TK (l&EL&LL&HS) IX] P. unfold suggest. destruct (first_same MSuggest o) as (F1&F2&F3&F4&F5&F6&F7). assert (R0 := first_running o R).
  set (o0 := set_first MSuggest o) in *. assert (PL := ph_less _ _ _ _ PH).
  assert (RE : ready o0 = Ok false).
  { unfold ready. rewrite F4, EL, F1, (ph_told _ _ _ _ PH), F7. destruct (ph_buf _ _ _ _ PH NZ) as (RR&B1&_). rewrite B1.
    unfold column at 1. assert (X := HS). apply memb_In in X. unfold names in X. rewrite X. cbn [bindr].
    assert (LB : (length (a_rows l) <=? o_idx o0) = false) by (apply Nat.leb_gt; rewrite F5, IX; lia). rewrite LB.
    assert (Y : memb SIM_ID (map f_name (bdt dt)) = true) by (apply memb_In; apply bdt_names; now left).
    destruct (map _ (a_rows l)); cbn [bindr]; [reflexivity|]. unfold column. cbn [a_dt]. rewrite Y. cbn [bindr]. now rewrite andb_false_r. }
  rewrite RE. cbn [lift]. destruct (hand_out_ok k o0 l P ltac:(rewrite F4; exact EL)) as (o1&H1&E1). rewrite H1.
  set (a := mkArr (a_dt l) (firstn k (skipn (o_idx o0) (a_rows l)))) in *.
  assert (LA : length (a_rows a) = Nat.min k (N - length rows)).
  { unfold a. cbn [a_rows]. rewrite firstn_length, skipn_length, LL, F5, IX. reflexivity. }
  destruct (sampling_ingest o1 rows a l) as (o2&I1&I2).
  - eapply phase_same; [exact PH|..]; rewrite E1; cbn; auto. intros Q. cbn in Q. rewrite (rn_made _ R0) in Q. discriminate.
  - rewrite E1. destruct R0. split; auto.
  - rewrite E1. cbn. now rewrite F3.
  - now rewrite E1.
  - exact LL.
  - exact HS.
  - lia.
  - lia.
  - intros LT. rewrite E1. cbn [o_idx set_call set_sugg]. rewrite F5, IX. lia.
  - exists o1, a, o2. auto.
Qed.

Lemma new_round k : 0 < k ->
  exists o1 a o2, suggest gen pi k new_obj = (o1, Ret a) /\ ingest N pi (Some (ev a)) false o1 = (o2, Ret tt) /\ (going o2 \/ exists rows', asking o2 rows').
Proof.
  intros P. destruct (an_sample _ _ AG) as (s&S1&S2&S3&S4).
  unfold suggest. cbn [set_first new_obj o_first ready o_last lift].
  set (o0 := mkObj _ _ _ _ _ _ _ _ _ _ _ _ _ _ _ _).
  (* the process is started by the first request *)
  assert (ES : fetch gen pi k o0 = fetch gen pi k (set_proc o0 true (Some true) [] 0 None None)).
  { unfold fetch. assert (X : (k =? 0) = false) by (apply Nat.eqb_neq; lia). cbn [o_call o0 set_proc]. reflexivity. }
  rewrite ES. set (o0' := set_proc _ _ _ _ _ _ _).
  assert (R0 : running o0') by (split; auto; intros m []).
  destruct (fetch_going k o0' R0 P) as (o1&a&G1&G0&G2&G3&G4&G5&GI&GN&GB&G6); [cbn; lia|]. rewrite G1.
  assert (EA : a = s). { cbn in G0. destruct (gen true []); [discriminate|]. cbn in G0, S1. congruence. }
  subst a.
  assert (NM : existsb is_min (a_rows s) = false).
  { destruct (existsb is_min (a_rows s)) eqn:E; auto. apply existsb_exists in E as (x&X1&X2). rewrite minimum_is, (S4 x X1) in X2. discriminate. }
  rewrite NM in G6. destruct (hand_out_ok k o1 s P G6) as (o2&H1&E1). rewrite H1.
  set (x := mkArr (a_dt s) (firstn k (skipn (o_idx o1) (a_rows s)))) in *.
  assert (LA : length (a_rows x) = Nat.min k N).
  { unfold x. cbn [a_rows]. rewrite firstn_length, skipn_length, S2, GI. lia. }
  destruct (sampling_ingest o2 [] x s) as (o3&I1&I2).
  - rewrite E1. split; cbn; auto.
    + intros Q. cbn in Q. rewrite (rn_made _ G2) in Q. discriminate.
    + intros C. now destruct C.
  - rewrite E1. destruct G2. split; auto.
  - rewrite E1. cbn. now rewrite G4.
  - now rewrite E1.
  - exact S2.
  - exact S3.
  - lia.
  - cbn [length]. lia.
  - intros LT. rewrite E1. cbn [o_idx set_call set_sugg]. rewrite GI. cbn [length] in *. lia.
  - exists o2, x, o3. auto.
Qed.

Lemma rounds_ok ks : (forall k, In k ks -> 0 < k) -> rounds gen N pi ev ks new_obj <> None.
Proof.
  assert (K : forall ks o, (going o \/ exists rows, asking o rows) -> (forall k, In k ks -> 0 < k) -> rounds gen N pi ev ks o <> None).
  { induction ks0 as [|k ks0 IH]; intros o H P; [discriminate|]. cbn [rounds].
    assert (X : exists o1 a o2, suggest gen pi k o = (o1, Ret a) /\ ingest N pi (Some (ev a)) false o1 = (o2, Ret tt) /\ (going o2 \/ exists rows', asking o2 rows')).
    { destruct H as [H|[rows H]]; [|eapply asking_round; eauto; apply P; now left].
      destruct (going_round k o H) as (o1&a&o2&A&B&C); [apply P; now left|]. exists o1, a, o2. auto. }
    destruct X as (o1&a&o2&A&B&C). rewrite A, B. apply IH; auto. intros; apply P; now right. }
  destruct ks as [|k ks]; [discriminate|]. intros P. cbn [rounds].
  destruct (new_round k) as (o1&a&o2&A&B&C); [apply P; now left|]. rewrite A, B. apply K; auto. intros; apply P; now right.
Qed.
End G.
