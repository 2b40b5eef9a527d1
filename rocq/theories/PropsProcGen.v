(** C65: a generator function that runs in a process of its own, behind an object
    with suggest and ingest. *)
From Verif Require Import Base BaseLemmas MapModel MapSpec MapProofs ProcGenModel ProcGenSpec ProcGenProofs ProcGenSample ProcGenRun ProcGenFinal.
Local Open Scope nat_scope.

(** A generator function with which the hypotheses are met: a sample of two points,
    then two points per batch of results and, with the second of these, a minimum;
    when it is stopped it returns 7. *)
Definition X : name := 10.
Definition F : name := 11.
Definition pdt : list field := [mkF SIM_ID TInt None; mkF X TFloat None; mkF LOCAL_MIN TInt None].
Definition pt (i : Z) (m : Z) : dict := [(SIM_ID, Sc (SI i)); (X, Sc (SF (100 * i))); (LOCAL_MIN, Sc (SI m))].
Definition batch (k : nat) : arr :=
  let i := Z.of_nat (2 * k + 2) in
  mkArr pdt ([pt i 0; pt (i + 1) 0] ++ if k =? 1 then [pt (i - 1) 1] else []).
Fixpoint outs (k : nat) (l : list pin) : list pout :=
  match l with
  | [] => []
  | PRows _ _ :: l' => MPoints (batch k) :: outs (S k) l'
  | PNone true :: _ => [MResult 7]
  | _ :: l' => outs k l'
  end.
Definition toy : gfun := fun b l => (if b then [MPoints (mkArr pdt [pt 0 0; pt 1 0])] else []) ++ outs 0 l.
Definition rdt : list field := [mkF SIM_ID TInt None; mkF X TFloat None; mkF F TFloat None].
Definition rw (i f : Z) : dict := [(SIM_ID, Sc (SI i)); (X, Sc (SF (100 * i))); (F, Sc (SF f))].
Definition ra (l : list dict) : op := Ingest (mkArr rdt l).
Definition want : list name := [SIM_ID; X; F].

Lemma outs_steady m : forall l k, exists r, outs k (l ++ m) = outs k l ++ r.
Proof.
  induction l as [|x l IH]; intros k; [exists (outs k m); reflexivity|]. destruct x as [s v|s a|[|]]; cbn.
  - apply IH.
  - destruct (IH (S k)) as [r ->]. now exists r.
  - now exists [].
  - apply IH.
Qed.
Lemma toy_steady : steady toy.
Proof. intros b l m. unfold toy. destruct (outs_steady m l 0) as [r ->]. exists r. now rewrite app_assoc. Qed.
Lemma outs_obedient : forall l k, exists v, ended_with (outs k (l ++ [PNone true])) (MResult v).
Proof.
  induction l as [|x l IH]; intros k; [exists 7; cbn; exists [], []; repeat split; auto|].
  assert (Q : exists v, ended_with [MResult 7] (MResult v)) by (exists 7, [], []; repeat split; auto).
  destruct x as [s v|s a|[|]]; cbn; auto. destruct (IH (S k)) as (v&p&r&E&A&B). exists v, (MPoints (batch k) :: p), r. rewrite E. repeat split; auto. constructor; auto. exact I.
Qed.
Lemma toy_obedient : obedient toy.
Proof.
  intros b l. destruct (outs_obedient l 0) as (v&p&r&E&A&B). unfold toy. rewrite E. exists v, ((if b then [MPoints (mkArr pdt [pt 0 0; pt 1 0])] else []) ++ p), r.
  split; [now rewrite app_assoc|]. split; auto. apply Forall_app. split; auto. destruct b; repeat constructor.
Qed.
Lemma outs_answers : forall l k, (forall m, In m l -> match m with PWork s _ | PRows s _ | PNone s => s = false end) ->
  Forall readable (outs k l) /\ length (outs k l) = length (filter (fun m => match m with PRows _ _ => true | _ => false end) l).
Proof.
  induction l as [|x l IH]; intros k H; [split; [constructor|reflexivity]|].
  assert (H' : forall m, In m l -> match m with PWork s _ | PRows s _ | PNone s => s = false end) by (intros; apply H; now right).
  assert (H0 := H x (or_introl eq_refl)). destruct x as [st v|st a|st]; cbn in H0; subst st; cbn [outs filter]; auto.
  destruct (IH (S k) H') as [A B]. split; [constructor; auto; exists (batch k); split; auto; cbn; auto|]. cbn. now rewrite B.
Qed.
Lemma toy_answering : answering toy 2.
Proof.
  split; [apply toy_steady| |].
  - exists (mkArr pdt [pt 0 0; pt 1 0]). cbn. repeat split; auto. intros row [<- | [<- | []]]; reflexivity.
  - intros l H. destruct (outs_answers l 0 H) as [A B]. unfold toy. cbn [app]. split; [constructor; auto; eexists; split; [reflexivity|cbn; auto]|]. cbn [length]. lia.
Qed.

(** 1. Every point is handed out exactly once, in the order in which the generator
    function put it out, and every minimum is reported in that order: the program
    asks for all points, then for some at a time, and does anything else in between.
    Of the messages that were read, only points of the last are still kept back. *)
Theorem C65_points_handed_out_once : forall gen N wanted zs ps o rs,
  steady gen -> run gen N wanted (zs ++ ps) new_obj = (o, rs) -> Forall points_fine rs ->
  (forall c, In c (zs ++ ps) -> ~ ends c) -> (forall c, In c zs -> ~ asks_some c) -> (forall c, In c ps -> ~ asks_all c) ->
  exists k rest pending, k <= length (outbox gen o) /\
    filter (fun r => negb (minimum r)) (rows_of (firstn k (outbox gen o))) = handed rs ++ rest /\
    filter minimum (rows_of (firstn k (outbox gen o))) = reported rs ++ pending /\
    (rest <> [] -> exists k' before, k = S k' /\
       filter (fun r => negb (minimum r)) (rows_of (skipn k' (firstn k (outbox gen o)))) = before ++ rest).
Proof.
  intros gen N wanted zs ps o rs HS H FF NE Z P.
  destruct (run gen N wanted zs new_obj) as [o1 r1] eqn:E1.
  assert (F1 := run_fine_prefix _ _ _ _ _ _ _ _ _ _ H FF E1). rewrite (run_app _ _ _ _ _ _ _ _ E1 F1) in H.
  destruct (run gen N wanted ps o1) as [o2 r2] eqn:E2. cbn [fst snd] in H. injection H as <- <-. apply Forall_app in FF as [_ F2].
  assert (I0 := new_inv gen).
  destruct (run_inv gen N wanted HS zs _ _ _ [] [] I0 E1 F1) as [I1 _].
  - intros; apply NE, in_app_iff; auto.
  - left. split; auto.
  - destruct (run_inv gen N wanted HS ps _ _ _ _ _ I1 E2 F2) as [I2 _].
    + intros; apply NE, in_app_iff; auto.
    + right. exact P.
    + destruct I2 as [_ A B C D]. cbn [app] in B, C. rewrite <- handed_app in B. rewrite <- reported_app in C.
      exists (o_taken o2), (held o2), (flat_map a_rows (o_minima o2)). split; [exact A|]. split; [exact B|]. split; [exact C|exact D].
Qed.
Print Assumptions C65_points_handed_out_once.
Definition prog : list op := [Suggest 1; ra [rw 0 5]; Suggest 1; ra [rw 1 6]; Suggest 1; Suggest 4; ra [rw 2 7; rw 3 8]; Updates; Suggest 1; Updates].
Example prog_run : let (o, rs) := run toy 2 want prog new_obj in
  Forall points_fine rs /\ handed rs = [pt 0 0; pt 1 0; pt 2 0; pt 3 0; pt 4 0] /\ reported rs = [pt 3 1] /\ length (outbox toy o) = 3.
Proof. vm_compute. repeat constructor. Qed.
Definition prog_all : list op := [Suggest 0; ra [rw 0 5; rw 1 6]; Suggest 0; ra [rw 2 7; rw 3 8]; Suggest 1].
Example prog_all_run : let (o, rs) := run toy 2 want prog_all new_obj in
  Forall points_fine rs /\ handed rs = [pt 0 0; pt 1 0; pt 2 0; pt 3 0; pt 4 0] /\ length (outbox toy o) = 3.
Proof. vm_compute. repeat constructor. Qed.

(** 2. Right after a call of suggest_updates no minimum is outstanding. *)
Theorem C65_minima_reported : forall gen N wanted zs ps o rs,
  steady gen -> run gen N wanted (zs ++ ps ++ [Updates]) new_obj = (o, rs) -> Forall points_fine rs ->
  (forall c, In c (zs ++ ps) -> ~ ends c) -> (forall c, In c zs -> ~ asks_some c) -> (forall c, In c ps -> ~ asks_all c) ->
  exists k rest, filter minimum (rows_of (firstn k (outbox gen o))) = reported rs /\
    filter (fun r => negb (minimum r)) (rows_of (firstn k (outbox gen o))) = handed rs ++ rest /\
    (rest <> [] -> exists k' before, k = S k' /\
       filter (fun r => negb (minimum r)) (rows_of (skipn k' (firstn k (outbox gen o)))) = before ++ rest).
Proof.
  intros gen N wanted zs ps o rs HS H FF NE Z P. rewrite app_assoc in H.
  destruct (run gen N wanted (zs ++ ps) new_obj) as [o1 r1] eqn:E1.
  assert (F1 := run_fine_prefix _ _ _ _ _ _ _ _ _ _ H FF E1). rewrite (run_app _ _ _ _ _ _ _ _ E1 F1) in H. cbn [run step updates fst snd hangs] in H. injection H as <- <-.
  destruct (run gen N wanted zs new_obj) as [o0 r0] eqn:E0.
  assert (F0 := run_fine_prefix _ _ _ _ _ _ _ _ _ _ E1 F1 E0). rewrite (run_app _ _ _ _ _ _ _ _ E0 F0) in E1.
  destruct (run gen N wanted ps o0) as [o2 r2] eqn:E2. cbn [fst snd] in E1. injection E1 as <- <-. apply Forall_app in F1 as [_ F2].
  assert (I0 := new_inv gen).
  destruct (run_inv gen N wanted HS zs _ _ _ [] [] I0 E0 F0) as [I1 _].
  - intros; apply NE, in_app_iff; auto.
  - left. split; auto.
  - destruct (run_inv gen N wanted HS ps _ _ _ _ _ I1 E2 F2) as [I2 _].
    + intros; apply NE, in_app_iff; auto.
    + right. exact P.
    + destruct I2 as [_ A B C D]. cbn [app] in B, C. rewrite <- handed_app in B. rewrite <- reported_app in C.
      exists (o_taken o2), (held o2). split; [|split].
      * rewrite reported_app. cbn [reported flat_map]. rewrite app_nil_r. exact C.
      * rewrite handed_app. cbn [handed flat_map]. rewrite app_nil_r. exact B.
      * exact D.
Qed.
Print Assumptions C65_minima_reported.
Example prog_minima : let (o, rs) := run toy 2 want prog new_obj in reported rs = [pt 3 1] /\ filter minimum (rows_of (outbox toy o)) = [pt 3 1].
Proof. vm_compute. auto. Qed.

(** 3. A call that asks for a number of points never gets more. *)
Theorem C65_no_more_than_asked : forall gen N wanted cs o o' rs k n a,
  run gen N wanted cs o = (o', rs) -> nth_error cs k = Some (Suggest (S n)) -> nth_error rs k = Some (Points (Ret a)) ->
  length (a_rows a) <= S n.
Proof.
  intros gen N wanted. induction cs as [|c cs IH]; intros o o' rs k n a H E1 E2; [now destruct k|]. cbn [run] in H.
  destruct (step gen N wanted c o) as [o1 r] eqn:E.
  assert (HO : forall o o' a, hand_out (S n) o = (o', Ret a) -> length (a_rows a) <= S n).
  { clear. intros o o' a H. unfold hand_out in H. destruct (o_last o); [|discriminate].
    assert (K : 0 <? S n = true) by reflexivity. rewrite K in H. generalize dependent (S n). intros m H _. injection H as _ <-. cbn [a_rows]. rewrite firstn_length. lia. }
  assert (HD : k = 0 -> length (a_rows a) <= S n).
  { intros ->. cbn in E1. injection E1 as ->. cbn [step] in E. destruct (suggest gen wanted (S n) o) as [o2 x] eqn:ES. injection E as <- <-.
    assert (x = Ret a) by (destruct (hangs (Points x)); [injection H as _ <-|destruct (run _ _ _ _ _); injection H as _ <-]; cbn in E2; now injection E2). subst x.
    unfold suggest, lift in ES. destruct (ready _) as [[|]|]; [|eauto|discriminate].
    destruct (fetch gen wanted (S n) _) as [o3 [y|e|]]; [eauto|discriminate|discriminate]. }
  destruct (hangs r); [injection H as <- <-; destruct k as [|[|k]]; try discriminate; auto|].
  destruct (run gen N wanted cs o1) as [o2 rr] eqn:ER. injection H as <- <-. destruct k; auto. cbn in E1, E2. eapply IH; eauto.
Qed.
Print Assumptions C65_no_more_than_asked.

(** 4. While the sample is incomplete, results are accepted and none is sent. *)
Theorem C65_sample_kept_back : forall gen N wanted dt cs o rs,
  results wanted dt cs -> run gen N wanted cs new_obj = (o, rs) -> Forall points_fine rs -> (forall c, In c cs -> ~ ends c) ->
  length (taken_in cs) < N -> accepted cs rs /\ o_in o = [].
Proof.
  intros gen N wanted dt cs o rs [[R1 R2] R3 R4 R5] H FF NE L.
  destruct (run_sampling gen N wanted dt R4 R3 R1 R2 cs new_obj o rs []) as [A B]; auto; [apply new_phase; lia|]. split; auto. apply A.
Qed.
Print Assumptions C65_sample_kept_back.

(** 5. When it is complete it is handed over, once, in order of arrival and numbered
    from 0, and from then on each batch is passed on at once under its own numbers. *)
Theorem C65_sample_handed_over : forall gen N wanted dt cs a later o rs,
  results wanted dt (cs ++ [Ingest a] ++ later) -> In SIM_ID (names dt) ->
  run gen N wanted (cs ++ [Ingest a] ++ later) new_obj = (o, rs) -> Forall points_fine rs -> (forall c, In c (cs ++ [Ingest a] ++ later) -> ~ ends c) ->
  length (taken_in cs) < N -> length (taken_in (cs ++ [Ingest a])) = N ->
  accepted (cs ++ [Ingest a] ++ later) rs /\
  exists sample rest, o_in o = sample ++ concat rest /\
    carries wanted (numbers N) (taken_in (cs ++ [Ingest a])) sample /\
    Forall2 (fun b ms => carries wanted (map (id_under SIM_ID) (a_rows b)) (a_rows b) ms) (batches later) rest.
Proof.
  intros gen N wanted dt cs a later o rs [[R1 R2] R3 R4 R5] HI H FF NE L1 L2.
  rewrite app_assoc in *. set (s := cs ++ [Ingest a]) in *.
  destruct (run gen N wanted s new_obj) as [o1 r1] eqn:E1.
  assert (F1 := run_fine_prefix _ _ _ _ _ _ _ _ _ _ H FF E1). rewrite (run_app _ _ _ _ _ _ _ _ E1 F1) in H.
  destruct (run gen N wanted later o1) as [o2 r2] eqn:E2. cbn [fst snd] in H. injection H as <- <-. apply Forall_app in FF as [_ F2].
  assert (LN := run_length _ _ _ _ _ _ _ E1 F1).
  destruct (run_sample gen N wanted dt R4 R3 R1 R2 cs a o1 r1 E1 F1) as (A1&T&S1&C1); auto.
  { intros; apply NE, in_app_iff. left. apply in_app_iff. auto. }
  { intros b Hb. apply R5. rewrite batches_app, in_app_iff. auto. }
  destruct (run_told gen N wanted dt R3 R1 R2 later o1 o2 r2 T S1 E2 F2) as (A2&_&_&rest&B1&B2); auto.
  { intros; apply NE, in_app_iff. auto. }
  { intros b Hb. apply R5. rewrite batches_app, in_app_iff. auto. }
  split.
  - intros k b r Q1 Q2. destruct (lt_dec k (length s)) as [LT|GE].
    + rewrite nth_error_app1 in Q1 by auto. rewrite nth_error_app1 in Q2 by (rewrite LN; auto). eapply A1; eauto.
    + rewrite nth_error_app2 in Q1 by lia. rewrite nth_error_app2 in Q2 by lia. rewrite LN in Q2. eapply A2; eauto.
  - exists (o_in o1), rest. split; auto. split; auto. unfold sample_ids in C1. apply memb_In in HI. rewrite HI in C1. fold s in C1. rewrite L2 in C1. exact C1.
Qed.
Print Assumptions C65_sample_handed_over.
Lemma rw_ok l : (forall row, In row l -> exists i f, row = rw i f) -> array_ok (mkArr rdt l).
Proof.
  intros H. split; cbn [a_dt a_rows].
  - repeat constructor; cbn; intuition discriminate.
  - intros row Hr. destruct (H row Hr) as (i&f&->). split; [reflexivity|].
    intros g [<- | [<- | [<- | []]]]; eexists; (split; [reflexivity|exact I]).
Qed.
Definition given : list op := [Suggest 1; ra [rw 0 5]; Suggest 1; ra [rw 1 6]; Suggest 2; ra [rw 3 8; rw 2 7]; Suggest 2].
Example given_results : results want rdt given.
Proof.
  split.
  - split; [now left|]. intros [|[|[|[]]]]; discriminate.
  - cbn. intuition discriminate.
  - intros f [<- | [<- | [<- | []]]]; cbn; intros [|]; try discriminate; auto.
  - intros a [<- | [<- | [<- | []]]]; (split; [|reflexivity]); apply rw_ok; cbn; intros row; intuition (subst; eauto).
Qed.
Example given_run : let (o, rs) := run toy 2 want given new_obj in
  Forall points_fine rs /\ length (o_in o) = 4 /\
  match o_in o with [PWork _ i; PRows _ a; PWork _ j; PRows _ b] => i = numbers 2 /\ j = [Sc (SI 3); Sc (SI 2)] /\ map (get F) (a_rows a ++ a_rows b) = map (fun z => Some (Sc (SF z))) [5; 6; 8; 7]%Z | _ => False end.
Proof. vm_compute. repeat constructor. Qed.

(** 6. Results that carry numbers only as "_id" are handed over under those. *)
Theorem C65_sample_under_its_ids : forall gen N wanted dt cs a o rs,
  results wanted dt (cs ++ [Ingest a]) -> ~ In SIM_ID (names dt) -> In ID (names dt) ->
  run gen N wanted (cs ++ [Ingest a]) new_obj = (o, rs) -> Forall points_fine rs -> (forall c, In c (cs ++ [Ingest a]) -> ~ ends c) ->
  length (taken_in cs) < N -> length (taken_in (cs ++ [Ingest a])) = N ->
  accepted (cs ++ [Ingest a]) rs /\
  carries wanted (map (id_under ID) (taken_in (cs ++ [Ingest a]))) (taken_in (cs ++ [Ingest a])) (o_in o).
Proof.
  intros gen N wanted dt cs a o rs [[R1 R2] R3 R4 R5] NI HI H FF NE L1 L2.
  destruct (run_sample gen N wanted dt R4 R3 R1 R2 cs a o rs H FF) as (A&_&_&C); auto.
  { intros; apply NE, in_app_iff. auto. }
  split; auto. unfold sample_ids in C.
  destruct (memb SIM_ID (names dt)) eqn:E; [apply memb_In in E; contradiction|].
  replace (map (id_under ID) (taken_in (cs ++ [Ingest a]))) with (map (old_id dt) (taken_in (cs ++ [Ingest a]))); auto.
  apply map_ext. intros row. unfold old_id. apply memb_In in HI. now rewrite HI.
Qed.
Print Assumptions C65_sample_under_its_ids.
Definition idt : list field := [mkF ID TInt None; mkF X TFloat None; mkF F TFloat None].
Definition rwi (i f : Z) : dict := [(ID, Sc (SI i)); (X, Sc (SF (100 * i))); (F, Sc (SF f))].
Example under_ids : let (o, rs) := run toy 2 want [Suggest 2; Ingest (mkArr idt [rwi 1 6; rwi 0 5])] new_obj in
  Forall points_fine rs /\ match o_in o with [PWork _ i; PRows _ a] => i = [Sc (SI 1); Sc (SI 0)] /\ map (get SIM_ID) (a_rows a) = [Some (Sc (SI 1)); Some (Sc (SI 0))] | _ => False end.
Proof. vm_compute. repeat constructor. Qed.

(** 7. Documented use never raises and never waits: a user who asks for some points,
    evaluates them and returns the results under their numbers, again and again, gets
    an answer to every call. *)
Theorem C65_rounds_succeed : forall gen N wanted dt evaluate ks,
  answering gen N -> 0 < N -> results wanted dt [] -> In SIM_ID (names dt) ->
  (forall a, array_ok (evaluate a) /\ a_dt (evaluate a) = dt /\ length (a_rows (evaluate a)) = length (a_rows a)) ->
  (forall k, In k ks -> 0 < k) -> rounds gen N wanted evaluate ks new_obj <> None.
Proof.
  intros gen N wanted dt ev ks AG NP [[R1 R2] R3 R4 _] HI EV KS.
  exact (rounds_ok gen N wanted dt ev AG NP R4 R3 R1 R2 HI EV ks KS).
Qed.
Print Assumptions C65_rounds_succeed.
Definition eval_toy (a : arr) : arr := mkArr rdt (map (fun row => match get SIM_ID row with Some (Sc (SI i)) => rw i (i * i) | _ => rw 0 0 end) (a_rows a)).
Example rounds_toy : rounds toy 2 want eval_toy [1; 3; 1; 1; 2; 5] new_obj <> None.
Proof.
  apply C65_rounds_succeed with (dt := rdt).
  - apply toy_answering.
  - auto.
  - split; try apply given_results. intros a [].
  - now left.
  - intros a. split; [|split; [reflexivity|apply map_length]]. apply rw_ok. intros row Hr. apply in_map_iff in Hr as (x&<-&_).
    destruct (get SIM_ID x) as [[[]|]|]; eauto.
  - intros k. cbn. intuition (subst; lia).
Qed.

(** 8. What export returns is what the generator function returned. *)
Theorem C65_result_is_the_generators : forall gen N wanted cs o rs v,
  steady gen -> run gen N wanted cs new_obj = (o, rs) -> export o = Some v -> ended_with (outbox gen o) (MResult v).
Proof.
  intros gen N wanted cs o rs v HS H E. apply (run_finv gen N wanted HS) in H; [|apply finv_new].
  apply (fi_result _ _ H) in E. destruct (fi_some _ _ H _ E) as (k&_&K). exact (at_end_with _ _ _ K).
Qed.
Print Assumptions C65_result_is_the_generators.

(** 9. After points were handed out, finalize sends a stop and stores the result,
    whatever points and results are outstanding. *)
Theorem C65_finalize_stops : forall gen N wanted cs o rs a,
  steady gen -> obedient gen -> run gen N wanted cs new_obj = (o, rs) -> In (Points (Ret a)) rs ->
  exists o' v, step gen N wanted Finalize o = (o', Done (Ret tt)) /\ o_in o' = o_in o ++ [PNone true] /\
    export o' = Some v /\ ended_with (outbox gen o') (MResult v).
Proof.
  intros gen N wanted cs o rs a HS OB H HIn. assert (FI := run_finv gen N wanted HS _ _ _ _ (finv_new gen) H).
  assert (TK : 0 < o_taken o).
  { assert (FT : forall n o o' r, fetch gen wanted n o = (o', r) -> o_taken o <= o_taken o' /\ (forall x, r = Ret x -> 0 < o_taken o') /\ ((o_last o <> None -> 0 < o_taken o) -> o_last o' <> None -> 0 < o_taken o')).
    { clear. intros n o o' r H. unfold fetch in H.
      assert (RS : forall p o' r, result gen p = (o', r) -> o_taken p <= o_taken o' /\ o_last o' = o_last p).
      { clear. intros p o' r H. unfold result in H. destruct (o_done p) as [[]|]; [injection H as <- <-; auto|injection H as <- <-; auto|].
        destruct (final _) as [[k []]|]; injection H as <- <-; cbn; split; auto; lia. }
      assert (FZ : forall o o' r, finalize gen wanted o = (o', r) -> o_taken o <= o_taken o' /\ o_last o' = o_last o).
      { clear -RS. intros o o' r H. unfold finalize in H. destruct (o_made o) eqn:M; [|injection H as <- <-; auto].
        destruct (result gen _) as [o2 x] eqn:E. apply RS in E as [E1 E2].
        assert (Q : o_taken o <= o_taken o2 /\ o_last o2 = o_last o).
        { unfold base_ingest, start, set_first in E1, E2. destruct (o_first o); cbn in E1, E2; rewrite M in E1, E2; cbn in E1, E2; auto. }
        destruct x; injection H as <- <-; exact Q. }
      destruct (_ && _).
      - destruct (finalize gen wanted _) as [o2 x] eqn:E. apply FZ in E as [E1 E2]. cbn in E1, E2.
        assert (o' = o2 /\ forall x, r <> Ret x) as [-> NR] by (destruct x; injection H as <- <-; split; auto; discriminate).
        split; auto. split; [intros x' ->; now destruct (NR x')|]. intros A B. rewrite E2 in B. specialize (A B). lia.
      - destruct (base_suggest gen _) as [o2 x] eqn:E. unfold base_suggest, recv in E.
        set (p := start _) in *. assert (TP : o_taken p = o_taken o /\ o_last p = o_last o) by (unfold p, start; cbn [o_made set_sugg]; destruct (o_made o); split; reflexivity). destruct TP as [TP TL].
        destruct (o_done p); [injection E as <- <-; injection H as <- <-; rewrite TP, TL; repeat split; auto; discriminate|].
        destruct (nth_error (outbox gen p) (o_taken p)) as [[m|v|]|]; injection E as <- <-.
        + unfold lift in H. destruct (column LOCAL_MIN m); [destruct (existsb is_min (a_rows m))|]; injection H as <- <-; cbn; rewrite TP; repeat split; auto; intros; lia.
        + injection H as <- <-; cbn; rewrite TP; repeat split; auto; try discriminate; intros; lia.
        + injection H as <- <-; cbn; rewrite TP; repeat split; auto; try discriminate; intros; lia.
        + injection H as <- <-; rewrite TP, TL; repeat split; auto; discriminate. }
    assert (ST : forall c o o' r, (o_last o <> None -> 0 < o_taken o) -> step gen N wanted c o = (o', r) -> sane o ->
       o_taken o <= o_taken o' /\ (forall x, r = Points (Ret x) -> 0 < o_taken o') /\ (o_last o' <> None -> 0 < o_taken o')).
    { clear -FT. intros c o o' r A H SN. destruct c as [n|b| | |]; cbn [step] in H.
      - destruct (suggest gen wanted n o) as [o1 x] eqn:E. injection H as <- <-. unfold suggest in E.
        assert (T0 : o_taken (set_first MSuggest o) = o_taken o /\ o_last (set_first MSuggest o) = o_last o) by (unfold set_first; destruct (o_first o); auto). destruct T0 as [T0 L0].
        assert (HO : forall p p' y, hand_out n p = (p', y) -> o_taken p' = o_taken p /\ (o_last p' <> None -> o_last p <> None) /\ (forall x, y = Ret x -> o_last p <> None)).
        { clear. intros p p' y H. unfold hand_out in H. destruct (o_last p) eqn:L; [destruct (0 <? n)|]; injection H as <- <-; cbn; repeat split; auto; try discriminate; congruence. }
        unfold lift in E. destruct (ready _) as [[|]|].
        + destruct (fetch gen wanted n _) as [o2 y] eqn:E2. apply FT in E2 as (Q1&Q2&Q3). rewrite T0, L0 in *. specialize (Q3 A).
          destruct y as [l|e|]; [|injection E as <- <-; repeat split; auto; discriminate|injection E as <- <-; repeat split; auto; discriminate].
          apply HO in E as (W1&W2&W3). rewrite W1. repeat split; auto; intros; eapply Q2; eauto.
        + apply HO in E as (W1&W2&W3). rewrite W1, T0. rewrite L0 in *. repeat split; auto. intros x' [= ->]. eapply A, W3; eauto.
        + injection E as <- <-. rewrite T0, L0. repeat split; auto; discriminate.
      - destruct (ingest N wanted (Some b) false o) as [o1 x] eqn:E. injection H as <- <-. apply ingest_grown in E as (G&_); auto.
        rewrite (gr_taken _ _ G), (gr_last _ _ G). repeat split; auto; discriminate.
      - injection H as <- <-. cbn. repeat split; auto; discriminate.
      - destruct (finalize gen wanted o) as [o1 x] eqn:E. injection H as <- <-. unfold finalize in E. destruct (o_made o) eqn:M.
        + assert (RS : forall p o' r, result gen p = (o', r) -> o_taken p <= o_taken o' /\ o_last o' = o_last p).
          { clear. intros p o' r H. unfold result in H. destruct (o_done p) as [[]|]; [injection H as <- <-; auto|injection H as <- <-; auto|].
            destruct (final _) as [[k []]|]; injection H as <- <-; cbn; split; auto; lia. }
          destruct (result gen _) as [o2 y] eqn:E2. apply RS in E2 as [W1 W2].
          assert (Q : o_taken o <= o_taken o2 /\ o_last o2 = o_last o).
          { unfold base_ingest, start, set_first in W1, W2. destruct (o_first o); cbn in W1, W2; rewrite M in W1, W2; cbn in W1, W2; auto. }
          destruct Q as [Q1 Q2]. assert (Q3 : o_last o2 <> None -> 0 < o_taken o2) by (rewrite Q2; intros Y; specialize (A Y); lia).
          destruct y; injection E as <- <-; cbn; repeat split; auto; discriminate.
        + injection E as <- <-. repeat split; auto; discriminate.
      - destruct (setup o) as [o1 x] eqn:E. injection H as <- <-. unfold setup in E. destruct (o_made o); injection E as <- <-; cbn; repeat split; auto; discriminate. }
    assert (RR : forall cs o o' rs, finv gen o -> (o_last o <> None -> 0 < o_taken o) -> run gen N wanted cs o = (o', rs) -> (0 < o_taken o \/ exists x, In (Points (Ret x)) rs) -> 0 < o_taken o').
    { clear -ST HS. induction cs as [|c cs IH]; intros o o' rs FI A H D; cbn [run] in H.
      - injection H as <- <-. destruct D as [D|[x []]]; auto.
      - destruct (step gen N wanted c o) as [o1 r] eqn:E. assert (E' := E). apply ST in E as (Q1&Q2&Q3); [|auto|apply FI].
        apply (step_finv gen N wanted HS) in E'; auto. destruct (hangs r).
        + injection H as <- <-. destruct D as [D|[x [D|[]]]]; [lia|eapply Q2; eauto].
        + destruct (run gen N wanted cs o1) as [o2 rr] eqn:E2. injection H as <- <-. eapply IH; eauto.
          destruct D as [D|[x [D|D]]]; [left; lia|left; eapply Q2; eauto|right; eauto]. }
    eapply RR; [apply finv_new| |exact H|right; eauto]. cbn. congruence. }
  assert (RN : exists b, o_running o = Some b).
  { assert (Q := fi_taken _ _ FI). unfold outbox in Q. destruct (o_running o); [eauto|cbn in Q; lia]. }
  destruct RN as [b RN]. assert (MD : o_made o = true) by (destruct (o_made o) eqn:M; auto; apply (fi_sane _ _ FI) in M; congruence).
  assert (ND : o_done o <> Some EndExc).
  { intros ED. destruct (fi_some _ _ FI _ ED) as (k&_&K). destruct (OB b (o_in o)) as (v&EW). destruct (HS b (o_in o) [PNone true]) as [r Er].
    unfold outbox in K. rewrite RN in K. apply (at_end_app _ r) in K. rewrite <- Er in K. apply at_end_with in K. assert (Z := ended_with_unique _ _ _ K EW). discriminate. }
  destruct (finalize_obedient gen N wanted HS o b OB FI MD RN ND) as [o' E'].
  assert (E2 := E'). apply finalize_finv in E2 as (FI'&V&_); auto. destruct (V eq_refl) as (v&V1&V2&V3).
  exists o', v. cbn [step]. rewrite E'. split; auto. split; auto. split; auto.
  apply (fi_result _ _ FI') in V1. destruct (fi_some _ _ FI' _ V1) as (k&_&K). exact (at_end_with _ _ _ K).
Qed.
Print Assumptions C65_finalize_stops.
Example finalize_toy : let (o, rs) := run toy 2 want (given ++ [Finalize]) new_obj in
  Forall fine rs /\ export o = Some 7 /\ length (o_in o) = 5 /\ length (outbox toy o) = 4.
Proof. vm_compute. repeat constructor. Qed.

(** 10. After the sample, results without numbers are refused and nothing is sent. *)
Theorem C65_later_results_need_numbers : forall gen N wanted dt cs a later o rs b,
  results wanted dt (cs ++ [Ingest a] ++ later) -> In SIM_ID (names dt) ->
  run gen N wanted (cs ++ [Ingest a] ++ later) new_obj = (o, rs) -> Forall points_fine rs -> (forall c, In c (cs ++ [Ingest a] ++ later) -> ~ ends c) ->
  length (taken_in cs) < N -> length (taken_in (cs ++ [Ingest a])) = N -> ~ In SIM_ID (names (a_dt b)) ->
  exists o', step gen N wanted (Ingest b) o = (o', Done (Raise EValue)) /\ o_in o' = o_in o.
Proof.
  intros gen N wanted dt cs a later o rs b [[R1 R2] R3 R4 R5] HI H FF NE L1 L2 NB.
  rewrite app_assoc in *. set (s := cs ++ [Ingest a]) in *.
  destruct (run gen N wanted s new_obj) as [o1 r1] eqn:E1.
  assert (F1 := run_fine_prefix _ _ _ _ _ _ _ _ _ _ H FF E1). rewrite (run_app _ _ _ _ _ _ _ _ E1 F1) in H.
  destruct (run gen N wanted later o1) as [o2 r2] eqn:E2. cbn [fst snd] in H. injection H as <- <-. apply Forall_app in FF as [_ F2].
  destruct (run_sample gen N wanted dt R4 R3 R1 R2 cs a o1 r1 E1 F1) as (_&T&S1&_); auto.
  { intros; apply NE, in_app_iff. left. apply in_app_iff. auto. }
  { intros x Hx. apply R5. rewrite batches_app, in_app_iff. auto. }
  destruct (run_told gen N wanted dt R3 R1 R2 later o1 o2 r2 T S1 E2 F2) as (_&T2&_&_); auto.
  { intros; apply NE, in_app_iff. auto. }
  { intros x Hx. apply R5. rewrite batches_app, in_app_iff. auto. }
  cbn [step]. unfold ingest. assert (E0 : o_told (set_first MIngest o2) = true /\ o_in (set_first MIngest o2) = o_in o2) by (unfold set_first; destruct (o_first o2); auto).
  destruct E0 as [E0 E0']. rewrite E0. cbn [orb]. unfold base_ingest.
  assert (EE : bindr (prep wanted b) (fun r => bindr (column SIM_ID r) (fun ids => Ok (r, ids))) = Err EValue).
  { unfold prep, check_dt. destruct (nodupb _); [|reflexivity]. cbn [bindr]. unfold column. cbn [a_dt].
    assert (M : memb SIM_ID (map f_name (filter (fun f => memb (f_name f) wanted) (a_dt b) ++ [mkF SIM_ENDED TInt None])) = false).
    { destruct (memb _ _) eqn:E; auto. apply memb_In in E. rewrite map_app, in_app_iff in E. destruct E as [E|[E|[]]]; [|discriminate].
      apply in_map_iff in E as (f&Ef&Hf). apply filter_In in Hf as [Hf _]. exfalso. apply NB. rewrite <- Ef. now apply in_map. }
    now rewrite M. }
  rewrite EE. eexists. split; [reflexivity|]. rewrite <- E0'. unfold start. now destruct (o_made _).
Qed.
Print Assumptions C65_later_results_need_numbers.

(** 10a. After finalize, a further request raises; it does not wait for the function. *)
Theorem C65_request_after_the_end_raises : forall gen N wanted cs o rs o1 n,
  steady gen -> run gen N wanted cs new_obj = (o, rs) -> Forall points_fine rs -> (forall c, In c cs -> ~ ends c /\ ~ asks_some c) ->
  step gen N wanted Finalize o = (o1, Done (Ret tt)) ->
  exists o2, step gen N wanted (Suggest (S n)) o1 = (o2, Points (Raise EFinished)).
Proof.
  intros gen N wanted cs o rs o1 n HS H FF NE E. assert (FI := run_finv gen N wanted HS _ _ _ _ (finv_new gen) H).
  assert (L : o_last o = None).
  { destruct (run_inv gen N wanted HS cs _ _ _ [] [] (new_inv gen) H FF) as [_ L]; [intros c Hc; now apply NE|left; split; [reflexivity|intros c Hc; now apply NE]|].
    apply L; [intros c Hc; now apply NE|reflexivity]. }
  cbn [step] in E. destruct (finalize gen wanted o) as [p x] eqn:EF. injection E as -> ->.
  assert (L1 : o_last o1 = None /\ o_made o1 = true).
  { unfold finalize in EF. destruct (o_made o) eqn:M; [|discriminate]. destruct (result gen _) as [o2 y] eqn:ER.
    assert (Q : o_last o2 = None /\ o_made o2 = true).
    { unfold result, base_ingest, start in ER. assert (M0 : o_made (set_first MIngest o) = true /\ o_last (set_first MIngest o) = None) by (unfold set_first; destruct (o_first o); auto).
      destruct M0 as [M0 L0]. rewrite M0 in ER. cbn [fst] in ER. destruct (o_done _) as [[]|]; [injection ER as <- <-; auto|injection ER as <- <-; auto|].
      destruct (final _) as [[k []]|]; injection ER as <- <-; auto. }
    destruct y; try discriminate. injection EF as <-. exact Q. }
  destruct L1 as [L1 M1]. destruct (finalize_finv gen N wanted HS _ _ _ FI EF) as (FI1&V&_). destruct (V eq_refl) as (v&V1&_&_).
  assert (D1 := fi_result _ _ FI1 _ V1).
  cbn [step]. unfold suggest. assert (F0 : o_last (set_first MSuggest o1) = None /\ o_made (set_first MSuggest o1) = true /\ o_done (set_first MSuggest o1) = Some (EndResult v)).
  { unfold set_first. destruct (o_first o1); auto. }
  destruct F0 as (F1&F2&F3). unfold ready. rewrite F1. cbn [lift]. unfold fetch. rewrite andb_false_r. cbn [andb].
  unfold base_suggest, start. cbn [o_made set_sugg]. rewrite F2. unfold recv. cbn [o_done set_sugg]. rewrite F3. eauto.
Qed.
Print Assumptions C65_request_after_the_end_raises.
Example after_the_end : let (o, rs) := run toy 2 want [Suggest 0; ra [rw 0 5; rw 1 6]; Suggest 0; Finalize; Suggest 3] new_obj in
  match rs with [_; _; _; Done (Ret _); Points (Raise EFinished)] => True | _ => False end.
Proof. vm_compute. exact I. Qed.

(** 11. Findings. A sample of results without numbers, as in the documented second
    way of use, is handed over with every row under the number 0. *)
Theorem C65_unnumbered_sample_refuted : forall gen N wanted dt cs a o rs,
  results wanted dt (cs ++ [Ingest a]) -> ~ In SIM_ID (names dt) -> ~ In ID (names dt) ->
  run gen N wanted (cs ++ [Ingest a]) new_obj = (o, rs) -> Forall points_fine rs -> (forall c, In c (cs ++ [Ingest a]) -> ~ ends c) ->
  length (taken_in cs) < N -> length (taken_in (cs ++ [Ingest a])) = N ->
  accepted (cs ++ [Ingest a]) rs /\
  carries wanted (map (fun _ => Sc (SI 0)) (taken_in (cs ++ [Ingest a]))) (taken_in (cs ++ [Ingest a])) (o_in o).
Proof.
  intros gen N wanted dt cs a o rs [[R1 R2] R3 R4 R5] NI HI H FF NE L1 L2.
  destruct (run_sample gen N wanted dt R4 R3 R1 R2 cs a o rs H FF) as (A&_&_&C); auto.
  { intros; apply NE, in_app_iff. auto. }
  split; auto. unfold sample_ids in C.
  destruct (memb SIM_ID (names dt)) eqn:E; [apply memb_In in E; contradiction|].
  replace (map (fun _ => Sc (SI 0)) (taken_in (cs ++ [Ingest a]))) with (map (old_id dt) (taken_in (cs ++ [Ingest a]))); auto.
  apply map_ext. intros row. unfold old_id. destruct (memb ID (names dt)) eqn:E2; auto. apply memb_In in E2. contradiction.
Qed.
Print Assumptions C65_unnumbered_sample_refuted.
(** The same with dictionaries: two points, both under the number 0. *)
Example unnumbered_dicts :
  match ingest_dicts 2 want [(SIM_ID, [ID])] [[(X, Sc (SF 100)); (F, Sc (SF 5))]; [(X, Sc (SF 200)); (F, Sc (SF 6))]] new_obj with
  | (o, Ret _) => match o_in o with [PWork _ i; PRows _ a] => i = [Sc (SI 0); Sc (SI 0)] /\ map (get X) (a_rows a) = [Some (Sc (SF 100)); Some (Sc (SF 200))] | _ => False end
  | _ => False
  end.
Proof. vm_compute. auto. Qed.

(** Results of the sample that come back in another order than the points were
    handed out are told under other points' numbers. *)
Theorem C65_sample_renumbered_refuted :
  ~ (forall gen N wanted dt cs a o rs, steady gen -> answering gen N -> results wanted dt (cs ++ [Ingest a]) -> In SIM_ID (names dt) ->
       run gen N wanted (cs ++ [Ingest a]) new_obj = (o, rs) -> Forall fine rs -> (forall c, In c (cs ++ [Ingest a]) -> ~ ends c) ->
       length (taken_in cs) < N -> length (taken_in (cs ++ [Ingest a])) = N ->
       carries wanted (map (id_under SIM_ID) (taken_in (cs ++ [Ingest a]))) (taken_in (cs ++ [Ingest a])) (o_in o)).
Proof.
  intros H. set (cs := [Suggest 2; ra [rw 1 6]]). set (a := mkArr rdt [rw 0 5]).
  destruct (run toy 2 want (cs ++ [Ingest a]) new_obj) as [o rs] eqn:E.
  specialize (H toy 2 want rdt cs a o rs toy_steady toy_answering).
  assert (C : carries want [Sc (SI 1); Sc (SI 0)] [rw 1 6; rw 0 5] (o_in o)).
  { apply H; auto.
    - split; try apply given_results. intros b [<- | [<- | []]]; (split; [|reflexivity]); apply rw_ok; cbn; intros row; intuition (subst; eauto).
    - now left.
    - vm_compute in E. injection E as <- <-. repeat constructor.
    - intros c [<- | [<- | [<- | []]]]; discriminate. }
  vm_compute in E. injection E as <- _. destruct C as (x&C&_). vm_compute in C. discriminate.
Qed.
Print Assumptions C65_sample_renumbered_refuted.

(** A batch with more results than the sample still lacks is refused. *)
Theorem C65_larger_sample_refuted : forall gen N wanted dt cs a o rs,
  results wanted dt (cs ++ [Ingest a]) -> dt <> [] ->
  run gen N wanted cs new_obj = (o, rs) -> Forall points_fine rs -> (forall c, In c cs -> ~ ends c) ->
  length (taken_in cs) < N -> N < length (taken_in (cs ++ [Ingest a])) ->
  exists o', step gen N wanted (Ingest a) o = (o', Done (Raise EValue)) /\ o_in o' = [].
Proof.
  intros gen N wanted dt cs a o rs [[R1 R2] R3 R4 R5] ND H FF NE L1 L2.
  destruct (run_sampling gen N wanted dt R4 R3 R1 R2 cs new_obj o rs []) as [P _]; auto.
  { apply new_phase; lia. }
  { intros b Hb. apply R5. rewrite batches_app, in_app_iff. auto. }
  cbn [app] in P. destruct (R5 a) as [A1 A2]; [rewrite batches_app, in_app_iff; right; now left|].
  assert (NDD : NoDup (names dt)) by (rewrite <- A2; apply A1).
  rewrite taken_in_app, app_length in L2. cbn [taken_in flat_map] in L2. rewrite app_nil_r in L2.
  destruct (ingest_too_many N wanted dt NDD R4 R3 o (taken_in cs) a P A1 A2 ND L2) as (o'&I1&I2).
  exists o'. cbn [step]. rewrite I1. split; auto. apply I2.
Qed.
Print Assumptions C65_larger_sample_refuted.
Example larger : snd (step toy 2 want (ra [rw 0 5; rw 1 6; rw 2 7]) new_obj) = Done (Raise EValue).
Proof. reflexivity. Qed.

(** Asking twice for some of the sample, before any result, raises TypeError. *)
Theorem C65_two_requests_refuted : forall gen N wanted n m a o,
  step gen N wanted (Suggest (S n)) new_obj = (o, Points (Ret a)) -> In SIM_ID (names (a_dt a)) -> a_rows a <> [] ->
  exists o', step gen N wanted (Suggest m) o = (o', Points (Raise EType)).
Proof.
  intros gen N wanted n m a o H HI NZ. cbn [step] in *.
  destruct (suggest gen wanted (S n) new_obj) as [o1 x] eqn:E. injection H as <- ->.
  unfold suggest in E. cbn [set_first new_obj o_first ready o_last lift] in E. set (o0 := mkObj _ _ _ _ _ _ _ _ _ _ _ _ _ _ _ _) in *.
  assert (K : o_told o1 = false /\ o_buf o1 = None /\ o_first o1 <> None /\ exists l, o_last o1 = Some l /\ a_dt l = a_dt a /\ a_rows l <> []).
  { destruct (fetch gen wanted (S n) o0) as [o2 y] eqn:EF. destruct y as [l|e|]; try discriminate.
    assert (Q : o_told o2 = false /\ o_buf o2 = None /\ o_first o2 <> None).
    { unfold fetch in EF. cbn [o_call o0 andb] in EF. destruct (base_suggest gen _) as [o3 [z|e|]] eqn:EB; try discriminate.
      unfold base_suggest, recv in EB. set (p := start _) in EB. cbn in p.
      assert (P : o_told p = false /\ o_buf p = None /\ o_first p <> None) by (repeat split; discriminate).
      destruct (o_done p); [discriminate|]. destruct (nth_error _ _) as [[w|v|]|]; try discriminate. injection EB as <- <-.
      unfold lift in EF. destruct (column LOCAL_MIN w); [|discriminate]. destruct (existsb is_min (a_rows w)); injection EF as <- <-; exact P. }
    destruct Q as (Q1&Q2&Q3). unfold hand_out in E. destruct (o_last o2) as [l'|]; [|discriminate].
    assert (T : 0 <? S n = true) by reflexivity. rewrite T in E. remember (S n) as k eqn:EK in E. clear EK. injection E as <- <-. cbn [o_told o_buf o_first o_last set_call set_sugg].
    repeat split; auto. exists l'. repeat split; auto. intros Z. apply NZ. cbn [a_rows]. rewrite Z. now rewrite skipn_nil, firstn_nil. }
  destruct K as (K1&K2&K3&l&K4&K5&K6). unfold suggest. assert (SF : set_first MSuggest o1 = o1) by (unfold set_first; now destruct (o_first o1)). rewrite SF.
  assert (R : ready o1 = Err EType).
  { unfold ready. rewrite K4, K1, K2. unfold column. rewrite K5. apply memb_In in HI. unfold names in HI. rewrite HI. cbn [bindr].
    destruct (a_rows l); [now destruct K6|]. reflexivity. }
  rewrite R. cbn [lift]. eauto.
Qed.
Print Assumptions C65_two_requests_refuted.
Example two_requests : snd (run toy 2 want [Suggest 1; Suggest 1] new_obj) = [Points (Ret (mkArr pdt [pt 0 0])); Points (Raise EType)].
Proof. reflexivity. Qed.

(** A request for all points after a request for some hands out points a second time. *)
Theorem C65_rest_repeated_refuted :
  ~ (forall gen N wanted cs o rs, steady gen -> answering gen N -> run gen N wanted cs new_obj = (o, rs) -> Forall fine rs -> (forall c, In c cs -> ~ ends c) ->
       exists k rest, filter (fun r => negb (minimum r)) (rows_of (firstn k (outbox gen o))) = handed rs ++ rest).
Proof.
  intros H. destruct (run toy 2 want [Suggest 2; ra [rw 0 5; rw 1 6]; Suggest 1; Suggest 0] new_obj) as [o rs] eqn:E.
  destruct (H _ _ _ _ _ _ toy_steady toy_answering E) as (k&rest&Q).
  - vm_compute in E. injection E as <- <-. repeat constructor.
  - intros c [<- | [<- | [<- | [<- | []]]]]; discriminate.
  - vm_compute in E. injection E as <- <-. destruct k as [|[|[|k]]]; vm_compute in Q; discriminate.
Qed.
Print Assumptions C65_rest_repeated_refuted.

(** After the generator function has returned, and suggest has said so by raising,
    the next requests hand out the last batch a second time. *)
Definition brief : gfun := fun b l => match l with [] => [MPoints (mkArr pdt [pt 0 0; pt 1 0])] | _ => [MPoints (mkArr pdt [pt 0 0; pt 1 0]); MPoints (batch 0); MResult 3] end.
Theorem C65_ended_repeats_refuted :
  ~ (forall gen N wanted cs o rs n, steady gen -> run gen N wanted cs new_obj = (o, rs) -> (forall c, In c cs -> ~ ends c /\ ~ asks_all c) ->
       In (Points (Raise EFinished)) rs -> exists o' e, step gen N wanted (Suggest n) o = (o', Points (Raise e))).
Proof.
  intros H. destruct (run brief 2 want [Suggest 2; ra [rw 0 5; rw 1 6]; Suggest 2; ra [rw 2 5; rw 3 6]; Suggest 2] new_obj) as [o rs] eqn:E.
  destruct (H brief 2 want [Suggest 2; ra [rw 0 5; rw 1 6]; Suggest 2; ra [rw 2 5; rw 3 6]; Suggest 2] o rs 2) as (o'&e&Q); auto.
  - intros b l m. destruct l as [|x l]; [|now exists []]. destruct m; [now exists []|]. now exists [MPoints (batch 0); MResult 3].
  - intros c [<- | [<- | [<- | [<- | [<- | []]]]]]; split; discriminate.
  - vm_compute in E. injection E as <- <-. cbn. auto 6.
  - vm_compute in E. injection E as <- <-. vm_compute in Q. discriminate.
Qed.
Print Assumptions C65_ended_repeats_refuted.

(** setup, which its documentation says must be called first, leaves the generator
    function unstarted for good: the first request waits for ever. *)
Theorem C65_setup_refuted : forall gen N wanted n, snd (run gen N wanted [Setup; Suggest n] new_obj) = [Done (Ret tt); Points Hang].
Proof. intros gen N wanted [|n]; reflexivity. Qed.
Print Assumptions C65_setup_refuted.

(** With a sample of the user's own, a request before the sample is complete starts
    the function, which waits for the sample: the request never returns, although
    the rest of the sample could still come. *)
Theorem C65_early_request_refuted : forall gen N wanted dt a n o,
  gen false [] = [] -> results wanted dt [Ingest a] -> length (a_rows a) < N ->
  step gen N wanted (Ingest a) new_obj = (o, Done (Ret tt)) -> exists o', step gen N wanted (Suggest n) o = (o', Points Hang).
Proof.
  intros gen N wanted dt a n o G [[R1 R2] R3 R4 R5] L H. destruct (R5 a) as [A1 A2]; [now left|].
  assert (ND : NoDup (names dt)) by (rewrite <- A2; apply A1).
  destruct (ingest_sampling N wanted dt ND R4 R3 R1 R2 new_obj [] a) as (o1&I1&I2&_); auto; [apply new_phase; lia|cbn; lia|].
  assert (P := I2 ltac:(cbn; lia)). cbn [step] in H. rewrite I1 in H. injection H as ->.
  assert (I1' := I1). apply ingest_grown in I1' as (GR&_); [|intros _; reflexivity].
  assert (FS : o_first o = Some MIngest /\ o_gsp o = false /\ o_made o = false /\ o_running o = None /\ o_call o = Some MIngest).
  { unfold ingest in I1. cbn [set_first new_obj o_first o_told orb o_n Nat.eqb] in I1. set (o0 := set_buf _ _ _ _) in I1.
    assert (EN : enough N o0 = false) by (unfold enough; cbn; rewrite orb_false_r; apply Nat.leb_gt; lia). rewrite EN in I1. cbn [o_buf o0 set_buf] in I1.
    destruct (slot a _ _) as [b' [e|]]; [discriminate|]. unfold hand_over in I1. set (o2 := set_buf o0 _ _ _) in I1.
    assert (EN2 : enough N o2 = false) by (unfold enough; cbn; rewrite orb_false_r; apply Nat.leb_gt; lia). rewrite EN2 in I1. injection I1 as <-. repeat split. }
  destruct FS as (F1&F2&F3&F4&F5). cbn [step]. unfold suggest, set_first. rewrite F1. unfold ready. rewrite (gr_last _ _ GR). cbn [new_obj o_last lift].
  unfold fetch. rewrite F5. cbn [andb]. unfold base_suggest, start. cbn [o_made set_sugg]. rewrite F3. unfold recv. cbn [o_done set_proc set_sugg]. rewrite (gr_done _ _ GR). cbn [new_obj o_done].
  unfold outbox. cbn [o_running set_proc o_gsp set_sugg o_in o_taken]. rewrite F2, (ph_in _ _ _ _ P), G, (gr_taken _ _ GR). cbn [nth_error new_obj o_taken]. eauto.
Qed.
Print Assumptions C65_early_request_refuted.
Example early : snd (run toy 2 want [ra [rw 0 5]; Suggest 1] new_obj) = [Done (Ret tt); Points Hang].
Proof. reflexivity. Qed.
