(** * C67: APOSMM starts runs where it says, and runs get their results

    The generator function of APOSMM (gen_funcs/persistent_aposmm.py; model in
    AposmmModel, vocabulary in AposmmSpec). The metric, the radius, the random draws
    and the optimizers are arbitrary, and the manager may answer in any order and in
    batches of any size. *)
From Verif Require Import Base BaseLemmas AposmmModel AposmmSpec AposmmDist AposmmProofs AposmmReach AposmmMinima AposmmTotal.
Local Open Scope nat_scope.

(** ** An example: three user points on a line, two active runs at most *)
Definition ex_conf : conf Z :=
  mkconf (fun a b => Z.abs (a - b)) (fun a => Z.min a (100 - a)) (fun a => a) 1 0 1 0 (Dist 1000) (fun _ => Dist 10)
    (Some 2) None None 5 [10; 50; 90]%Z (fun i => Z.of_nat i)
    (fun k l => match l with
                | [(a, _)] => Next (a + 1)%Z
                | [(a, _); _] => Next (a + 2)%Z
                | (a, _) :: _ => Converged (a + 2)%Z true
                | [] => Next 0%Z end).
Definition st_of (r : res (st Z * list nat)) : st Z :=
  match r with Ok (s, _) => s | Err _ => mkst [] 0 [] [] [] true end.
Definition ex_l1 : list (inc Z) := [mkinc 0 10%Z (Val 5); mkinc 1 50%Z (Val 3); mkinc 2 90%Z (Val 9)].
Definition ex_l2 : list (inc Z) := [mkinc 3 51%Z (Val 2)].
Definition ex_l3 : list (inc Z) := [mkinc 7 52%Z (Val 1)].
Definition ex_s0 := st_of (boot ex_conf [] 3).
Definition ex_s1 := st_of (pass ex_conf ex_l1 ex_s0).
Definition ex_s2 := st_of (pass ex_conf ex_l2 ex_s1).
Definition ex_s3 := st_of (pass ex_conf ex_l3 ex_s2).
Definition answersb (l : list (inc Z)) (H : list (row Z)) : bool :=
  forallb (fun a => match nth_error H (i_id a) with Some r => negb (ended r) && (i_x a =? x r)%Z | None => false end) l.
Lemma answersb_ok l H : NoDup (map i_id l) -> answersb l H = true -> answers l H.
Proof.
  intros N E. split; [exact N|]. intros a Ha. unfold answersb in E. rewrite forallb_forall in E. specialize (E a Ha).
  unfold at_row. destruct (nth_error H (i_id a)) as [r|]; [|discriminate]. apply andb_true_iff in E as [E1 E2].
  exists r. split; [reflexivity|]. split; [destruct (ended r); [discriminate | reflexivity] | apply Z.eqb_eq; exact E2].
Qed.
Lemma ex_symmetric : symmetric ex_conf.
Proof. intros a b. cbn. lia. Qed.
Lemma ex_given : given_ok (@nil (row Z)).
Proof. intros i r E. unfold at_row in E. destruct i; discriminate. Qed.
Lemma ex_answers1 : answers ex_l1 (hist ex_s0).
Proof. apply answersb_ok; [repeat constructor; cbn; intuition discriminate | vm_compute; reflexivity]. Qed.
Lemma ex_answers2 : answers ex_l2 (hist ex_s1).
Proof. apply answersb_ok; [repeat constructor; cbn; intuition discriminate | vm_compute; reflexivity]. Qed.
Lemma ex_answers3 : answers ex_l3 (hist ex_s2).
Proof. apply answersb_ok; [repeat constructor; cbn; intuition discriminate | vm_compute; reflexivity]. Qed.
Lemma ex_reach0 : Reach ex_conf [] 3 ex_s0.
Proof. apply (Reach_boot ex_conf [] 3 ex_s0 [0; 1; 2]). vm_compute. reflexivity. Qed.
Lemma ex_pass1 : pass ex_conf ex_l1 ex_s0 = Ok (ex_s1, [3; 4; 5; 6]).
Proof. vm_compute. reflexivity. Qed.
Lemma ex_pass2 : pass ex_conf ex_l2 ex_s1 = Ok (ex_s2, [7]).
Proof. vm_compute. reflexivity. Qed.
Lemma ex_pass3 : pass ex_conf ex_l3 ex_s2 = Ok (ex_s3, [8; 7]).
Proof. vm_compute. reflexivity. Qed.
Lemma ex_reach1 : Reach ex_conf [] 3 ex_s1.
Proof. exact (Reach_pass _ _ _ _ _ _ _ ex_reach0 ex_answers1 ex_pass1). Qed.
Lemma ex_reach2 : Reach ex_conf [] 3 ex_s2.
Proof. exact (Reach_pass _ _ _ _ _ _ _ ex_reach1 ex_answers2 ex_pass2). Qed.
Lemma ex_reach3 : Reach ex_conf [] 3 ex_s3.
Proof. exact (Reach_pass _ _ _ _ _ _ _ ex_reach2 ex_answers3 ex_pass3). Qed.

(** ** Where runs start *)
(** A run started in a pass starts at a point that meets the documented conditions
    in the history the pass leaves, with the radius for the number of sample points
    known then. The point is in no other run that has not ended; a point of a run is
    no known minimum, and a sample point is not paused. *)
Theorem C67_runs_start_where_documented {X} (c : conf X) given size s l s' out :
  symmetric c -> given_ok given -> Reach c given size s -> answers l (hist s) ->
  pass c l s = Ok (s', out) ->
  length (runs s) <= length (runs s') /\
  forall k u, length (runs s) <= k -> nth_error (runs s') k = Some u ->
    exists rk r, calc_rk c (n_s s') = Ok rk /\ at_row (hist s') (origin u) r /\
      promising c rk (hist s') r /\ started r = true /\
      (local r = true -> lmin r = false) /\ (local r = false -> paused r = false) /\
      (forall k' v, nth_error (runs s') k' = Some v -> live v = true -> In (origin u) (pts v) -> k' = k).
Proof.
  intros Sym G R A E. pose proof (Reach_Inv c Sym given size s G R) as I.
  destruct (receive_ok c Sym _ l s I A) as (s1 & E1 & I1 & r1 & _).
  destruct (pass_split c Sym _ l s s' out I A E) as (s1' & s2 & nw & op & E1' & _ & E2 & I2 & A2 & E3).
  assert (s1' = s1) by congruence. subst s1'.
  destruct A2 as (_ & _ & _ & _ & _ & _ & len2 & _). rewrite r1 in len2.
  destruct (finish_ok c _ _ _ _ _ _ _ I2 E3) as (I' & _ & _ & rk & us & Erk & Eus & Hor & _).
  split; [rewrite Eus, app_length; lia|]. intros k u Hk Eu.
  assert (Hu : In u us).
  { rewrite Eus in Eu. rewrite nth_error_app2 in Eu by lia. eapply nth_error_In; eauto. }
  destruct (Hor u Hu) as (r & Er & Hp & Hs & HT & Hm & Hpa). exists rk, r. split; [exact Erk|]. split; [exact Er|]. split; [exact Hp|].
  split; [exact Hs|]. split; [exact Hm|]. split; [exact Hpa|]. intros k' v Ev Hl Hin.
  destruct (origin_pts _ _ _ _ _ (iR _ _ _ _ I' k' v Ev)) as (_ & t & Ept & Ea). rewrite Ept in Hin. destruct Hin as [Ho|Hin].
  - exact (iO _ _ _ _ I' k' k v u Ev Eu Ho).
  - exfalso. apply HT. exists k', v. rewrite Ea. auto.
Qed.
Print Assumptions C67_runs_start_where_documented.
(** The same without an initial sample, before the first results. *)
Theorem C67_first_runs_start_where_documented {X} (c : conf X) given size s out :
  symmetric c -> given_ok given -> boot c given size = Ok (s, out) ->
  forall k u, nth_error (runs s) k = Some u ->
    exists rk r, calc_rk c (n_s s) = Ok rk /\ at_row (hist s) (origin u) r /\ promising c rk (hist s) r /\
      (local r = true -> lmin r = false) /\ (local r = false -> paused r = false).
Proof.
  intros Sym G E k u Eu. unfold boot in E. destruct (initialize c given size) as [s0|] eqn:E0; [|discriminate]. cbn [bindr] in E.
  destruct (initialize_Inv c Sym given size s0 G E0) as (I0 & R0 & _). destruct (size =? 0).
  - destruct (finish_ok c _ _ _ _ _ _ _ I0 E) as (_ & _ & _ & rk & us & Erk & Eus & Hor & _). rewrite R0 in Eus. cbn in Eus.
    destruct (Hor u) as (r & Er & Hp & _ & _ & Hm & Hpa); [rewrite <- Eus; eapply nth_error_In; eauto|]. exists rk, r. unfold at_row. auto 10.
  - inversion E; subst s. cbn [runs] in Eu. rewrite R0 in Eu. destruct k; discriminate.
Qed.
Print Assumptions C67_first_runs_start_where_documented.
Example C67_runs_start_nonvacuous :
  length (runs ex_s2) = 2 /\ length (runs ex_s3) = 3 /\ map origin (runs ex_s3) = [1; 0; 2].
Proof. vm_compute. auto. Qed.

(** While another run may be active, a run is started from every point that meets the
    conditions, unless a point with the same value is known. *)
Theorem C67_every_promising_point_is_started {X} (c : conf X) given size s l s' out z i r :
  symmetric c -> given_ok given -> Reach c given size s -> answers l (hist s) ->
  pass c l s = Ok (s', out) ->
  match max_runs c with Some m => countb live (runs s') < m | None => True end ->
  calc_rk c (n_s s') = Ok (Dist z) -> at_row (hist s') i r -> promising c (Dist z) (hist s') r -> no_tie (hist s') i r ->
  (forall k u, nth_error (runs s') k = Some u -> live u = true -> ~ In i (asked u)) ->
  (local r = true -> lmin r = false) -> (local r = false -> paused r = false) ->
  started r = true /\
  ((exists g, at_row given i g /\ started g = true) \/ exists k u, nth_error (runs s') k = Some u /\ origin u = i).
Proof.
  intros Sym G R A E Hroom Hrk Er Hp Htie HT Hm Hpa. pose proof (Reach_Inv c Sym given size s G R) as I.
  destruct (pass_split c Sym _ l s s' out I A E) as (s1 & s2 & nw & op & _ & _ & _ & I2 & _ & E3).
  destruct (finish_ok c _ _ _ _ _ _ _ I2 E3) as (I' & _ & _ & rk & us & Erk & Eus & _ & _ & _ & Hall & _).
  assert (Hs : started r = true).
  { rewrite Hrk in Erk. inversion Erk; subst rk. eapply Hall; eauto.
    - unfold room. destruct (max_runs c); [apply Nat.ltb_lt; exact Hroom | reflexivity].
    - intros (k & u & Ek & Hl & Hin). exact (HT k u Ek Hl Hin). }
  split; [exact Hs|].
  destruct (Reach_all c Sym given size s' G (Reach_pass _ _ _ _ _ _ _ R A E)) as (_ & Hst & _). exact (Hst i r Er Hs).
Qed.
Print Assumptions C67_every_promising_point_is_started.
(** Run 0 has ended, so one more run may be active: point 2 is taken. *)
Definition ex_wide : conf Z :=
  mkconf (dist ex_conf) (rim ex_conf) (store ex_conf) 1 0 1 0 (Dist 1000) (fun _ => Dist 10) None None None 5 (user_pts ex_conf) (draw ex_conf) (opt ex_conf).
Example C67_every_promising_point_nonvacuous :
  let s' := st_of (pass ex_wide ex_l1 ex_s0) in
  calc_rk ex_wide (n_s s') = Ok (Dist 10) /\
  exists r, at_row (hist s') 2 r /\ promising ex_wide (Dist 10) (hist s') r /\ no_tie (hist s') 2 r /\ paused r = false /\ local r = false.
Proof.
  cbv zeta. split; [vm_compute; reflexivity|]. eexists. split; [vm_compute; reflexivity|]. split; [|split; [|split; reflexivity]].
  - split; [reflexivity|]. split; [exists 9%Z; reflexivity|]. split; [cbn; clear; lia|]. split; [intros h; discriminate h|].
    intros j b Eb He Hl. unfold at_row in Eb. vm_compute in Eb.
    do 3 (destruct j as [|j]; [inversion Eb; subst b; cbn in *; first [reflexivity | inversion Hl; discriminate]|]).
    do 5 (destruct j as [|j]; [inversion Eb; subst b; discriminate|]). destruct j; discriminate.
  - intros j b Eb He Hf. unfold at_row in Eb. vm_compute in Eb.
    do 3 (destruct j as [|j]; [inversion Eb; subst b; try discriminate; reflexivity|]).
    do 5 (destruct j as [|j]; [inversion Eb; subst b; discriminate|]). destruct j; discriminate.
Qed.

(** If a point that meets the conditions is left over, the points taken in the same
    pass have smaller values. *)
Theorem C67_best_points_first {X} (c : conf X) given size s l s' out z k u ru i r :
  symmetric c -> given_ok given -> Reach c given size s -> answers l (hist s) ->
  pass c l s = Ok (s', out) ->
  length (runs s) <= k -> nth_error (runs s') k = Some u -> at_row (hist s') (origin u) ru ->
  calc_rk c (n_s s') = Ok (Dist z) -> at_row (hist s') i r -> promising c (Dist z) (hist s') r -> no_tie (hist s') i r ->
  (forall k u, nth_error (runs s') k = Some u -> live u = true -> ~ In i (asked u)) ->
  (local r = true -> lmin r = false) -> (local r = false -> paused r = false) ->
  started r = false -> less (f ru) (f r).
Proof.
  intros Sym G R A E Hk Eu Eru Hrk Er Hp Htie HT Hm Hpa Hs. pose proof (Reach_Inv c Sym given size s G R) as I.
  destruct (receive_ok c Sym _ l s I A) as (s1 & E1 & I1 & r1 & _).
  destruct (pass_split c Sym _ l s s' out I A E) as (s1' & s2 & nw & op & E1' & _ & E2 & I2 & A2 & E3).
  assert (s1' = s1) by congruence. subst s1'.
  destruct A2 as (_ & _ & _ & _ & _ & _ & len2 & _). rewrite r1 in len2.
  destruct (finish_best c _ _ _ _ _ _ _ I2 E3) as (rk & us & Erk & Eus & Hb).
  assert (Hu : In u us).
  { rewrite Eus in Eu. rewrite nth_error_app2 in Eu by lia. eapply nth_error_In; eauto. }
  rewrite Hrk in Erk. inversion Erk; subst rk. eapply Hb; eauto.
  intros (k' & v & Ek & Hl & Hin). exact (HT k' v Ek Hl Hin).
Qed.
Print Assumptions C67_best_points_first.
(** In the first pass points 1 and 0 are taken, and point 2 is left over. *)
Example C67_best_points_first_nonvacuous :
  map origin (runs ex_s1) = [1; 0] /\ map (@f Z) (firstn 3 (hist ex_s1)) = [Val 5; Val 3; Val 9] /\
  map (@started Z) (firstn 3 (hist ex_s1)) = [true; true; false].
Proof. vm_compute. auto. Qed.

(** ** Runs and results *)
(** The points of a run, in order: its starting point and those it asked for. Its
    optimizer was given the results of the evaluated ones, in this order and once
    each; each point it asked for is what it answered to the results before. A run
    that has not ended waits for exactly one result. *)
Theorem C67_results_reach_their_run {X} (c : conf X) given size s k u :
  symmetric c -> given_ok given -> Reach c given size s -> nth_error (runs s) k = Some u ->
  length (pts u) = length (fed u) + (if live u then 1 else 0) /\
  (forall m i, nth_error (pts u) m = Some i -> exists r, at_row (hist s) i r /\
     (ended r = true <-> m < length (fed u)) /\
     (forall p, nth_error (fed u) m = Some p -> p = (x r, f r)) /\
     (0 < m -> local r = true /\ exists p, opt c k (firstn m (fed u)) = Next p /\ x r = store c p)) /\
  (live u = false -> exists p b, opt c k (fed u) = Converged p b).
Proof.
  intros Sym G R Ek. pose proof (Reach_Inv c Sym given size s G R) as I.
  destruct (iR _ _ _ _ I k u Ek) as (h1 & h2 & h3 & h4 & h5 & h6 & h7 & h8). split; [exact h1|]. split; [|exact h7].
  intros m i Em.
  assert (Hbase : exists r, nth_error (hist s) i = Some r /\ (ended r = true <-> m < length (fed u)) /\ (forall p, nth_error (fed u) m = Some p -> p = (x r, f r))).
  { destruct (Nat.lt_ge_cases m (length (fed u))) as [Hlt|Hge].
    - pose proof Hlt as Hlt0. apply nth_error_Some in Hlt0. destruct (nth_error (fed u) m) as [p|] eqn:Ef; [|congruence].
      destruct (h4 m i p Em Ef) as (q & Eq & He & Hp & _). exists q. split; [exact Eq|]. split; [tauto|]. intros p' Ep. congruence.
    - pose proof (nth_lt _ _ _ Em) as Hm. assert (m = length (fed u)) by (destruct (live u); lia). subst m.
      destruct (h5 i Em) as (q & Eq & He). exists q. split; [exact Eq|]. split.
      + split; [intros h; apply He in h; contradiction | lia].
      + intros p Ep. apply nth_lt in Ep. lia. }
  destruct Hbase as (r & Er & Ha & Hb). exists r. split; [exact Er|]. split; [exact Ha|]. split; [exact Hb|].
  intros Hm. destruct m as [|m]; [lia|]. destruct (h6 m i Em) as (q & p & Eq & Hl & Eo & Ex). assert (q = r) by congruence. subst q. eauto.
Qed.
Print Assumptions C67_results_reach_their_run.
Example C67_results_reach_their_run_nonvacuous :
  map (@fed Z) (runs ex_s3) =
    [[(50%Z, Val 3); (51%Z, Val 2); (52%Z, Val 1)]; [(10%Z, Val 5)]; [(90%Z, Val 9)]].
Proof. vm_compute. reflexivity. Qed.

(** Two runs do not start from the same point, and no point is asked for twice. *)
Theorem C67_one_run_per_point {X} (c : conf X) given size s k k' u u' :
  symmetric c -> given_ok given -> Reach c given size s ->
  nth_error (runs s) k = Some u -> nth_error (runs s) k' = Some u' ->
  (origin u = origin u' -> k = k') /\ NoDup (pts u) /\ (forall i, In i (asked u) -> In i (asked u') -> k = k').
Proof.
  intros Sym G R Ek Ek'. pose proof (Reach_Inv c Sym given size s G R) as I. split; [exact (iO _ _ _ _ I k k' u u' Ek Ek')|].
  split; [exact (pts_NoDup _ _ _ _ _ (iR _ _ _ _ I k u Ek))|]. intros i Hi Hi'. exact (kids_unique _ _ s [] i k k' u u' I Ek Ek' Hi Hi').
Qed.
Print Assumptions C67_one_run_per_point.
(** No more runs are active at a time than the user allows. *)
Theorem C67_at_most_max_active_runs {X} (c : conf X) given size s m :
  symmetric c -> given_ok given -> Reach c given size s -> max_runs c = Some m -> countb live (runs s) <= m.
Proof.
  intros Sym G R Em. pose proof (iC _ _ _ _ (Reach_Inv c Sym given size s G R)) as h. rewrite Em in h. exact h.
Qed.
Print Assumptions C67_at_most_max_active_runs.

(** ** What is sent *)
(** A pass sends every row it added, numbered consecutively from the end of the
    history, and then the optimum of each run that ended in it. *)
Theorem C67_new_points_and_optima_are_sent {X} (c : conf X) given size s l s' out :
  symmetric c -> given_ok given -> Reach c given size s -> answers l (hist s) ->
  pass c l s = Ok (s', out) ->
  exists ks os, quit s' = quit s ++ ks /\
    out = seq (length (hist s)) (length (hist s') - length (hist s)) ++ os /\
    Forall2 (found c s') ks os.
Proof.
  intros Sym G R A E. destruct (Reach_all c Sym given size s G R) as (M & _).
  exact (proj2 (pass_min c Sym _ given l s s' out (Reach_Inv c Sym given size s G R) A E M)).
Qed.
Print Assumptions C67_new_points_and_optima_are_sent.
(** At the start it sends every row that was not given. *)
Theorem C67_first_batch {X} (c : conf X) given size s out :
  symmetric c -> given_ok given -> boot c given size = Ok (s, out) ->
  length (hist s) = length given + length out /\ out = seq (length given) (length out) /\
  (0 < size -> length out = size /\ runs s = []) /\ (size = 0 -> nworkers c - 1 <= length out).
Proof.
  intros Sym G E. unfold boot in E. destruct (initialize c given size) as [s0|] eqn:E0; [|discriminate]. cbn [bindr] in E.
  destruct (initialize_Inv c Sym given size s0 G E0) as (I0 & R0 & S0 & F0 & _).
  assert (L0 : length (hist s0) = length given) by (rewrite (sameH_len _ _ S0), map_length; reflexivity).
  destruct (size =? 0) eqn:Es.
  - apply Nat.eqb_eq in Es. destruct (finish_ok c _ _ _ _ _ _ _ I0 E) as (_ & (_ & _ & Ll & _) & _ & rk & us & _ & _ & _ & Hc & -> & _).
    cbn [app length] in *. rewrite app_nil_r, seq_length, L0 in *. split; [lia|]. split; [reflexivity|]. split; [lia|].
    intros _. unfold wanted in Hc. rewrite F0 in Hc. lia.
  - apply Nat.eqb_neq in Es. inversion E; subst s out. cbn [hist runs]. rewrite seq_length, add_samples_len, L0. repeat split; auto; lia.
Qed.
Print Assumptions C67_first_batch.
Example C67_sent_nonvacuous : boot ex_conf [] 3 = Ok (ex_s0, [0; 1; 2]) /\ pass ex_conf ex_l3 ex_s2 = Ok (ex_s3, [8; 7]) /\ quit ex_s3 = [0].
Proof. vm_compute. auto. Qed.

(** As many points are out for evaluation after a pass as before it, or more; only
    the first pass may give fewer, but then it sends a point for each worker except
    the generator's. *)
Theorem C67_workers_stay_busy {X} (c : conf X) given size s0 l0 s l s' out0 out :
  symmetric c -> given_ok given -> Reach c given size s0 -> answers l0 (hist s0) -> pass c l0 s0 = Ok (s, out0) ->
  answers l (hist s) -> pass c l s = Ok (s', out) ->
  out_now (hist s) <= out_now (hist s') /\ length l <= length out.
Proof.
  intros Sym G R A0 E0 A E. pose proof (Reach_Inv c Sym given size s0 G R) as I0.
  pose proof (Reach_Inv c Sym given size s G (Reach_pass _ _ _ _ _ _ _ R A0 E0)) as I.
  destruct (pass_split c Sym _ l0 s0 s out0 I0 A0 E0) as (_ & s2 & nw & op & _ & _ & _ & I2 & _ & E3).
  destruct (finish_ok c _ _ _ _ _ _ _ I2 E3) as (_ & _ & F & _).
  destruct (pass_count c Sym _ l s s' out I A E) as (Hl & Hc & Hw). unfold wanted in Hw. rewrite F in Hw.
  pose proof (out_now_ended (hist s)) as h1. pose proof (out_now_ended (hist s')) as h2.
  destruct (C67_new_points_and_optima_are_sent c given size s l s' out Sym G (Reach_pass _ _ _ _ _ _ _ R A0 E0) A E) as (ks & os & _ & -> & _).
  rewrite app_length, seq_length. clear - Hl Hc Hw h1 h2. lia.
Qed.
Print Assumptions C67_workers_stay_busy.
Theorem C67_first_pass_fills_the_workers {X} (c : conf X) given size s l s' out0 out :
  symmetric c -> given_ok given -> 0 < size -> boot c given size = Ok (s, out0) ->
  answers l (hist s) -> pass c l s = Ok (s', out) -> nworkers c - 1 <= length out.
Proof.
  intros Sym G Hs E0 A E. pose proof (Reach_boot c given size s out0 E0) as R.
  pose proof (Reach_Inv c Sym given size s G R) as I. destruct (boot_all c Sym given size s out0 G E0) as (_ & _ & _ & F).
  destruct (pass_count c Sym _ l s s' out I A E) as (Hl & _ & Hw). unfold wanted in Hw. rewrite F in Hw.
  replace (size =? 0) with false in Hw by (symmetry; apply Nat.eqb_neq; lia). cbn [negb] in Hw.
  destruct (C67_new_points_and_optima_are_sent c given size s l s' out Sym G R A E) as (ks & os & _ & -> & _).
  rewrite app_length, seq_length. clear - Hw. lia.
Qed.
Print Assumptions C67_first_pass_fills_the_workers.
Example C67_workers_nonvacuous : out_now (hist ex_s1) = 4 /\ out_now (hist ex_s2) = 4 /\ out_now (hist ex_s3) = 4.
Proof. vm_compute. auto. Qed.

(** ** Sample points *)
(** The [j]-th sample point of the history is the [j]-th of the user's sample points,
    while there are any, not counting the points given at the start. *)
Theorem C67_user_sample_points_in_order {X} (c : conf X) given size s j p r :
  symmetric c -> given_ok given -> Reach c given size s ->
  length (sample given) <= j -> nth_error (user_pts c) j = Some p -> nth_error (sample (hist s)) j = Some r ->
  x r = store c p.
Proof.
  intros Sym G R Hj Ep Er. destruct (Reach_all c Sym given size s G R) as (_ & _ & _ & h). exact (h j p r Hj Ep Er).
Qed.
Print Assumptions C67_user_sample_points_in_order.
Example C67_user_sample_points_nonvacuous : map (@x Z) (sample (hist ex_s1)) = [10; 50; 90; 5; 6]%Z.
Proof. vm_compute. reflexivity. Qed.
(** The number the radius is computed from is that of the evaluated sample points,
    plus the sample points given without a value. *)
Theorem C67_sample_count {X} (c : conf X) given size s :
  symmetric c -> given_ok given -> Reach c given size s ->
  n_s s = countb (fun r => negb (local r) && ended r) (hist s) + countb (fun r => negb (local r) && negb (ended r)) given.
Proof. intros Sym G R. exact (iN _ _ _ _ (Reach_Inv c Sym given size s G R)). Qed.
Print Assumptions C67_sample_count.

(** ** Minima *)
(** A point is marked as a minimum only if it was given like that or a run that has
    ended found it; every ended run has an optimum; no mark is taken away, and no
    point moves. *)
Theorem C67_minima {X} (c : conf X) given size s :
  symmetric c -> given_ok given -> Reach c given size s ->
  (forall i r, at_row (hist s) i r -> lmin r = true -> (exists g, at_row given i g /\ lmin g = true) \/ optimum c s i) /\
  (forall k u, nth_error (runs s) k = Some u -> live u = false -> exists i, found c s k i) /\
  (forall l s' out, answers l (hist s) -> pass c l s = Ok (s', out) ->
     forall i r, at_row (hist s) i r -> exists r', at_row (hist s') i r' /\ x r' = x r /\ local r' = local r /\
       (ended r = true -> ended r' = true /\ f r' = f r) /\ (lmin r = true -> lmin r' = true)).
Proof.
  intros Sym G R. pose proof (Reach_Inv c Sym given size s G R) as I. destruct (Reach_all c Sym given size s G R) as ([M1 M2] & _).
  split; [exact M1|]. split.
  - intros k u Ek Hl. apply M2. apply (iQ _ _ _ _ I). eauto.
  - intros l s' out A E i r Er. destruct (receive_ok c Sym _ l s I A) as (s1 & E1 & I1 & _ & _ & _ & _ & _ & rows).
    destruct (pass_split c Sym _ l s s' out I A E) as (s1' & s2 & nw & op & E1' & _ & E2 & I2 & A2 & E3).
    assert (s1' = s1) by congruence. subst s1'. destruct (rows i r Er) as (r1 & Er1 & x1 & l1 & _ & _ & _ & m1 & a1 & b1).
    destruct A2 as (K2 & _). destruct (K2 i r1 Er1) as (r2 & Er2 & (x2 & f2 & l2 & e2 & _ & _ & m2)).
    destruct (finish_ok c _ _ _ _ _ _ _ I2 E3) as (_ & (Lo & _) & _). destruct (Lo i r2 Er2) as (r3 & Er3 & (x3 & f3 & l3 & e3 & _ & _ & m3 & _)).
    exists r3. split; [exact Er3|]. split; [congruence|]. split; [congruence|]. split.
    + intros He. destruct (in_dec Nat.eq_dec i (ids l)) as [h|h]; [destruct (a1 h); congruence|]. destruct (b1 h) as [fb eb]. split; congruence.
    + intros Hm. rewrite <- m3. apply m2. congruence.
Qed.
Print Assumptions C67_minima.
Example C67_minima_nonvacuous : map (@lmin Z) (hist ex_s3) = [false; false; false; false; false; false; false; true; false].
Proof. vm_compute. reflexivity. Qed.

(** ** No failure, and the end *)
(** A pass with results does not fail, if the optimizers do not and none of them
    converges at its starting point. *)
Theorem C67_no_failure {X} (c : conf X) given size s l :
  symmetric c -> given_ok given -> Reach c given size s -> answers l (hist s) ->
  (forall k h, opt c k h <> Fails) -> (forall k a p b, opt c k [a] <> Converged p b) ->
  0 < n_s s \/ (exists a r, In a l /\ at_row (hist s) (i_id a) r /\ local r = false) ->
  exists s' out, pass c l s = Ok (s', out).
Proof.
  intros Sym G R A Hf Hc Hn. destruct (pass_total c Sym _ l s Hf Hc (Reach_Inv c Sym given size s G R) A Hn) as ([s' out] & E). eauto.
Qed.
Print Assumptions C67_no_failure.
Example C67_no_failure_nonvacuous :
  (forall k h, opt ex_conf k h <> Fails) /\ (forall k a p b, opt ex_conf k [a] <> Converged p b) /\ 0 < n_s ex_s1.
Proof.
  split; [|split; [|vm_compute; lia]].
  - intros k [|[a v] [|[b w] [|d h]]]; discriminate.
  - intros k [a v] p b. discriminate.
Qed.
(** Once enough minima are found, or enough runs have ended, the next message ends
    the function and nothing more is sent; so does a stop signal. *)
Theorem C67_stops {X} (c : conf X) s (m : msg X) ms :
  m = Stop \/ (exists k, k_minima c = Some k /\ k <= countb lmin (hist s)) \/ (exists k, k_runs c = Some k /\ k <= length (quit s)) ->
  serve c (m :: ms) s = ([], s, Returned).
Proof.
  intros [->|h]; [reflexivity|]. destruct m as [l|]; [|reflexivity]. cbn [serve].
  assert (E : enough c s = true).
  { unfold enough. destruct h as [(k & -> & h)|(k & -> & h)]; apply orb_true_iff; [left|right]; apply Nat.leb_le; exact h. }
  rewrite E. reflexivity.
Qed.
Print Assumptions C67_stops.

(** ** What does not hold *)
Definition line (ldiv : nat) (cap : option nat) (op : nat -> list (Z * fl) -> move Z) (u : list Z) : conf Z :=
  mkconf (fun a b => Z.abs (a - b)) (fun a => Z.min a (100 - a)) (fun a => a) 1 0 1 ldiv (Dist 1000) (fun _ => Dist 10)
    cap None None 1 u (fun i => Z.of_nat i) op.
Lemma line_symmetric ldiv cap op u : symmetric (line ldiv cap op u).
Proof. intros a b. cbn. lia. Qed.
Definition given_row (a : Z) (v : Z) (loc kn en pa : bool) (i : nat) : row Z :=
  mkrow a (Val v) loc kn en false 0 false pa i Far Far None Far None.

(** The number of active runs kept for a point becomes negative: that of a starting
    point is never raised, but it is lowered when its run ends. *)
Theorem C67_active_runs_not_negative_refuted :
  ~ (forall (c : conf Z) given size s i r, symmetric c -> given_ok given -> Reach c given size s -> at_row (hist s) i r -> (0 <= active r)%Z).
Proof.
  intros h. specialize (h ex_conf [] 3 ex_s3 1).
  assert (E : exists r, at_row (hist ex_s3) 1 r /\ active r = (-1)%Z) by (eexists; split; vm_compute; reflexivity).
  destruct E as (r & Er & Ea). specialize (h r ex_symmetric ex_given ex_reach3 Er). lia.
Qed.
Print Assumptions C67_active_runs_not_negative_refuted.

(** Two equally good points block each other, as long as some sample point has no
    value yet: no run is started from either, although no point is better. *)
Definition tie_conf := line 0 None (opt ex_conf) [10; 14; 90]%Z.
Definition tie_l : list (inc Z) := [mkinc 0 10%Z (Val 3); mkinc 1 14%Z (Val 3)].
Definition tie_s0 := st_of (boot tie_conf [] 3).
Definition tie_s1 := st_of (pass tie_conf tie_l tie_s0).
Theorem C67_equally_good_points_start_refuted :
  ~ (forall (c : conf Z) given size s l s' out z i r,
      symmetric c -> given_ok given -> Reach c given size s -> answers l (hist s) -> pass c l s = Ok (s', out) ->
      max_runs c = None -> calc_rk c (n_s s') = Ok (Dist z) ->
      at_row (hist s') i r -> local r = false -> paused r = false -> promising c (Dist z) (hist s') r ->
      started r = true \/ exists j q, at_row (hist s') j q /\ started q = true).
Proof.
  intros h.
  assert (R : Reach tie_conf [] 3 tie_s0) by (apply (Reach_boot tie_conf [] 3 tie_s0 [0; 1; 2]); vm_compute; reflexivity).
  assert (A : answers tie_l (hist tie_s0)).
  { apply answersb_ok; [repeat constructor; cbn; intuition discriminate | vm_compute; reflexivity]. }
  assert (E : exists out, pass tie_conf tie_l tie_s0 = Ok (tie_s1, out)) by (eexists; vm_compute; reflexivity).
  destruct E as [out E].
  assert (Er : exists r, at_row (hist tie_s1) 0 r /\ local r = false /\ paused r = false /\ started r = false /\ promising tie_conf (Dist 10) (hist tie_s1) r).
  { eexists. split; [vm_compute; reflexivity|]. split; [reflexivity|]. split; [reflexivity|]. split; [reflexivity|].
    split; [reflexivity|]. split; [exists 3%Z; reflexivity|]. split; [intros e; discriminate e|]. split; [intros e; discriminate e|].
    intros j b Eb He Hl. unfold at_row in Eb. vm_compute in Eb.
    do 2 (destruct j as [|j]; [inversion Eb; subst b; inversion Hl; subst; discriminate|]).
    do 3 (destruct j as [|j]; [inversion Eb; subst b; discriminate|]). destruct j; discriminate. }
  destruct Er as (r & Er & Hl & Hp & Hs & Hpr).
  destruct (h tie_conf [] 3 tie_s0 tie_l tie_s1 out 10%Z 0 r (line_symmetric _ _ _ _) ex_given R A E eq_refl eq_refl Er Hl Hp Hpr) as [h1|(j & q & Ej & Hq)]; [congruence|].
  unfold at_row in Ej. vm_compute in Ej. do 5 (destruct j as [|j]; [inversion Ej; subst q; discriminate|]). destruct j; discriminate.
Qed.
Print Assumptions C67_equally_good_points_start_refuted.

(** Points given as already known keep infinite distances: runs start at points
    beside better ones, and at points of any distance to the boundary. *)
Definition kn_given : list (row Z) := [given_row 0 5 false true true false 0; given_row 2 1 false true true false 1].
Definition kn_conf := line 0 None (opt ex_conf) [].
Theorem C67_given_points_known_to_aposmm_refuted :
  ~ (forall (c : conf Z) given s out k u rk r,
      symmetric c -> (forall i g, at_row given i g -> sid g = i /\ active g = 0%Z) -> boot c given 0 = Ok (s, out) ->
      nth_error (runs s) k = Some u -> calc_rk c (n_s s) = Ok rk -> at_row (hist s) (origin u) r ->
      (mu c <= rim c (x r))%Z \/ promising c rk (hist s) r).
Proof.
  intros h. set (s := st_of (boot kn_conf kn_given 0)).
  assert (E : exists out, boot kn_conf kn_given 0 = Ok (s, out)) by (eexists; vm_compute; reflexivity). destruct E as [out E].
  assert (Eu : exists u r, nth_error (runs s) 1 = Some u /\ at_row (hist s) (origin u) r /\ x r = 0%Z)
    by (eexists; eexists; split; [vm_compute; reflexivity|]; split; vm_compute; reflexivity).
  destruct Eu as (u & r & Eu & Er & Ex).
  destruct (h kn_conf kn_given s out 1 u (Dist 10) r (line_symmetric _ _ _ _)) as [h1|(_ & _ & h1 & _)]; auto.
  - intros i g Eg. unfold at_row in Eg. destruct i as [|[|i]]; [inversion Eg; auto | inversion Eg; auto | destruct i; discriminate].
  - rewrite Ex in h1. apply h1. reflexivity.
  - rewrite Ex in h1. apply h1. reflexivity.
Qed.
Print Assumptions C67_given_points_known_to_aposmm_refuted.

(** Runs are started from paused points, if these are points of earlier runs. *)
Definition pa_given : list (row Z) := [given_row 50 5 false false true false 0; given_row 80 1 true false true true 1].
Theorem C67_paused_points_are_left_alone_refuted :
  ~ (forall (c : conf Z) given s out k u r,
      symmetric c -> given_ok given -> boot c given 0 = Ok (s, out) ->
      nth_error (runs s) k = Some u -> at_row (hist s) (origin u) r -> paused r = false).
Proof.
  intros h. set (s := st_of (boot kn_conf pa_given 0)).
  assert (E : exists out, boot kn_conf pa_given 0 = Ok (s, out)) by (eexists; vm_compute; reflexivity). destruct E as [out E].
  assert (Eu : exists u r, nth_error (runs s) 0 = Some u /\ at_row (hist s) (origin u) r /\ paused r = true)
    by (eexists; eexists; split; [vm_compute; reflexivity|]; split; vm_compute; reflexivity).
  destruct Eu as (u & r & Eu & Er & Ex).
  rewrite (h kn_conf pa_given s out 0 u r (line_symmetric _ _ _ _)) in Ex; auto; [discriminate|].
  intros i g Eg. unfold at_row in Eg. destruct i as [|[|i]]; [inversion Eg; auto | inversion Eg; auto | destruct i; discriminate].
Qed.
Print Assumptions C67_paused_points_are_left_alone_refuted.

(** An optimizer that converges at its starting point stops everything with
    TypeError. *)
Definition at_once := line 0 None (fun _ l => match l with (a, _) :: _ => Converged a true | [] => Next 0%Z end) [10; 50; 90]%Z.
Theorem C67_converged_at_once_refuted :
  ~ (forall (c : conf Z) given size s l,
      symmetric c -> given_ok given -> Reach c given size s -> answers l (hist s) -> l <> [] ->
      (forall k h, opt c k h <> Fails) -> exists s' out, pass c l s = Ok (s', out)).
Proof.
  intros h. set (s := st_of (boot at_once [] 3)).
  assert (R : Reach at_once [] 3 s) by (apply (Reach_boot at_once [] 3 s [0; 1; 2]); vm_compute; reflexivity).
  assert (A : answers ex_l1 (hist s)).
  { apply answersb_ok; [repeat constructor; cbn; intuition discriminate | vm_compute; reflexivity]. }
  destruct (h at_once [] 3 s ex_l1 (line_symmetric _ _ _ _) ex_given R A) as (s' & out & E); [discriminate | |].
  - intros k [|[a v] t]; discriminate.
  - vm_compute in E. discriminate.
Qed.
Print Assumptions C67_converged_at_once_refuted.

(** While it waits for the user's sample (generate_sample_points is False), a stop
    signal is ignored, however often the function looks at it. *)
Theorem C67_stop_while_waiting_for_sample_refuted {X} (c : conf X) size s ms fuel :
  n_s s < size -> gather c fuel size (Stop :: ms) s = None.
Proof.
  intros Hn. induction fuel as [|n IH]; cbn [gather]; replace (size <=? n_s s) with false by (symmetry; apply Nat.leb_gt; exact Hn); auto.
Qed.
Print Assumptions C67_stop_while_waiting_for_sample_refuted.

(** The number of sample points exceeds that of the sample points there are: one
    given without a value is counted again when its value arrives. *)
Definition tw_given : list (row Z) := [given_row 50 0 false false false false 0].
Theorem C67_sample_count_is_exact_refuted :
  ~ (forall (c : conf Z) given size s, symmetric c -> given_ok given -> Reach c given size s -> n_s s <= length (sample (hist s))).
Proof.
  intros h. set (s0 := st_of (boot kn_conf tw_given 0)). set (s1 := st_of (pass kn_conf [mkinc 0 50%Z (Val 5)] s0)).
  assert (R0 : Reach kn_conf tw_given 0 s0) by (apply (Reach_boot kn_conf tw_given 0 s0 []); vm_compute; reflexivity).
  assert (A : answers [mkinc 0 50%Z (Val 5)] (hist s0)).
  { apply answersb_ok; [repeat constructor; cbn; intuition discriminate | vm_compute; reflexivity]. }
  assert (E : exists out, pass kn_conf [mkinc 0 50%Z (Val 5)] s0 = Ok (s1, out)) by (eexists; vm_compute; reflexivity). destruct E as [out E].
  assert (G : given_ok tw_given).
  { intros i g Eg. unfold at_row in Eg. destruct i as [|i]; [inversion Eg; auto | destruct i; discriminate]. }
  specialize (h kn_conf tw_given 0 s1 (line_symmetric _ _ _ _) G (Reach_pass _ _ _ _ _ _ _ R0 A E)). vm_compute in h. lia.
Qed.
Print Assumptions C67_sample_count_is_exact_refuted.

(** With lhs_divisions, no run starts before there are two sample points for each
    division, not even from the best point of all. *)
Definition lhs_conf := line 2 None (opt ex_conf) [10; 50; 90]%Z.
Theorem C67_runs_start_with_lhs_divisions_refuted :
  ~ (forall (c : conf Z) given size s l s' out rk i r,
      symmetric c -> given_ok given -> Reach c given size s -> answers l (hist s) -> pass c l s = Ok (s', out) ->
      max_runs c = None -> calc_rk c (n_s s') = Ok rk ->
      at_row (hist s') i r -> local r = false -> paused r = false -> promising c rk (hist s') r -> no_tie (hist s') i r -> started r = true).
Proof.
  intros h. set (s0 := st_of (boot lhs_conf [] 3)). set (s1 := st_of (pass lhs_conf ex_l1 s0)).
  assert (R : Reach lhs_conf [] 3 s0) by (apply (Reach_boot lhs_conf [] 3 s0 [0; 1; 2]); vm_compute; reflexivity).
  assert (A : answers ex_l1 (hist s0)).
  { apply answersb_ok; [repeat constructor; cbn; intuition discriminate | vm_compute; reflexivity]. }
  assert (E : exists out, pass lhs_conf ex_l1 s0 = Ok (s1, out)) by (eexists; vm_compute; reflexivity). destruct E as [out E].
  assert (Er : exists r, at_row (hist s1) 1 r /\ local r = false /\ paused r = false /\ started r = false /\
             promising lhs_conf Far (hist s1) r /\ no_tie (hist s1) 1 r).
  { eexists. split; [vm_compute; reflexivity|]. split; [reflexivity|]. split; [reflexivity|]. split; [reflexivity|]. split.
    - split; [reflexivity|]. split; [exists 3%Z; reflexivity|]. split; [intros e; discriminate e|]. split; [intros e; discriminate e|].
      intros j b Eb He Hl. unfold at_row in Eb. vm_compute in Eb.
      do 3 (destruct j as [|j]; [inversion Eb; subst b; inversion Hl; subst; discriminate|]). destruct j; discriminate.
    - intros j b Eb He Hf. unfold at_row in Eb. vm_compute in Eb.
      do 3 (destruct j as [|j]; [inversion Eb; subst b; try discriminate; reflexivity|]). destruct j; discriminate. }
  destruct Er as (r & Er & Hl & Hp & Hs & Hpr & Ht).
  assert (Es : started r = true); [|congruence].
  apply (h lhs_conf [] 3 s0 ex_l1 s1 out Far 1 r (line_symmetric _ _ _ _) ex_given R A E); auto.
Qed.
Print Assumptions C67_runs_start_with_lhs_divisions_refuted.
