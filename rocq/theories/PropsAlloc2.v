(** Property theorems about the remaining allocation functions (finite
    differences, APOSMM, inverse Bayes, local optimisation runs): C61. The proofs
    are in the AllocMore files. *)
From Coq Require Import Permutation Sorted String.
From Verif Require Import Base BaseLemmas HistoryModel HistoryProofs WorkModel RsetModel RsetSpec SchedModel SchedSpec SchedServe AllocModel AllocSpec AllocProofs AllocLoops AllocFacts AllocFast AllocPersis PropsResources PropsAlloc AllocModel2 AllocSpec2 AllocMore AllocMore2 AllocMore3 AllocMore4 AllocMore6.
Local Notation length := List.length.
Local Open Scope string_scope.
Local Open Scope list_scope.
Local Open Scope nat_scope.

Lemma nothing_sound c d H g f e : sound_call c d H (mkAO H [] f g e).
Proof.
  split; cbn [o_work o_rows map].
  - intros w k [].
  - constructor.
  - constructor.
  - intros i [].
  - intros m _. split; [constructor|intros i []].
  - intros w k [].
  - intros w k [].
  - split; auto. intros i r E. exists r. auto.
Qed.

(** ** Finite differences: start_fd_persistent *)

(** One call is sound: see [sound_call] in AllocSpec2. *)
Theorem C61_fd_sound : forall c d u stop g H, ids_distinct (ac_W c) -> resources_ok c -> sound_call c d H (finite_diff_alloc c d u stop g H).
Proof.
  intros c d u stop g H Hi Hr. destruct stop; [apply nothing_sound|].
  destruct (fd_facts c d u g H Hi Hr) as ((s & A) & HR & _). eapply (acc_sound c d H (evaluable H)); eauto.
  - intros q [(U1 & U2 & U3 & _)|[[U _]|(U1 & U2 & U3 & U4 & _)]]; [left; split; auto|right; now rewrite HR|left; split; auto].
  - rewrite HR. apply same_system_refl.
Qed.
Print Assumptions C61_fd_sound.

(** The generator is sent exactly the results of the pairs all of whose
    evaluations are done, and nothing of the others; if there are none it is sent
    nothing. The other generator order starts the generator, on an empty history
    and when there is none. *)
Theorem C61_fd_complete_pairs : forall c d u stop g H w k, ids_distinct (ac_W c) -> resources_ok c -> numbered H ->
  In (w, k) (o_work (finite_diff_alloc c d u stop g H)) -> k_tag k = EVAL_GEN ->
  waiting_gen (ac_W c) w /\ k_rows k <> [] /\
    lists (k_rows k) (fun i => exists x f, x < fd_n u /\ f < fd_p u /\ complete_pair H (fd_nf u) x f /\ pair_result H x f i) \/
  free_worker (ac_W c) w /\ k_persistent k = true /\ k_rows k = [] /\ H = [] /\ ~ persistent_gen (ac_W c).
Proof.
  intros c d u stop g H w k Hi Hr Hn Hin T. destruct stop; [destruct Hin|].
  destruct (fd_facts c d u g H Hi Hr) as ((s & A) & _). destruct (acc_units _ _ _ _ _ A _ Hin) as [(U1 & U2 & U3 & U4 & U5 & _)|[[[(U & _) _] _]|(U1 & U2 & U3 & U4 & U5 & U6 & U7)]]; cbn in *.
  - left. split; auto. rewrite U4. split; auto. split; [now apply fd_send_nodup|]. intros i. now apply fd_send_spec.
  - rewrite T in U. discriminate.
  - right. auto.
Qed.
Print Assumptions C61_fd_complete_pairs.

(** No result is held back: when some pair is complete, a waiting generator is sent an order. *)
Theorem C61_fd_flows : forall c d u g H w x f, ids_distinct (ac_W c) -> resources_ok c -> numbered H -> waiting_gen (ac_W c) w ->
  o_err (finite_diff_alloc c d u false g H) = None -> x < fd_n u -> f < fd_p u -> complete_pair H (fd_nf u) x f -> 0 < fd_nf u ->
  exists k, In (w, k) (o_work (finite_diff_alloc c d u false g H)) /\ k_tag k = EVAL_GEN /\ forall i, pair_result H x f i -> In i (k_rows k).
Proof.
  intros c d u g H w x f Hi Hr Hn Hw He Hx Hf (l & [L1 L2] & L3) Hp.
  assert (HP : forall i, pair_result H x f i -> In i (fd_send u H)).
  { intros i P. apply fd_send_spec; auto. exists x, f. repeat (split; [solve [auto]|]). split; auto. exists l. split; [split; auto|auto]. }
  destruct (fd_flows c d g H Hi u w Hw) as (k & K1 & K2 & K3); auto.
  - destruct l as [|i l]; [cbn in L3; lia|]. intros E. specialize (HP i). rewrite E in HP. apply HP, L2. now left.
  - exists k. rewrite K3. auto.
Qed.
Print Assumptions C61_fd_flows.

(** The run ends when the generator has ended: the function asks for it exactly
    when there are points and nobody runs a persistent generator, and then gives
    nothing. *)
Theorem C61_fd_shutdown : forall c d u g H, ids_distinct (ac_W c) -> resources_ok c ->
  (o_flag (finite_diff_alloc c d u false g H) = 1 <-> H <> [] /\ ~ persistent_gen (ac_W c)) /\
  (o_flag (finite_diff_alloc c d u false g H) = 1 -> o_work (finite_diff_alloc c d u false g H) = []).
Proof. intros c d u g H Hi Hr. destruct (fd_facts c d u g H Hi Hr) as (_ & _ & F1 & F2 & _). auto. Qed.
Print Assumptions C61_fd_shutdown.

(** Oldest points first, and (without resource management) nobody who may take a
    point is left without work while a point waits. *)
Theorem C61_fd_oldest_first : forall c d u g H, ids_distinct (ac_W c) -> resources_ok c -> let out := finite_diff_alloc c d u false g H in
  (forall i j, In i (sim_rows (o_work out)) -> evaluable H j -> ~ In j (sim_rows (o_work out)) -> i < j) /\
  (o_flag out = 0 -> ac_manage c = false -> o_err out = None -> (forall i, evaluable H i -> In i (sim_rows (o_work out))) \/
     forall w, free_worker (ac_W c) w -> (some_gen_only (ac_W c) -> ~ gen_only (ac_W c) w) -> In w (map fst (o_work out))).
Proof. intros c d u g H Hi Hr. destruct (fd_facts c d u g H Hi Hr) as (_ & _ & _ & _ & F). exact F. Qed.
Print Assumptions C61_fd_oldest_first.

(** A call starts at most one generator. *)
Theorem C61_fd_one_start : forall c d u stop g H w k w' k',
  In (w, k) (o_work (finite_diff_alloc c d u stop g H)) -> k_tag k = EVAL_GEN -> ~ waiting_gen (ac_W c) w ->
  In (w', k') (o_work (finite_diff_alloc c d u stop g H)) -> k_tag k' = EVAL_GEN -> ~ waiting_gen (ac_W c) w' -> w = w'.
Proof.
  intros c d u stop g H w k w' k'. destruct stop; [intros []|]. intros Hin T Hw Hin' T' Hw'. destruct (fd_one_start c d g H u) as (w0 & O).
  destruct (O w k Hin T) as [X| ->]; [contradiction|]. destruct (O w' k' Hin' T') as [X| ->]; [contradiction|reflexivity].
Qed.
Print Assumptions C61_fd_one_start.

(** Examples: worker 1 waits as a persistent generator, 2 and 4 are free, 3 is busy;
    pair (0, 0) is complete, pair (0, 1) is not, row 4 waits. *)
Definition fd_row (id x f : Z) (started ended : bool) : row := fun g =>
  match g with
  | F_sim_id => vint id | F_sim_started => vbool started | F_sim_ended => vbool ended | F_gen_worker => vint 1
  | F_user s => if String.eqb s "x_ind" then vint x else if String.eqb s "f_ind" then vint f else vint 0
  | _ => vint 0
  end.
Definition fdH : list row := [fd_row 0 0 0 true true; fd_row 1 0 1 true true; fd_row 2 0 0 true true; fd_row 3 0 1 true false; fd_row 4 0 1 false false].
Definition pW : list wrow :=
  [mkW 1 false 0 2 false 0 false; mkW 2 false 0 0 false 0 false; mkW 3 false 1 0 false 0 false; mkW 4 false 0 0 false 0 false].
Definition pc : actx := actx_with None pW.
Definition fdu : fd_user := mkFD 1 2 2.
Lemma pc_ok : ids_distinct (ac_W pc) /\ resources_ok pc.
Proof. split; [repeat constructor; cbn; intuition discriminate|]. split; [intros l; apply Permutation_refl|exact I]. Qed.
Lemma fdH_numbered : numbered fdH.
Proof. intros i r E. do 5 (destruct i as [|i]; [injection E as <-; reflexivity|]). destruct i; discriminate. Qed.
Example C61_fd_cases :
  show (o_work (finite_diff_alloc pc ad fdu false 0 fdH)) = [(1, 2, [0; 2], None); (2, 1, [4], None)] /\
  show (o_work (finite_diff_alloc pc ad (mkFD 1 2 1) false 0 fdH)) = [(1, 2, [1], None); (2, 1, [4], None)] /\
  show (o_work (finite_diff_alloc (actx_with None aW) ad fdu false 0 [])) = [(1, 2, [], None)] /\
  o_flag (finite_diff_alloc (actx_with None aW) ad fdu false 0 fdH) = 1.
Proof. vm_compute; repeat split; reflexivity. Qed.
Lemma fdH_pair : complete_pair fdH 2 0 0.
Proof.
  exists [0; 2]. split; [|reflexivity]. split; [repeat constructor; cbn; intuition discriminate|]. intros i. split.
  - intros [<-|[<-|[]]]; (split; [eexists; split; reflexivity|]; split; [eexists; split; reflexivity|split; reflexivity]).
  - intros ((r & E & A) & _ & _ & B). do 5 (destruct i as [|i]; [cbn in *; auto; try discriminate|]). destruct i; discriminate.
Qed.
Example C61_fd_flows_met : exists k, In (1, k) (o_work (finite_diff_alloc pc ad fdu false 0 fdH)) /\ k_tag k = EVAL_GEN /\ forall i, pair_result fdH 0 0 i -> In i (k_rows k).
Proof.
  apply C61_fd_flows; try apply pc_ok; try exact fdH_numbered; try exact fdH_pair; cbn; try lia; try reflexivity.
  exists (mkW 1 false 0 2 false 0 false). cbn. auto.
Qed.

(** A pair that came back with more evaluations than expected is never sent. *)
Theorem C61_fd_surplus_kept_back_refuted : exists c d u H x f i, ids_distinct (ac_W c) /\ resources_ok c /\ numbered H /\ x < fd_n u /\ f < fd_p u /\
  pair_result H x f i /\ (exists w, waiting_gen (ac_W c) w) /\ (exists l, lists l (pair_result H x f) /\ fd_nf u < length l) /\
  forall w k, In (w, k) (o_work (finite_diff_alloc c d u false 0 H)) -> ~ In i (k_rows k).
Proof.
  exists pc, ad, (mkFD 1 2 1), fdH, 0, 0, 0. split; [apply pc_ok|]. split; [apply pc_ok|]. split; [exact fdH_numbered|]. split; [cbn; lia|]. split; [cbn; lia|].
  destruct fdH_pair as (l & L & E). split; [apply (proj2 L); destruct L as [_ L]; apply L; split; [eexists; split; reflexivity|]; split; [eexists; split; reflexivity|split; reflexivity]|].
  split; [exists 1, (mkW 1 false 0 2 false 0 false); cbn; auto|]. split; [exists l; split; [exact L|cbn; lia]|].
  intros w k Hin. vm_compute in Hin. destruct Hin as [Hin|[Hin|[]]]; injection Hin as <- <-; cbn; intuition discriminate.
Qed.
Print Assumptions C61_fd_surplus_kept_back_refuted.

(** The generator cannot be started when no worker is free: IndexError. *)
Theorem C61_fd_no_worker_crash_refuted : exists c d u, ids_distinct (ac_W c) /\ resources_ok c /\
  o_err (finite_diff_alloc c d u false 0 []) = Some EIndex.
Proof.
  exists (actx_with None [mkW 1 false 1 0 false 0 false]), ad, fdu.
  split; [repeat constructor; cbn; intuition discriminate|]. split; [split; [intros l; apply Permutation_refl|exact I]|]. vm_compute; reflexivity.
Qed.
Print Assumptions C61_fd_no_worker_crash_refuted.

(** ** APOSMM: persistent_aposmm_alloc *)

(** On the first call every point of H0 must have been evaluated and returned (or
    cancelled); otherwise the run stops with an AssertionError. No point of H0 is
    given out, and the sample points of H0 are counted. *)
Theorem C61_aposmm_first_call : forall c d init g p H out p', ids_distinct (ac_W c) -> resources_ok c -> ap_first p = true ->
  persistent_aposmm_alloc c d init false g p H = (out, p') ->
  (all_returned H -> sim_rows (o_work out) = [] /\ ap_first p' = false /\ ap_next p' = length H /\ ap_samples p' = length (filter (fun r => negb (truthy (r (F_user "local_pt")))) H)) /\
  (~ all_returned H -> o_err out = Some EAssert /\ o_work out = [] /\ p' = p).
Proof.
  intros c d init g p H out p' Hi Hr Hf E. unfold persistent_aposmm_alloc in E. rewrite Hf in E.
  assert (HA : all_sim_started H (fun _ => true) 0 && all_sim_ended H (fun _ => true) 0 && all_gen_informed H (fun _ => true) 0 = true <-> all_returned H).
  { rewrite !andb_true_iff. unfold all_sim_started, all_sim_ended, all_gen_informed. rewrite !all_selected_spec. unfold all_returned, given_up, flag. split.
    - intros ((A1 & A2) & A3) i r Er. specialize (A1 i r (Nat.le_0_l i) Er eq_refl). specialize (A2 i r (Nat.le_0_l i) Er eq_refl). specialize (A3 i r (Nat.le_0_l i) Er eq_refl).
      destruct (truthy (r F_cancel_requested)), (truthy (r F_sim_started)); cbn in *; auto.
    - intros A. split; [split|]; intros i r _ Er _; specialize (A i r Er); destruct (truthy (r F_cancel_requested)), (truthy (r F_sim_started)); cbn; intuition congruence. }
  destruct (_ && _) eqn:Ea.
  - split; [|intros Hn; exfalso; apply Hn; now apply HA]. intros _.
    set (p1 := mkAP false _ _ _ _) in E. assert (N1 : ap_next p1 <= length H) by (cbn; lia).
    destruct (aposmm_facts c d init g p1 p' H out Hi Hr N1 E) as (_ & _ & _ & F1 & F2 & F3 & F4 & _).
    cbn in F3. assert (ap_next p' = length H) by lia. rewrite F1, F2. split; [|auto]. rewrite F4 by (right; reflexivity). apply wanted_empty. cbn. lia.
  - injection E as <- <-. split; [|auto]. intros HR. apply HA in HR. congruence.
Qed.
Print Assumptions C61_aposmm_first_call.

(** One call is sound, provided the points behind the position "next_to_give"
    were not given out by somebody else. *)
Theorem C61_aposmm_sound : forall c d init stop g p H out p', ids_distinct (ac_W c) -> resources_ok c ->
  (ap_first p = false -> ap_next p <= length H /\ forall i r, ap_next p <= i -> nth_error H i = Some r -> truthy (r F_sim_started) = false) ->
  persistent_aposmm_alloc c d init stop g p H = (out, p') -> sound_call c d H out.
Proof.
  intros c d init stop g p H out p' Hi Hr Hp. unfold persistent_aposmm_alloc.
  assert (Rest : forall p1, ap_next p1 <= length H -> (forall i r, ap_next p1 <= i -> nth_error H i = Some r -> truthy (r F_sim_started) = false) ->
    aposmm_rest c d init g p1 H = (out, p') -> sound_call c d H out).
  { intros p1 N1 N2 E. destruct (aposmm_facts c d init g p1 p' H out Hi Hr N1 E) as ((s & A) & HR & _). eapply (acc_sound c d H _ _ _ s); [exact A| | |].
    - intros q [(U1 & U2 & U3 & _)|[[U _]|(U1 & U2 & U3 & U4 & _)]]; [left; split; auto|right; now rewrite HR|left; split; auto].
    - intros i Hin. apply wanted_In in Hin. destruct Hin as [Hin (r & Er & Hc)]. exists r. split; auto. split; auto. apply (N2 i); auto. lia.
    - rewrite HR. apply same_system_refl. }
  destruct stop; [intros [= <- <-]; apply nothing_sound|]. destruct (ap_first p).
  - destruct (_ && _); [|intros [= <- <-]; apply nothing_sound]. apply Rest; [cbn [ap_next]; apply Nat.le_refl|]. cbn [ap_next]. intros i r Hle E. exfalso. apply (proj1 (Nat.le_ngt _ _) Hle). apply nth_error_Some. intros X. discriminate (eq_trans (eq_sym E) X).
  - destruct (_ =? 0); [intros [= <- <-]; apply nothing_sound|]. now apply Rest; apply Hp.
Qed.
Print Assumptions C61_aposmm_sound.

(** Points go out in the order of their rows: exactly the rows not cancelled
    between the old and the new position. *)
Theorem C61_aposmm_in_order : forall c d init g p H out p', ids_distinct (ac_W c) -> resources_ok c ->
  ap_first p = false -> ap_started p = true -> ap_next p <= length H ->
  persistent_aposmm_alloc c d init false g p H = (out, p') ->
  sim_rows (o_work out) = wanted_between H (ap_next p) (ap_next p') /\ ap_next p <= ap_next p' <= length H.
Proof.
  intros c d init g p H out p' Hi Hr Hf Hs Hn. unfold persistent_aposmm_alloc. rewrite Hf.
  destruct (_ =? 0); [intros [= <- <-]; cbn; split; [symmetry; apply wanted_empty; lia|lia]|]. intros E.
  destruct (aposmm_facts c d init g p p' H out Hi Hr Hn E) as (_ & _ & _ & _ & _ & F1 & F2 & _). auto.
Qed.
Print Assumptions C61_aposmm_in_order.

(** The generator is sent exactly the results it has not been told of, and only
    once the initial sample is complete. When it is and results are due, a waiting
    generator gets them. *)
Theorem C61_aposmm_sample_first : forall c d init g p H out p', ids_distinct (ac_W c) -> resources_ok c ->
  ap_first p = false -> ap_next p <= length H -> persistent_aposmm_alloc c d init false g p H = (out, p') ->
  (forall w k, In (w, k) (o_work out) -> k_tag k = EVAL_GEN ->
     waiting_gen (ac_W c) w /\ k_rows k <> [] /\ lists (k_rows k) (due H) /\ (ap_done p = true \/ init + ap_samples p <= num_ended H) \/
     free_worker (ac_W c) w /\ k_persistent k = true /\ k_rows k = seq 0 (length H) /\ ap_started p = false) /\
  (forall w, waiting_gen (ac_W c) w -> ap_done p = true \/ init + ap_samples p <= num_ended H -> (exists i, due H i) -> o_err out = None ->
     exists k, In (w, k) (o_work out) /\ k_tag k = EVAL_GEN) /\
  (o_flag out = 1 <-> ~ persistent_gen (ac_W c)).
Proof.
  intros c d init g p H out p' Hi Hr Hf Hn. unfold persistent_aposmm_alloc. rewrite Hf.
  pose proof (count_persis_zero (ac_W c)) as CP. destruct (Nat.eqb_spec (count_persis_gens (ac_W c)) 0) as [E0|E0].
  - intros [= <- <-]. cbn. split; [intros w k []|]. split; [|split; auto; intros _; now apply CP].
    intros w (r & R1 & R2 & R3 & R4). apply CP in E0. exfalso. apply E0. exists r. auto.
  - intros E. destruct (aposmm_facts c d init g p p' H out Hi Hr Hn E) as ((s & A) & _ & F0 & _).
    assert (D : forall i, In i (ap_returned H) <-> due H i).
    { intros i. unfold ap_returned. rewrite rows_where_In. unfold due, ended, untold, flag. split.
      - intros (r & Er & Hb). apply andb_true_iff in Hb. destruct Hb as [B1 B2]. apply negb_true_iff in B2. split; exists r; auto.
      - intros [(r & Er & B1) (r' & Er' & B2)]. rewrite Er in Er'. injection Er' as <-. exists r. split; auto. now rewrite B1, B2. }
    split; [|split].
    + intros w k Hin T. destruct (acc_units _ _ _ _ _ A _ Hin) as [(U1 & U2 & U3 & U4 & U5 & U6 & U7)|[[[(U & _) _] _]|(U1 & U2 & U3 & U4 & U5 & U6 & U7 & U8)]]; cbn in *.
      * left. split; auto. split; auto. split; [rewrite U5; split; [apply rows_where_NoDup|exact D]|exact U7].
      * rewrite T in U. discriminate.
      * right. auto.
    + intros w Hw He (i & Hd) Herr. destruct (aposmm_flows c d g H Hi init p p' out w Hw) as (k & K1 & K2 & _); auto.
      * intros Hnil. apply D in Hd. now rewrite Hnil in Hd.
      * exists k. auto.
    + rewrite F0. split; [discriminate|]. intros Hx. apply CP in Hx. contradiction.
Qed.
Print Assumptions C61_aposmm_sample_first.

(** A whole run, from the first call on: no point is given twice and none of H0
    is; only one generator is ever started; and results go to the generator only
    after a call that saw the whole initial sample evaluated. *)
Theorem C61_aposmm_run : forall d init l s s' c0 H0 out0,
  calls_of (aposmm_call d init) s l s' -> calls_fit l ->
  ap_first (snd s) = true -> ap_done (snd s) = false -> ap_started (snd s) = false -> nth_error l 0 = Some (c0, H0, out0) -> o_err out0 = None ->
  NoDup (all_given l) /\ (forall i, In i (all_given l) -> length H0 <= i) /\
  (forall j c H out w k j' c' H' out' w' k', nth_error l j = Some (c, H, out) -> In (w, k) (o_work out) -> k_tag k = EVAL_GEN -> ~ waiting_gen (ac_W c) w ->
     nth_error l j' = Some (c', H', out') -> In (w', k') (o_work out') -> k_tag k' = EVAL_GEN -> ~ waiting_gen (ac_W c') w' -> j = j' /\ w = w') /\
  (forall j c H out w k, nth_error l j = Some (c, H, out) -> In (w, k) (o_work out) -> k_tag k = EVAL_GEN -> waiting_gen (ac_W c) w ->
     exists j' c' H' out', j' <= j /\ nth_error l j' = Some (c', H', out') /\ init + length (filter (fun r => negb (truthy (r (F_user "local_pt")))) H0) <= num_ended H').
Proof.
  intros d init l [g p] s' c0 H0 out0 C Fit Hf Hd Hs N0 He. cbn [snd] in *. inversion C as [|p0 [g1 p1] p2 c H out l' E C']; subst; [discriminate|].
  injection N0 as -> -> ->. destruct (proj1 Fit c0 H0 out0 (or_introl eq_refl)) as [Hi Hr].
  assert (exists q, ap_first q = false /\ ap_done q = false /\ ap_started q = false /\ ap_next q = length H0 /\
    ap_samples q = length (filter (fun r => negb (truthy (r (F_user "local_pt")))) H0) /\ ap_step c0 init q p1 H0 out0) as (q & Q1 & Q2 & Q3 & Q4 & Q5 & St).
  { unfold aposmm_call in E. cbn [fst snd] in E. destruct (persistent_aposmm_alloc c0 d init false g p H0) as [o q] eqn:E'. injection E as -> <- ->.
    unfold persistent_aposmm_alloc in E'. rewrite Hf in E'. destruct (_ && _); [|injection E' as <- <-; discriminate].
    match type of E' with aposmm_rest _ _ _ _ ?q _ = _ => exists q end.
    split; [reflexivity|]. split; [exact Hd|]. split; [exact Hs|]. split; [reflexivity|]. split; [reflexivity|]. refine (ap_step_rest _ _ _ _ _ _ _ _ Hi Hr _ E'). apply Nat.le_refl. }
  destruct St as [S1 S2 S3 S4 S5 S6 S7 S8 S9 S10].
  destruct (aposmm_later d init _ _ _ C') as (I1 & I2 & I3 & I4 & I5); cbn [snd] in *; [congruence|eapply calls_fit_tail; eauto| |].
  { intros c1 H1 o1 N1. pose proof (proj2 Fit 0 c0 H0 out0 c1 H1 o1 eq_refl N1) as L. clear - L S3. lia. }
  unfold all_given in *. cbn [map concat snd]. split; [|split; [|split]].
  - apply NoDup_app_intro; auto. intros i X Y. apply S5 in X. apply I2 in Y. clear - X Y. lia.
  - intros i Hin. apply in_app_or in Hin. destruct Hin as [Hin|Hin]; [apply S5 in Hin; clear - Hin Q4; lia|apply I2 in Hin; clear - Hin Q4 S3; lia].
  - intros [|j] c H o w k [|j'] c1 H1 o1 w' k' N Hin T Hw N' Hin' T' Hw'.
    + injection N as <- <- <-. injection N' as <- <- <-. split; auto. exact (S8 w k w' k' Hin T Hw Hin' T' Hw').
    + injection N as <- <- <-. destruct (S7 w k Hin T Hw) as [_ X]. rewrite (I3 j' c1 H1 o1 w' k' N' Hin' T' Hw') in X. discriminate.
    + injection N' as <- <- <-. destruct (S7 w' k' Hin' T' Hw') as [_ X]. rewrite (I3 j c H o w k N Hin T Hw) in X. discriminate.
    + destruct (I4 j c H o w k j' c1 H1 o1 w' k' N Hin T Hw N' Hin' T' Hw') as [-> ->]. auto.
  - rewrite <- Q5. intros [|j] c H o w k N Hin T Hw.
    + injection N as <- <- <-. destruct (S9 w k Hin T Hw) as [X|X]; [congruence|]. exists 0, c0, H0, out0. auto.
    + destruct (I5 j c H o w k N Hin T Hw) as [X|(j' & c' & H' & o' & X1 & X2 & X3)].
      * destruct (S10 X) as [Y|Y]; [congruence|]. exists 0, c0, H0, out0. split; [apply Nat.le_0_l|]. auto.
      * exists (S j'), c', H', o'. rewrite <- S2. split; [now apply le_n_S|]. auto.
Qed.
Print Assumptions C61_aposmm_run.

(** Examples: a run of three calls. The generator is started; two of its three
    points are given; when they are back, and the sample is complete, it is told
    and the third point is given. *)
Fixpoint calls_from {S : Type} (f : actx -> S -> list row -> aout * S) (p : S) (l : list (actx * list row)) : list (actx * list row * aout) :=
  match l with
  | [] => []
  | (c, H) :: l' => (c, H, fst (f c p H)) :: calls_from f (snd (f c p H)) l'
  end.
Lemma calls_from_of {S : Type} (f : actx -> S -> list row -> aout * S) l : forall p, exists p', calls_of f p (calls_from f p l) p'.
Proof.
  induction l as [|[c H] l IH]; intros p; [exists p; constructor|]. cbn. destruct (IH (snd (f c p H))) as (p' & C). exists p'.
  eapply calls_of_more; [apply surjective_pairing|exact C].
Qed.
Definition ap0 : ap_state := mkAP true 0 0 false false.
Definition apl : list (actx * list row) :=
  [(actx_with None (init_workers 4 false [] []), []); (pc, [fd_row 0 0 0 false false; fd_row 1 0 0 false false; fd_row 2 0 0 false false]);
   (pc, [fd_row 0 0 0 true true; fd_row 1 0 0 true true; fd_row 2 0 0 false false])].
Definition ap_calls : list (actx * list row * aout) := calls_from (aposmm_call ad 2) (0, ap0) apl.
Example C61_aposmm_cases : map (fun x => show (o_work (snd x))) ap_calls = [[(1, 2, [], None)]; [(2, 1, [0], None); (4, 1, [1], None)]; [(1, 2, [0; 1], None); (2, 1, [2], None)]].
Proof. vm_compute; reflexivity. Qed.
Lemma ap_calls_fit : calls_fit ap_calls.
Proof.
  split.
  - intros c H out Hin. unfold ap_calls, apl in Hin. cbn [calls_from In] in Hin. destruct Hin as [Hin|[Hin|[Hin|[]]]]; injection Hin as <- _ _; try apply pc_ok.
  - intros k c H out c' H' out' E1 E2. unfold ap_calls, apl in *. cbn [calls_from] in *. destruct k as [|[|[|k]]]; cbn [nth_error] in *; try discriminate.
    + injection E1 as _ <- _. injection E2 as _ <- _. cbn. lia.
    + injection E1 as _ <- _. injection E2 as _ <- _. cbn. lia.
Qed.
Example C61_aposmm_run_met : NoDup (all_given ap_calls).
Proof.
  destruct (calls_from_of (aposmm_call ad 2) apl (0, ap0)) as (s' & C).
  exact (proj1 (C61_aposmm_run ad 2 _ _ s' _ _ _ C ap_calls_fit eq_refl eq_refl eq_refl eq_refl eq_refl)).
Qed.
Example C61_aposmm_first_call_met : o_err (fst (persistent_aposmm_alloc pc ad 2 false 0 ap0 fdH)) = Some EAssert.
Proof.
  apply (C61_aposmm_first_call pc ad 2 0 ap0 fdH _ (snd (persistent_aposmm_alloc pc ad 2 false 0 ap0 fdH))); try apply pc_ok; [reflexivity|apply surjective_pairing|].
  intros A. specialize (A 4 _ eq_refl). cbn in A. intuition discriminate.
Qed.

(** ** Inverse Bayes: only_persistent_gens_for_inverse_bayes *)

(** One call is sound. *)
Theorem C61_bayes_sound : forall c d n stop g H, ids_distinct (ac_W c) -> resources_ok c -> sound_call c d H (inverse_bayes_alloc c d n stop g H).
Proof.
  intros c d n stop g H Hi Hr. destruct stop; [apply nothing_sound|].
  destruct (bayes_facts c d n g H Hi Hr) as ((s & A) & HR & _). eapply (acc_sound c d H (evaluable H)); eauto.
  - intros q [(U1 & U2 & U3 & _)|[[U _]|(U1 & U2 & U3 & U4 & _)]]; [left; split; auto|right; exact U|left; split; auto].
  - apply (same_but_system [F_weight]); auto. intros f [<-|[]]. eexists. reflexivity.
Qed.
Print Assumptions C61_bayes_sound.

(** A generator hears back only when each of its points was evaluated or
    cancelled before it was given, and then it gets its whole last batch and
    nothing else. Otherwise an order to a generator starts it, when no point waits
    and nobody runs one. *)
Theorem C61_bayes_last_batch : forall c d n stop g H w k, ids_distinct (ac_W c) -> resources_ok c ->
  In (w, k) (o_work (inverse_bayes_alloc c d n stop g H)) -> k_tag k = EVAL_GEN ->
  waiting_gen (ac_W c) w /\ (forall i r, nth_error H i = Some r -> generated_by H w i -> settled r) /\ k_rows k <> [] /\ lists (k_rows k) (in_last_batch H w) \/
  free_worker (ac_W c) w /\ k_persistent k = true /\ k_rows k = [] /\ ~ persistent_gen (ac_W c) /\ (forall i, ~ evaluable H i).
Proof.
  intros c d n stop g H w k Hi Hr Hin T. destruct stop; [destruct Hin|]. destruct (bayes_facts c d n g H Hi Hr) as ((s & A) & _).
  destruct (acc_units _ _ _ _ _ A _ Hin) as [(U1 & U2 & U3 & U4 & U5 & U6 & U7)|[[[(U & _) _] _]|(U1 & U2 & U3 & U4 & U5 & U6 & U7)]]; cbn in *.
  - left. auto.
  - rewrite T in U. discriminate.
  - right. auto.
Qed.
Print Assumptions C61_bayes_last_batch.

(** No generator all of whose points are settled is left waiting. *)
Theorem C61_bayes_flows : forall c d n g H w, ids_distinct (ac_W c) -> waiting_gen (ac_W c) w ->
  (forall i r, nth_error H i = Some r -> generated_by H w i -> settled r) -> o_err (inverse_bayes_alloc c d n false g H) = None ->
  exists k, In (w, k) (o_work (inverse_bayes_alloc c d n false g H)) /\ k_tag k = EVAL_GEN.
Proof. intros c d n g H w Hi Hw HS He. destruct (bayes_flows c d g H Hi n w Hw HS He) as (k & K1 & K2 & _). exists k. auto. Qed.
Print Assumptions C61_bayes_flows.

(** A simulation order is one whole subbatch of the points that wait: those with
    the same "subbatch" entry. *)
Theorem C61_bayes_whole_subbatch : forall c d n stop g H w k, ids_distinct (ac_W c) -> resources_ok c ->
  In (w, k) (o_work (inverse_bayes_alloc c d n stop g H)) -> k_tag k = EVAL_SIM ->
  k_rows k <> [] /\ exists b, forall i, In i (k_rows k) <-> evaluable H i /\ icell H "subbatch" i = b.
Proof.
  intros c d n stop g H w k Hi Hr Hin T. destruct stop; [destruct Hin|]. destruct (bayes_facts c d n g H Hi Hr) as ((s & A) & _).
  destruct (acc_units _ _ _ _ _ A _ Hin) as [(U1 & U2 & _)|[(_ & U)|(U1 & U2 & U3 & _)]]; cbn in *; [rewrite T in U2; discriminate|exact U|rewrite T in U3; discriminate].
Qed.
Print Assumptions C61_bayes_whole_subbatch.

(** Nothing waits beside an idle worker, no matter which; and a call starts at most one generator. *)
Theorem C61_bayes_all_busy : forall c d n g H, ids_distinct (ac_W c) -> resources_ok c -> ac_manage c = false ->
  o_err (inverse_bayes_alloc c d n false g H) = None ->
  (forall i, evaluable H i -> In i (sim_rows (o_work (inverse_bayes_alloc c d n false g H)))) \/
  forall w, free_worker (ac_W c) w -> (some_gen_only (ac_W c) -> ~ gen_only (ac_W c) w) -> In w (map fst (o_work (inverse_bayes_alloc c d n false g H))).
Proof. intros c d n g H Hi Hr. destruct (bayes_facts c d n g H Hi Hr) as (_ & _ & _ & F & _). exact F. Qed.
Print Assumptions C61_bayes_all_busy.
Theorem C61_bayes_one_start : forall c d n stop g H w k w' k',
  In (w, k) (o_work (inverse_bayes_alloc c d n stop g H)) -> k_tag k = EVAL_GEN -> ~ waiting_gen (ac_W c) w ->
  In (w', k') (o_work (inverse_bayes_alloc c d n stop g H)) -> k_tag k' = EVAL_GEN -> ~ waiting_gen (ac_W c) w' -> w = w'.
Proof.
  intros c d n stop g H w k w' k'. destruct stop; [intros []|]. intros Hin T Hw Hin' T' Hw'. destruct (bayes_one_start c d g H n) as (w0 & O).
  destruct (O w k Hin T) as [X| ->]; [contradiction|]. destruct (O w' k' Hin' T') as [X| ->]; [contradiction|reflexivity].
Qed.
Print Assumptions C61_bayes_one_start.

(** The only column changed is "weight", and of it only the batch before the last
    (batches of [n] rows, numbered from 0, the last one complete): it may take the
    weights of the last batch, row by row. *)
Theorem C61_bayes_weights : forall c d n stop g H, ids_distinct (ac_W c) -> resources_ok c ->
  let H' := o_rows (inverse_bayes_alloc c d n stop g H) in
  length H' = length H /\
  (forall i r, nth_error H i = Some r -> exists r', nth_error H' i = Some r' /\ forall f, f <> F_user "weight" -> r' f = r f) /\
  forall k, 0 < k -> icell H "batch" (pred (length H)) = Z.of_nat k -> length H = n * S k -> forall i r r', nth_error H i = Some r -> nth_error H' i = Some r' ->
    r' (F_user "weight") = r (F_user "weight") \/
    n * (k - 1) <= i < n * k /\ exists q, nth_error H (i + n) = Some q /\ r' (F_user "weight") = q (F_user "weight").
Proof.
  intros c d n stop g H Hi Hr. destruct stop.
  { cbn. split; auto. split; [intros i r E; exists r; auto|]. intros k _ _ _ i r r' E E'. left. rewrite E in E'. now injection E' as <-. }
  destruct (bayes_facts c d n g H Hi Hr) as (_ & (L & S) & _ & _ & W). cbn zeta. split; auto. split.
  - intros i r E. destruct (S i r E) as (r' & E' & F). exists r'. split; auto. intros f Hf. apply F. intros [X|[]]. now apply Hf.
  - intros k Hk Hb HL i r r' E E'. specialize (W k Hk Hb HL i). unfold weight in W. rewrite E, E' in W. destruct W as [W|[W1 W2]]; [left; now injection W|]. right. split; auto.
    destruct (nth_error H (i + n)) as [q|] eqn:Eq; [|discriminate]. exists q. split; auto. now injection W2.
Qed.
Print Assumptions C61_bayes_weights.

(** Examples: worker 1 waits as the generator of two batches of two points. *)
Definition by_row (id b sb wt gw : Z) (started ended : bool) : row := fun g =>
  match g with
  | F_sim_id => vint id | F_sim_started => vbool started | F_sim_ended => vbool ended | F_gen_worker => vint gw
  | F_user s => if String.eqb s "batch" then vint b else if String.eqb s "subbatch" then vint sb else if String.eqb s "weight" then vint wt else vint 0
  | _ => vint 0
  end.
Definition byH (e : bool) : list row := [by_row 0 0 0 5 1 true true; by_row 1 0 1 6 1 true true; by_row 2 1 0 7 1 e e; by_row 3 1 1 8 1 e e].
Example C61_bayes_cases :
  show (o_work (inverse_bayes_alloc pc ad 2 false 0 (byH true))) = [(1, 2, [2; 3], None)] /\
  map (fun r => as_int (r (F_user "weight"))) (o_rows (inverse_bayes_alloc pc ad 2 false 0 (byH true))) = [7; 8; 7; 8]%Z /\
  show (o_work (inverse_bayes_alloc pc ad 2 false 0 (byH false))) = [(2, 1, [2], None); (4, 1, [3], None)] /\
  show (o_work (inverse_bayes_alloc (actx_with None aW) ad 2 false 0 [])) = [(1, 2, [], None)].
Proof. vm_compute; repeat split; reflexivity. Qed.
Example C61_bayes_flows_met : exists k, In (1, k) (o_work (inverse_bayes_alloc pc ad 2 false 0 (byH true))) /\ k_tag k = EVAL_GEN.
Proof.
  apply C61_bayes_flows; [apply pc_ok|exists (mkW 1 false 0 2 false 0 false); cbn; auto| |vm_compute; reflexivity].
  intros i r E _. do 4 (destruct i as [|i]; [injection E as <-; left; reflexivity|]). destruct i; discriminate.
Qed.

(** With a point that another generator made, or that came with H0, the call
    raises ValueError: it joins a mask over the points of the generator with one
    over the whole history. *)
Theorem C61_bayes_other_points_refuted : exists c d n H, ids_distinct (ac_W c) /\ resources_ok c /\
  (forall i r, nth_error H i = Some r -> settled r) /\ o_err (inverse_bayes_alloc c d n false 0 H) = Some EValue /\
  forall w, o_work (inverse_bayes_alloc c d n false 0 H) = [] /\ (waiting_gen (ac_W c) w -> exists i, generated_by H w i).
Proof.
  exists pc, ad, 2, [by_row 0 0 0 1 0 true true; by_row 1 0 0 1 1 true true; by_row 2 0 0 1 1 true true].
  split; [apply pc_ok|]. split; [apply pc_ok|].
  split; [intros i r E; do 3 (destruct i as [|i]; [injection E as <-; left; reflexivity|]); destruct i; discriminate|].
  split; [vm_compute; reflexivity|]. intros w. split; [vm_compute; reflexivity|]. intros (r & Hin & <- & _ & Hp). exists 1. eexists. split; [reflexivity|].
  cbn in Hin. destruct Hin as [<-|[<-|[<-|[<-|[]]]]]; try discriminate. reflexivity.
Qed.
Print Assumptions C61_bayes_other_points_refuted.

(** ** Local optimisation runs: start_persistent_local_opt_gens *)

(** One call is sound. *)
Theorem C61_local_opt_sound : forall c d o stop g H, ids_distinct (ac_W c) -> resources_ok c -> sound_call c d H (local_opt_alloc c d o stop g H).
Proof.
  intros c d o stop g H Hi Hr. destruct stop; [apply nothing_sound|].
  destruct (local_opt_facts c d o g H Hi Hr) as ((s & A) & HR & _). eapply (acc_sound c d H (evaluable H)); eauto.
  - intros q [(U1 & U2 & U3 & _)|[(U1 & U2 & U3)|[U _]]]; [left; split; auto| |right; exact U].
    left. split; [destruct U3 as [U3|U3]; apply U3|auto].
  - exact (same_but_system _ _ _ lo_cols_user HR).
Qed.
Print Assumptions C61_local_opt_sound.

(** What the generator orders are. A waiting run whose points are all settled is
    sent the one given out last. A free worker starts a new run, once a point of
    the sample has been evaluated, at one of the starting points proposed for it
    and at the best of them; or it is asked for new points, when no persistent
    generator runs and no other generator is at work. *)
Theorem C61_local_opt_orders : forall c d o stop g H w k, ids_distinct (ac_W c) -> resources_ok c ->
  In (w, k) (o_work (local_opt_alloc c d o stop g H)) -> k_tag k = EVAL_GEN ->
  waiting_gen (ac_W c) w /\ k_persistent k = true /\ (forall i r, nth_error H i = Some r -> generated_by H w i -> settled r) /\
    (exists i, k_rows k = [i] /\ generated_by H w i /\ forall j, generated_by H w j -> sc_ge (given_at H i) (given_at H j)) \/
  free_worker (ac_W c) w /\ (some_gen_only (ac_W c) -> gen_only (ac_W c) w) /\
   (k_persistent k = true /\ sampled H /\ (exists i, k_rows k = [i] /\ i < length H /\ In i (lo_starts o w) /\
      ((forall j, In j (lo_starts o w) -> fcell H "f" j <> SNaN) -> forall j, In j (lo_starts o w) -> j < length H -> sc_ge (fcell H "f" j) (fcell H "f" i))) \/
    k_persistent k = false /\ k_rows k = [] /\ ~ persistent_gen (ac_W c) /\ ~ generating (ac_W c)).
Proof.
  intros c d o stop g H w k Hi Hr Hin T. destruct stop; [destruct Hin|]. destruct (local_opt_facts c d o g H Hi Hr) as ((s & A) & _).
  destruct (acc_units _ _ _ _ _ A _ Hin) as [(U1 & U2 & U3 & U4 & U5 & U6)|[(U1 & U2 & [(U3 & U4 & U5 & U6 & U7)|(U3 & U4 & U5 & U6 & U7 & U8)])|[[(U & _) _] _]]]; cbn in *.
  - left. auto.
  - right. split; [exact U1|]. split; [exact U2|]. left. split; [exact U4|]. split; [exact U6|]. exact U7.
  - right. split; [exact U1|]. split; [exact U2|]. right. auto.
  - rewrite T in U. discriminate.
Qed.
Print Assumptions C61_local_opt_orders.

(** New runs never take all workers: with those that are running they are fewer
    than the workers. *)
Theorem C61_local_opt_worker_left : forall c d o stop g H l, ids_distinct (ac_W c) -> resources_ok c ->
  NoDup l -> l <> [] -> (forall w, In w l -> free_worker (ac_W c) w /\ exists k, In (w, k) (o_work (local_opt_alloc c d o stop g H)) /\ k_tag k = EVAL_GEN /\ k_persistent k = true) ->
  length (filter (fun r => w_persis r =? EVAL_GEN) (ac_W c)) + length l < length (ac_W c).
Proof.
  intros c d o stop g H l Hi Hr Hnd Hne Hl. destruct stop; [destruct l as [|w l]; [congruence|]; destruct (Hl w (or_introl eq_refl)) as (_ & k & [] & _)|].
  destruct (local_opt_facts c d o g H Hi Hr) as ((s & A) & _ & _ & (new & N1 & N2) & _).
  assert (In_new : forall w, In w l -> In w (map fst new)).
  { intros w Hw. destruct (Hl w Hw) as (Hf & k & K1 & K2 & K3). apply in_map_iff. exists (w, k). split; auto. apply N2; auto.
    destruct (acc_units _ _ _ _ _ A _ K1) as [(U & _)|[(_ & _ & [U|(_ & U & _)])|[[(U & _) _] _]]]; cbn in *; [destruct (free_not_waiting _ _ Hi Hf U)|exact U|congruence|rewrite K2 in U; discriminate]. }
  assert (new <> []) as Hn. { intros ->. destruct l as [|w l]; [congruence|]. exact (In_new w (or_introl eq_refl)). }
  pose proof (NoDup_incl_length Hnd In_new) as L. rewrite map_length in L. specialize (N1 Hn). change (length (filter (fun r => w_persis r =? EVAL_GEN) (ac_W c))) with (count_persis_gens (ac_W c)). lia.
Qed.
Print Assumptions C61_local_opt_worker_left.

(** Unless new points are asked for in the same call: points of runs are
    evaluated before those of the sample, the oldest first, and no point waits
    beside an idle worker. *)
Theorem C61_local_opt_runs_first : forall c d o g H, ids_distinct (ac_W c) -> resources_ok c ->
  let out := local_opt_alloc c d o false g H in
  (forall w k, In (w, k) (o_work out) -> k_tag k = EVAL_GEN -> k_persistent k = true) ->
  (forall i j, In i (sim_rows (o_work out)) -> evaluable H j -> ~ In j (sim_rows (o_work out)) -> before H i j) /\
  (ac_manage c = false -> o_err out = None -> (forall i, evaluable H i -> In i (sim_rows (o_work out))) \/
     forall w, free_worker (ac_W c) w -> (some_gen_only (ac_W c) -> ~ gen_only (ac_W c) w) -> In w (map fst (o_work out))).
Proof.
  intros c d o g H Hi Hr out Hs. destruct (local_opt_facts c d o g H Hi Hr) as (_ & _ & _ & _ & _ & F). apply F.
  intros [w k] Hq (S1 & S2 & _). cbn in *. specialize (Hs w k Hq S1). congruence.
Qed.
Print Assumptions C61_local_opt_runs_first.

(** No run all of whose points are settled is left waiting. *)
Theorem C61_local_opt_flows : forall c d o g H w, ids_distinct (ac_W c) -> waiting_gen (ac_W c) w ->
  (forall i r, nth_error H i = Some r -> generated_by H w i -> settled r) -> o_err (local_opt_alloc c d o false g H) = None ->
  exists k, In (w, k) (o_work (local_opt_alloc c d o false g H)) /\ k_tag k = EVAL_GEN.
Proof. intros c d o g H w Hi Hw HS He. exact (local_opt_flows c d g H Hi o w Hw HS He). Qed.
Print Assumptions C61_local_opt_flows.

(** Examples: worker 1 waits as a run with points 0 (latest) and 1; 2 is the best
    starting point of those proposed; point 3 belongs to a run. *)
Definition lo_row (gw : Z) (loc st en : bool) (t f : sc) : row := fun g =>
  match g with
  | F_sim_started => vbool st | F_sim_ended => vbool en | F_gen_worker => vint gw | F_sim_started_time => VS t
  | F_user s => if String.eqb s "local_pt" then vbool loc else if String.eqb s "f" then VS f else vint 0
  | _ => vint 0
  end.
Definition loH : list row :=
  [lo_row 1 true true true (SNum 9) (SNum 1); lo_row 1 true true true (SNum 5) (SNum 1); lo_row 0 false true true (SNum 1) (SNum 2);
   lo_row 0 false false false (SNum 0) (SNum 0); lo_row 3 true false false (SNum 0) (SNum 0); lo_row 0 false true true (SNum 0) (SNum 8)].
Definition lo_none : lo_oracle := mkLO None (fun _ _ => vint 0) (fun _ _ _ => vint 0) (fun _ => []).
Definition lo_some : lo_oracle := mkLO None (fun _ _ => vint 0) (fun _ _ _ => vint 0) (fun w => if w =? 4 then [5; 2] else []).
Definition genW : list wrow := [mkW 1 false 0 2 false 0 false; mkW 2 false 0 0 false 0 false; mkW 3 false 1 0 false 0 false; mkW 4 true 0 0 false 0 false].
Definition show_all (d : wdict) := map (fun p => (fst p, k_tag (snd p), k_rows (snd p), k_persistent (snd p), k_team (snd p))) d.
Lemma shown d w t r b l : In (w, t, r, b, l) (show_all d) -> exists k, In (w, k) d /\ k_tag k = t /\ k_rows k = r /\ k_persistent k = b /\ k_team k = l.
Proof. unfold show_all. rewrite in_map_iff. intros ([w' k] & E & Hin). injection E as <- <- <- <- <-. exists k. auto 10. Qed.
Lemma all_shown d w k : In (w, k) d -> In (w, k_tag k, k_rows k, k_persistent k, k_team k) (show_all d).
Proof. intros Hin. exact (in_map (fun p => (fst p, k_tag (snd p), k_rows (snd p), k_persistent (snd p), k_team (snd p))) _ _ Hin). Qed.
Example C61_local_opt_cases :
  show (o_work (local_opt_alloc pc ad lo_none false 0 loH)) = [(1, 2, [0], None); (2, 1, [4], None); (4, 1, [3], None)] /\
  show (o_work (local_opt_alloc (actx_with None genW) ad lo_some false 0 loH)) = [(1, 2, [0], None); (4, 2, [2], None); (2, 1, [4], None)] /\
  show (o_work (local_opt_alloc (actx_with None aW) ad lo_none false 0 [])) = [(1, 2, [], None)].
Proof. vm_compute; repeat split; reflexivity. Qed.
Example C61_local_opt_flows_met : exists k, In (1, k) (o_work (local_opt_alloc pc ad lo_none false 0 loH)) /\ k_tag k = EVAL_GEN.
Proof.
  apply C61_local_opt_flows; [apply pc_ok|exists (mkW 1 false 0 2 false 0 false); cbn; auto| |vm_compute; reflexivity].
  intros i r E Hg. do 6 (destruct i as [|i]; [injection E as <-; first [left; reflexivity|destruct Hg as (r & E & X); injection E as <-; discriminate]|]). destruct i; discriminate.
Qed.
Example C61_local_opt_worker_left_met : length (filter (fun r => w_persis r =? EVAL_GEN) genW) + length [4] < length genW.
Proof.
  apply (C61_local_opt_worker_left (actx_with None genW) ad lo_some false 0 loH [4]); [repeat constructor; cbn; intuition discriminate|split; [intros l; apply Permutation_refl|exact I]|repeat constructor; auto|discriminate|].
  intros w [<-|[]]. split; [exists (mkW 4 true 0 0 false 0 false); cbn; auto 10|]. 
  destruct (shown (o_work (local_opt_alloc (actx_with None genW) ad lo_some false 0 loH)) 4 2 [2] true None) as (k & K1 & K2 & _ & K3 & _); [vm_compute; auto 10|]. exists k. auto.
Qed.

(** A run that was recorded as started in the history is not started: the worker
    is given a simulation in the same call, which replaces the order. *)
Theorem C61_local_opt_run_lost_refuted : exists c d o H i, ids_distinct (ac_W c) /\ resources_ok c /\ o_err (local_opt_alloc c d o false 0 H) = None /\
  icell H "started_run" i = 0%Z /\ icell (o_rows (local_opt_alloc c d o false 0 H)) "started_run" i = 1%Z /\
  forall w k, In (w, k) (o_work (local_opt_alloc c d o false 0 H)) -> k_tag k = EVAL_GEN -> ~ In i (k_rows k).
Proof.
  exists pc, ad, lo_some, loH, 2. split; [apply pc_ok|]. split; [apply pc_ok|]. split; [vm_compute; reflexivity|]. split; [vm_compute; reflexivity|]. split; [vm_compute; reflexivity|].
  intros w k Hin T Hi. apply all_shown in Hin.
  assert (E : show_all (o_work (local_opt_alloc pc ad lo_some false 0 loH)) = [(1, 2, [0], true, None); (4, 1, [3], false, None); (2, 1, [4], false, None)]) by (vm_compute; reflexivity).
  rewrite E in Hin. clear E. revert T Hi Hin. generalize (k_tag k) (k_rows k) (k_persistent k) (k_team k). clear. intros t l b m -> Hi Hin. cbn in Hin.
  destruct Hin as [Hin|[Hin|[Hin|[]]]]; try discriminate Hin; injection Hin as _ <- _ _; destruct Hi as [Hi|[]]; discriminate.
Qed.
Print Assumptions C61_local_opt_run_lost_refuted.

(** The order for new points can replace the simulation that the same call gave
    to the first worker: the point goes on waiting although a worker was idle for it. *)
Theorem C61_local_opt_sim_displaced_refuted : exists c d o H, ids_distinct (ac_W c) /\ resources_ok c /\ ac_manage c = false /\
  o_err (local_opt_alloc c d o false 0 H) = None /\ (exists i, evaluable H i /\ ~ In i (sim_rows (o_work (local_opt_alloc c d o false 0 H)))) /\
  exists w, free_worker (ac_W c) w /\ ~ In w (map fst (o_work (local_opt_alloc c d o false 0 H))).
Proof.
  exists (actx_with None [mkW 1 false 0 0 false 0 false; mkW 2 false 0 0 false 0 false]), ad, lo_none, [lo_row 0 false false false (SNum 0) (SNum 0)].
  split; [repeat constructor; cbn; intuition discriminate|]. split; [split; [intros l; apply Permutation_refl|exact I]|]. split; [reflexivity|]. split; [vm_compute; reflexivity|].
  split.
  - exists 0. split; [eexists; split; [reflexivity|split; reflexivity]|]. vm_compute. auto.
  - exists 2. split; [exists (mkW 2 false 0 0 false 0 false); cbn; auto|]. vm_compute. intuition discriminate.
Qed.
Print Assumptions C61_local_opt_sim_displaced_refuted.

(** A run all of whose points were cancelled before they were given is sent a
    point that was never evaluated. *)
Theorem C61_local_opt_unevaluated_refuted : exists c d o H w k i, ids_distinct (ac_W c) /\ resources_ok c /\
  In (w, k) (o_work (local_opt_alloc c d o false 0 H)) /\ k_tag k = EVAL_GEN /\ waiting_gen (ac_W c) w /\ k_rows k = [i] /\ ~ ended H i.
Proof.
  set (H := [setf F_cancel_requested (vbool true) (lo_row 1 true false false (SNum 0) (SNum 0))]).
  destruct (shown (o_work (local_opt_alloc pc ad lo_none false 0 H)) 1 2 [0] true None) as (k & K1 & K2 & K3 & _); [vm_compute; auto|].
  exists pc, ad, lo_none, H, 1, k, 0. split; [apply pc_ok|]. split; [apply pc_ok|]. split; [exact K1|]. split; [exact K2|].
  split; [exists (mkW 1 false 0 2 false 0 false); cbn; auto|]. split; [exact K3|]. intros (r & E & T). injection E as <-. discriminate.
Qed.
Print Assumptions C61_local_opt_unevaluated_refuted.

(** The order for new points holds resource sets although the function asks for
    none (rset_team=[], which is not told from no team at all). *)
Theorem C61_local_opt_no_team_refuted : exists c d o H w k l, ids_distinct (ac_W c) /\ resources_ok c /\
  In (w, k) (o_work (local_opt_alloc c d o false 0 H)) /\ k_tag k = EVAL_GEN /\ k_persistent k = false /\ k_rows k = [] /\ k_team k = Some l /\ l <> [].
Proof.
  set (c := mkAC aW false true (Some ex_busy) true true (fun l => l) 4 1 1 None 0 0 [F_user "x"] [F_sim_id] [F_user "f"]).
  destruct (shown (o_work (local_opt_alloc c ad lo_none false 0 [])) 1 2 [] false (Some [2])) as (k & K1 & K2 & K3 & K4 & K5); [vm_compute; auto|].
  exists c, ad, lo_none, [], 1, k, [2]. split; [apply ac_managed_ok|]. split; [split; [intros l; apply Permutation_refl|exact ex_reachable]|]. repeat (split; [assumption|]). discriminate.
Qed.
Print Assumptions C61_local_opt_no_team_refuted.
