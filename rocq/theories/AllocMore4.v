(** Facts about local_opt_alloc. *)
From Coq Require Import String Permutation Sorted.
From Verif Require Import Base BaseLemmas HistoryModel HistoryProofs WorkModel RsetModel RsetSpec SchedModel SchedSpec SchedServe AllocModel AllocSpec AllocProofs AllocLoops AllocFacts AllocFast AllocPersis AllocModel2 AllocSpec2 AllocMore AllocMore2 AllocMore3.
Local Notation length := List.length.
Local Open Scope list_scope.
Local Open Scope nat_scope.

(** ** The columns that change *)
Definition lo_cols : list field := lo_run_cols ++ lo_dist_cols ++ [F_started_run].
Lemma overlay_same cols v H : same_but cols H (overlay cols v H).
Proof.
  unfold overlay. split; [rewrite map_length, combine_length, seq_length; lia|].
  intros i r E. pose proof (nth_mapi (fun j (q : row) => (fun f => if has f cols then v j f else q f) : row) H 0 i) as X. cbn [Nat.add] in X.
  eexists. split; [etransitivity; [exact X|rewrite E; reflexivity]|]. intros f Hf. cbn. apply has_notin in Hf. now rewrite Hf.
Qed.
Lemma upd_same cols H i g : (forall r f, ~ In f cols -> g r f = r f) -> same_but cols H (upd H i g).
Proof.
  intros Hg. split; [apply upd_length|]. intros j r E. rewrite upd_nth, E. destruct (_ =? _); cbn; eexists; split; try reflexivity; auto.
Qed.
Lemma lo_cols_user f : In f lo_cols -> exists n, f = F_user n.
Proof. cbn. intuition (subst; eexists; reflexivity). Qed.
Lemma lo_local : ~ In F_local_pt lo_cols. Proof. apply has_notin. vm_compute. reflexivity. Qed.
Lemma lo_obj : ~ In F_obj lo_cols. Proof. apply has_notin. vm_compute. reflexivity. Qed.
Lemma lo_sys f : (forall n, f <> F_user n) -> ~ In f lo_cols.
Proof. intros Hf Hin. destruct (lo_cols_user f Hin) as [n ->]. exact (Hf n eq_refl). Qed.

(** ** Choices *)
Lemma argmin_min l : forall b, exists v, In (argmin_from b l, v) (b :: l) /\ ((forall p, In p (b :: l) -> snd p <> SNaN) -> forall p, In p (b :: l) -> sc_ge (snd p) v).
Proof.
  induction l as [|p l IH]; intros b; cbn [argmin_from].
  - exists (snd b). split; [left; now destruct b|]. intros _ p [<-|[]]. apply sc_ge_refl.
  - set (b' := if is_nan (snd b) then b else if is_nan (snd p) then p else if sc_lt (snd p) (snd b) then p else b).
    destruct (IH b') as (v & H1 & H2). exists v.
    assert (B : b' = b \/ b' = p) by (unfold b'; destruct (is_nan (snd b)), (is_nan (snd p)), (sc_lt (snd p) (snd b)); auto).
    split; [destruct H1 as [H1|H1]; [|right; now right]; rewrite <- H1; destruct B as [-> | ->]; cbn; auto|].
    intros Hn. assert (Hb : sc_ge (snd b) (snd b') /\ sc_ge (snd p) (snd b')).
    { unfold b'. pose proof (Hn b (or_introl eq_refl)) as N1. pose proof (Hn p (or_intror (or_introl eq_refl))) as N2.
      destruct (snd b) as [x| |] eqn:Eb, (snd p) as [y| |] eqn:Ep; cbn; rewrite ?Eb, ?Ep; cbn; auto; try congruence; try (split; auto; lia).
      destruct (Z.ltb_spec y x); rewrite ?Eb, ?Ep; cbn; split; lia. }
    assert (Hn' : forall q, In q (b' :: l) -> snd q <> SNaN). { intros q [<-|Hq]; [destruct B as [-> | ->]; apply Hn; cbn; auto|apply Hn; cbn; auto]. }
    specialize (H2 Hn'). intros q [<-|[<-|Hq]].
    + exact (sc_ge_trans _ _ _ (proj1 Hb) (H2 _ (or_introl eq_refl))).
    + exact (sc_ge_trans _ _ _ (proj2 Hb) (H2 _ (or_introl eq_refl))).
    + apply H2. now right.
Qed.

(** ** Results back *)
Lemma lo_back_spec w H x G : lo_back w H = Ok (x, G) -> G = H /\ forall ids, x = Some ids ->
  (forall i r, nth_error H i = Some r -> generated_by H w i -> settled r) /\
  exists i, ids = [i] /\ generated_by H w i /\ forall j, generated_by H w j -> sc_ge (given_at H i) (given_at H j).
Proof.
  unfold lo_back. destruct (all_sim_ended H (gen_of H w) 0) eqn:Ea; [|intros [= <- <-]; split; auto; discriminate].
  destruct (by_worker H w) as [|i rest] eqn:Eb; [discriminate|]. intros [= <- <-]. split; auto. intros ids [= <-].
  split; [now apply all_done_gen|]. eexists. split; [reflexivity|].
  destruct (argmax_max (map (fun j => (j, scol H F_sim_started_time j)) rest) (i, scol H F_sim_started_time i)) as (v & M1 & M2).
  set (a := argmax_from _ _) in *.
  assert (Ha : In a (by_worker H w) /\ v = scol H F_sim_started_time a).
  { rewrite Eb. destruct M1 as [M1|M1]; [injection M1 as <- <-; split; [now left|auto]|]. apply in_map_iff in M1. destruct M1 as (j & [= <- <-] & Hj). split; [now right|auto]. }
  destruct Ha as [Ha ->]. split; [now apply by_worker_spec|]. intros j Hj. apply by_worker_spec in Hj. rewrite Eb in Hj.
  destruct Hj as [<-|Hj]; [apply (M2 (i, _)); now left|]. apply (M2 (j, _)). right. apply in_map_iff. exists j. split; [reflexivity|exact Hj].
Qed.

(** ** Points of runs first *)
Lemma local_dec H i : {local_point H i} + {~ local_point H i}.
Proof.
  unfold local_point. destruct (nth_error H i) as [r|]; [|right; intros (r & E & _); discriminate].
  destruct (truthy (r (F_user "local_pt"))) eqn:Et; [left; eauto|right]. intros (r' & [= <-] & A). congruence.
Qed.
Lemma local_same cols H G i : same_but cols H G -> ~ In F_local_pt cols -> local_point G i <-> local_point H i.
Proof.
  intros S Hf. unfold local_point. split.
  - intros (r' & E & A). destruct (same_but_back _ _ _ _ _ S E) as (r & Er & F). exists r. split; auto. rewrite <- F; auto.
  - intros (r & E & A). destruct (proj2 S _ _ E) as (r' & Er & F). exists r'. split; auto. rewrite F; auto.
Qed.
Definition ranked (H : list row) (pts : list nat) : Prop :=
  StronglySorted lt pts /\ incl pts (to_evaluate H) /\ forall i j, In j pts -> evaluable H i -> ~ In i pts -> before H i j.
Lemma ranked_all H : ranked H (to_evaluate H).
Proof.
  split; [apply to_evaluate_sorted|]. split; [apply incl_refl|]. intros i j Hj Hi Hn. exfalso. apply Hn. now apply to_evaluate_spec.
Qed.
Lemma sorted_hd l x : StronglySorted lt (x :: l) -> forall y, In y (x :: l) -> y <> x -> x < y.
Proof. intros Hs y [->|Hy] Hne; [congruence|]. inversion Hs as [|? ? _ Hf]; subst. rewrite Forall_forall in Hf. auto. Qed.
Lemma lo_pick_spec H pts : StronglySorted lt pts -> pts <> [] -> exists x, lo_pick H pts = [x] /\ In x pts /\ forall j, In j pts -> j <> x -> before H x j.
Proof.
  intros Hs Hne. unfold lo_pick. set (lb := fun i => match nth_error H i with Some r => flag F_local_pt r | None => false end).
  assert (LB : forall i, lb i = true <-> local_point H i).
  { intros i. unfold lb, local_point. destruct (nth_error H i) as [r|]; [|split; [discriminate|intros (r & E & _); discriminate]].
    split; [intros E; exists r; auto|intros (r' & [= <-] & A); exact A]. }
  pose proof (sorted_filter lb pts Hs) as Hf. destruct (filter lb pts) as [|x l] eqn:Ef.
  - destruct pts as [|x pts]; [congruence|]. exists x. split; auto. split; [now left|]. intros j Hj Hn. right. split; [|eapply sorted_hd; eauto].
    assert (No : forall i, In i (x :: pts) -> ~ local_point H i). { intros i Hi L. apply LB in L. assert (In i (filter lb (x :: pts))) by (apply filter_In; auto). rewrite Ef in *. contradiction. }
    split; intros L; exfalso; [exact (No x (or_introl eq_refl) L)|exact (No j Hj L)].
  - exists x. assert (Hx : In x (filter lb pts)) by (rewrite Ef; now left). apply filter_In in Hx. destruct Hx as [Hx Lx]. apply LB in Lx. split; auto. split; auto.
    intros j Hj Hn. destruct (local_dec H j) as [L|L]; [|left; auto]. right. split; [tauto|]. eapply sorted_hd; eauto. rewrite <- Ef. apply filter_In. split; auto. now apply LB.
Qed.
Lemma before_trans H i j k : before H i j -> before H j k -> before H i k.
Proof. unfold before. intros [[A1 A2]|[A1 A2]] [[B1 B2]|[B1 B2]]; try tauto. right. split; [tauto|lia]. Qed.
Lemma ranked_pick H pts : NoDup pts -> pts <> [] -> ranked H pts ->
  NoDup (lo_pick H pts) /\ incl (lo_pick H pts) pts /\ ranked H (filter (fun i => negb (memb i (lo_pick H pts))) pts).
Proof.
  intros Hn Hne (Y1 & Y2 & Y3). destruct (lo_pick_spec H pts Y1 Hne) as (x & -> & Hx & Hb). split; [constructor; [intros []|constructor]|].
  split; [intros y [<-|[]]; auto|]. set (p := fun i => negb (memb i [x])).
  assert (Hp : forall i, p i = true <-> i <> x). { intros i. unfold p. cbn. destruct (Nat.eqb_spec i x); cbn; intuition congruence. }
  split; [now apply sorted_filter|]. split; [intros i Hi; apply filter_In in Hi; now apply Y2|].
  intros i j Hj Hi Hni. apply filter_In in Hj. destruct Hj as [Hj Pj]. apply Hp in Pj.
  destruct (in_dec Nat.eq_dec i pts) as [Hin|Hin]; [|now apply Y3].
  destruct (Nat.eq_dec i x) as [->|Hne2]; [now apply Hb|]. exfalso. apply Hni. apply filter_In. split; auto. now apply Hp.
Qed.

Lemma ended_same cols H G i : same_but cols H G -> ~ In F_sim_ended cols -> ended G i <-> ended H i.
Proof.
  intros S Hf. unfold ended. split.
  - intros (r' & E & A). destruct (same_but_back _ _ _ _ _ S E) as (r & Er & F). exists r. split; auto. rewrite <- F; auto.
  - intros (r & E & A). destruct (proj2 S _ _ E) as (r' & Er & F). exists r'. split; auto. rewrite F; auto.
Qed.
Lemma any_sampled G : existsb (fun r => negb (flag F_local_pt r) && flag F_sim_ended r) G = true -> sampled G.
Proof.
  intros E. apply existsb_exists in E. destruct E as (r & Hr & Hb). apply In_nth_error in Hr. destruct Hr as [i Hi]. apply andb_true_iff in Hb. destruct Hb as [B1 B2]. apply negb_true_iff in B1.
  exists i. split; [exists r; auto|]. intros (r' & E' & A). rewrite Hi in E'. injection E' as <-. unfold flag, F_local_pt in B1. congruence.
Qed.

(** ** Starting runs *)
Section Starts.
Variables (c : actx) (E : nat -> Prop) (U : nat * work -> Prop) (o : lo_oracle) (H0 : list row).
Hypothesis Hres : resources_ok c.

Definition run_start (q : nat * work) : Prop :=
  k_tag (snd q) = EVAL_GEN /\ k_persistent (snd q) = true /\ k_fields (snd q) = nodup_fields (ac_persis_in c) /\ sampled H0 /\
  exists i, k_rows (snd q) = [i] /\ i < length H0 /\ In i (lo_starts o (fst q)) /\
    ((forall j, In j (lo_starts o (fst q)) -> fcell H0 "f" j <> SNaN) -> forall j, In j (lo_starts o (fst q)) -> j < length H0 -> sc_ge (fcell H0 "f" j) (fcell H0 "f" i)).

Lemma lo_start_spec : forall ws gc H wk s H' wk' s' gc' e,
  (forall w k, In w ws -> run_start (w, k) -> U (w, k)) -> same_but lo_cols H0 H -> acc c E U wk s ->
  lo_start c o ws gc H wk s = (H', wk', s', gc', e) ->
  same_but lo_cols H0 H' /\ acc c E U wk' s' /\ gc <= gc' /\ (gc < gc' -> gc' < length (ac_W c)) /\
  exists new, length new = gc' - gc /\ (forall q, In q new -> In (fst q) ws /\ run_start q) /\ (forall q, In q wk' -> In q wk \/ In q new) /\
    (forall i, In i (sim_rows wk') -> In i (sim_rows wk)).
Proof.
  induction ws as [|w ws IH]; intros gc H wk s H' wk' s' gc' e HU Sm A; cbn [lo_start].
  - intros [= <- <- <- <- <-]. split; auto. split; [exact A|]. split; auto. split; [lia|]. exists []. cbn. split; [lia|]. split; [intros q []|]. auto.
  - set (any := existsb _ H). set (H1 := if any then overlay lo_dist_cols (lo_dist o w) H else H).
    set (inds := if any then filter (fun i => i <? length H) (lo_starts o w) else []).
    assert (S1 : same_but lo_cols H0 H1).
    { unfold H1. destruct any; auto. eapply same_but_trans; [exact Sm|]. eapply same_but_more; [|apply overlay_same]. intros f Hf. apply in_or_app. right. apply in_or_app. now left. }
    assert (HU' : forall v k, In v ws -> run_start (v, k) -> U (v, k)) by (intros; apply HU; auto; now right).
    assert (Skip : forall gc', lo_start c o ws gc H1 wk s = (H', wk', s', gc', e) ->
      same_but lo_cols H0 H' /\ acc c E U wk' s' /\ gc <= gc' /\ (gc < gc' -> gc' < length (ac_W c)) /\
      exists new, length new = gc' - gc /\ (forall q, In q new -> In (fst q) (w :: ws) /\ run_start q) /\ (forall q, In q wk' -> In q wk \/ In q new) /\
       (forall i, In i (sim_rows wk') -> In i (sim_rows wk))).
    { intros gc2 EE. destruct (IH _ _ _ _ _ _ _ _ _ HU' S1 A EE) as (X1 & X2 & X3 & X4 & new & Y1 & Y2 & Y3 & Y4). split; auto. split; auto. split; auto. split; auto.
      exists new. split; auto. split; auto. intros q Hq. destruct (Y2 q Hq). split; auto. now right. }
    assert (Stop : forall s1 e1, acc c E U wk s1 -> (H1, wk, s1, gc, e1) = (H', wk', s', gc', e) ->
      same_but lo_cols H0 H' /\ acc c E U wk' s' /\ gc <= gc' /\ (gc < gc' -> gc' < length (ac_W c)) /\
      exists new, length new = gc' - gc /\ (forall q, In q new -> In (fst q) (w :: ws) /\ run_start q) /\ (forall q, In q wk' -> In q wk \/ In q new) /\
       (forall i, In i (sim_rows wk') -> In i (sim_rows wk))).
    { intros s1 e1 A1 [= <- <- <- <- <-]. split; auto. split; [exact A1|]. split; auto. split; [lia|]. exists []. cbn. split; [lia|]. split; [intros q []|]. auto. }
    destruct inds as [|i rest] eqn:Ei; [apply Skip|]. destruct (Nat.ltb_spec (S gc) (length (ac_W c))) as [Hlt|Hge]; [|apply Skip].
    set (ind := argmin_from _ _). destruct (gen_work c w (ac_persis_in c) [ind] true None s) as [a s1] eqn:Eg.
    pose proof (acc_gen _ _ _ Hres _ _ _ _ _ _ _ _ _ A Eg) as X. destruct a as [k|er]; [|destruct er; now apply Stop].
    destruct X as (T1 & T2 & T3 & T4 & T5 & T6).
    assert (Ha : any = true) by (unfold inds in Ei; destruct any; [auto|discriminate]).
    assert (HL : length H = length H0) by apply Sm.
    assert (Hin : forall j, In j (i :: rest) <-> In j (lo_starts o w) /\ j < length H0).
    { intros j. rewrite <- Ei. unfold inds. rewrite Ha, filter_In, Nat.ltb_lt, HL. tauto. }
    assert (HS : run_start (w, k)).
    { cbn. split; auto. split; auto. split; auto. cbn. split.
      - destruct (any_sampled H Ha) as (j & J1 & J2). exists j. split; [apply (ended_same _ _ _ _ Sm); auto; now apply lo_sys|]. intros L. apply J2. apply (local_same _ _ _ _ Sm lo_local). exact L.
      - exists ind. split; auto. destruct (argmin_min (map (fun j => (j, scol H1 F_obj j)) rest) (i, scol H1 F_obj i)) as (v & M1 & M2). fold ind in M1.
        assert (SC : forall j, scol H1 F_obj j = fcell H0 "f" j). { intros j. rewrite (proj2 (same_but_cell _ _ _ F_obj j S1 lo_obj)). reflexivity. }
        assert (MM : forall p, In p ((i, scol H1 F_obj i) :: map (fun j => (j, scol H1 F_obj j)) rest) -> In (fst p) (i :: rest) /\ snd p = fcell H0 "f" (fst p)).
        { intros p [<-|Hp]; cbn; [split; auto|]. apply in_map_iff in Hp. destruct Hp as (j & <- & Hj). cbn. auto. }
        destruct (MM _ M1) as [I1 I2]. cbn in I1, I2. apply Hin in I1. split; [tauto|]. split; [tauto|]. intros Hn j Hj Hjl.
        assert (Hj2 : In j (i :: rest)) by now apply Hin. rewrite <- I2. rewrite <- SC.
        assert (N : forall p, In p ((i, scol H1 F_obj i) :: map (fun j => (j, scol H1 F_obj j)) rest) -> snd p <> SNaN).
        { intros p Hp. destruct (MM p Hp) as [Q1 ->]. apply Hn. now apply Hin. }
        apply (M2 N (j, scol H1 F_obj j)). destruct Hj2 as [<-|Hj2]; [now left|right]. apply in_map_iff. eauto. }
    assert (A1 : acc c E U (dict_set wk w k) s1) by (apply T6, HU; [now left|exact HS]).
    intros EE. eapply IH in EE as (X1 & X2 & X3 & X4 & new & Y1 & Y2 & Y3 & Y4); [|exact HU'| |exact A1].
    2:{ eapply same_but_trans; [exact S1|]. apply upd_same. intros r f Hf. rewrite !setf_other; auto; intros ->; apply Hf; unfold lo_cols, lo_run_cols; apply in_or_app; [left; now left|right; apply in_or_app; right; now left]. }
    split; auto. split; auto. split; [lia|]. split; [intros _; destruct (Nat.eq_dec (S gc) gc') as [<-|]; [exact Hlt|apply X4; lia]|].
    exists ((w, k) :: new). cbn [List.length]. split; [lia|]. split.
    { intros q [<-|Hq]; [split; [now left|exact HS]|]. destruct (Y2 q Hq). split; auto. now right. }
    split. { intros q Hq. destruct (Y3 q Hq) as [Hq'|Hq']; [|right; now right]. destruct (dict_set_In _ _ _ _ Hq') as [->|Hq'']; auto. right. now left. }
    intros j Hj. apply Y4 in Hj. destruct (dict_set_rows wk w k) as [r P]. unfold sim_part in P. rewrite T1 in P. cbn in P. rewrite app_nil_r in P.
    eapply Permutation_in; [exact (Permutation_sym P)|]. apply in_or_app. now left.
Qed.
End Starts.

(** ** local_opt_alloc *)
Section LocalOpt.
Variables (c : actx) (d : dtype) (o : lo_oracle) (g : nat) (H0 : list row).
Hypothesis (Hids : ids_distinct (ac_W c)) (Hres : resources_ok c).
Let out := local_opt_alloc c d o false g H0.

Definition run_back (q : nat * work) : Prop :=
  waiting_gen (ac_W c) (fst q) /\ k_tag (snd q) = EVAL_GEN /\ k_persistent (snd q) = true /\ k_fields (snd q) = nodup_fields (ac_persis_in c) /\
  (forall i r, nth_error H0 i = Some r -> generated_by H0 (fst q) i -> settled r) /\
  exists i, k_rows (snd q) = [i] /\ generated_by H0 (fst q) i /\ forall j, generated_by H0 (fst q) j -> sc_ge (given_at H0 i) (given_at H0 j).
Definition sampling (q : nat * work) : Prop :=
  k_tag (snd q) = EVAL_GEN /\ k_persistent (snd q) = false /\ k_rows (snd q) = [] /\ k_fields (snd q) = nodup_fields (ac_gen_in c) /\
  ~ persistent_gen (ac_W c) /\ ~ generating (ac_W c).
Definition lo_unit (G : list row) (q : nat * work) : Prop :=
  run_back q \/
  free_worker (ac_W c) (fst q) /\ (some_gen_only (ac_W c) -> gen_only (ac_W c) (fst q)) /\ (run_start c o H0 q \/ sampling q) \/
  sim_ok c d G q /\ length (k_rows (snd q)) = 1.

Definition lo_result (x : aout) : Prop :=
  (exists s, acc c (evaluable H0) (lo_unit (o_rows x)) (o_work x) s) /\ same_but lo_cols H0 (o_rows x) /\ o_flag x = 0 /\
  (exists new, (new <> [] -> count_persis_gens (ac_W c) + length new < length (ac_W c)) /\ (forall q, In q (o_work x) -> free_worker (ac_W c) (fst q) -> run_start c o H0 q -> In q new)) /\
  (forall q, In q (o_work x) -> sampling q -> forall q', In q' (o_work x) -> ~ run_start c o H0 q') /\
  ((forall q, In q (o_work x) -> ~ sampling q) -> (forall i j, In i (sim_rows (o_work x)) -> evaluable H0 j -> ~ In j (sim_rows (o_work x)) -> before H0 i j) /\
    (ac_manage c = false -> o_err x = None -> (forall i, evaluable H0 i -> In i (sim_rows (o_work x))) \/
     (forall w, free_worker (ac_W c) w -> (some_gen_only (ac_W c) -> ~ gen_only (ac_W c) w) -> In w (map fst (o_work x))))).

Lemma generating_iff : existsb (fun r => (w_active r =? EVAL_GEN) && (w_persis r =? 0)) (ac_W c) = true <-> generating (ac_W c).
Proof.
  rewrite existsb_exists. unfold generating. split.
  - intros (r & Hr & Hb). apply andb_true_iff in Hb. destruct Hb as [B1 B2]. apply Nat.eqb_eq in B1, B2. eauto.
  - intros (r & Hr & B1 & B2). exists r. split; auto. rewrite B1, B2. reflexivity.
Qed.

Lemma local_opt_facts : lo_result out.
Proof.
  unfold out, local_opt_alloc. clear out. pose proof (count_persis_zero (ac_W c)) as CP. set (cnt := count_persis_gens (ac_W c)) in *.
  assert (S0 : same_but lo_cols H0 (overlay lo_run_cols (lo_runs o) H0)).
  { eapply same_but_more; [|apply overlay_same]. intros f Hf. apply in_or_app. now left. }
  set (H := overlay lo_run_cols (lo_runs o) H0) in *. set (n0 := count_persis_gens (ac_W c)) in *.
  assert (Empty : forall gn e, lo_result (mkAO H [] 0 gn e) \/ e = None).
  { intros gn e. destruct e as [e|]; [left|now right]. split; [exists (support_init c g); now apply acc_nil|]. split; [exact S0|]. split; auto. split; [exists []; split; [congruence|intros q []]|]. split; [intros q []|]. intros _. split; [intros i j []|discriminate]. }
  destruct (lo_err o) as [er|]. { destruct (Empty g (Some er)) as [X|X]; [exact X|discriminate]. }
  destruct (avail_workers _ (Some EVAL_GEN) _ _ _) as [bs|] eqn:Eb; [|cbn in Eb; discriminate].
  destruct (avail_workers _ (Some 0) false None (Some false)) as [ws|] eqn:Ew; [|cbn in Ew; discriminate].
  destruct (avail_workers _ (Some 0) false None (Some true)) as [gs|] eqn:Eg; [|cbn in Eg; discriminate].
  clear Empty. destruct (back_each _ _ _ _ _ _ _) as [[[H1 wk1] s1] e1] eqn:E1.
  assert (GB : forall w i, generated_by H w i <-> generated_by H0 w i). { intros w i. apply (same_but_gen _ _ _ w i S0). now apply lo_sys. }
  assert (GA : forall i, given_at H i = given_at H0 i). { intros i. apply (same_but_cell _ _ _ F_sim_started_time i S0). now apply lo_sys. }
  assert (A1all : forall G, H1 = H /\ acc c (evaluable H0) (lo_unit G) wk1 s1 /\ (forall q, In q wk1 -> In (fst q) bs /\ k_tag (snd q) = EVAL_GEN) /\ sim_rows wk1 = []).
  { intros G. eapply (back_each_spec c (evaluable H0) (lo_unit G) Hres _ _ (fun G => G = H)) in E1 as (J1 & A1 & B1 & C1); [| | |reflexivity|now apply acc_nil].
    - split; auto. split; auto. split; [intros q Hq; destruct (B1 q Hq) as [[]|X]; exact X|]. destruct (sim_rows wk1) as [|i l]; auto. destruct (C1 i); now left.
    - intros w G0 x G' _ -> Ef. now apply lo_back_spec in Ef.
    - intros w k G0 ids G' Hw -> Ef T1 T2 T3 T4 T5. left. cbn. split; [eapply bs_waiting; eauto|]. split; auto. split; auto. split; [exact T5|]. cbn.
      destruct (lo_back_spec _ _ _ _ Ef) as [_ HS]. destruct (HS ids eq_refl) as (P1 & i & P2 & P3 & P4).
      split. { eapply (same_but_settled _ _ _ S0); auto; now apply lo_sys. }
      exists i. split; [congruence|]. split; [now apply GB|]. intros j Hj. rewrite <- !GA. apply P4. now apply GB. }
  assert (NB : forall q, In q wk1 -> ~ free_worker (ac_W c) (fst q)).
  { intros q Hq Hf. destruct (A1all H) as (_ & _ & B & _). destruct (B q Hq) as [K _]. exact (free_not_waiting _ _ Hids Hf (bs_waiting _ _ _ Eb K)). }
  assert (NB1 : forall q, In q wk1 -> ~ run_start c o H0 q /\ ~ sampling q \/ waiting_gen (ac_W c) (fst q)).
  { intros q Hq. right. destruct (A1all H) as (_ & _ & B & _). destruct (B q Hq) as [K _]. exact (bs_waiting _ _ _ Eb K). }
  destruct e1 as [e1|].
  { destruct (A1all H) as (_ & A1 & B1 & Z1). split; [exists s1; exact A1|]. split; [exact S0|]. split; auto. split; [exists []; split; [congruence|]; intros q Hq Hf _; exact (NB q Hq Hf)|].
    split. { cbn [o_work]. intros q Hq Hs. exfalso. destruct (acc_units _ _ _ _ _ A1 q Hq) as [(_ & _ & X & _)|[(X & _)|((X & _) & _)]].
      - destruct Hs as (_ & Y & _). congruence.
      - exact (NB q Hq X).
      - destruct X as (X & _). destruct Hs as (Y & _). unfold EVAL_GEN, EVAL_SIM in *. congruence. }
    intros _. cbn [o_work]. rewrite Z1. split; [intros i j []|discriminate]. }
  destruct (lo_start _ _ _ _ _ _ _) as [[[[H2 wk2] s2] gc] e2] eqn:E2.
  assert (A2all : forall G, same_but lo_cols H0 H2 /\ acc c (evaluable H0) (lo_unit G) wk2 s2 /\ n0 <= gc /\ (n0 < gc -> gc < length (ac_W c)) /\
    exists new, length new = gc - n0 /\ (forall q, In q new -> In (fst q) gs /\ run_start c o H0 q) /\ (forall q, In q wk2 -> In q wk1 \/ In q new) /\ sim_rows wk2 = []).
  { intros G. destruct (A1all G) as (_ & A1 & _ & Z1). eapply (lo_start_spec c (evaluable H0) (lo_unit G) o H0 Hres) in E2 as (X1 & X2 & X3 & X4 & new & Y1 & Y2 & Y3 & Y4); [| |exact S0|exact A1].
    - split; [exact X1|]. split; [exact X2|]. split; [exact X3|]. split; [exact X4|]. exists new. split; auto. split; auto. split; auto. destruct (sim_rows wk2) as [|i l]; auto. specialize (Y4 i (or_introl eq_refl)). rewrite Z1 in Y4. destruct Y4.
    - intros w k Hw Hr. right. left. cbn. split; [eapply ws_free; eauto|]. split; [eapply gs_reserved; eauto|]. now left. }
  destruct (A2all H2) as (S2 & A2 & L1 & L2 & new & N1 & N2 & N3 & Z2). clear A2all E2 E1.
  assert (NW : forall q, In q wk2 -> k_tag (snd q) = EVAL_GEN).
  { intros q Hq. destruct (N3 q Hq) as [Hq'|Hq']; [|apply N2, Hq']. destruct (A1all H) as (_ & _ & B & _). now apply B. }
  assert (NS2 : forall q, In q wk2 -> ~ sampling q).
  { intros q Hq (_ & Hs & _). destruct (N3 q Hq) as [Hq'|Hq']; [|destruct (N2 q Hq') as (_ & _ & X & _); congruence].
    destruct (A1all H) as (_ & A1 & B & _). destruct (acc_units _ _ _ _ _ A1 q Hq') as [(_ & _ & X & _)|[(X & _)|((X & _) & _)]]; [congruence|exact (NB q Hq' X)|].
    destruct X as (X & _). destruct (B q Hq') as [_ Y]. unfold EVAL_GEN, EVAL_SIM in *. congruence. }
  assert (RS2 : forall q, In q wk2 -> free_worker (ac_W c) (fst q) -> run_start c o H0 q -> In q new).
  { intros q Hq Hf _. destruct (N3 q Hq) as [Hq'|Hq']; [destruct (NB q Hq' Hf)|auto]. }
  assert (LN : new <> [] -> n0 + length new < length (ac_W c)).
  { intros Hn. destruct new as [|q new]; [congruence|]. cbn [List.length] in *. rewrite N1. assert (n0 < gc) by lia. specialize (L2 H3). lia. }
  assert (TE : forall i, In i (to_evaluate H2) <-> evaluable H0 i).
  { intros i. rewrite to_evaluate_spec. apply same_system_evaluable. exact (same_but_system _ _ _ lo_cols_user S2). }
  destruct e2 as [e2|].
  { split; [exists s2; exact A2|]. split; [exact S2|]. split; auto. split; [exists new; auto|]. split; [intros q Hq Hs; destruct (NS2 q Hq Hs)|]. intros _. cbn [o_work]. rewrite Z2. split; [intros i j []|discriminate]. }
  destruct (pick_sims _ _ _ _ _ _ _ _) as [[[wk3 s3] pts] e3] eqn:E3.
  eapply (pick_sims_spec c (evaluable H0) (lo_unit H2) Hres d H2 (lo_pick H2) (ranked H2) (ranked_pick H2)) in E3 as (nw & rest & P1 & A3 & P2 & P3 & P4 & P5 & P6 & P7);
    [|eapply avail_sub; eauto|apply to_evaluate_nodup|apply ranked_all|intros i Hi; rewrite Z2; split; [now apply TE|intros []]| |exact A2].
  2:{ intros w k pts0 Hw Hu (Q1 & _) _ Hne Hr. right. right. split; [|cbn; rewrite Hr; destruct (lo_pick_spec H2 pts0 Q1 Hne) as (x & -> & _); reflexivity].
      split; auto. cbn. split; [exact (ws_free _ _ _ _ Ew Hw)|exact (ws_reserved _ _ _ Hids Ew Hw)]. }
  assert (R3 : forall i, In i (sim_rows wk3) <-> In i (rows_of nw)) by (apply (sim_rows_new wk2); auto).
  assert (NS3 : forall q, In q wk3 -> ~ sampling q).
  { intros q Hq Hs. destruct (P4 q Hq) as [Hq'|Hq']; [exact (NS2 q Hq' Hs)|]. destruct (P3 q Hq') as [_ X]. destruct Hs as (Y & _). unfold EVAL_GEN, EVAL_SIM in *. congruence. }
  assert (RS3 : forall q, In q wk3 -> free_worker (ac_W c) (fst q) -> run_start c o H0 q -> In q new).
  { intros q Hq Hf Hs. destruct (P4 q Hq) as [Hq'|Hq']; [auto|]. destruct (P3 q Hq') as [_ X]. destruct Hs as (Y & _). unfold EVAL_GEN, EVAL_SIM in *. congruence. }
  assert (O3 : forall i j, In i (sim_rows wk3) -> evaluable H0 j -> ~ In j (sim_rows wk3) -> before H0 i j).
  { intros i j Hi Hj Hn. rewrite R3 in Hi, Hn. apply TE in Hj. apply (Permutation_in _ P2) in Hj. apply in_app_or in Hj. destruct Hj as [Hj|Hj]; [contradiction|].
    destruct P6 as (_ & _ & Y). assert (B : before H2 i j).
    { apply (Y i j Hj).
      - apply to_evaluate_spec. apply (Permutation_in _ (Permutation_sym P2)). apply in_or_app. now left.
      - intros Hi2. pose proof (Permutation_NoDup P2 (to_evaluate_nodup H2)) as Hnd. exact (nodup_app_disj _ _ Hnd i Hi Hi2). }
    unfold before in *. now rewrite <- !(local_same _ _ _ _ S2 lo_local). }
  assert (M3 : ac_manage c = false -> (forall i, evaluable H0 i -> In i (sim_rows wk3)) \/
     (forall w, free_worker (ac_W c) w -> (some_gen_only (ac_W c) -> ~ gen_only (ac_W c) w) -> In w (map fst wk3))).
  { intros M. destruct (P7 M) as [_ [-> | ->]].
    - right. intros w Hf Hg. assert (Hw : In w ws) by (eapply free_avail; eauto). rewrite P1, app_nil_r in Hw. apply in_map_iff in Hw. destruct Hw as (q & <- & Hq). apply in_map, P3, Hq.
    - left. intros i Hi. apply R3. apply TE in Hi. apply (Permutation_in _ P2) in Hi. now rewrite app_nil_r in Hi. }
  assert (Fin3 : forall e, lo_result (mkAO H2 wk3 0 (as_gens s3) e)).
  { intros e. split; [exists s3; exact A3|]. split; [exact S2|]. split; auto. split; [exists new; auto|]. split; [intros q Hq Hs; destruct (NS3 q Hq Hs)|]. intros _. split; [exact O3|]. auto. }
  destruct e3 as [e3|]; [apply Fin3|].
  destruct ((gc =? 0) && _) eqn:Ec; [|apply Fin3]. apply andb_true_iff in Ec. destruct Ec as [Ec1 Ec2]. apply Nat.eqb_eq in Ec1.
  assert (NG : ~ generating (ac_W c)). { intros Gn. apply generating_iff in Gn. rewrite Gn in Ec2. discriminate. }
  assert (NP : ~ persistent_gen (ac_W c)) by (apply CP; fold n0; lia).
  assert (Hnew : new = []) by (destruct new; [auto|cbn in N1; lia]).
  destruct (start_first _ _ _ _ _) as [[wk4 s4] e4] eqn:E4.
  eapply (start_first_spec c (evaluable H0) (lo_unit H2) Hres) in E4 as (A4 & D4 & _); [| |exact A3].
  2:{ intros w k Hw T1 T2 T3 T4 T5. right. left. cbn. assert (Hin : In w gs) by (destruct gs; [discriminate|injection Hw as ->; now left]).
      split; [eapply ws_free; eauto|]. split; [eapply gs_reserved; eauto|]. right. unfold sampling. cbn. auto 10. }
  destruct D4 as [[-> _]|(w & k & Hw & -> & T1 & T2 & T3 & ->)]; [split; [exists s4; exact A4|]; apply (Fin3 e4)|].
  split; [exists s4; exact A4|]. split; [exact S2|]. split; auto.
  assert (NR : forall q', In q' (dict_set wk3 w k) -> ~ run_start c o H0 q' \/ In q' wk1).
  { intros q' Hq'. destruct (dict_set_In _ _ _ _ Hq') as [->|Hq'']; [left; intros (_ & X & _); cbn in X; congruence|].
    destruct (P4 q' Hq'') as [Hq3|Hq3]; [|left; intros (Y & _); destruct (P3 q' Hq3) as [_ X]; unfold EVAL_GEN, EVAL_SIM in *; congruence].
    destruct (N3 q' Hq3) as [Hq4|Hq4]; [now right|]. rewrite Hnew in Hq4. destruct Hq4. }
  assert (NoW : wk1 = []). { destruct wk1 as [|q l]; auto. exfalso. apply NP. destruct (NB1 q (or_introl eq_refl)) as [[X Y]|(r & R1 & R2 & R3' & R4)]; [|exists r; auto].
      destruct (A1all H) as (_ & _ & B & _). destruct (B q (or_introl eq_refl)) as [K _]. destruct (bs_waiting _ _ _ Eb K) as (r & R1 & _ & _ & R4). exists r. auto. }
  split. { exists []. split; [congruence|]. intros q Hq _ Hs. destruct (NR q Hq) as [X|X]; [contradiction|]. now rewrite NoW in X. }
  split. { intros q Hq _ q' Hq' Hs. destruct (NR q' Hq') as [X|X]; [contradiction|]. now rewrite NoW in X. }
  intros Hns. exfalso. apply (Hns (w, k)); [apply dict_set_get|]. pose proof (acc_units _ _ _ _ _ A4 (w, k) (dict_set_get _ _ _)) as Un. unfold sampling. cbn in *.
  split; auto. split; auto. split; auto. split; [|auto]. destruct Un as [(_ & _ & X & _)|[(_ & _ & [(_ & X & _)|(_ & _ & _ & X & _)])|(((X & _) & _) & _)]]; cbn in *; try congruence. unfold EVAL_GEN, EVAL_SIM in *. congruence.
Qed.
End LocalOpt.
