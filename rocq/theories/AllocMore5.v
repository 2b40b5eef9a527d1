(** Facts about pausing_alloc (fast_alloc_and_pausing). *)
From Coq Require Import String Permutation Sorted.
From Verif Require Import Base BaseLemmas HistoryModel HistoryProofs WorkModel RsetModel RsetSpec SchedModel SchedSpec SchedServe AllocModel AllocSpec AllocProofs AllocLoops AllocFacts AllocFast AllocPersis AllocModel2 AllocSpec2 AllocMore AllocMore2 AllocMore3 AllocMore4.
Local Notation length := List.length.
Local Open Scope list_scope.
Local Open Scope nat_scope.

Lemma zmemb_In z l : zmemb z l = true <-> In z l.
Proof.
  unfold zmemb. rewrite existsb_exists. split; [intros (x & Hx & E); apply Z.eqb_eq in E; now subst|intros Hz; exists z; split; auto; apply Z.eqb_refl].
Qed.
Lemma point_same cols H G i z : same_but cols H G -> ~ In F_pt_id cols -> point_of G i z <-> point_of H i z.
Proof.
  intros Sm Hf. unfold point_of. split.
  - intros (r' & E & A). destruct (same_but_back _ _ _ _ _ Sm E) as (r & Er & F). exists r. split; auto. rewrite <- F; auto.
  - intros (r & E & A). destruct (proj2 Sm _ _ E) as (r' & Er & F). exists r'. split; auto. rewrite F; auto.
Qed.
Lemma served_same c d H G w k : same_but [F_paused] H G -> unit_served c d G w k -> unit_served c d H w k.
Proof.
  intros Sm. unfold unit_served. destruct (ac_manage c), (ac_rm c) as [m|], (wget (ac_gom c) (ac_W c) w) as [wr|]; auto.
  intros (t & T1 & T2 & T3). exists t. split; auto. split; auto. intros Hp i r Hi Hr. destruct (proj2 Sm _ _ Hr) as (r' & Hr' & F). specialize (T2 Hp i r' Hi Hr').
  unfold demand_met in *. rewrite !F in T2; auto; intros [X|[]]; discriminate.
Qed.
Lemma nan_ids_spec H z : In z (nan_ids H) <-> nan_point H z.
Proof.
  unfold nan_ids, nan_point, point_of, fcell. rewrite in_map_iff. split.
  - intros (r & E & Hr). apply filter_In in Hr. destruct Hr as [Hr Hn]. apply In_nth_error in Hr. destruct Hr as [i Hi]. exists i. split; [exists r; split; [exact Hi|exact E]|]. assert (Hi1 : @nth_error row H i = Some r) by exact Hi. rewrite Hi1.
    unfold scalar_of, F_comp in Hn. destruct (r (F_user "f_i")) as [s|]; [destruct s; auto; discriminate|discriminate].
  - intros (i & (r & Hi & E) & Hn). rewrite Hi in Hn. exists r. split; auto. apply filter_In. split; [eapply nth_error_In; eauto|]. unfold scalar_of, F_comp. destruct (r (F_user "f_i")); [now subst|discriminate].
Qed.

(** ** Pausing *)
Lemma pause_points_spec ids pd need H pd' need' H' : pause_points ids pd need H = (pd', need', H') ->
  same_but [F_paused] H H' /\ incl pd pd' /\ (NoDup need -> NoDup need') /\ incl need' need /\
  (forall i, paused H i -> paused H' i) /\ (forall i, In i need' -> ~ paused H i -> ~ paused H' i) /\
  (forall i, In i need -> In i need' \/ paused H' i) /\
  (forall z i, In z ids -> ~ In z pd -> point_of H i z -> ~ In i need') /\ (forall z, In z ids -> In z pd').
Proof.
  unfold pause_points. destruct (forallb _ ids) eqn:Ef.
  - intros [= <- <- <-]. rewrite forallb_forall in Ef. split; [apply same_but_refl|]. split; [apply incl_refl|]. split; auto. split; [apply incl_refl|]. split; auto. split; auto. split; auto.
    split; [intros z i Hz Hn; destruct Hn; now apply zmemb_In, Ef|intros z Hz; now apply zmemb_In, Ef].
  - intros [= <- <- <-]. set (hit := fun r : row => zmemb (as_int (r F_pt_id)) ids).
    assert (HN : forall i r, nth_error H i = Some r -> nth_error (map (fun r => if hit r then setf F_paused (vbool true) r else r) H) i = Some (if hit r then setf F_paused (vbool true) r else r)).
    { intros i r E. rewrite nth_error_map, E. reflexivity. }
    split. { split; [now rewrite map_length|]. intros i r E. eexists. split; [exact (HN i r E)|]. intros f Hf. cbn beta. destruct (hit r); auto. apply setf_other. intros ->. apply Hf. now left. }
    split; [intros z Hz; apply in_or_app; now left|]. split; [intros; now apply NoDup_filter|]. split; [intros i Hi; apply filter_In in Hi; apply Hi|].
    split. { intros i (r & E & P). eexists. split; [exact (HN i r E)|]. cbn beta. destruct (hit r); [unfold F_paused; now rewrite setf_this|exact P]. }
    split. { intros i Hi Hn (r' & E & P). apply filter_In in Hi. destruct Hi as [_ Hi]. destruct (nth_error H i) as [r|] eqn:Er.
      - assert (E2 : Some r' = Some (if hit r then setf F_paused (vbool true) r else r)) by (rewrite <- E; exact (HN i r Er)).
        assert (Hh : hit r = false) by now apply negb_true_iff. rewrite Hh in E2. injection E2 as ->. apply Hn. exists r. auto.
      - assert (L : i < length H).
        { rewrite <- (map_length (fun r => if hit r then setf F_paused (vbool true) r else r) H). apply nth_error_Some. intros X. assert (Y : Some r' = None) by (rewrite <- E; exact X). discriminate. }
        apply nth_error_None in Er. lia. }
    split. { intros i Hi. destruct (nth_error H i) as [r|] eqn:Er.
      - destruct (hit r) eqn:Eh; [right; eexists; split; [exact (HN i r Er)|]; cbn beta; rewrite Eh; unfold F_paused; now rewrite setf_this|]. left. apply filter_In. split; auto. rewrite Er. apply negb_true_iff. exact Eh.
      - left. apply filter_In. split; auto. now rewrite Er. }
    split. { intros z i Hz _ (r & E & P) Hi. apply filter_In in Hi. destruct Hi as [_ Hi]. rewrite E in Hi. apply negb_true_iff in Hi. unfold F_pt_id in Hi. rewrite P in Hi. apply zmemb_In in Hz. congruence. }
    intros z Hz. apply in_or_app. now right.
Qed.

(** ** The two loops *)
Section Loops.
Variables (c : actx) (E : nat -> Prop) (U : nat * work -> Prop) (d : dtype) (u : ps_user) (H0 : list row).
Hypothesis Hres : resources_ok c.

Lemma pause_sims_spec : forall ws j need pd H wk s H' wk' s' need' pd' e,
  NoDup ws -> (forall w, In w ws -> in_dict wk w = false) -> NoDup need -> (forall i, In i need -> E i /\ ~ In i (sim_rows wk)) -> same_but [F_paused] H0 H ->
  (forall w k, In w ws -> sim_unit c d H0 false (w, k) -> length (k_rows k) = 1 -> U (w, k)) ->
  acc c E U wk s -> pause_sims c d u ws j need pd H wk s = (H', wk', s', (need', pd'), e) ->
  same_but [F_paused] H0 H' /\ acc c E U wk' s' /\ NoDup need' /\ incl need' need /\ (forall i, paused H i -> paused H' i) /\
  (forall i, In i need' -> ~ paused H i -> ~ paused H' i) /\ incl pd pd' /\
  (exists new rest, wk' = wk ++ new /\ ws = map fst new ++ rest /\ Forall (fun q => k_tag (snd q) = EVAL_SIM) new /\
    incl (rows_of new) need /\ (forall i, In i need' -> ~ In i (rows_of new)) /\
    (forall z i, (pz_nans u = true /\ nan_point H z \/ In z (pz_partial u j)) -> ~ In z pd -> point_of H0 i z -> ~ In i (rows_of new)) /\
    (e = None -> forall i, In i need -> In i need' \/ In i (rows_of new) \/ paused H' i) /\
    (ac_manage c = false -> e = None /\ (rest = [] \/ need' = []))).
Proof.
  induction ws as [|w ws IH]; intros j need pd H wk s H' wk' s' need' pd' e Hw Hd Hn HE Sm HU A; cbn [pause_sims].
  - intros [= <- <- <- <- <- <-]. repeat (split; [solve [auto using incl_refl]|]). exists [], []. rewrite app_nil_r. cbn. repeat (split; [solve [auto using incl_nil_l]|]). auto.
  - assert (Stop : forall s1 need1 pd1 H1 e1, acc c E U wk s1 -> same_but [F_paused] H0 H1 -> NoDup need1 -> incl need1 need -> (forall i, paused H i -> paused H1 i) ->
      (forall i, In i need1 -> ~ paused H i -> ~ paused H1 i) -> incl pd pd1 -> (e1 = None -> forall i, In i need -> In i need1 \/ paused H1 i) ->
      (ac_manage c = false -> e1 = None /\ need1 = []) -> (H1, wk, s1, (need1, pd1), e1) = (H', wk', s', (need', pd'), e) ->
      same_but [F_paused] H0 H' /\ acc c E U wk' s' /\ NoDup need' /\ incl need' need /\ (forall i, paused H i -> paused H' i) /\
      (forall i, In i need' -> ~ paused H i -> ~ paused H' i) /\ incl pd pd' /\
      (exists new rest, wk' = wk ++ new /\ w :: ws = map fst new ++ rest /\ Forall (fun q => k_tag (snd q) = EVAL_SIM) new /\
        incl (rows_of new) need /\ (forall i, In i need' -> ~ In i (rows_of new)) /\
        (forall z i, (pz_nans u = true /\ nan_point H z \/ In z (pz_partial u j)) -> ~ In z pd -> point_of H0 i z -> ~ In i (rows_of new)) /\
        (e = None -> forall i, In i need -> In i need' \/ In i (rows_of new) \/ paused H' i) /\
        (ac_manage c = false -> e = None /\ (rest = [] \/ need' = [])))).
    { intros s1 need1 pd1 H1 e1 A1 S1 N1 I1 P1 P2 P3 P4 P5 [= <- <- <- <- <- <-]. repeat (split; [solve [auto]|]). exists [], (w :: ws). rewrite app_nil_r. cbn.
      repeat (split; [solve [auto using incl_nil_l]|]). split; [intros He i Hi; destruct (P4 He i Hi); auto|]. intros M. destruct (P5 M); auto. }
    destruct need as [|n0 need0] eqn:En; [apply Stop; auto using incl_refl|]. rewrite <- En in *. clear n0 need0 En.
    set (ids := (if pz_nans u then nan_ids H else []) ++ pz_partial u j). destruct (pause_points ids pd need H) as [[pd1 need1] H1] eqn:Ep.
    apply pause_points_spec in Ep as (P1 & P2 & P3 & P4 & P5 & P6 & P7 & P8 & P9). specialize (P3 Hn).
    assert (S1 : same_but [F_paused] H0 H1) by (eapply same_but_trans; eauto).
    assert (PO : forall H2 i z, same_but [F_paused] H0 H2 -> point_of H2 i z <-> point_of H0 i z). { intros H2 i z S2. apply (point_same _ _ _ _ _ S2). intros [X|[]]; discriminate. }
    assert (IDS : forall z, pz_nans u = true /\ nan_point H z \/ In z (pz_partial u j) -> In z ids).
    { intros z [[N1 N2]|N]; unfold ids; apply in_or_app; [left; rewrite N1; now apply nan_ids_spec|now right]. }
    destruct (ac_ord c need1) as [|i l] eqn:Eo.
    { assert (Z : need1 = []). { pose proof (proj1 Hres need1) as X. rewrite Eo in X. now apply Permutation_nil in X. }
      apply Stop; auto. }
    assert (Hi : In i need1). { apply (Permutation_in _ (proj1 Hres need1)). rewrite Eo. now left. }
    destruct (sim_work c d H1 w [i] false s) as [a s1] eqn:Ea.
    assert (N1 : NoDup [i]) by (constructor; [intros []|constructor]).
    pose proof (acc_sim c E U Hres _ _ _ _ _ _ _ _ _ A Ea N1) as X. destruct a as [k|er].
    + destruct X as (X1 & X2 & X3). { intros i' [<-|[]]. auto. }
      assert (Us : sim_unit c d H0 false (w, k)). { destruct X2 as (Y1 & Y2 & Y3 & Y4 & Y5). repeat (split; [solve [auto]|]). eapply served_same; eauto. }
      assert (A1 : acc c E U (dict_set wk w k) s1). { apply X3, HU; auto; [now left|]. now rewrite X1. }
      inversion Hw as [|? ? Hw1 Hw2]; subst x l0. set (need2 := filter (fun n => negb (n =? i)) need1).
      assert (I2 : forall m, In m need2 <-> In m need1 /\ m <> i). { intros m. unfold need2. rewrite filter_In. destruct (Nat.eqb_spec m i); cbn; intuition congruence. }
      assert (DS : dict_set wk w k = wk ++ [(w, k)]) by (apply dict_set_new, Hd; now left). rewrite DS in *.
      assert (SR : sim_rows (wk ++ [(w, k)]) = sim_rows wk ++ [i]). { unfold sim_rows. rewrite sims_app. unfold sims at 2. cbn. destruct X2 as (Y1 & _). cbn in Y1. rewrite Y1. cbn. rewrite map_app, concat_app. cbn. now rewrite X1. }
      intros EE. apply IH in EE as (Q1 & Q2 & Q3 & Q4 & Q5 & Q6 & Q7 & new & rest & R1 & R2 & R3 & R4 & R5 & R6 & R7 & R8); auto.
      * split; auto. split; [exact Q2|]. split; auto. split; [intros m Hm; now apply P4, I2, Q4|]. split; auto.
        split. { intros m Hm Hnp. apply Q6; auto. apply P6; auto. now apply I2, Q4. }
        split; [intros z Hz; auto|]. exists ((w, k) :: new), rest. rewrite R1, <- app_assoc. split; auto. split; [cbn; now rewrite R2|]. split; [constructor; auto; apply X2|].
        assert (RO : forall m, In m (rows_of ((w, k) :: new)) <-> m = i \/ In m (rows_of new)). { intros m. unfold rows_of. cbn. rewrite X1. cbn. intuition. }
        split. { intros m Hm. apply RO in Hm. destruct Hm as [->|Hm]; [auto|]. now apply P4, I2, R4. }
        split. { intros m Hm Hin. apply RO in Hin. destruct Hin as [->|Hin]; [|now apply (R5 m)]. apply Q4, I2 in Hm. tauto. }
        split. { intros z m Hz Hnz Hp Hin. assert (Nm : ~ In m need1). { apply (P8 z m); auto. apply (PO H); auto. }
          apply RO in Hin. destruct Hin as [->|Hin]; [auto|]. now apply Nm, I2, R4. }
        split. { intros He m Hm. destruct (P7 m Hm) as [Hm1|Hm1]; [|right; right; auto]. destruct (Nat.eq_dec m i) as [->|Hne]; [right; left; apply RO; auto|].
          destruct (R7 He m) as [Y|[Y|Y]]; [now apply I2|auto| |auto]. right. left. apply RO. auto. }
        exact R8.
      * eapply dict_fresh; eauto.
      * now apply NoDup_filter.
      * intros m Hm. apply I2 in Hm. destruct Hm as [Hm1 Hm2]. destruct (HE m (P4 m Hm1)) as [Z1 Z2]. split; auto. rewrite SR. intros Hin. apply in_app_or in Hin. destruct Hin as [Hin|[Hin|[]]]; congruence.
      * intros w' k' Hw'. apply HU. now right.
    + destruct X as [X1 X2]. { intros i' [<-|[]]. auto. }
      assert (NF : forall m, In m (filter (fun n => negb (n =? i)) need1) -> In m need1) by (intros m Hm; apply filter_In in Hm; apply Hm).
      destruct er; first [apply Stop; auto; congruence | apply Stop; auto; [now apply NoDup_filter|intros m Hm; auto|discriminate|congruence]].
Qed.

Definition over (G : list row) (from : nat) : Prop := forall i r, from <= i -> nth_error G i = Some r -> truthy (r F_sim_ended) = true \/ truthy (r F_paused) = true.
Lemma over_spec G from : forallb (fun r => flag F_sim_ended r || flag F_paused r) (skipn from G) = true <-> over G from.
Proof.
  rewrite forallb_forall. unfold over. split.
  - intros A i r Hi Hr. assert (Hin : In r (skipn from G)). { apply nth_error_In with (n := i - from). rewrite nth_skipn. replace (from + (i - from)) with i by lia. exact Hr. }
    apply A in Hin. now apply orb_true_iff in Hin.
  - intros A r Hr. apply In_nth_error in Hr. destruct Hr as [n Hn]. rewrite nth_skipn in Hn. apply orb_true_iff. apply (A (from + n) r); auto. lia.
Qed.

Lemma pause_gens_spec H : forall ws gc calls last wk s wk' s' calls' last' e,
  NoDup ws ->
  (forall w k, In w ws -> k_tag k = EVAL_GEN -> k_rows k = seq 0 (length H) -> k_persistent k = false -> k_fields k = nodup_fields (ac_gen_in c) -> U (w, k)) ->
  acc c E U wk s -> pause_gens c u H ws gc calls last wk s = (wk', s', calls', last', e) ->
  acc c E U wk' s' /\ exists newg, calls' = calls + length newg /\ incl (map fst newg) ws /\ NoDup (map fst newg) /\
    (forall q, In q newg -> In q wk' /\ k_tag (snd q) = EVAL_GEN) /\ (forall q, In q wk' -> In q wk \/ In q newg) /\
    (forall q, In q wk -> ~ In (fst q) (map fst newg) -> In q wk') /\
    (newg = [] -> wk' = wk /\ last' = last) /\
    (newg <> [] -> last' = Some (length H) /\ (H <> [] -> pz_batch u = true -> over H (match last with Some n => n | None => 0 end))) /\
    (forall n, pz_num_gens u = Some n -> newg <> [] -> gc + length newg <= n).
Proof.
  induction ws as [|w ws IH]; intros gc calls last wk s wk' s' calls' last' e Hw HU A; cbn [pause_gens].
  - intros [= <- <- <- <- <-]. split; auto. exists []. cbn. split; [lia|]. split; [apply incl_nil_l|]. split; [constructor|]. split; [intros q []|]. split; auto. split; auto. split; auto. split; [congruence|]. congruence.
  - assert (Stop : forall s1 e1, acc c E U wk s1 -> (wk, s1, calls, last, e1) = (wk', s', calls', last', e) ->
      acc c E U wk' s' /\ exists newg, calls' = calls + length newg /\ incl (map fst newg) (w :: ws) /\ NoDup (map fst newg) /\
      (forall q, In q newg -> In q wk' /\ k_tag (snd q) = EVAL_GEN) /\ (forall q, In q wk' -> In q wk \/ In q newg) /\
      (forall q, In q wk -> ~ In (fst q) (map fst newg) -> In q wk') /\
      (newg = [] -> wk' = wk /\ last' = last) /\
      (newg <> [] -> last' = Some (length H) /\ (H <> [] -> pz_batch u = true -> over H (match last with Some n => n | None => 0 end))) /\
      (forall n, pz_num_gens u = Some n -> newg <> [] -> gc + length newg <= n)).
    { intros s1 e1 A1 [= <- <- <- <- <-]. split; auto. exists []. cbn. split; [lia|]. split; [apply incl_nil_l|]. split; [constructor|]. split; [intros q []|]. split; auto. split; auto. split; auto. split; [congruence|]. congruence. }
    destruct (match pz_num_gens u with Some n => gc <? n | None => true end) eqn:Eg; [|now apply Stop].
    match goal with |- context [if ?b then (wk, s, calls, last, None) else _] => destruct b eqn:Eb end; [now apply Stop|].
    assert (OV : H <> [] -> pz_batch u = true -> over H (match last with Some n => n | None => 0 end)).
    { intros Hne Hb. apply over_spec. rewrite Hb in Eb. destruct (Nat.eqb_spec (length H) 0) as [El|El]; [destruct H; [congruence|discriminate]|]. cbn in Eb. now apply negb_false_iff in Eb. }
    destruct (gen_work c w (ac_gen_in c) (seq 0 (length H)) false None s) as [a s1] eqn:Ew.
    pose proof (acc_gen _ _ _ Hres _ _ _ _ _ _ _ _ _ A Ew) as X. destruct a as [k|er]; [|destruct er; now apply Stop].
    destruct X as (T1 & T2 & T3 & T4 & T5 & T6). inversion Hw as [|? ? Hw1 Hw2]; subst x l.
    assert (A1 : acc c E U (dict_set wk w k) s1) by (apply T6, HU; auto; now left).
    intros EE. apply IH in EE as (Q1 & newg & Q2 & Q3 & Q4 & Q5 & Q6 & Q7 & Q8 & Q9 & Q10); auto; [|intros v k' Hv; apply HU; now right].
    split; auto. exists ((w, k) :: newg). cbn [length map fst]. split; [lia|]. split; [intros v [<-|Hv]; [now left|right; auto]|].
    assert (Hn : ~ In w (map fst newg)) by auto.
    split; [constructor; auto|]. split. { intros q [<-|Hq]; [|now apply Q5]. split; [|exact T1]. apply Q7; [apply dict_set_get|exact Hn]. }
    split. { intros q Hq. destruct (Q6 q Hq) as [Hq'|Hq']; [|right; now right]. destruct (dict_set_In _ _ _ _ Hq') as [->|Hq'']; auto. right. now left. }
    split. { intros [v x] Hq Hv. cbn in Hv. apply Q7; [|cbn; tauto]. apply dict_set_keep; [exact Hq|]. intros ->. apply Hv. now left. }
    split; [discriminate|]. split.
    { intros _. split; [|exact OV]. destruct newg as [|q l]; [apply (Q8 eq_refl)|]. apply Q9. discriminate. }
    intros n En _. rewrite En in Eg. apply Nat.ltb_lt in Eg. destruct newg as [|q l]; [cbn; lia|]. specialize (Q10 n En). cbn in *. assert (q :: l <> []) by discriminate. specialize (Q10 H1). lia.
Qed.
End Loops.

(** ** One call *)
Definition to_give (p : ps_state) (H : list row) : list nat :=
  if length H =? ps_len p then ps_need p
  else ps_need p ++ filter (fun i => negb (memb i (ps_need p))) (map (fun r => Z.to_nat (as_int (r F_sim_id))) (skipn (ps_len p) H)).

Lemma filter_all {A} (q : A -> bool) l : (forall x, In x l -> q x = true) -> filter q l = l.
Proof. induction l as [|x l IH]; intros Hq; cbn; auto. rewrite (Hq x (or_introl eq_refl)). f_equal. apply IH. intros y Hy. apply Hq. now right. Qed.
Lemma to_give_spec p H : numbered H -> ps_len p <= length H -> (forall i, In i (ps_need p) -> i < ps_len p) -> NoDup (ps_need p) ->
  NoDup (to_give p H) /\ forall i, In i (to_give p H) <-> In i (ps_need p) \/ ps_len p <= i < length H.
Proof.
  intros Hn Hl Hlt Hd. unfold to_give. destruct (Nat.eqb_spec (length H) (ps_len p)) as [El|El]; [split; auto; intros i; split; auto; intros [X|X]; [auto|lia]|].
  assert (M : map (fun r => Z.to_nat (as_int (r F_sim_id))) (skipn (ps_len p) H) = seq (ps_len p) (length H - ps_len p)).
  { apply nth_ext with (d := 0) (d' := 0); [rewrite map_length, seq_length; apply skipn_length|]. intros n Hlen. rewrite map_length, skipn_length in Hlen. rewrite seq_nth by lia.
    destruct (nth_error H (ps_len p + n)) as [r|] eqn:Er; [|apply nth_error_None in Er; lia].
    erewrite nth_indep; [|rewrite map_length, skipn_length; lia]. erewrite map_nth. erewrite nth_error_nth; [|rewrite nth_skipn; exact Er]. rewrite (Hn _ _ Er). now rewrite Nat2Z.id.
    Unshelve. exact r. }
  rewrite M. assert (F : filter (fun i => negb (memb i (ps_need p))) (seq (ps_len p) (length H - ps_len p)) = seq (ps_len p) (length H - ps_len p)).
  { apply filter_all. intros i Hi. apply in_seq in Hi. apply negb_true_iff, memb_false. intros Hin. apply Hlt in Hin. lia. }
  rewrite F. split.
  - apply NoDup_app_intro; [exact Hd|apply seq_NoDup|]. intros i Hi Hs. apply in_seq in Hs. apply Hlt in Hi. lia.
  - intros i. rewrite in_app_iff, in_seq. intuition lia.
Qed.

Section Pausing.
Variables (c : actx) (d : dtype) (u : ps_user) (g : nat) (p p' : ps_state) (H : list row) (out : aout).
Hypothesis (Hids : ids_distinct (ac_W c)) (Hres : resources_ok c) (Hnd : NoDup (to_give p H)).
Hypothesis Hrun : pausing_alloc c d u false g p H = (out, p').

Definition ps_unit (q : nat * work) : Prop :=
  idle (ac_W c) (fst q) /\
  (k_tag (snd q) = EVAL_GEN /\ k_persistent (snd q) = false /\ k_rows (snd q) = seq 0 (length H) /\ k_fields (snd q) = nodup_fields (ac_gen_in c) /\ (some_gen_only (ac_W c) -> gen_only (ac_W c) (fst q)) \/
   sim_unit c d H false q /\ length (k_rows (snd q)) = 1 /\ (some_gen_only (ac_W c) -> ~ gen_only (ac_W c) (fst q))).

Lemma avail_reserved g' ws w : avail_workers (ac_W c) None false None (Some g') = Ok ws -> In w ws -> some_gen_only (ac_W c) -> if g' then gen_only (ac_W c) w else ~ gen_only (ac_W c) w.
Proof.
  intros Ea Hw Hg. destruct (avail_gen _ _ _ _ _ _ Ea Hw Hg) as (r & R1 & R2 & R3). destruct g'; [exists r; auto|].
  intros (r' & Q1 & Q2 & Q3). rewrite (id_unique _ r r' Hids R1 Q1) in R3 by congruence. congruence.
Qed.

Lemma pausing_facts :
  (exists s, acc c (fun i => In i (to_give p H)) ps_unit (o_work out) s) /\ same_but [F_paused] H (o_rows out) /\ o_flag out = 0 /\
  ps_len p' = length H /\ NoDup (ps_need p') /\ incl (ps_need p') (to_give p H) /\ (forall i, In i (ps_need p') -> ~ In i (sim_rows (o_work out))) /\
  (forall i, paused H i -> paused (o_rows out) i) /\ (forall i, In i (ps_need p') -> ~ paused H i -> ~ paused (o_rows out) i) /\
  (forall z i, (pz_nans u = true /\ nan_point H z \/ In z (pz_partial u 0)) -> ~ In z (ps_paused p) -> point_of H i z -> ~ In i (sim_rows (o_work out))) /\
  (o_err out = None -> gens (o_work out) = [] -> forall i, In i (to_give p H) -> In i (ps_need p') \/ In i (sim_rows (o_work out)) \/ paused (o_rows out) i) /\
  (ac_manage c = false -> gens (o_work out) = [] -> ps_need p' = [] \/ forall w, idle (ac_W c) w -> (some_gen_only (ac_W c) -> ~ gen_only (ac_W c) w) -> In w (map fst (o_work out))) /\
  ps_calls p' = ps_calls p + length (gens (o_work out)) /\
  (forall n, pz_num_gens u = Some n -> gens (o_work out) <> [] -> count_gens (ac_W c) + length (gens (o_work out)) <= n) /\
  (gens (o_work out) = [] -> ps_last p' = ps_last p) /\
  (gens (o_work out) <> [] -> ps_last p' = Some (length H) /\ (pz_batch u = true -> over (o_rows out) (match ps_last p with Some n => n | None => 0 end))) /\
  (pz_batch u = true -> gens (o_work out) <> [] ->
     (forall i, In i (to_give p H) -> exists r, nth_error H i = Some r /\ truthy (r F_sim_ended) = false /\ match ps_last p with Some n => n | None => 0 end <= i) ->
     forall i, In i (to_give p H) -> paused (o_rows out) i).
Proof.
  revert Hrun. unfold pausing_alloc. fold (to_give p H).
  destruct (avail_workers _ None false None (Some false)) as [ws|] eqn:Ew; [|cbn in Ew; discriminate].
  destruct (avail_workers _ None false None (Some true)) as [gs|] eqn:Eg; [|cbn in Eg; discriminate].
  destruct (pause_sims _ _ _ _ _ _ _ _ _ _) as [[[[H1 wk1] s1] [need1 pd1]] e1] eqn:E1.
  eapply (pause_sims_spec c (fun i => In i (to_give p H)) ps_unit d u H Hres) in E1 as (P1 & P2 & P3 & P4 & P5 & P6 & P7 & new & rest & R1 & R2 & R3 & R4 & R5 & R6 & R7 & R8);
    [|exact (avail_sub _ _ _ _ _ _ Ew Hids)|reflexivity|exact Hnd|intros i Hi; split; [exact Hi|intros []]|apply same_but_refl| |now apply acc_nil].
  2:{ intros w k Hw Hu Hl. split; [exact (avail_idle _ _ _ _ _ _ Ew Hw)|]. right. split; auto. split; auto. exact (avail_reserved false ws w Ew Hw). }
  cbn [app] in R1. subst wk1.
  assert (SR : sim_rows new = rows_of new). { unfold sim_rows. now destruct (sims_all new R3) as [-> _]. }
  assert (G0 : gens new = []) by now destruct (sims_all new R3).
  assert (ID : forall w, idle (ac_W c) w -> (some_gen_only (ac_W c) -> ~ gen_only (ac_W c) w) -> In w ws).
  { intros w (r & K1 & K2 & K3) Hg. unfold avail_workers in Ew. cbn [andb] in Ew. injection Ew as <-. apply in_map_iff. exists r. split; auto. apply filter_In. split; auto.
    rewrite K3. cbn [Nat.eqb andb]. destruct (negb (existsb w_zero (ac_W c))); cbn [andb]; (destruct (existsb w_gen (ac_W c)) eqn:Ex; cbn [negb]; auto;
      apply existsb_exists in Ex; destruct Ex as (r0 & X1 & X2); destruct (w_gen r) eqn:Er; auto; exfalso; apply Hg; [exists r0; auto|exists r; auto]). }
  destruct e1 as [e1|].
  { intros [= <- <-]. cbn [o_work o_rows o_flag o_err ps_len ps_need ps_paused ps_last ps_calls]. rewrite SR, G0. split; [eauto|]. repeat (split; [solve [auto]|]).
    split; [intros M; destruct (R8 M); discriminate|]. cbn [length]. split; [lia|]. split; [congruence|]. split; auto. split; congruence. }
  destruct (pause_gens _ _ _ _ _ _ _ _ _) as [[[[wk2 s2] calls] last] e2] eqn:E2.
  eapply (pause_gens_spec c (fun i => In i (to_give p H)) ps_unit u Hres) in E2 as (A2 & newg & Q2 & Q3 & Q4 & Q5 & Q6 & Q7 & Q8 & Q9 & Q10);
    [|exact (avail_sub _ _ _ _ _ _ Eg Hids)| |exact P2].
  2:{ intros w k Hw T1 T2 T3 T4. split; [exact (avail_idle _ _ _ _ _ _ Eg Hw)|]. left. cbn. rewrite (proj1 P1) in T2. repeat (split; [solve [auto]|]). exact (avail_reserved true gs w Eg Hw). }
  assert (GP : Permutation (gens wk2) newg).
  { apply NoDup_Permutation.
    - apply NoDup_filter. exact (NoDup_map_inv _ _ (acc_keys _ _ _ _ _ A2)).
    - exact (NoDup_map_inv _ _ Q4).
    - intros q. unfold gens. rewrite filter_In, Nat.eqb_eq. split.
      + intros [K1 K2]. destruct (Q6 q K1) as [K3|K3]; auto. rewrite Forall_forall in R3. apply R3 in K3. unfold EVAL_GEN, EVAL_SIM in *. congruence.
      + intros K. apply Q5 in K. exact K. }
  assert (GL : length (gens wk2) = length newg) by now apply Permutation_length.
  assert (GN : gens wk2 = [] <-> newg = []). { split; intros X; rewrite X in GL; [destruct newg; [auto|discriminate]|destruct (gens wk2); [auto|discriminate]]. }
  assert (SI : forall i, In i (sim_rows wk2) -> In i (rows_of new)).
  { intros i Hi. rewrite <- SR. apply sim_rows_in in Hi. destruct Hi as (w & k & K1 & K2 & K3). apply sim_rows_in. exists w, k. split; auto. destruct (Q6 _ K1) as [K|K]; auto. apply Q5 in K. destruct K as [_ K]. cbn in K. unfold EVAL_GEN, EVAL_SIM in *. congruence. }
  intros [= <- <-]. cbn [o_work o_rows o_flag o_err ps_len ps_need ps_paused ps_last ps_calls]. split; [eauto|]. repeat (split; [solve [auto]|]).
  split. { intros i Hi Hs. exact (R5 i Hi (SI i Hs)). }
  split; auto. split; auto. split. { intros z i Hz Hnz Hp Hi. exact (R6 z i Hz Hnz Hp (SI i Hi)). }
  split. { intros _ Hg i Hi. apply GN in Hg. destruct (Q8 Hg) as [-> _]. rewrite SR. now apply R7. }
  split. { intros M Hg. apply GN in Hg. destruct (Q8 Hg) as [-> _]. destruct (R8 M) as [_ [-> | ->]]; [right|now left]. intros w Hi Hr. apply ID in Hi; auto. rewrite R2, app_nil_r in Hi. exact Hi. }
  split; [lia|]. split. { intros n Hn Hg. rewrite GL. apply Q10; auto. intros X. apply Hg. now apply GN. }
  split. { intros Hg. apply GN in Hg. now apply Q8. }
  assert (Ov : newg <> [] -> pz_batch u = true -> over H1 (match ps_last p with Some n => n | None => 0 end)).
  { intros Hg Hb. destruct H1 as [|r0 l0] eqn:EH; [intros i r _ Hr; destruct i; discriminate|]. rewrite <- EH in *. apply Q9; auto. congruence. }
  split. { intros Hg. assert (Hg' : newg <> []) by (intros X; apply Hg; now apply GN). split; [rewrite <- (proj1 P1); now apply Q9|]. now apply Ov. }
  intros Hb Hg Hold i Hi. assert (Hg' : newg <> []) by (intros X; apply Hg; now apply GN). destruct (Hold i Hi) as (r & Hr & He & Hl).
  destruct (proj2 P1 _ _ Hr) as (r' & Hr' & F). destruct (Ov Hg' Hb i r' Hl Hr') as [X|X]; [|exists r'; auto]. rewrite F in X by (intros [Y|[]]; discriminate). congruence.
Qed.
End Pausing.
