(** Points are given in order of priority. *)
From Coq Require Import String Permutation Sorted.
From Verif Require Import Base BaseLemmas HistoryModel HistoryProofs WorkModel RsetModel RsetSpec SchedModel SchedSpec SchedServe AllocModel AllocSpec AllocProofs AllocLoops AllocFacts AllocFast.
Local Notation length := List.length.

Lemma prio_of H i : prio H i = priority_of H i.
Proof. reflexivity. Qed.

Lemma points_best d H pts batch rows : In F_priority (names d) -> points_by_priority d H pts batch = Ok rows ->
  forall i j, In i rows -> In j pts -> sc_ge (priority_of H i) (priority_of H j).
Proof.
  intros Hp. apply has_In in Hp. unfold points_by_priority. destruct pts as [|i0 pts]; [discriminate|]. rewrite Hp. destruct batch; intros E.
  - injection E as <-. intros i j Hi Hj.
    change (In i (filter (fun k => sc_eqb (prio H k) (sc_max (prio H i0) (map (prio H) pts))) (i0 :: pts))) in Hi. apply filter_In in Hi. destruct Hi as [_ He].
    destruct (sc_max_spec (map (prio H) pts) (prio H i0)) as [_ M]. assert (Hm : In (prio H j) (prio H i0 :: map (prio H) pts)) by (destruct Hj as [<-|Hj]; [now left|right; now apply in_map]).
    specialize (M _ Hm). rewrite <- !prio_of. destruct (prio H i) as [x| |], (sc_max _ _) as [y| |]; cbn in He; try discriminate; auto.
    apply Z.eqb_eq in He. subst y. exact M.
  - injection E as <-. intros i j [<-|[]] Hj. destruct (argmax_max (map (fun k => (k, prio H k)) pts) (i0, prio H i0)) as (v & V1 & V2).
    assert (Hv : v = prio H (argmax_from (i0, prio H i0) (map (fun k => (k, prio H k)) pts))).
    { destruct V1 as [V1|V1]; [injection V1 as V1 V3; now rewrite <- V3, <- V1|]. apply in_map_iff in V1. destruct V1 as (k & V1 & _). injection V1 as V1 V3. now rewrite <- V3, <- V1. }
    rewrite <- !prio_of, <- Hv. destruct Hj as [<-|Hj]; [exact (V2 _ (or_introl eq_refl))|]. apply (V2 (j, prio H j)). right. apply in_map_iff. now exists j.
Qed.

Lemma points_batch d H pts rows : In F_priority (names d) -> points_by_priority d H pts true = Ok rows ->
  (forall j, In j pts -> priority_of H j <> SNaN) ->
  forall i, In i rows <-> In i pts /\ forall j, In j pts -> sc_ge (priority_of H i) (priority_of H j).
Proof.
  intros Hp E Hn i. split.
  - intros Hi. split; [|intros j Hj; exact (points_best d H pts true rows Hp E i j Hi Hj)]. apply has_In in Hp. unfold points_by_priority in E. destruct pts as [|i0 pts]; [discriminate|]. rewrite Hp in E. injection E as <-.
    change (In i (filter (fun k => sc_eqb (prio H k) (sc_max (prio H i0) (map (prio H) pts))) (i0 :: pts))) in Hi. now apply filter_In in Hi.
  - intros [Hi Hb]. apply has_In in Hp. unfold points_by_priority in E. destruct pts as [|i0 pts]; [discriminate|]. rewrite Hp in E. injection E as <-.
    change (In i (filter (fun k => sc_eqb (prio H k) (sc_max (prio H i0) (map (prio H) pts))) (i0 :: pts))). apply filter_In. split; auto.
    destruct (sc_max_spec (map (prio H) pts) (prio H i0)) as [M1 M2]. set (m := sc_max _ _) in *.
    assert (Mj : exists j, In j (i0 :: pts) /\ m = prio H j).
    { destruct M1 as [M1|M1]; [exists i0; split; [now left|auto]|]. apply in_map_iff in M1. destruct M1 as (j & <- & Hj). exists j. split; [now right|auto]. }
    destruct Mj as (j & Hj & Em). assert (Mi : sc_ge m (prio H i)). { apply M2. destruct Hi as [<-|Hi]; [now left|right; now apply in_map]. }
    specialize (Hb j Hj). pose proof (Hn j Hj) as Nj. pose proof (Hn i Hi) as Ni. change (sc_ge (prio H i) (prio H j)) in Hb. change (prio H j <> SNaN) in Nj. change (prio H i <> SNaN) in Ni. rewrite <- Em in Hb, Nj. clear Em M1 M2.
    destruct (prio H i) as [x| |], m as [y| |]; cbn in *; try contradiction; try congruence; auto. apply Z.eqb_eq. lia.
Qed.

Lemma sim_loop_best c d H batch pers : In F_priority (names d) -> resources_ok c -> forall ws pts work s handed work' s' pts' e,
  NoDup ws -> NoDup pts -> (forall w, In w ws -> in_dict work w = false) -> sinv c handed s ->
  sim_loop c d H batch pers ws pts work s = (work', s', pts', e) ->
  forall q i j, In q work' -> ~ In q work -> In i (k_rows (snd q)) -> In j pts' -> sc_ge (priority_of H i) (priority_of H j).
Proof.
  intros Hpr Hr. induction ws as [|w ws IH]; intros pts work s handed work' s' pts' e Hw Hp Hd Hs; cbn [sim_loop].
  - intros E. injection E as <- <- <- <-. intros q i j H1 H2. contradiction.
  - destruct pts as [|i0 pts0] eqn:Epts; [intros E; injection E as <- <- <- <-; intros q i j H1 H2; contradiction|]. rewrite <- Epts in *. clear i0 pts0 Epts.
    destruct (points_by_priority d H pts batch) as [rows|er] eqn:Erows; [|intros E; injection E as <- <- <- <-; intros q i j H1 H2; contradiction].
    destruct (sim_work c d H w rows pers s) as [a s1] eqn:Ea. destruct (sim_work_spec _ _ _ _ _ _ _ _ _ _ Hr Hs Ea) as [G X].
    destruct a as [k|er]; [|destruct er; intros E; injection E as <- <- <- <-; intros q i j H1 H2; contradiction].
    destruct X as (X1 & X2 & X3 & X4 & X5 & X6 & X7). inversion Hw as [|? ? Hw1 Hw2]; subst x l. rewrite dict_set_new by (apply Hd; now left). intros E q i j H1 H2 H3 H4.
    destruct (sim_loop_spec c d H batch pers Hr _ _ _ _ _ _ _ _ _ Hw2 (NoDup_filter _ Hp) (dict_fresh _ _ k _ Hw Hd) X1 E) as (new & rest & E1 & E2 & E3 & E4 & _).
    assert (Hq : In q [(w, k)] \/ In q new). { rewrite E1 in H1. rewrite !in_app_iff in H1. tauto. } destruct Hq as [Hq|Hq].
    + destruct Hq as [<-|[]]. cbn in H3. rewrite X3 in H3. apply (points_best d H pts batch rows Hpr Erows i j H3).
      assert (Hin : In j (filter (fun i => negb (memb i rows)) pts)) by (apply (Permutation_in _ (Permutation_sym E4)), in_or_app; now right). now apply filter_In in Hin.
    + apply (IH _ _ _ _ _ _ _ _ Hw2 (NoDup_filter _ Hp) (dict_fresh _ _ k _ Hw Hd) X1 E q i j); auto. rewrite in_app_iff. intros [?|[<-|[]]]; auto.
      apply Hw1. rewrite E2. apply in_or_app. left. exact (in_map fst _ _ Hq).
Qed.

(** The points the default allocation function leaves out never beat those it gives. *)
Lemma default_best c d u now stop g H : ids_distinct (ac_W c) -> resources_ok c -> In F_priority (names d) ->
  let out := give_sim_work_first c d u now stop g H in
  forall i j, In i (sim_rows (o_work out)) -> evaluable (o_rows out) j -> ~ In j (sim_rows (o_work out)) ->
  sc_ge (priority_of (o_rows out) i) (priority_of (o_rows out) j).
Proof.
  intros Hi Hr Hp out i j. unfold out, give_sim_work_first. set (H1 := cancel_slow u now H). destruct stop; [intros []|].
  pose proof (support_init_sinv c g Hr) as Si. destruct (to_evaluate H1) as [|i0 pts0] eqn:Ept.
  - destruct (avail_workers _ _ _ _ _) as [ws|] eqn:Ew; [|intros []]. destruct (gen_loop _ _ _ _ _ _ _) as [[wk s1] e] eqn:Eg. cbn [o_work o_rows]. intros _ Hj. exfalso.
    apply to_evaluate_spec in Hj. now rewrite Ept in Hj.
  - destruct (avail_workers _ _ _ _ _) as [ws|] eqn:Ew; [|intros []]. rewrite <- Ept. destruct (sim_loop _ _ _ _ _ _ _ _ _) as [[[wk s1] pts'] e] eqn:Eg. cbn [o_work o_rows].
    pose proof (avail_sub _ _ _ _ _ _ Ew Hi) as Hn.
    destruct (sim_loop_spec c d H1 _ _ Hr ws _ [] _ [] _ _ _ _ Hn (to_evaluate_nodup H1) (fun w _ => eq_refl) Si Eg) as (new & rest & E1 & E2 & E3 & E4 & _). cbn in E1. subst new.
    destruct (sims_all wk) as [Es _]. { eapply Forall_impl; [|exact E3]. intros q Hq. apply Hq. } unfold sim_rows. rewrite Es. intros Hin Hj Hnj.
    apply in_concat in Hin. destruct Hin as (l & Hl & Hil). apply in_map_iff in Hl. destruct Hl as (q & <- & Hq).
    apply (sim_loop_best c d H1 _ _ Hp Hr ws _ [] _ [] _ _ _ _ Hn (to_evaluate_nodup H1) (fun w _ => eq_refl) Si Eg q i j); auto.
    apply to_evaluate_spec in Hj. apply (Permutation_in _ E4) in Hj. apply in_app_or in Hj. tauto.
Qed.
