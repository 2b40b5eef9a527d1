(** The loops of the allocation functions. *)
From Coq Require Import String Permutation Sorted.
From Verif Require Import Base BaseLemmas HistoryModel HistoryProofs WorkModel RsetModel RsetSpec SchedModel SchedSpec SchedServe AllocModel AllocSpec AllocProofs.
Local Notation length := List.length.

Lemma has_In f l : has f l = true <-> In f l.
Proof.
  unfold has. rewrite existsb_exists. split.
  - intros (g & Hg & E). unfold feqb in E. destruct (field_eq_dec f g); [now subst|discriminate].
  - intros Hin. exists f. split; auto. unfold feqb. destruct (field_eq_dec f f); congruence.
Qed.
Lemma has_notin f l : has f l = false <-> ~ In f l.
Proof. rewrite <- has_In. destruct (has f l); split; congruence. Qed.

(** ** Column maxima *)
Lemma fold_max_ge l : forall x z, In z (x :: l) -> (z <= fold_right Z.max x l)%Z.
Proof.
  induction l as [|y l IH]; intros x z [<-|Hz]; cbn [fold_right]; try lia; [destruct Hz| |].
  - specialize (IH x x (or_introl eq_refl)). lia.
  - destruct Hz as [<-|Hz]; [lia|]. specialize (IH x z (or_intror Hz)). lia.
Qed.
Lemma col_values_in H f rows : forall l, col_values H f rows = Some l -> forall i r, In i rows -> nth_error H i = Some r -> In (as_int (r f)) l.
Proof.
  induction rows as [|j rows IH]; intros l E i r Hi Hr; [destruct Hi|]. cbn in E. destruct (nth_error H j) as [rj|] eqn:Ej; [|discriminate].
  destruct (col_values H f rows) as [l'|] eqn:El; [|discriminate]. injection E as <-. destruct Hi as [->|Hi].
  - left. congruence.
  - right. exact (IH _ eq_refl i r Hi Hr).
Qed.
Lemma col_max_ge H f rows z : col_max H f rows = Ok z -> forall i r, In i rows -> nth_error H i = Some r -> (as_int (r f) <= z)%Z.
Proof.
  unfold col_max. destruct (col_values H f rows) as [[|x l]|] eqn:E; try discriminate. intros Hz i r Hi Hr. injection Hz as <-.
  apply fold_max_ge. exact (col_values_in _ _ _ _ E i r Hi Hr).
Qed.
Lemma convert_enough per n k : convert_to_rsets per n = Ok k -> (n <= Z.of_nat (k * per))%Z.
Proof.
  intros E. destruct per as [|per].
  - rewrite convert_zero in E. destruct (Z.ltb_spec 0 n); [discriminate|]. injection E as <-. lia.
  - destruct (convert_ceiling (S per) n ltac:(lia)) as (k' & E' & H & _). rewrite E in E'. injection E' as <-. exact H.
Qed.
Lemma convert_pos per n k : convert_to_rsets per n = Ok k -> (0 < n)%Z -> 0 < k.
Proof. intros E Hn. pose proof (convert_enough _ _ _ E). destruct k; [cbn in *; lia|lia]. Qed.

(** ** One unit *)
Lemma req_sim_demand c d H rows q m t : req_sim c d H rows = Ok q -> ac_rm c = Some m -> q_num q <= length t ->
  (forall i, In i t -> of_kind m (q_gpus q) i) ->
  forall i r, In i rows -> nth_error H i = Some r -> demand_met c d m t r.
Proof.
  intros Hq Hm Ht Hk i r Hi Hr. unfold req_sim in Hq. rewrite Hm in Hq.
  set (st1 := if has F_resource_sets (names d) then _ else _) in Hq. destruct st1 as [q1|] eqn:E1; [|discriminate]. cbn [bindr] in Hq. unfold st1 in E1. clear st1.
  set (st2 := if has F_use_gpus (names d) then _ else _) in Hq. destruct st2 as [q2|] eqn:E2; [|discriminate]. cbn [bindr] in Hq. unfold st2 in E2. clear st2.
  (* the number of sets never decreases, the kind is only overwritten by "GPU" *)
  assert (N2 : q_num q2 = q_num q1).
  { destruct (has F_use_gpus (names d)); [|congruence]. destruct (col_values H F_use_gpus rows); [|discriminate]. now injection E2 as <-. }
  assert (N3 : q_num q2 <= q_num q /\ (q_gpus q = q_gpus q2 \/ q_gpus q = Some true) /\
    (In F_num_gpus (names d) -> (as_int (r F_num_gpus) <= Z.of_nat (q_num q * ac_gpus_per c))%Z /\ ((0 < as_int (r F_num_gpus))%Z -> q_gpus q = Some true))).
  { destruct (has F_num_gpus (names d)) eqn:Hg.
    - destruct (col_max H F_num_gpus rows) as [z|] eqn:Ez; [|discriminate]. cbn [bindr] in Hq.
      destruct (convert_to_rsets (ac_gpus_per c) z) as [k|] eqn:Ek; [|discriminate]. cbn [bindr] in Hq. injection Hq as <-. cbn [q_num q_gpus].
      pose proof (col_max_ge _ _ _ _ Ez i r Hi Hr) as G. pose proof (convert_enough _ _ _ Ek) as G2. split; [lia|]. split.
      + destruct (0 <? k); auto.
      + intros _. split; [nia|]. intros Hp. destruct (Nat.ltb_spec 0 k) as [|L]; auto. pose proof (convert_pos _ _ _ Ek ltac:(lia)). lia.
    - injection Hq as <-. split; [lia|]. split; auto. intros Hin. apply has_In in Hin. congruence. }
  destruct N3 as (N3 & N4 & N5). unfold demand_met. split; [|split; [|split; [|split]]].
  - intros Hin. apply has_In in Hin. rewrite Hin in E1. destruct (col_max H F_resource_sets rows) as [z|] eqn:Ez; [|discriminate]. cbn [bindr] in E1. injection E1 as <-.
    pose proof (col_max_ge _ _ _ _ Ez i r Hi Hr). cbn [q_num] in N2. lia.
  - intros Hn Hin. apply has_notin in Hn. apply has_In in Hin. rewrite Hn, Hin in E1. destruct (col_max H F_num_procs rows) as [z|] eqn:Ez; [|discriminate]. cbn [bindr] in E1.
    destruct (convert_to_rsets (ac_procs_per c) z) as [k|] eqn:Ek; [|discriminate]. cbn [bindr] in E1. injection E1 as <-. cbn [q_num] in N2.
    pose proof (col_max_ge _ _ _ _ Ez i r Hi Hr). pose proof (convert_enough _ _ _ Ek). nia.
  - intros Hin. destruct (N5 Hin) as [G _]. nia.
  - intros Hin Hp j Hj. destruct (N5 Hin) as [_ G]. rewrite <- (G Hp). now apply Hk.
  - intros Hin Hp j Hj. apply has_In in Hin. rewrite Hin in E2. destruct (col_values H F_use_gpus rows) as [l|] eqn:El; [|discriminate]. injection E2 as <-. cbn [q_gpus] in N4.
    assert (X : existsb (fun z => negb (z =? 0)%Z) l = true).
    { apply existsb_exists. exists (as_int (r F_use_gpus)). split; [exact (col_values_in _ _ _ _ El i r Hi Hr)|]. apply negb_true_iff, Z.eqb_neq, Hp. }
    rewrite X in N4. assert (E : q_gpus q = Some true) by tauto. rewrite <- E. now apply Hk.
Qed.

Definition team_of (k : work) : list nat := match k_team k with Some t => t | None => [] end.

Lemma update_team_spec c handed w q s a s' : resources_ok c -> sinv c handed s -> update_team c w q s = (a, s') ->
  as_gens s' = as_gens s /\
  match a with
  | Ok (t, _, _) =>
      sinv c (handed ++ match t with Some t => t | None => [] end) s' /\
      (ac_manage c = false -> t = None) /\
      (ac_manage c = true -> exists r, wget (ac_gom c) (ac_W c) w = Some r /\
         (w_persis r <> 0 -> t = Some []) /\ (w_persis r = 0 -> exists q', q = Ok q' /\ covers c (q_num q') (q_gpus q') t))
  | Err e => sinv c handed s' /\ ac_manage c = true
  end.
Proof.
  intros Hr Hs. unfold update_team. destruct (ac_manage c) eqn:Em.
  - destruct (wget _ _ w) as [r|] eqn:Ew; [|intros H; injection H as <- <-; auto].
    destruct (Nat.eqb_spec (w_persis r) 0) as [Ep|Ep]; cbn [negb].
    + destruct q as [q|e]; [|intros H; injection H as <- <-; auto].
      destruct (support_assign _ _ _ _ _) as [t s1] eqn:Ea. destruct (support_assign_spec _ _ _ _ _ _ _ _ Hr Hs Ea) as [G X].
      intros H. injection H as <- <-. split; auto. destruct t as [t|e]; [|tauto]. destruct X as [X1 X2]. split; auto. split; [discriminate|].
      intros _. exists r. split; auto. split; [congruence|]. intros _. exists q. auto.
    + intros H. injection H as <- <-. split; auto. rewrite app_nil_r. split; auto. split; [discriminate|]. intros _. exists r. split; auto. split; auto. congruence.
  - intros H. injection H as <- <-. split; auto. rewrite app_nil_r. split; auto. split; auto. discriminate.
Qed.

Lemma sim_work_spec c d H handed w rows pers s a s' : resources_ok c -> sinv c handed s -> sim_work c d H w rows pers s = (a, s') ->
  as_gens s' = as_gens s /\
  match a with
  | Ok k => sinv c (handed ++ team_of k) s' /\ k_tag k = EVAL_SIM /\ k_rows k = rows /\ k_persistent k = pers /\ k_recv k = None /\
            k_fields k = nodup_fields (ac_sim_in c) /\ unit_served c d H w k
  | Err e => sinv c handed s' /\ ac_manage c = true
  end.
Proof.
  intros Hr Hs. unfold sim_work. destruct (update_team _ _ _ _) as [t s1] eqn:E. destruct (update_team_spec _ _ _ _ _ _ _ Hr Hs E) as [G X].
  intros HH. injection HH as <- <-. split; auto. destruct t as [[[t np] ng]|e]; auto. destruct X as (X1 & X2 & X3). unfold team_of. cbn. split; auto.
  repeat (split; [reflexivity|]). unfold unit_served. destruct (ac_manage c).
  - destruct (X3 eq_refl) as (r & Ew & Y1 & Y2). rewrite Ew. destruct (ac_rm c) as [m|] eqn:Em.
    + destruct (Nat.eq_dec (w_persis r) 0) as [Ep|Ep].
      * destruct (Y2 Ep) as (q & Eq & C). unfold covers in C. rewrite Em in C. destruct t as [t|]; [|contradiction]. exists t. cbn. split; auto. split; [|congruence].
        intros _. exact (req_sim_demand _ _ _ _ _ _ _ Eq Em (proj1 C) (proj2 C)).
      * rewrite (Y1 Ep). exists []. cbn. split; auto. split; auto. congruence.
    + destruct (Nat.eq_dec (w_persis r) 0) as [Ep|Ep]; [|rewrite (Y1 Ep); auto]. destruct (Y2 Ep) as (q & _ & C). unfold covers in C. rewrite Em in C. destruct t; [contradiction|auto].
  - rewrite (X2 eq_refl). auto.
Qed.

Lemma gen_work_spec c handed w fields rows pers recv s a s' : resources_ok c -> sinv c handed s -> gen_work c w fields rows pers recv s = (a, s') ->
  match a with
  | Ok k => sinv c (handed ++ team_of k) s' /\ k_tag k = EVAL_GEN /\ k_rows k = rows /\ k_persistent k = pers /\ k_recv k = recv /\
            k_fields k = nodup_fields fields /\ as_gens s <= as_gens s' /\
            exists r, wget (ac_gom c) (ac_W c) w = Some r /\ (w_persis r = 0 -> as_gens s' = S (as_gens s) /\ k_gen_count k = Some (as_gens s'))
  | Err e => sinv c handed s' /\ as_gens s' = as_gens s /\ (ac_manage c = true \/ e = EIndex)
  end.
Proof.
  intros Hr Hs. unfold gen_work. destruct (update_team _ _ _ _) as [t s1] eqn:E. destruct (update_team_spec _ _ _ _ _ _ _ Hr Hs E) as [G X].
  destruct t as [[[t np] ng]|e]; [|intros HH; injection HH as <- <-; tauto]. destruct X as (X1 & X2 & X3).
  destruct (wget _ _ w) as [r|] eqn:Ew.
  2:{ intros HH. injection HH as <- <-. split; auto. destruct (ac_manage c); [destruct (X3 eq_refl) as (r & Y & _); discriminate|]. rewrite (X2 eq_refl), app_nil_r in X1. auto. }
  destruct (avail_workers _ _ _ _ _) as [idle|e] eqn:Ei; [|cbn in Ei; discriminate].
  intros HH. injection HH as <- <-. unfold team_of. cbn. split; [exact X1|]. repeat (split; [reflexivity|]). split; [destruct (w_persis r =? 0); lia|].
  exists r. split; auto. intros Ep. rewrite Ep. cbn. rewrite G. auto.
Qed.

(** ** Dictionaries *)
Lemma dict_set_new d w k : in_dict d w = false -> dict_set d w k = d ++ [(w, k)].
Proof.
  unfold in_dict, memb. induction d as [|[v x] d IH]; cbn; auto. intros H. apply orb_false_iff in H. destruct H as [H1 H2].
  rewrite Nat.eqb_sym, H1. f_equal. now apply IH.
Qed.
Lemma in_dict_app d d' w : in_dict (d ++ d') w = in_dict d w || in_dict d' w.
Proof. unfold in_dict, memb. now rewrite map_app, existsb_app. Qed.
Lemma in_dict_false d w : in_dict d w = false <-> ~ In w (map fst d).
Proof. unfold in_dict. apply memb_false. Qed.

Lemma dict_fresh d w k ws : NoDup (w :: ws) -> (forall v, In v (w :: ws) -> in_dict d v = false) ->
  forall v, In v ws -> in_dict (d ++ [(w, k)]) v = false.
Proof.
  intros Hn Hd v Hv. rewrite in_dict_app, (Hd v) by now right. apply in_dict_false. cbn. intros [->|[]]. now inversion Hn.
Qed.

Lemma perm_split rows pts : NoDup rows -> NoDup pts -> incl rows pts -> Permutation pts (rows ++ filter (fun i => negb (memb i rows)) pts).
Proof.
  intros Hr Hp Hi. apply NoDup_Permutation; auto.
  - apply NoDup_app_intro; auto. { now apply NoDup_filter. } intros x Hx Hf. apply filter_In in Hf. destruct Hf as [_ Hf]. apply memb_In in Hx. rewrite Hx in Hf. discriminate.
  - intros x. rewrite in_app_iff, filter_In. split.
    + intros Hx. destruct (memb x rows) eqn:E; [left; now apply memb_In|right; auto].
    + intros [Hx|[Hx _]]; auto.
Qed.

(** ** The simulation loop *)
Definition sim_unit (c : actx) (d : dtype) (H : list row) (pers : bool) (p : nat * work) : Prop :=
  k_tag (snd p) = EVAL_SIM /\ k_persistent (snd p) = pers /\ k_recv (snd p) = None /\
  k_fields (snd p) = nodup_fields (ac_sim_in c) /\ unit_served c d H (fst p) (snd p).

Lemma sim_loop_spec c d H batch pers : resources_ok c -> forall ws pts work s handed work' s' pts' e,
  NoDup ws -> NoDup pts -> (forall w, In w ws -> in_dict work w = false) -> sinv c handed s ->
  sim_loop c d H batch pers ws pts work s = (work', s', pts', e) ->
  exists new rest, work' = work ++ new /\ ws = map fst new ++ rest /\ Forall (sim_unit c d H pers) new /\
    Permutation pts (concat (map (fun p => k_rows (snd p)) new) ++ pts') /\
    sinv c (handed ++ sets_given new) s' /\ as_gens s' = as_gens s /\
    (batch = false \/ has F_priority (names d) = false -> Forall (fun p => length (k_rows (snd p)) = 1) new) /\
    (ac_manage c = false -> e = None /\ (rest = [] \/ pts' = [])).
Proof.
  intros Hr. induction ws as [|w ws IH]; intros pts work s handed work' s' pts' e Hw Hp Hd Hs; cbn [sim_loop].
  - intros E. injection E as <- <- <- <-. exists [], []. unfold sets_given. cbn. rewrite !app_nil_r. repeat split; auto.
  - assert (Stop : forall s1 (e1 : option err), sinv c handed s1 -> as_gens s1 = as_gens s -> (ac_manage c = false -> e1 = None /\ pts = []) ->
      exists new rest, work = work ++ new /\ w :: ws = map fst new ++ rest /\ Forall (sim_unit c d H pers) new /\
        Permutation pts (concat (map (fun p => k_rows (snd p)) new) ++ pts) /\ sinv c (handed ++ sets_given new) s1 /\ as_gens s1 = as_gens s /\
        (batch = false \/ has F_priority (names d) = false -> Forall (fun p => length (k_rows (snd p)) = 1) new) /\
        (ac_manage c = false -> e1 = None /\ (rest = [] \/ pts = []))).
    { intros s1 e1 H1 H2 H3. exists [], (w :: ws). unfold sets_given. cbn. rewrite !app_nil_r. repeat split; auto; destruct (H3 H0); auto. }
    destruct pts as [|i0 pts0] eqn:Epts; [intros E; injection E as <- <- <- <-; apply Stop; auto|]. rewrite <- Epts in *. assert (Hne : pts <> []) by congruence. clear i0 pts0 Epts.
    destruct (points_by_priority d H pts batch) as [rows|er] eqn:Erows.
    2:{ intros E. injection E as <- <- <- <-. exfalso. unfold points_by_priority in Erows. destruct pts; [congruence|destruct (has _ _); [destruct batch|]; discriminate]. }
    destruct (points_sub _ _ _ _ _ Erows Hp) as (P1 & P2 & P3 & P4).
    destruct (sim_work c d H w rows pers s) as [a s1] eqn:Ea. destruct (sim_work_spec _ _ _ _ _ _ _ _ _ _ Hr Hs Ea) as [G X].
    destruct a as [k|er].
    + destruct X as (X1 & X2 & X3 & X4 & X5 & X6 & X7). inversion Hw as [|? ? Hw1 Hw2]; subst x l. rewrite dict_set_new by (apply Hd; now left).
      intros E. destruct (IH _ _ _ _ _ _ _ _ Hw2 (NoDup_filter _ Hp) (dict_fresh _ _ k _ Hw Hd) X1 E) as (new & rest & E1 & E2 & E3 & E4 & E5 & E6 & E7 & E8).
      exists ((w, k) :: new), rest. split; [rewrite E1, <- app_assoc; reflexivity|]. split; [cbn; now rewrite E2|]. split; [constructor; auto; repeat split; auto|].
      split. { cbn. rewrite X3, <- app_assoc. eapply Permutation_trans; [exact (perm_split rows pts P1 Hp P2)|]. now apply Permutation_app_head. }
      split. { unfold sets_given in *. cbn. fold (team_of k). now rewrite app_assoc. }
      split; [congruence|]. split; [intros HH; constructor; auto; cbn; rewrite X3; destruct HH; auto|]. exact E8.
    + destruct X as [X1 X2]. destruct er; intros E; injection E as <- <- <- <-; apply Stop; auto; intros; congruence.
Qed.

(** ** Starting generators *)
Definition gen_unit (c : actx) (n : nat) (pers : bool) (p : nat * work) : Prop :=
  k_tag (snd p) = EVAL_GEN /\ k_persistent (snd p) = pers /\ k_fields (snd p) = nodup_fields (ac_gen_in c) /\
  (ac_gen_in c <> [] -> k_rows (snd p) = seq 0 n).

Lemma gen_loop_spec c H u : resources_ok c -> forall ws gc work s handed work' s' e,
  NoDup ws -> (forall w, In w ws -> in_dict work w = false) -> sinv c handed s ->
  gen_loop c H u ws gc work s = (work', s', e) ->
  exists new rest, work' = work ++ new /\ ws = map fst new ++ rest /\ Forall (gen_unit c (length H) false) new /\
    Forall (fun p => k_recv (snd p) = None) new /\ (ac_gen_in c = [] -> Forall (fun p => k_rows (snd p) = []) new) /\
    sinv c (handed ++ sets_given new) s' /\
    (forall n, u_num_active_gens u = Some n -> gc + length new <= Nat.max n gc) /\
    (new <> [] -> u_batch_mode u = true -> all_sim_ended H (fun _ => true) 0 = true).
Proof.
  intros Hr. induction ws as [|w ws IH]; intros gc work s handed work' s' e Hw Hd Hs; cbn [gen_loop].
  - intros E. injection E as <- <- <-. exists [], []. unfold sets_given. cbn. rewrite !app_nil_r. repeat split; auto; try congruence. intros; lia.
  - assert (Stop : forall s1, sinv c handed s1 ->
      exists new rest, work = work ++ new /\ w :: ws = map fst new ++ rest /\ Forall (gen_unit c (length H) false) new /\
        Forall (fun p => k_recv (snd p) = None) new /\ (ac_gen_in c = [] -> Forall (fun p => k_rows (snd p) = []) new) /\
        sinv c (handed ++ sets_given new) s1 /\
        (forall n, u_num_active_gens u = Some n -> gc + length new <= Nat.max n gc) /\
        (new <> [] -> u_batch_mode u = true -> all_sim_ended H (fun _ => true) 0 = true)).
    { intros s1 H1. exists [], (w :: ws). unfold sets_given. cbn. rewrite !app_nil_r. repeat split; auto; try congruence. intros; lia. }
    destruct (match u_num_active_gens u with Some n => n <=? gc | None => false end) eqn:En; [intros E; injection E as <- <- <-; now apply Stop|].
    destruct (u_batch_mode u && negb (all_sim_ended H (fun _ => true) 0)) eqn:Eb; [intros E; injection E as <- <- <-; now apply Stop|].
    set (rows := match ac_gen_in c with [] => [] | _ => seq 0 (length H) end). destruct (gen_work c w (ac_gen_in c) rows false None s) as [a s1] eqn:Ea.
    pose proof (gen_work_spec _ _ _ _ _ _ _ _ _ _ Hr Hs Ea) as X. destruct a as [k|er].
    + destruct X as (X1 & X2 & X3 & X4 & X5 & X6 & _ & _). inversion Hw as [|? ? Hw1 Hw2]; subst x l. rewrite dict_set_new by (apply Hd; now left).
      intros E. destruct (IH _ _ _ _ _ _ _ Hw2 (dict_fresh _ _ k _ Hw Hd) X1 E) as (new & rest & E1 & E2 & E3 & E4 & E5 & E6 & E7 & E8).
      exists ((w, k) :: new), rest. split; [rewrite E1, <- app_assoc; reflexivity|]. split; [cbn; now rewrite E2|].
      split. { constructor; auto. repeat split; auto. cbn. intros Hne. rewrite X3. unfold rows. destruct (ac_gen_in c); congruence. }
      split; [constructor; auto|]. split. { intros Hne. constructor; auto. cbn. rewrite X3. unfold rows. now rewrite Hne. }
      split. { unfold sets_given in *. cbn. fold (team_of k). now rewrite app_assoc. }
      split. { intros n Hn. rewrite Hn in En. apply Nat.leb_gt in En. specialize (E7 n Hn). cbn [length]. lia. }
      intros _ Hb. rewrite Hb in Eb. cbn in Eb. now apply negb_false_iff in Eb.
    + destruct X as (X1 & _). destruct er; intros E; injection E as <- <- <-; now apply Stop.
Qed.
