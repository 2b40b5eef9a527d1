(** Property-level facts about the default allocation function. *)
From Coq Require Import String Permutation Sorted.
From Verif Require Import Base BaseLemmas HistoryModel HistoryProofs WorkModel RsetModel RsetSpec SchedModel SchedSpec SchedServe AllocModel AllocSpec AllocProofs AllocLoops.
Local Notation length := List.length.

Lemma NoDup_app_remove_r {A} (l l' : list A) : NoDup (l ++ l') -> NoDup l.
Proof.
  induction l as [|x l IH]; cbn; intros Hn; [constructor|]. inversion Hn as [|? ? H1 H2]; subst. constructor; auto. intros Hx. apply H1, in_or_app. now left.
Qed.

Lemma sims_all d : Forall (fun p => k_tag (snd p) = EVAL_SIM) d -> sims d = d /\ gens d = [].
Proof. induction 1 as [|p d Hp _ [IH1 IH2]]; [now split|]. unfold sims, gens in *. cbn. rewrite Hp. cbn. now rewrite IH1, IH2. Qed.
Lemma gens_all d : Forall (fun p => k_tag (snd p) = EVAL_GEN) d -> gens d = d /\ sims d = [].
Proof. induction 1 as [|p d Hp _ [IH1 IH2]]; [now split|]. unfold sims, gens in *. cbn. rewrite Hp. cbn. now rewrite IH1, IH2. Qed.

Lemma avail_idle W p z g ws w : avail_workers W p false z g = Ok ws -> In w ws -> idle W w.
Proof.
  intros E Hin. destruct (avail_ok _ _ _ _ _ _ E) as (ok & -> & Hok). apply in_map_iff in Hin. destruct Hin as (r & <- & Hr). apply filter_In in Hr.
  exists r. split; [apply Hr|]. split; auto. apply Hok, Hr.
Qed.
Lemma avail_gen W p z b ws w : avail_workers W p false z (Some b) = Ok ws -> In w ws -> some_gen_only W -> exists r, In r W /\ w_id r = w /\ w_gen r = b.
Proof.
  intros E Hin Hg. destruct (avail_ok _ _ _ _ _ _ E) as (ok & -> & Hok). apply in_map_iff in Hin. destruct Hin as (r & <- & Hr). apply filter_In in Hr.
  exists r. split; [apply Hr|]. split; auto. apply (proj1 (Hok r) (proj2 Hr)). exact Hg.
Qed.
Lemma id_unique W r r' : ids_distinct W -> In r W -> In r' W -> w_id r = w_id r' -> r = r'.
Proof.
  unfold ids_distinct. induction W as [|x W IH]; cbn; intros Hn H1 H2 E; [destruct H1|]. inversion Hn as [|? ? N1 N2]; subst.
  destruct H1 as [->|H1], H2 as [->|H2]; auto.
  - exfalso. apply N1. rewrite E. now apply in_map.
  - exfalso. apply N1. rewrite <- E. now apply in_map.
Qed.

Lemma cancel_slow_evaluable u now H i : evaluable (cancel_slow u now H) i -> evaluable H i.
Proof.
  unfold cancel_slow, evaluable. destruct (u_cancel_time u) as [lim|]; auto. intros (r & Hr & A & B). rewrite nth_error_map in Hr.
  destruct (nth_error H i) as [r0|] eqn:E; [|discriminate]. cbn in Hr. destruct (too_long now lim r0) eqn:Et.
  - injection Hr as <-. exfalso. unfold setf, feqb in B. destruct (field_eq_dec F_cancel_requested F_cancel_requested); [|congruence]. cbn in B. discriminate.
  - injection Hr as <-. eauto.
Qed.

Section Default.
  Variables (c : actx) (d : dtype) (u : user_opts) (now : Z) (stop : bool) (g : nat) (H : list row).
  Hypothesis (Hids : ids_distinct (ac_W c)) (Hres : resources_ok c).
  Let out := give_sim_work_first c d u now stop g H.

  (** Either simulation units or generator units. *)
  Lemma default_cases :
    o_rows out = cancel_slow u now H /\ o_flag out = 0 /\
    (stop = true /\ o_work out = [] \/
     stop = false /\
     ((exists ws rest pts', avail_workers (ac_W c) None false None (Some false) = Ok ws /\ ws = map fst (o_work out) ++ rest /\
        to_evaluate (o_rows out) <> [] /\ Forall (sim_unit c d (o_rows out) false) (o_work out) /\
        Permutation (to_evaluate (o_rows out)) (concat (map (fun p => k_rows (snd p)) (o_work out)) ++ pts') /\
        (u_batch_give u = false \/ has F_priority (names d) = false -> Forall (fun p => length (k_rows (snd p)) = 1) (o_work out)) /\
        (ac_manage c = false -> o_err out = None /\ (rest = [] \/ pts' = []))) \/
      (exists ws rest, avail_workers (ac_W c) None false None (Some true) = Ok ws /\ ws = map fst (o_work out) ++ rest /\
        to_evaluate (o_rows out) = [] /\ Forall (gen_unit c (length H) false) (o_work out) /\ Forall (fun p => k_recv (snd p) = None) (o_work out) /\
        (ac_gen_in c = [] -> Forall (fun p => k_rows (snd p) = []) (o_work out)) /\
        (forall n, u_num_active_gens u = Some n -> count_gens (ac_W c) + length (o_work out) <= Nat.max n (count_gens (ac_W c))) /\
        (o_work out <> [] -> u_batch_mode u = true -> all_sim_ended (o_rows out) (fun _ => true) 0 = true)))) /\
    exists s, sinv c (sets_given (o_work out)) s.
  Proof.
    unfold out, give_sim_work_first. set (H1 := cancel_slow u now H).
    assert (L : length H1 = length H) by (unfold H1, cancel_slow; destruct (u_cancel_time u); auto; apply map_length).
    pose proof (support_init_sinv c g Hres) as Si.
    destruct stop; [cbn; split; [auto|split; [auto|split; [auto|eexists; exact Si]]]|].
    destruct (to_evaluate H1) as [|i pts] eqn:Ept.
    - destruct (avail_workers _ _ _ _ _) as [ws|] eqn:Ew; [|cbn in Ew; discriminate].
      destruct (gen_loop _ _ _ _ _ _ _) as [[wk s1] e] eqn:Eg.
      destruct (gen_loop_spec c H1 u Hres ws _ [] _ [] _ _ _ (avail_sub _ _ _ _ _ _ Ew Hids) (fun w _ => eq_refl) Si Eg) as (new & rest & E1 & E2 & E3 & E4 & E5 & E6 & E7 & E8).
      cbn in E1. subst new. rewrite L in E3. cbn [o_rows o_flag o_work o_err]. split; [auto|]. split; [auto|]. split; [|exists s1; exact E6]. right. split; [auto|]. right.
      exists ws, rest. repeat (split; [solve [auto]|]); auto.
    - destruct (avail_workers _ _ _ _ _) as [ws|] eqn:Ew; [|cbn in Ew; discriminate]. rewrite <- Ept.
      destruct (sim_loop _ _ _ _ _ _ _ _ _) as [[[wk s1] pts'] e] eqn:Eg.
      destruct (sim_loop_spec c d H1 (u_batch_give u) false Hres ws _ [] _ [] _ _ _ _ (avail_sub _ _ _ _ _ _ Ew Hids) (to_evaluate_nodup H1) (fun w _ => eq_refl) Si Eg) as (new & rest & E1 & E2 & E3 & E4 & E5 & E6 & E7 & E8).
      cbn in E1. subst new. cbn [o_rows o_flag o_work o_err]. split; [auto|]. split; [auto|]. split; [|exists s1; exact E5]. right. split; [auto|]. left.
      exists ws, rest, pts'. split; [auto|]. split; [auto|]. split; [congruence|]. repeat (split; [solve [auto]|]); auto.
  Qed.

  Lemma default_sound :
    (forall w k, In (w, k) (o_work out) -> idle (ac_W c) w) /\ NoDup (map fst (o_work out)) /\
    NoDup (sim_rows (o_work out)) /\
    (forall i, In i (sim_rows (o_work out)) -> evaluable (o_rows out) i /\ evaluable H i).
  Proof.
    destruct default_cases as (Er & _ & [[St E]|(_ & [(ws & rest & pts' & Ew & E2 & _ & E3 & E4 & _)|(ws & rest & Ew & E2 & _ & E3 & _)])] & _).
    - rewrite E. cbn. repeat split; try constructor; intros; contradiction.
    - pose proof (avail_sub _ _ _ _ _ _ Ew Hids) as Hn. split; [|split].
      + intros w k Hin. apply (avail_idle _ _ _ _ _ w Ew). rewrite E2. apply in_or_app. left. change w with (fst (w, k)). now apply in_map.
      + rewrite E2 in Hn. exact (NoDup_app_remove_r _ _ Hn).
      + destruct (sims_all (o_work out)) as [Es _]. { eapply Forall_impl; [|exact E3]. intros p Hp. apply Hp. }
        unfold sim_rows. rewrite Es.
        pose proof (Permutation_NoDup E4 (to_evaluate_nodup _)) as Hp. split; [exact (NoDup_app_remove_r _ _ Hp)|].
        intros i Hi. assert (Hev : evaluable (o_rows out) i).
        { apply to_evaluate_spec. apply (Permutation_in _ (Permutation_sym E4)). apply in_or_app. now left. }
        split; auto. rewrite Er in Hev. exact (cancel_slow_evaluable _ _ _ _ Hev).
    - pose proof (avail_sub _ _ _ _ _ _ Ew Hids) as Hn. split; [|split].
      + intros w k Hin. apply (avail_idle _ _ _ _ _ w Ew). rewrite E2. apply in_or_app. left. change w with (fst (w, k)). now apply in_map.
      + rewrite E2 in Hn. exact (NoDup_app_remove_r _ _ Hn).
      + destruct (gens_all (o_work out)) as [_ Es]. { eapply Forall_impl; [|exact E3]. intros p Hp. apply Hp. }
        unfold sim_rows. rewrite Es. cbn. split; [constructor|]. intros i [].
  Qed.

  Lemma default_kinds :
    (exists i, evaluable (o_rows out) i) -> gens (o_work out) = [].
  Proof.
    intros (i & Hi). apply to_evaluate_spec in Hi.
    destruct default_cases as (Er & _ & [[St E]|(_ & [(ws & rest & pts' & Ew & E2 & _ & E3 & E4 & _)|(ws & rest & Ew & E2 & E & E3 & _)])] & _).
    - now rewrite E.
    - apply sims_all. eapply Forall_impl; [|exact E3]. intros p Hp. apply Hp.
    - rewrite E in Hi. destruct Hi.
  Qed.

  Lemma default_units p : In p (o_work out) ->
    k_persistent (snd p) = false /\ k_recv (snd p) = None /\
    (k_tag (snd p) = EVAL_SIM /\ unit_served c d (o_rows out) (fst p) (snd p) /\ k_fields (snd p) = nodup_fields (ac_sim_in c) /\
       (u_batch_give u = false \/ has F_priority (names d) = false -> length (k_rows (snd p)) = 1) /\
       (some_gen_only (ac_W c) -> ~ gen_only (ac_W c) (fst p)) \/
     k_tag (snd p) = EVAL_GEN /\ k_fields (snd p) = nodup_fields (ac_gen_in c) /\
       k_rows (snd p) = match ac_gen_in c with [] => [] | _ => seq 0 (length H) end /\
       (u_batch_mode u = true -> all_sim_ended (o_rows out) (fun _ => true) 0 = true) /\
       (some_gen_only (ac_W c) -> gen_only (ac_W c) (fst p))).
  Proof.
    intros Hp. destruct default_cases as (Er & _ & [[St E]|(_ & [(ws & rest & pts' & Ew & E2 & _ & E3 & E4 & E5 & _)|(ws & rest & Ew & E2 & E & E3 & E4 & E5 & E6 & E7)])] & _).
    - rewrite E in Hp. destruct Hp.
    - rewrite Forall_forall in E3. destruct (E3 p Hp) as (A1 & A2 & A3 & A4 & A5). split; [auto|]. split; [auto|]. left.
      split; [auto|]. split; [auto|]. split; [auto|]. split; [intros HH; specialize (E5 HH); rewrite Forall_forall in E5; now apply E5|].
      intros Hg (r' & R1 & R2 & R3). assert (Hin : In (fst p) ws) by (rewrite E2; apply in_or_app; left; now apply in_map).
      destruct (avail_gen _ _ _ _ _ _ Ew Hin Hg) as (r & Q1 & Q2 & Q3). rewrite (id_unique _ r r' Hids Q1 R1) in Q3 by congruence. congruence.
    - rewrite Forall_forall in E3, E4. destruct (E3 p Hp) as (A1 & A2 & A3 & A4). split; [auto|]. split; [now apply E4|]. right.
      split; [auto|]. split; [auto|]. split. { destruct (ac_gen_in c) eqn:Eg; [|apply A4; congruence]. specialize (E5 eq_refl). rewrite Forall_forall in E5. now apply E5. }
      split. { intros Hb. apply E7; auto. intros Hnil. rewrite Hnil in Hp. destruct Hp. }
      intros Hg. assert (Hin : In (fst p) ws) by (rewrite E2; apply in_or_app; left; now apply in_map).
      destruct (avail_gen _ _ _ _ _ _ Ew Hin Hg) as (r & Q1 & Q2 & Q3). exists r. auto.
  Qed.

  Lemma default_gen_limit n : u_num_active_gens u = Some n ->
    count_gens (ac_W c) + length (gens (o_work out)) <= Nat.max n (count_gens (ac_W c)).
  Proof.
    intros Hn. destruct default_cases as (Er & _ & [[St E]|(_ & [(ws & rest & pts' & Ew & E2 & _ & E3 & E4 & E5 & _)|(ws & rest & Ew & E2 & E & E3 & E4 & E5 & E6 & E7)])] & _).
    - rewrite E. cbn. lia.
    - destruct (sims_all (o_work out)) as [_ Es]. { eapply Forall_impl; [|exact E3]. intros p Hp. apply Hp. } rewrite Es. cbn. lia.
    - destruct (gens_all (o_work out)) as [Es _]. { eapply Forall_impl; [|exact E3]. intros p Hp. apply Hp. } rewrite Es. now apply E6.
  Qed.

  Lemma default_teams m : ac_rm c = Some m -> NoDup (sets_given (o_work out)) /\ forall i, In i (sets_given (o_work out)) -> is_free m i.
  Proof.
    intros Hm. destruct default_cases as (_ & _ & _ & s & Hs). unfold sinv in Hs. rewrite Hm in Hs. destruct (as_sched s) as [sc|]; [|contradiction].
    destruct Hs as [_ A B _]. auto.
  Qed.

  Lemma concat_len1 (l : wdict) : Forall (fun p => length (k_rows (snd p)) = 1) l -> length (concat (map (fun p => k_rows (snd p)) l)) = length l.
  Proof. induction 1 as [|p l Hp _ IH]; cbn; auto. now rewrite app_length, Hp, IH. Qed.

  (** With nothing else in the way, as many simulations are given as there are workers or points. *)
  Lemma default_all ws : stop = false -> ac_manage c = false -> u_batch_give u = false \/ has F_priority (names d) = false ->
    avail_workers (ac_W c) None false None (Some false) = Ok ws -> to_evaluate (o_rows out) <> [] ->
    length (o_work out) = Nat.min (length ws) (length (to_evaluate (o_rows out))) /\ o_err out = None /\ sims (o_work out) = o_work out.
  Proof.
    intros Hst Hm Hb Hw Hne.
    destruct default_cases as (Er & _ & [[St E]|(_ & [(ws' & rest & pts' & Ew & E2 & _ & E3 & E4 & E5 & E6)|(ws' & rest & Ew & E2 & E & _)])] & _).
    - congruence.
    - rewrite Hw in Ew. injection Ew as <-. destruct (E6 Hm) as [E7 E8]. split; [|split; auto].
      + rewrite (Permutation_length E4), app_length, (concat_len1 _ (E5 Hb)). rewrite E2 at 1. rewrite app_length, map_length. destruct E8 as [-> | ->]; cbn; lia.
      + apply sims_all. eapply Forall_impl; [|exact E3]. intros p Hp. apply Hp.
    - congruence.
  Qed.
End Default.
