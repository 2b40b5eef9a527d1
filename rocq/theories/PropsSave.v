(** C36: periodic history files. *)
From Verif Require Import Base HistoryModel HistorySpec HistoryRun2 SaveModel SaveSpec SaveProofs HistoryExamples.
Local Open Scope nat_scope.

(** The histories after each round of a run. *)
Inductive moments : list (list hop) -> hist -> list hist -> Prop :=
| mom_nil h : moments [] h []
| mom_cons os oss h h' hs : hrun os h = (h', None) -> moments oss h' hs -> moments (os :: oss) h (h' :: hs).

Lemma init_fits m outs H0 safe : h_index (init_history m outs H0 safe) <= length (h_rows (init_history m outs H0 safe)).
Proof. unfold init_history. cbn [h_index h_rows]. destruct (Nat.eqb m 0); rewrite ?map_length, ?app_length, mapi_length; lia. Qed.

Lemma hrun_counts os : forall h h', h_index h <= length (h_rows h) -> hrun os h = (h', None) -> h_index h <= h_index h' /\ h_ended h <= h_ended h' /\ h_index h' <= length (h_rows h').
Proof.
  unfold hrun. induction os as [|o os IH]; intros h h' Hi E; cbn [foldx] in E; [injection E as <-; lia|]. destruct (hstep o h) as [h1 [e|]] eqn:E1; cbn [bindx] in E; [discriminate|].
  destruct (hstep_counts _ _ _ Hi E1) as (A & B & C). destruct (IH _ _ C E). lia.
Qed.
Lemma moments_rising kd oss h hs : h_index h <= length (h_rows h) -> moments oss h hs -> rising kd hs /\ forall x, In x hs -> counted kd h <= counted kd x.
Proof.
  intros Hi M. induction M as [h|os oss h h' hs E M IH]; [split; [intros a b pre mid post X; destruct pre; discriminate|intros x []]|].
  destruct (hrun_counts _ _ _ Hi E) as (A & B & C). destruct (IH C) as (IH1 & IH2). assert (Hc : counted kd h <= counted kd h') by (destruct kd; cbn [counted]; lia). split.
  - intros a b pre mid post X. destruct pre as [|y pre]; cbn in X; injection X as -> X.
    + apply IH2. rewrite X. apply in_elt.
    + eapply IH1. exact X.
  - intros x [<-|Hx]; [exact Hc|]. apply IH2 in Hx. lia.
Qed.

(** In every run that starts without such files, after every round there is one
    file of the kind asked for: named by the largest multiple of k that the
    count of ended simulations (of generated points) has reached, holding the
    history as it was when that multiple was reached. *)
Theorem C36_checkpoints m outs H0 safe oss hs c d kd :
  moments oss (init_history m outs H0 safe) hs -> kd = KSims \/ kd = KGens -> 0 < period kd c -> of_kind kd d = [] ->
  checkpoint kd (period kd c) hs (of_kind kd (last (saves c hs d) d)).
Proof. intros M Hk Hp Hd. apply checkpoints; auto. eapply moments_rising; [apply init_fits|exact M]. Qed.
Print Assumptions C36_checkpoints.

(** Files of kinds not asked for are never touched, at any moment. *)
Theorem C36_other_files c hs d x kd : match kd with KSims => s_sims c = 0 | KGens => s_gens c = 0 | KOther _ => True end ->
  In x (saves c hs d) -> of_kind kd x = of_kind kd d.
Proof.
  intros Hk. revert d x. assert (N : forall h d y, In y (init_every_k_save c false h d) -> of_kind kd y = of_kind kd d).
  { intros h d y Hy. unfold init_every_k_save in Hy. cbn [andb] in Hy. rewrite orb_false_r in Hy. apply in_app_iff in Hy as [Hy|Hy].
    - destruct (Nat.ltb_spec 0 (s_sims c)); [|destruct Hy]. destruct (save_states _ _ _ _ _ _ _ kd Hy) as (Hs & _). apply Hs. intros ->. lia.
    - destruct (Nat.ltb_spec 0 (s_gens c)); [|destruct Hy]. destruct (save_states _ _ _ _ _ _ _ kd Hy) as (Hs & _). rewrite Hs by (intros ->; lia). clear -Hk.
      destruct (Nat.ltb_spec 0 (s_sims c)); [|reflexivity]. apply last_other. intros ->. lia. }
  assert (L : forall h d, of_kind kd (last (init_every_k_save c false h d) d) = of_kind kd d).
  { intros h d. destruct (init_every_k_save c false h d) as [|y t] eqn:E; [reflexivity|]. apply (N h d). rewrite E. clear. revert y. induction t as [|z t IH]; intros y; [now left|]. right. apply IH. }
  induction hs as [|h hs IH]; intros d x Hx; [destruct Hx|]. cbn [saves] in Hx. apply in_app_iff in Hx as [Hx|Hx]; [now apply (N h)|]. rewrite (IH _ _ Hx). apply L.
Qed.
Print Assumptions C36_other_files.

(** A crash at any moment of the run, also in the middle of a save, leaves the
    checkpoint of the rounds before or of the rounds including the present one,
    or no complete file: none or one cut short. It never leaves an older one. *)
Theorem C36_crash m outs H0 safe oss hs c d kd x :
  moments oss (init_history m outs H0 safe) hs -> kd = KSims \/ kd = KGens -> 0 < period kd c -> of_kind kd d = [] ->
  In x (saves c hs d) ->
  exists pre h post, hs = pre ++ h :: post /\
    (checkpoint kd (period kd c) pre (of_kind kd x) \/ checkpoint kd (period kd c) (pre ++ [h]) (of_kind kd x) \/
     of_kind kd x = [] \/ exists n, of_kind kd x = [mkFile kd n Torn]).
Proof.
  intros M Hk Hp Hd Hx. assert (R : rising kd hs) by (eapply moments_rising; [apply init_fits|exact M]). destruct (saves_states _ _ _ _ Hx) as (pre & h & post & -> & Hi). exists pre, h, post. split; [reflexivity|].
  assert (Rp : forall a b, rising kd (a ++ b) -> rising kd a). { clear. intros a b H u v p q r ->. apply (H u v p q (r ++ b)). now rewrite <- !app_assoc, <- !app_comm_cons, <- app_assoc. }
  assert (C1 : checkpoint kd (period kd c) pre (of_kind kd (last (saves c pre d) d))) by (apply checkpoints; auto; eapply Rp; exact R).
  assert (C2 : checkpoint kd (period kd c) (pre ++ [h]) (of_kind kd (last (saves c (pre ++ [h]) d) d))). { apply checkpoints; auto. apply (Rp _ post). now rewrite <- app_assoc. }
  rewrite saves_app, SaveProofs.last_app_last in C2. cbn [saves] in C2. rewrite app_nil_r in C2.
  destruct (init_states _ _ _ _ kd _ Hi) as [(i & E)|[(n & E)|E]]; [|eauto|rewrite E; auto].
  destruct i as [|i]; [left; rewrite E; exact C1|]. right. right. left. rewrite E. destruct (checkpoint_one _ _ _ _ C1) as [-> | (f & ->)]; [apply skipn_nil|]. cbn. apply skipn_nil.
Qed.
Print Assumptions C36_crash.

(** So there are moments at which a crash leaves no checkpoint at all, although
    earlier saves had completed. *)
Definition two_sims : list (list hop) := [[HXIn 0 (pts [1; 2]%Z) 0 0; HXOut [0; 1] 1 false 0; HF [0] None false 1]; [HF [1] None false 2]].
Definition h0 := init_history 4 [] (mkA [] []) true.
Definition h1 := fst (hrun (nth 0 two_sims []) h0).
Definition h2 := fst (hrun (nth 1 two_sims []) h1).
Lemma run_ok os h : snd (hrun os h) = None -> hrun os h = (fst (hrun os h), None).
Proof. destruct (hrun os h) as [h' e]. cbn. now intros ->. Qed.
Lemma two_moments : moments two_sims h0 [h1; h2].
Proof.
  apply (mom_cons _ _ _ h1); [apply run_ok; vm_compute; reflexivity|]. apply (mom_cons _ _ _ h2); [apply run_ok; vm_compute; reflexivity|]. apply mom_nil.
Qed.
Lemma two_counts : h_ended h1 = 1 /\ h_ended h2 = 2 /\ h_index h1 = 2 /\ h_index h2 = 2.
Proof. vm_compute. repeat split. Qed.
Lemma two_saves a b : h_ended a = 1 -> h_ended b = 2 ->
  saves (mkSave 1 0) [a; b] [] = [[mkFile KSims 1 Torn]; [mkFile KSims 1 (Whole (snapshot a))]; []; [mkFile KSims 2 Torn]; [mkFile KSims 2 (Whole (snapshot b))]].
Proof. intros Ea Eb. unfold saves, init_every_k_save, save_every_k. cbn [s_sims s_gens]. rewrite Ea, Eb. reflexivity. Qed.
Theorem C36_crash_refuted : exists oss hs c x y, moments oss (init_history 4 [] (mkA [] []) true) hs /\
  period KSims c = 1 /\ (exists n a, of_kind KSims x = [mkFile KSims n (Whole a)]) /\ of_kind KSims y = [] /\
  exists before after, saves c hs [] = before ++ x :: after /\ In y after.
Proof.
  exists two_sims, [h1; h2], (mkSave 1 0), [mkFile KSims 1 (Whole (snapshot h1))], []. split; [exact two_moments|]. split; [reflexivity|]. split; [exists 1, (snapshot h1); reflexivity|]. split; [reflexivity|].
  exists [[mkFile KSims 1 Torn]], [[]; [mkFile KSims 2 Torn]; [mkFile KSims 2 (Whole (snapshot h2))]]. split; [apply two_saves; apply two_counts|now left].
Qed.
Print Assumptions C36_crash_refuted.

(** At the end of the run the final history is saved under its exact count and
    replaces the checkpoint: in the file of ended simulations if these are saved
    periodically or points are not, in the file of points if these are. *)
Theorem C36_final c h d : of_kind KSims (last (finish c true h d) d) =
    (if (0 <? s_sims c) || (s_gens c =? 0) then [mkFile KSims (h_ended h) (Whole (so_far h))] else of_kind KSims d) /\
  of_kind KGens (last (finish c true h d) d) = (if 0 <? s_gens c then [mkFile KGens (h_index h) (Whole (so_far h))] else of_kind KGens d) /\
  forall n, of_kind (KOther n) (last (finish c true h d) d) = of_kind (KOther n) d.
Proof.
  unfold finish. split; [|split]; [| |intros n]; rewrite init_last; unfold one; cbn [andb period counted]; rewrite ?orb_true_r, ?andb_true_r; reflexivity.
Qed.
Print Assumptions C36_final.
(** Asking for periodic files implies the final one (validated specs). *)
Theorem C36_final_enabled c asked h d : 0 < s_sims c \/ 0 < s_gens c -> exists kd n, In (mkFile kd n (Whole (so_far h))) (of_kind kd (last (finish c (on_completion asked c) h d) d)).
Proof.
  intros H. assert (E : on_completion asked c = true). { unfold on_completion. destruct asked; [reflexivity|]. cbn [orb]. apply orb_true_iff. destruct H; [left|right]; now apply Nat.ltb_lt. }
  rewrite E. destruct (C36_final c h d) as (A & B & _). destruct (Nat.ltb_spec 0 (s_gens c)) as [Hg|Hg].
  - exists KGens, (h_index h). rewrite B. now left.
  - exists KSims, (h_ended h). rewrite A. replace (s_gens c =? 0) with true by (symmetry; apply Nat.eqb_eq; lia). rewrite orb_true_r. now left.
Qed.
Print Assumptions C36_final_enabled.

(** A file left by an earlier run with the same name is taken for this run's: the
    checkpoint then holds another run's data, or a file cut short by a crash. *)
Theorem C36_stale_refuted : exists hs c d x, moments two_sims (init_history 4 [] (mkA [] []) true) hs /\ period KSims c = 2 /\ (exists h, In h hs /\ h_ended h = 2) /\
  (forall h, In h hs -> x <> Whole (so_far h)) /\ of_kind KSims d = [mkFile KSims 2 x] /\ of_kind KSims (last (saves c hs d) d) = [mkFile KSims 2 x].
Proof.
  exists [h1; h2], (mkSave 2 0), [mkFile KSims 2 Torn], Torn. split; [exact two_moments|]. split; [reflexivity|]. split; [exists h2; split; [cbn; auto|apply two_counts]|]. split; [intros h _; discriminate|]. split; [reflexivity|].
  destruct two_counts as (E1 & E2 & _ & _). revert E1 E2. generalize h1, h2. intros a b E1 E2. unfold saves, init_every_k_save, save_every_k. cbn [s_sims s_gens]. rewrite E1, E2. reflexivity.
Qed.
Print Assumptions C36_stale_refuted.

Example C36_example : moments two_sims (init_history 4 [] (mkA [] []) true) [h1; h2] /\ h_ended h1 = 1 /\ h_ended h2 = 2 /\ h_index h2 = 2 /\
  of_kind KSims (last (saves (mkSave 2 3) [h1; h2] []) []) = [mkFile KSims 2 (Whole (snapshot h2))] /\ of_kind KGens (last (saves (mkSave 2 3) [h1; h2] []) []) = [].
Proof.
  split; [exact two_moments|]. destruct two_counts as (E1 & E2 & E3 & E4). split; [exact E1|]. split; [exact E2|]. split; [exact E4|].
  revert E1 E2 E3 E4. generalize h1, h2. intros a b E1 E2 E3 E4. unfold saves, init_every_k_save, save_every_k. cbn [s_sims s_gens]. rewrite E1, E2, E3, E4. split; reflexivity.
Qed.
