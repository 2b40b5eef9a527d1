(** C82: every log record and every calculation's line is written once, with its worker. *)
From Coq Require Import Ascii String.
From Verif Require Import Base BaseLemmas TextModel TextProofs LogModel.
Local Open Scope nat_scope.
Local Notation length := List.length.

(** ** Specification *)

(** the level that the user has chosen last (20, "INFO", at first); an unknown name
    means 10, and 30 for stderr (35 at first) *)
Definition chosen (l : list act) : nat := fold_left (fun v a => match a with SetLevel (Some n) => n | SetLevel None => 10 | _ => v end) l 20.
Definition chosen_err (l : list act) : nat := fold_left (fun v a => match a with SetErr (Some n) => n | SetErr None => 30 | _ => v end) l 35.
Definition called (l : list act) : Prop := In Call l.
(** what is written of a record of worker w *)
Definition written (w level m : nat) (threshold err : nat) : list out :=
  if threshold <=? level then File w m :: (if err <=? level then [Err_ w m] else []) else [].

(** ** Lemmas *)

Fixpoint dropw (t : text) : text := match t with c :: u => if ceqb c " " then dropw u else t | [] => [] end.

Lemma after_snoc l a : after (l ++ [a]) = do_act (after l) a. Proof. unfold after. now rewrite fold_left_app. Qed.
Lemma config_after l : c_level (after l) = chosen l /\ c_err (after l) = chosen_err l /\
  ((~ called l /\ after l = mkConfig false (chosen l) (chosen_err l) (mkLogger None true []) (mkLogger None true [])) \/
   (called l /\ c_set (after l) = true /\ l_level (c_main (after l)) = Some (chosen l) /\ l_prop (c_main (after l)) = false /\ l_level (c_stats (after l)) = Some 10 /\ l_prop (c_stats (after l)) = false)).
Proof.
  induction l as [|a l IH] using rev_ind; [repeat split; left; split; [intros []|reflexivity]|]. rewrite after_snoc. unfold called, chosen, chosen_err in *. rewrite !fold_left_app. cbn [fold_left]. destruct IH as (L & E & H).
  assert (NC : a <> Call -> (In Call (l ++ [a]) <-> In Call l)) by (intros N; rewrite in_app_iff; cbn; intuition congruence).
  destruct a as [v|v|]; cbn [do_act].
  - unfold set_level. cbn [c_level c_err c_set c_main c_stats]. split; [destruct v; reflexivity|]. split; auto. destruct H as [[H1 H2]|(H1 & H2 & H3 & H4 & H5 & H6)].
    + left. rewrite NC by discriminate. split; auto. rewrite H2. cbn. now destruct v.
    + right. rewrite NC by discriminate. rewrite H2. cbn. destruct v; auto 6.
  - unfold set_stderr_level. cbn [c_level c_err c_set c_main c_stats]. split; auto. split; [destruct v; reflexivity|]. destruct H as [[H1 H2]|(H1 & H2 & H3 & H4 & H5 & H6)].
    + left. rewrite NC by discriminate. split; auto. rewrite H2. cbn. now destruct v.
    + right. rewrite NC by discriminate. auto 6.
  - unfold manager_config. cbn. split; auto. split; auto. right. split; [apply in_or_app; right; now left|]. rewrite L. auto.
Qed.
Lemma worker_main w l : l_level (c_main (worker_config w (after l))) = Some (chosen l) /\ reached false (worker_config w (after l)) = [HComm w] /\ reached true (worker_config w (after l)) = [HComm w].
Proof.
  destruct (config_after l) as (L & E & [[H1 ->]|(H1 & H2 & H3 & H4 & H5 & H6)]); [repeat split; reflexivity|]. unfold worker_config, reached. rewrite H2. cbn. now rewrite H6.
Qed.
Lemma manager_main l : reached false (manager_config (after l)) = [HFile; HErr (chosen_err l)] /\ reached true (manager_config (after l)) = [HStats] /\ l_level (c_main (manager_config (after l))) = Some (chosen l) /\ l_level (c_stats (manager_config (after l))) = Some 10.
Proof.
  destruct (config_after l) as (L & E & [[H1 ->]|(H1 & H2 & H3 & H4 & H5 & H6)]); [repeat split; reflexivity|]. unfold manager_config, reached. rewrite H2. cbn. now rewrite L, E.
Qed.

(** ** Theorems *)

(** A record of worker [w] from the chosen level on is written to ensemble.log once,
    with the worker's number, and to stderr if it has the level for that; below the
    level it is written nowhere. This holds after any number of earlier calls and
    settings, [lw] those of the worker's process before it started and [lm] the
    manager's ([lw = lm] if processes are copies). *)
Theorem C82_records : forall lw lm w level m, 1 <= w -> through (after lw) (after lm) w false level m = written w level m (chosen lw) (chosen_err lm).
Proof.
  intros lw lm w level m W. unfold through, log, level_of, written. destruct (worker_main w lw) as (-> & R & _). destruct (chosen lw <=? level); [|reflexivity].
  unfold handle at 1. rewrite R. cbn [emit flat_map manager_receives app]. rewrite app_nil_r. unfold handle. destruct (manager_main lm) as (-> & _). cbn. now destruct (chosen_err lm <=? level).
Qed.
Print Assumptions C82_records.
Example C82_records_applies : through (after [SetLevel (Some 10); Call; SetErr None; Call]) (after [SetLevel (Some 10); Call; SetErr None; Call]) 3 false 30 7 = [File 3 7; Err_ 3 7] /\
  through (after [SetLevel (Some 10)]) (after [SetLevel (Some 10)]) 3 false 10 7 = [File 3 7] /\ through (after []) (after []) 3 false 10 7 = [].
Proof. repeat split. Qed.

(** The manager's own records. *)
Theorem C82_manager_records : forall lm level m, in_manager (after lm) false level m = written 0 level m (chosen lm) (chosen_err lm).
Proof.
  intros lm level m. unfold in_manager, log, level_of, written. destruct (manager_main lm) as (R & _ & -> & _). destruct (chosen lm <=? level); [|reflexivity]. unfold handle. rewrite R. cbn. now destruct (chosen_err lm <=? level).
Qed.
Print Assumptions C82_manager_records.

(** The line of a calculation is in libE_stats.txt once, with the worker's number, and
    not in ensemble.log, if the level is INFO or lower or the process has made a call
    before. *)
Theorem C82_statistics : forall lw lm w m, 1 <= w -> chosen lw <= 20 \/ called lw -> through (after lw) (after lm) w true 20 m = [Line w m].
Proof.
  intros lw lm w m W H. unfold through, log. destruct (worker_main w lw) as (_ & _ & R). replace (level_of true (worker_config w (after lw)) <=? 20) with true.
  - unfold handle at 1. rewrite R. cbn [emit flat_map manager_receives app]. rewrite app_nil_r. unfold handle. destruct (manager_main lm) as (_ & -> & _). reflexivity.
  - symmetry. apply Nat.leb_le. destruct (config_after lw) as (L & E & [[H1 E']|(H1 & H2 & H3 & H4 & H5 & H6)]).
    + rewrite E'. cbn. destruct H; [exact H|contradiction].
    + unfold level_of, worker_config. rewrite H2. cbn. rewrite H5. lia.
Qed.
Print Assumptions C82_statistics.
Example C82_statistics_applies : through (after [SetLevel (Some 30); Call]) (after [SetLevel (Some 30); Call]) 2 true 20 7 = [Line 2 7] /\ chosen [SetLevel (Some 10)] <= 20.
Proof. split; [reflexivity|cbn; lia]. Qed.
(** With a higher level the first call's libE_stats.txt has no calculations at all. *)
Theorem C82_statistics_level_refuted : forall l w m, ~ called l -> 20 < chosen l -> through (after l) (after l) w true 20 m = [].
Proof.
  intros l w m N H. unfold through, log. destruct (config_after l) as (L & E & [[H1 E']|(H1 & _)]); [|contradiction]. rewrite E'. unfold level_of, worker_config. cbn [c_set c_level c_main c_stats init_logger add_handler l_level].
  now rewrite (proj2 (Nat.leb_gt _ _) H).
Qed.
Print Assumptions C82_statistics_level_refuted.
Example C82_statistics_level_applies : ~ called [SetLevel (Some WARNING)] /\ 20 < chosen [SetLevel (Some WARNING)].
Proof. split; [intros [|[]]; discriminate|cbn; unfold WARNING; lia]. Qed.
(** With worker threads every line and record is the manager's. *)
Theorem C82_threads_refuted : forall lm m, in_manager (after lm) true 20 m = [Line 0 m].
Proof. intros lm m. unfold in_manager, log, level_of. destruct (manager_main lm) as (_ & R & _ & ->). change (10 <=? 20) with true. cbn iota. unfold handle. now rewrite R. Qed.
Print Assumptions C82_threads_refuted.

(** The prefix of a line tells the worker. *)
Theorem C82_prefix : forall v w, prefix v = prefix w -> v = w.
Proof.
  intros v w. assert (N : forall n, prefix 0 <> prefix (S n)) by (intros n E; cbn in E; discriminate).
  destruct v as [|v], w as [|w]; auto; intros E; [now destruct (N w)|symmetry in E; now destruct (N v)|]. unfold prefix in E. apply app_inv_head in E. unfold rjust in E.
  assert (D : forall n t, forallb is_digit t = true -> dropw (repeat " "%char n ++ t) = t). { induction n as [|n IH]; intros t Ht; cbn; auto. destruct t as [|c t]; cbn; auto. cbn in Ht. apply andb_true_iff in Ht as [Hc _]. destruct (ceqb_spec c " ") as [->|]; [discriminate|reflexivity]. }
  apply (f_equal dropw) in E. rewrite !D in E by apply dec_digits. now apply dec_inj.
Qed.
Print Assumptions C82_prefix.
Example C82_prefix_applies : prefix 3 = T "Worker     3" /\ prefix 12 = T "Worker    12" /\ prefix 0 = T "Manager     ". Proof. repeat split. Qed.

(** ** Lines and results *)

Definition from (w : nat) (ms : list (nat * wmsg)) : list wmsg := map snd (filter (fun x => fst x =? w) ms).
Definition results (ms : list wmsg) : list nat := flat_map (fun x => match x with WResult m => [m] | _ => [] end) ms.
(** the lines with worker w's number that are in libE_stats.txt *)
Definition lines (w : nat) (o : list out) : list nat := flat_map (fun x => match x with Line v m => if v =? w then [m] else [] | _ => [] end) o.

Lemma prefix_split {A} (a : list A) : forall b p q, p ++ q = a ++ b -> (exists c, a = p ++ c) \/ (exists c, p = a ++ c /\ b = c ++ q).
Proof.
  induction a as [|x a IH]; intros b p q E; [right; exists p; auto|]. destruct p as [|y p]; [left; exists (x :: a); reflexivity|]. cbn in E. injection E as -> E. destruct (IH b p q E) as [[c ->]|(c & -> & ->)]; [left|right]; exists c; auto.
Qed.
Definition mline (w : nat) (x : wmsg) : list nat := match x with WRec true r => if who r =? w then [r_msg r] else [] | _ => [] end.
Lemma lines_app w a b : lines w (a ++ b) = lines w a ++ lines w b. Proof. apply flat_map_app. Qed.
Lemma lines_of lm w ms : lines w (manager_does (after lm) ms) = flat_map (fun x => mline w (snd x)) ms.
Proof.
  destruct (manager_main lm) as (R1 & R2 & _). induction ms as [|[v x] ms IH]; auto. cbn [manager_does flat_map]. rewrite lines_app. unfold manager_does in IH. rewrite IH. f_equal. cbn [snd].
  destruct x as [[|] r|m]; cbn [mline]; auto; unfold handle.
  - rewrite R2. cbn. unfold who at 1, label. cbn. unfold who. destruct (r_worker r); now rewrite app_nil_r.
  - rewrite R1. cbn. now destruct (chosen_err lm <=? r_level r).
Qed.
Lemma log_main cw w level m : exists o, log false (worker_config w (after cw)) level m = o /\ (o = [] \/ o = [Msg w false (mkRec level m (Some w))]).
Proof. unfold log. destruct (worker_main w cw) as (_ & R & _). eexists. split; [reflexivity|]. destruct (_ <=? level); auto. right. unfold handle. rewrite R. reflexivity. Qed.
Lemma log_stats cw w m : chosen cw <= 20 \/ called cw -> log true (worker_config w (after cw)) 20 m = [Msg w true (mkRec 20 m (Some w))].
Proof.
  intros H. unfold log. destruct (worker_main w cw) as (_ & _ & R). replace (level_of true (worker_config w (after cw)) <=? 20) with true; [unfold handle; now rewrite R|].
  symmetry. apply Nat.leb_le. destruct (config_after cw) as (L & E & [[H1 E']|(H1 & H2 & H3 & H4 & H5 & H6)]); [rewrite E'; cbn; destruct H; [exact H|contradiction]|]. unfold level_of, worker_config. rewrite H2. cbn. rewrite H5. lia.
Qed.
Lemma sends_app a b : sends (a ++ b) = sends a ++ sends b. Proof. apply flat_map_app. Qed.
(** records of a worker carry its number *)
Lemma stream_label cw w xs x : In x (flat_map (calc_msgs (after cw) w) xs) -> match x with WRec _ r => who r = w | WResult _ => True end.
Proof.
  intros H. apply in_flat_map in H as (y & _ & H). unfold calc_msgs in H. rewrite !in_app_iff in H. destruct H as [H|[H|[<-|[]]]]; auto.
  - unfold sends in H. apply in_flat_map in H as (o & Ho & H). apply in_flat_map in Ho as (lm & _ & Ho). destruct (log_main cw w (fst lm) (snd lm)) as (o' & E & F). rewrite E in Ho. destruct F as [->| ->]; [destruct Ho|]. destruct Ho as [<-|[]]. destruct H as [<-|[]]. reflexivity.
  - unfold sends in H. apply in_flat_map in H as (o & Ho & H). unfold log in Ho. destruct (_ <=? INFO); [|destruct Ho]. unfold handle in Ho. destruct (worker_main w cw) as (_ & _ & R). rewrite R in Ho. destruct Ho as [<-|[]]. destruct H as [<-|[]]. reflexivity.
Qed.
Lemma quiet cw w l x : In x (sends (flat_map (fun lm => log false (worker_config w (after cw)) (fst lm) (snd lm)) l)) -> exists r, x = WRec false r.
Proof.
  unfold sends. intros H. apply in_flat_map in H as (o & Ho & H). apply in_flat_map in Ho as (lm & _ & Ho). destruct (log_main cw w (fst lm) (snd lm)) as (o' & E & F). rewrite E in Ho. destruct F as [->| ->]; [destruct Ho|]. destruct Ho as [<-|[]]. destruct H as [<-|[]]. eauto.
Qed.
Lemma quiet_none w p : (forall x, In x p -> exists r, x = WRec false r) -> flat_map (mline w) p = [] /\ results p = [].
Proof. induction p as [|x p IH]; intros H; auto. destruct (H x (or_introl eq_refl)) as [r ->]. cbn. apply IH. intros y Hy. apply H. now right. Qed.

(** Whatever the manager has worked through of the workers' messages: the results it
    has from a worker are those of its first [k] calculations, and libE_stats.txt has
    the lines of just these, in order, or of these and the next one. *)
Theorem C82_lines_before_results : forall (cw : nat -> list act) lm (calcs : nat -> list calc) ms, (forall w, chosen (cw w) <= 20 \/ called (cw w)) ->
  (forall w, exists rest, from w ms ++ rest = flat_map (calc_msgs (after (cw w)) w) (calcs w)) ->
  forall w, exists k, results (from w ms) = firstn k (map a_result (calcs w)) /\ k <= length (calcs w) /\
    (lines w (manager_does (after lm) ms) = firstn k (map a_line (calcs w)) \/ lines w (manager_does (after lm) ms) = firstn (S k) (map a_line (calcs w))).
Proof.
  intros cw lm calcs ms HL HP w. rewrite lines_of.
  replace (flat_map (fun x => mline w (snd x)) ms) with (flat_map (mline w) (from w ms)).
  2:{ assert (A : forall v x, In (v, x) ms -> v <> w -> mline w x = []).
      { intros v x Hx N. destruct (HP v) as [rest E]. assert (X : In x (from v ms)). { unfold from. apply in_map_iff. exists (v, x). split; auto. apply filter_In. split; auto. cbn. apply Nat.eqb_refl. }
        assert (Y : In x (flat_map (calc_msgs (after (cw v)) v) (calcs v))) by (rewrite <- E; apply in_or_app; now left). apply stream_label in Y. destruct x as [[|] r|m]; auto. cbn. rewrite Y. now rewrite (proj2 (Nat.eqb_neq v w) N). }
      clear HP. unfold from. induction ms as [|[v x] ms IH]; auto. cbn [filter fst map flat_map]. destruct (Nat.eqb_spec v w) as [->|N]; cbn [map flat_map snd]; [f_equal|rewrite (A v x (or_introl eq_refl) N); cbn [app]]; apply IH; intros; eapply A; eauto; now right. }
  destruct (HP w) as [rest E]. clear HP. specialize (HL w). remember (from w ms) as p eqn:Ep. clear Ep ms. revert p E. induction (calcs w) as [|x xs IH]; intros p E.
  - cbn in E. apply app_eq_nil in E as [-> ->]. exists 0. cbn. auto.
  - cbn [flat_map] in E. unfold calc_msgs in E at 1. change INFO with 20 in E. rewrite (log_stats (cw w) w (a_line x) HL) in E.
    set (L := sends (flat_map (fun lm => log false (worker_config w (after (cw w))) (fst lm) (snd lm)) (a_logs x))) in E. assert (Q : forall y, In y L -> exists r, y = WRec false r) by (intros y; apply quiet).
    cbn [sends flat_map app] in E. rewrite <- app_assoc in E. cbn [app] in E. destruct (prefix_split _ _ _ _ E) as [[c EC]|(c & -> & EC)].
    + exists 0. destruct (quiet_none w p) as [-> ->]; [intros y Hy; apply Q; rewrite EC; apply in_or_app; now left|]. cbn. split; auto. split; [lia|auto].
    + destruct (quiet_none w L Q) as [Q1 Q2]. unfold results in *. rewrite !flat_map_app, Q1, Q2. cbn [app]. destruct c as [|y c]; [exists 0; cbn; split; auto; split; [lia|auto]|]. cbn [app] in EC. injection EC as <- EC. destruct c as [|y c].
      * exists 0. cbn. rewrite Nat.eqb_refl. cbn. split; auto. split; [lia|auto].
      * cbn [app] in EC. injection EC as <- EC. symmetry in EC. destruct (IH c EC) as (k & K1 & K2 & K3). exists (S k). cbn. rewrite Nat.eqb_refl. cbn. rewrite K1. split; auto. split; [lia|]. destruct K3 as [K3|K3]; rewrite K3; auto.
Qed.
Print Assumptions C82_lines_before_results.
Definition ex_calcs (w : nat) : list calc := match w with 1 => [mkCalc [(20, 1); (10, 2)] 3 4; mkCalc [] 5 6] | 2 => [mkCalc [(30, 7)] 8 9] | _ => [] end.
Definition ex_ms : list (nat * wmsg) := [(2, WRec false (mkRec 30 7 (Some 2))); (1, WRec false (mkRec 20 1 (Some 1))); (1, WRec true (mkRec 20 3 (Some 1))); (2, WRec true (mkRec 20 8 (Some 2))); (1, WResult 4); (1, WRec true (mkRec 20 5 (Some 1)))].
Example C82_lines_applies : (forall w, exists rest, from w ex_ms ++ rest = flat_map (calc_msgs (after []) w) (ex_calcs w)) /\ lines 1 (manager_does (after []) ex_ms) = [3; 5] /\ results (from 1 ex_ms) = [4] /\ lines 2 (manager_does (after []) ex_ms) = [8].
Proof. split; [|repeat split]. intros [|[|[|w]]]; eexists; reflexivity. Qed.
