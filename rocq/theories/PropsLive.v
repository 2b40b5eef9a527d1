(** Property theorem C92: what the live plot shows. *)
From Verif Require Import Base BaseLemmas LiveModel.

(** Vocabulary: what the plot shows last, and the number of results in it. *)
Definition shown (p : plot) : option view := hd_error (drawn p).
Definition results_shown (p : plot) : nat := match shown p with Some v => v_ended v | None => 0 end.

Lemma nth_error_skip {A} n : forall (l : list A) i, nth_error (skipn n l) i = nth_error l (n + i).
Proof. induction n; intros [|a l] i; cbn; auto. now destruct i. Qed.

Lemma run_snoc vs v : live_run (vs ++ [v]) = live_update v (live_run vs).
Proof. unfold live_run. now rewrite fold_left_app. Qed.

Lemma count_shown vs : last_plot_count (live_run vs) = results_shown (live_run vs).
Proof.
  induction vs as [|v vs IH] using rev_ind; [reflexivity|]. rewrite run_snoc. unfold live_update. cbn zeta.
  destruct (_ || _ || _); [reflexivity|exact IH].
Qed.

(** ** C92 *)

(** After every message the plot is less than 50 results behind. *)
Theorem C92_less_than_50_results_behind :
  forall vs v, v_ended v < results_shown (live_run (vs ++ [v])) + 50.
Proof.
  intros vs v. rewrite <- count_shown, run_snoc. unfold live_update. cbn zeta. destruct (_ || _ || _) eqn:E; [cbn; lia|].
  apply orb_false_iff in E as [_ E]. apply Nat.leb_gt in E. lia.
Qed.
Print Assumptions C92_less_than_50_results_behind.

(** A local minimum is shown at once if its row is not below the number of
    results that the plot showed before. *)
Theorem C92_new_minima_are_shown_at_once :
  forall vs v r row, nth_error (v_rows v) r = Some row -> is_local_min row = true -> results_shown (live_run vs) <= r ->
  shown (live_run (vs ++ [v])) = Some v.
Proof.
  intros vs v r row Hr Hm Hle. rewrite run_snoc. unfold live_update. cbn zeta. rewrite count_shown.
  assert (E : existsb is_local_min (skipn (results_shown (live_run vs)) (v_rows v)) = true).
  { apply existsb_exists. exists row. split; [|exact Hm]. apply (nth_error_In _ (r - results_shown (live_run vs))).
    rewrite nth_error_skip. replace (results_shown (live_run vs) + (r - results_shown (live_run vs))) with r by lia. exact Hr. }
  rewrite E, orb_true_r. reflexivity.
Qed.
Print Assumptions C92_new_minima_are_shown_at_once.

(** And so are more than five optimization points in those rows. *)
Theorem C92_new_optimization_points_are_shown_at_once :
  forall vs v, 5 < length (filter is_local_pt (skipn (results_shown (live_run vs)) (v_rows v))) ->
  shown (live_run (vs ++ [v])) = Some v.
Proof.
  intros vs v H. rewrite run_snoc. unfold live_update. cbn zeta. rewrite count_shown.
  assert (E : (5 <? countb is_local_pt (skipn (results_shown (live_run vs)) (v_rows v))) = true) by (apply Nat.ltb_lt; exact H).
  rewrite E. reflexivity.
Qed.
Print Assumptions C92_new_optimization_points_are_shown_at_once.

Example C92_points_met : 5 < length (filter is_local_pt (skipn (results_shown (live_run [])) (repeat (mkP true false) 6))).
Proof. vm_compute. lia. Qed.

(** What is drawn is always the history of that moment, and there is a reason:
    a local minimum or more than five optimization points in the rows from the
    number of results shown before on, or 50 results more. *)
Theorem C92_drawn_for_a_reason :
  forall vs v, drawn (live_run (vs ++ [v])) = drawn (live_run vs) \/
  drawn (live_run (vs ++ [v])) = v :: drawn (live_run vs) /\
  ((exists r row, results_shown (live_run vs) <= r /\ nth_error (v_rows v) r = Some row /\ is_local_min row = true) \/
   (5 < length (filter is_local_pt (skipn (results_shown (live_run vs)) (v_rows v)))) \/
   results_shown (live_run vs) + 50 <= v_ended v).
Proof.
  intros vs v. rewrite run_snoc. unfold live_update. cbn zeta. rewrite count_shown.
  destruct (_ || _ || _) eqn:E; [right|now left]. split; [reflexivity|].
  apply orb_true_iff in E as [E|E]; [apply orb_true_iff in E as [E|E]|].
  - right. left. apply Nat.ltb_lt in E. unfold countb in E. exact E.
  - left. apply existsb_exists in E as (row & Hin & Hm). apply In_nth_error in Hin as (k & Hk). rewrite nth_error_skip in Hk.
    exists (results_shown (live_run vs) + k), row. repeat split; auto. lia.
  - right. right. now apply Nat.leb_le.
Qed.
Print Assumptions C92_drawn_for_a_reason.

(** Example: 50 results are drawn; then a minimum in row 60. *)
Definition plain (n : nat) : list prow := repeat (mkP false false) n.
Definition run_50 : list view := [mkView (plain 70) 20; mkView (plain 70) 50; mkView (plain 70) 51].
Example C92_run : results_shown (live_run run_50) = 50 /\
  let v := mkView (plain 60 ++ [mkP true true]) 52 in
  nth_error (v_rows v) 60 = Some (mkP true true) /\ results_shown (live_run (run_50 ++ [v])) = 52.
Proof. vm_compute. auto. Qed.

(** Rows are compared with numbers of results: a point of a low row that is found
    to be a minimum later is not drawn, and at the end of the run nothing more is
    drawn. The same minimum in row 60 is. *)
Theorem C92_a_minimum_is_never_shown_refuted :
  exists vs, (forall v, In v vs -> length (v_rows v) = 70) /\
    (exists v, last vs (mkView [] 0) = v /\ option_map is_local_min (nth_error (v_rows v) 10) = Some true) /\
    forall d, In d (drawn (live_run vs)) -> forall row, In row (v_rows d) -> is_local_min row = false.
Proof.
  exists (run_50 ++ [mkView (plain 10 ++ [mkP true true] ++ plain 59) 99]). split; [|split].
  - intros v [<-|[<-|[<-|[<-|[]]]]]; reflexivity.
  - eexists. split; reflexivity.
  - change (drawn (live_run (run_50 ++ [mkView (plain 10 ++ [mkP true true] ++ plain 59) 99]))) with [mkView (plain 70) 50].
    intros d [<-|[]] row Hr. cbn [v_rows] in Hr. apply repeat_spec in Hr. now subst.
Qed.
Print Assumptions C92_a_minimum_is_never_shown_refuted.
