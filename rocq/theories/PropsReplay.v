(** Property theorem C89: a run that is repeated with mock_sim gets the recorded results. *)
From Coq Require Import String.
From Verif Require Import Base BaseLemmas HistoryModel HistorySpec HistoryProofs HistoryXIn HistoryInv HistoryInv2 HistoryRun HistoryStore HistoryFacts HistoryExamples ReplayModel.
Local Notation length := List.length.

(** Vocabulary: both scalars, or vectors of one length. *)
Definition same_shape (a b : val) : Prop :=
  match a, b with VS _, VS _ => True | VV l, VV m => length l = length m /\ l <> [] | _, _ => False end.

(** What may happen in the repeated run: points are evaluated one at a time by
    mock_sim; generators do not write the simulator's output fields. *)
Definition replay_op (file : sarr) (outs : list (field * shape)) (o : hop) : Prop :=
  match o with
  | HXIn _ D _ _ => forall f, In f (names outs) -> ~ In f (names (a_dtype D))
  | HF inds ret _ _ => exists k A, inds = [k] /\ mock_sim file outs [k] = Ok A /\ ret = Some A
  | _ => True
  end.

Lemma stored_same old new v : same_shape old new -> stored old new v -> v = new.
Proof.
  intros Hs H. destruct H as [o s|o s l L F|o n l L1 L2 P Q]; cbn in Hs; auto; [contradiction|].
  destruct Hs as [Hs _]. f_equal. clear -Hs L2 P Q. 
  assert (E : forall i, nth_error l i = nth_error n i).
  { intros i. destruct (Nat.lt_ge_cases i (length n)); [auto|].
    rewrite (proj2 (nth_error_None l i)), (proj2 (nth_error_None n i)) by lia. reflexivity. }
  clear - E. revert n E. induction l as [|x l IH]; intros [|y n] E; auto.
  - specialize (E 0). discriminate.
  - specialize (E 0). discriminate.
  - f_equal; [specialize (E 0); cbn in E; congruence|]. apply IH. intros i. exact (E (S i)).
Qed.

Lemma same_shape_refl old new : same_shape old new -> same_shape new new.
Proof. destruct old, new; cbn; auto; try contradiction. intros [E N]. split; auto. intros ->. cbn in E. destruct l; [auto|discriminate]. Qed.

Lemma x_in_user_keep gw D gs t h h' k name :
  update_history_x_in gw D gs t h = (h', None) ->
  column h (F_user name) -> ~ In (F_user name) (names (a_dtype D)) -> k < length (h_rows h) ->
  cell (h_rows h') k (F_user name) = cell (h_rows h) k (F_user name).
Proof.
  intros Hx Hc Hn Hk. unfold update_history_x_in in Hx. destruct (Nat.eqb _ 0); [congruence|].
  set (he := ensure_fields h (a_dtype D)) in *.
  assert (Hcell : cell (h_rows he) k (F_user name) = cell (h_rows h) k (F_user name)) by now apply ensure_cell.
  assert (Hlen : length (h_rows he) = length (h_rows h)) by apply ensure_len.
  assert (Fin : forall n inds h1, x_in_finish gw D gs t n inds h1 = (h', None) ->
    cell (h_rows h') k (F_user name) = cell (h_rows h1) k (F_user name)).
  { intros n inds h1 H. unfold x_in_finish in H. apply bindx_None in H as (h2 & Hf & Hr).
    pose proof (x_in_fields_frame inds D (a_dtype D) h1) as Fr. rewrite Hf in Fr. cbn zeta in Fr. cbn [fst] in Fr.
    destruct Fr as (Fl & _). rewrite Fl in Hr.
    destruct (norm_idxs (length (h_rows h1)) inds) as [is|] eqn:En; [|discriminate].
    pose proof (x_in_fields_cell _ _ _ _ _ _ En Hf k (F_user name)) as C.
    inversion Hr; subst h'. cbn. rewrite fold_upd_cell_keep by (intros; now apply stamp_keep'). rewrite C.
    destruct (has (F_user name) (names (a_dtype D))) eqn:E; [apply has_In in E; contradiction|].
    cbn. destruct (last_for _ _ _); reflexivity. }
  destruct (negb (has _ _)).
  - rewrite (Fin _ _ _ Hx). cbn. rewrite number_rows_cell. rewrite (feqb_neq F_sim_id) by discriminate. rewrite andb_false_r.
    rewrite make_room_cell_old by lia. exact Hcell.
  - destruct (negb (no_gap _ _)); [discriminate|]. rewrite (Fin _ _ _ Hx). rewrite make_room_cell_old by lia. exact Hcell.
Qed.

Lemma mock_row file outs k A : mock_sim file outs [k] = Ok A ->
  exists r, nth_error (a_rows file) k = Some r /\ a_dtype A = outs /\
    nth_error (a_rows A) 0 = Some (fun f => if has f (names outs) then r f else zero_of ShS).
Proof.
  unfold mock_sim. destruct (nth_error (a_rows file) k) as [r|]; [|discriminate]. destruct (forallb _ _); [|discriminate].
  intros H. exists r. split; auto. assert (E : forall x y, @Ok sarr x = Ok y -> x = y) by congruence. apply E in H. subst A. auto.
Qed.

(** Writing the recorded result of row k gives the recorded value. *)
Lemma mock_write file outs k A kill t h h' name r old :
  NoDup (names outs) -> In (F_user name) (names outs) ->
  mock_sim file outs [k] = Ok A -> update_history_f [k] (Some A) kill t h = (h', None) ->
  nth_error (a_rows file) k = Some r -> column h (F_user name) ->
  cell (h_rows h) k (F_user name) = Some old -> same_shape old (r (F_user name)) ->
  cell (h_rows h') k (F_user name) = Some (r (F_user name)).
Proof.
  intros Nd Hin Hm Hu Hr Hc Ho Hs. destruct (mock_row _ _ _ _ Hm) as (r' & Hr' & Ed & Er). rewrite Hr in Hr'. injection Hr' as <-.
  rewrite <- Ed in Nd, Hin.
  destruct (hf_stored _ _ _ _ _ _ Hu ltac:(repeat constructor; cbn; tauto) Nd 0 k (F_user name) _ eq_refl Er Hin
    ltac:(discriminate) ltac:(discriminate) Hc) as (old' & v & C1 & C2 & C3 & C4).
  rewrite Ho in C1. injection C1 as <-. rewrite Ed in Hin. apply has_In in Hin. rewrite Hin in C2.
  rewrite C3, (C4 name eq_refl). now rewrite (stored_same _ _ _ Hs C2).
Qed.

Lemma replay_keeps file outs name k r : NoDup (names outs) -> In (F_user name) (names outs) ->
  nth_error (a_rows file) k = Some r -> same_shape (r (F_user name)) (r (F_user name)) ->
  forall os h h', Forall (replay_op file outs) os -> hrun os h = (h', None) -> column h (F_user name) ->
  cell (h_rows h) k (F_user name) = Some (r (F_user name)) -> cell (h_rows h') k (F_user name) = Some (r (F_user name)).
Proof.
  intros Nd Hin Hr Hs. induction os as [|o os IH]; intros h h' Ho Hrun Hc Hv; [inversion Hrun; subst; auto|].
  unfold hrun in *. cbn [foldx] in Hrun. apply bindx_None in Hrun as (h1 & E & Hrun). inversion Ho as [|? ? Ho1 Ho2]; subst.
  assert (Hlt : k < length (h_rows h)).
  { unfold cell in Hv. destruct (nth_error (h_rows h) k) eqn:En; [|discriminate]. apply nth_error_Some. congruence. }
  apply (IH h1 h' Ho2 Hrun); [pose proof (hstep_column o h _ Hc) as X; now rewrite E in X|].
  destruct o; cbn [hstep replay_op] in *.
  - rewrite (x_in_user_keep _ _ _ _ _ _ _ _ E Hc (Ho1 _ Hin) Hlt). auto.
  - destruct Ho1 as (k' & A & -> & Hm & ->). destruct (Nat.eq_dec k' k) as [->|Hne].
    + eapply mock_write; eauto.
    + rewrite (hf_only _ _ _ _ _ _ E k _ Hc); auto. left. cbn. intuition.
  - pose proof (x_out_frame inds w kill t h) as F. cbn zeta in F. rewrite E in F. cbn [fst snd] in F.
    destruct F as (F1&F2&F3&F4&F5&F6&F7&F8&F9&F10&F11&F12&F13&F14). rewrite F13; auto.
    right. repeat split; discriminate.
  - pose proof (to_gen_frame inds t h) as F. cbn zeta in F. rewrite E in F. cbn [fst snd] in F.
    destruct F as (F1&F2&F3&F4&F5&F6&F7&F8&F9&F10&F11&F12&F13&F14&F15&F16&F17). rewrite F16; auto.
    right. repeat split; discriminate.
  - pose proof (kill_frame h) as F. cbn zeta in F. rewrite E in F. cbn [fst snd] in F.
    destruct F as (K1&K2&K3&K4&K5&K6&K7&K8&K9&K10&K11&K12&K13&K14&K15). rewrite K14; auto. discriminate.
Qed.

(** ** C89 *)

(** In whatever order points are evaluated, and whatever happens afterwards: a
    point that was evaluated in the repeated run ends up with the recorded value
    in every output field. *)
Theorem C89_replayed_points_end_with_the_recorded_results :
  forall file outs k A kill t later h1 h2 h3 name r old,
  NoDup (names outs) -> In (F_user name) (names outs) ->
  column h1 (F_user name) ->
  cell (h_rows h1) k (F_user name) = Some old ->
  mock_sim file outs [k] = Ok A -> update_history_f [k] (Some A) kill t h1 = (h2, None) ->
  Forall (replay_op file outs) later -> hrun later h2 = (h3, None) ->
  nth_error (a_rows file) k = Some r -> same_shape old (r (F_user name)) ->
  cell (h_rows h3) k (F_user name) = Some (r (F_user name)).
Proof.
  intros file outs k A kill t later h1 h2 h3 name r old Nd Hin Hc Ho Hm Hu Ha Hr3 Hr Hs.
  assert (Hv : cell (h_rows h2) k (F_user name) = Some (r (F_user name))) by (eapply mock_write; eauto).
  eapply replay_keeps; eauto; [eapply same_shape_refl; eauto|].
  pose proof (hstep_column (HF [k] (Some A) kill t) h1 _ Hc) as X. cbn [hstep] in X. now rewrite Hu in X.
Qed.
Print Assumptions C89_replayed_points_end_with_the_recorded_results.

(** A point that the record has is never refused by mock_sim, if the record has
    the output fields. *)
Theorem C89_recorded_points_are_returned :
  forall file outs k,
  (forall f sh, In (f, sh) outs -> In f (names (a_dtype file)) /\ shape_in (a_dtype file) f = sh) ->
  ((exists A, mock_sim file outs [k] = Ok A) <-> k < length (a_rows file)).
Proof.
  intros file outs k H. unfold mock_sim. destruct (nth_error (a_rows file) k) as [r|] eqn:E.
  - assert (k < length (a_rows file)) by (apply nth_error_Some; congruence).
    assert (F : forallb (fun p => has (fst p) (names (a_dtype file)) && shape_eqb (shape_in (a_dtype file) (fst p)) (snd p)) outs = true).
    { apply forallb_forall. intros [f sh] Hp. destruct (H _ _ Hp) as [H1 H2]. cbn. apply andb_true_iff. split; [now apply has_In|].
      rewrite H2. destruct sh; cbn; auto. apply Nat.eqb_refl. }
    rewrite F. split; eauto.
  - apply nth_error_None in E. split; [intros [A [=]]|lia].
Qed.
Print Assumptions C89_recorded_points_are_returned.

(** Example: the first two points of a recorded run, evaluated in the other order. *)
Definition record : sarr := mkA [(X, ShS); (FF, ShS)] (map (fun z f => if feqb FF f then vint z else vint 0) [100; 101; 102]%Z).
Definition mock_out (k : nat) : option sarr := match mock_sim record [(FF, ShS)] [k] with Ok A => Some A | Err _ => None end.
Definition replay_1 : list hop := [HXIn 1 (pts [10; 11]%Z) 5 6; HXOut [1] 2 true 7; HXOut [0] 3 true 8].
Definition replay_2 : list hop := [HF [0] (mock_out 0) true 10; HXIn 1 (pts [12]%Z) 11 12; HKill].
Definition at_2 : hist := fst (update_history_f [1] (mock_out 1) true 9 (after replay_1)).
Definition at_3 : hist := fst (hrun replay_2 at_2).
Example C89_hypotheses_met :
  hrun replay_1 start = (after replay_1, None) /\ column (after replay_1) FF /\
  cell (h_rows (after replay_1)) 1 FF = Some (vint 0) /\
  mock_sim record [(FF, ShS)] [1] = Ok (match mock_out 1 with Some A => A | None => record end) /\
  update_history_f [1] (mock_out 1) true 9 (after replay_1) = (at_2, None) /\
  Forall (replay_op record [(FF, ShS)]) replay_2 /\ hrun replay_2 at_2 = (at_3, None) /\
  cell (h_rows at_3) 1 FF = Some (vint 101) /\ cell (h_rows at_3) 0 FF = Some (vint 100).
Proof.
  assert (P : forall (p : hist * option err), snd p = None -> p = (fst p, None)) by (intros [? ?]; cbn; congruence).
  split; [apply hrun_after; vm_compute; reflexivity|].
  split; [vm_compute; tauto|]. split; [vm_compute; reflexivity|]. split; [reflexivity|].
  split; [apply P; vm_compute; reflexivity|].
  split.
  { unfold replay_2. repeat constructor; cbn.
    - exists 0. eexists. split; [reflexivity|]. split; reflexivity.
    - intros f [<-|[]] [E|[]]. discriminate. }
  split; [apply P; vm_compute; reflexivity|]. split; vm_compute; reflexivity.
Qed.

(** Points that are given out several at a time cannot be replayed: only the
    first gets a result, and the manager stops with an IndexError. *)
Theorem C89_batches_cannot_be_replayed_refuted :
  exists os h A, hrun os start = (h, None) /\ mock_sim record [(FF, ShS)] [0; 1] = Ok A /\
    snd (update_history_f [0; 1] (Some A) true 9 h) = Some EIndex.
Proof.
  exists [HXIn 1 (pts [10; 11]%Z) 5 6; HXOut [0; 1] 2 true 7], (after [HXIn 1 (pts [10; 11]%Z) 5 6; HXOut [0; 1] 2 true 7]).
  eexists. split; [apply hrun_after; vm_compute; reflexivity|]. split; [reflexivity|]. vm_compute. reflexivity.
Qed.
Print Assumptions C89_batches_cannot_be_replayed_refuted.
