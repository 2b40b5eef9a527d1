(** The other allocation functions are careful. *)
From Coq Require Import Permutation String.
From Verif Require Import Base BaseLemmas HistoryModel HistorySpec HistoryProofs HistoryInv HistoryInv2 HistoryRun HistoryRun2 RsetModel RsetSpec WorkModel SchedModel SchedSpec SchedServe AllocModel AllocSpec AllocProofs AllocLoops AllocFacts AllocFast AllocPersis AllocModel2 AllocSpec2 AllocMore AllocMore2 AllocMore3 AllocMore4 AllocMore5 AllocMore6 AllocMore7 PropsAlloc2 ManagerModel ManagerSpec ManagerProofs ManagerMsg ManagerRun ManagerInv ManagerFinal ManagerEnd ManagerRes DrivenModel DrivenSpec DrivenProofs DrivenInv DrivenPoints DrivenRes DrivenSets DrivenModel2 DrivenSets2 DrivenSpec2 DrivenPending.
Local Notation length := List.length.
Local Open Scope nat_scope.

Lemma sound_careful c a v m out : Td (call_context c a v m) (o_work out) -> sound_call (call_context c a v m) (h_dtype (m_h m)) (trim_H (m_h m)) out ->
  careful_out m out /\ forall i, In i (sim_rows (o_work out)) -> evaluable (trim_H (m_h m)) i.
Proof.
  intros T [S1 S2 S3 S4 S5 S6 S7 S8]. split; auto. split; auto.
  - intros w k Hin. destruct (S1 w k Hin) as [(_ & (r & R1 & R2 & _) & _)|(_ & [[(r & R1 & R2 & _) _]|(r & R1 & R2 & _)])]; cbn in R1; rewrite <- R2; now apply in_map.
  - exact (Td_teams _ _ T).
  - split; [apply S8|]. intros i r E. destruct (proj2 S8 i r E) as (r' & E' & F). exists r'. split; auto. apply F. discriminate.
Qed.

Section Three.
Variables (c : mcfg) (a : asetup).
Lemma fd_careful u v g m out g' : table_ok c m -> reach m -> set_order (v_ord v) -> fd_alloc_fn c a u v g m = (out, g') ->
  careful_out m out /\ forall i, In i (sim_rows (o_work out)) -> evaluable (trim_H (m_h m)) i.
Proof.
  intros T R O E. destruct (call_ok c a v m T R O) as [Hi Hr]. apply (sound_careful c a v).
  - eapply (too_Td c a nat); eauto. constructor.
  - injection E as <- _. now apply C61_fd_sound.
Qed.
Lemma bayes_careful n v g m out g' : table_ok c m -> reach m -> set_order (v_ord v) -> bayes_alloc_fn c a n v g m = (out, g') ->
  careful_out m out /\ forall i, In i (sim_rows (o_work out)) -> evaluable (trim_H (m_h m)) i.
Proof.
  intros T R O E. destruct (call_ok c a v m T R O) as [Hi Hr]. apply (sound_careful c a v).
  - eapply (too_Td c a nat); eauto. constructor.
  - injection E as <- _. now apply C61_bayes_sound.
Qed.
Lemma local_opt_careful o v g m out g' : table_ok c m -> reach m -> set_order (v_ord v) -> local_opt_alloc_fn c a o v g m = (out, g') ->
  careful_out m out /\ forall i, In i (sim_rows (o_work out)) -> evaluable (trim_H (m_h m)) i.
Proof.
  intros T R O E. destruct (call_ok c a v m T R O) as [Hi Hr]. apply (sound_careful c a v).
  - eapply (too_Td c a nat); eauto. constructor.
  - injection E as <- _. now apply C61_local_opt_sound.
Qed.

(** The functions that keep account of what is still to be given. *)
Definition ap_pend (s : nat * ap_state) (i : nat) : Prop := ap_first (snd s) = true \/ ap_next (snd s) <= i.
Definition ap_fine (n0 : nat) (s : nat * ap_state) (n : nat) : Prop := n0 <= n /\ (ap_first (snd s) = false -> n0 <= ap_next (snd s) <= n).
Lemma ap_fine_mono n0 s n n' : ap_fine n0 s n -> n <= n' -> ap_fine n0 s n'.
Proof. unfold ap_fine. intros [H1 H2] H. split; [lia|]. intros X. specialize (H2 X). lia. Qed.

Lemma aposmm_pending init n0 v s m out s' : table_ok c m -> reach m -> set_order (v_ord v) -> h_index (m_h m) <= length (h_rows (m_h m)) -> (false = true -> nums (m_h m)) ->
  ap_fine n0 s (h_index (m_h m)) -> aposmm_alloc_fn c a init v s m = (out, s') ->
  (false = true -> ids_kept (trim_H (m_h m)) (o_rows out)) /\ ap_fine n0 s' (h_index (m_h m)) /\ (forall w k, In (w, k) (o_work out) -> team_ok k) /\
  NoDup (sim_rows (o_work out)) /\ (forall i, In i (sim_rows (o_work out)) -> ap_pend s i /\ ~ ap_pend s' i /\ ~ i < n0) /\ forall i, ap_pend s' i -> ap_pend s i.
Proof.
  intros T R O Hl _ [F0 F] E. destruct (call_ok c a v m T R O) as [Hi Hr].
  assert (TO : forall w k, In (w, k) (o_work out) -> team_ok k) by (apply (Td_teams (call_context c a v m)); eapply (too_Td c a _ _ (ship_aposmm c a init)); eauto).
  split; [discriminate|]. revert E TO. unfold aposmm_alloc_fn. set (x := call_context c a v m) in *. destruct (persistent_aposmm_alloc _ _ _ _ _ _ _) as [o p'] eqn:E. intros [= <- <-] TO.
  destruct s as [g p]. cbn [fst snd] in *. unfold ap_fine, ap_pend. cbn [snd].
  assert (Nil : p' = p -> o_work o = [] -> (n0 <= h_index (m_h m) /\ (ap_first p' = false -> n0 <= ap_next p' <= h_index (m_h m))) /\ (forall w k, In (w, k) (o_work o) -> team_ok k) /\
    NoDup (sim_rows (o_work o)) /\ (forall i, In i (sim_rows (o_work o)) -> (ap_first p = true \/ ap_next p <= i) /\ ~ (ap_first p' = true \/ ap_next p' <= i) /\ ~ i < n0) /\
    forall i, ap_first p' = true \/ ap_next p' <= i -> ap_first p = true \/ ap_next p <= i).
  { intros -> ->. cbn. split; [auto|]. split; [intros ? ? []|]. split; [constructor|]. split; [intros i []|auto]. }
  assert (Rest : forall p1, ap_first p1 = false -> n0 <= ap_next p1 <= h_index (m_h m) -> (forall i, ap_next p1 <= i -> ap_first p = true \/ ap_next p <= i) ->
    aposmm_rest x (h_dtype (m_h m)) init g p1 (trim_H (m_h m)) = (o, p') -> (n0 <= h_index (m_h m) /\ (ap_first p' = false -> n0 <= ap_next p' <= h_index (m_h m))) /\ (forall w k, In (w, k) (o_work o) -> team_ok k) /\
    NoDup (sim_rows (o_work o)) /\ (forall i, In i (sim_rows (o_work o)) -> (ap_first p = true \/ ap_next p <= i) /\ ~ (ap_first p' = true \/ ap_next p' <= i) /\ ~ i < n0) /\
    forall i, ap_first p' = true \/ ap_next p' <= i -> ap_first p = true \/ ap_next p <= i).
  { intros p1 Hf N1 Hp ER. assert (N2 : ap_next p1 <= length (trim_H (m_h m))) by (rewrite trim_len; lia).
    destruct (aposmm_facts x (h_dtype (m_h m)) init g p1 p' (trim_H (m_h m)) o Hi Hr N2 ER) as ((st & A) & _ & _ & A1 & _ & A2 & _ & A3 & _).
    rewrite trim_len in A2 by auto. rewrite A1, Hf. split; [split; [auto|]; lia|]. split; [exact TO|]. split; [apply A|]. split; [|intros i [Hx|Hx]; [discriminate|apply Hp; lia]].
    intros i Hx. apply A3 in Hx. apply wanted_range in Hx. split; [apply Hp; lia|]. split; [intros [Hy|Hy]; [discriminate|lia]|lia]. }
  unfold persistent_aposmm_alloc in E. destruct (no_more_work c m); [injection E as <- <-; now apply Nil|].
  destruct (ap_first p) eqn:Ef.
  - destruct (_ && _); [|injection E as <- <-; now apply Nil]. eapply Rest in E; [exact E|reflexivity|cbn [ap_next]; rewrite trim_len by auto; lia|auto].
  - destruct (_ =? 0); [injection E as <- <-; now apply Nil|]. eapply Rest in E; [exact E|exact Ef|auto|auto].
Qed.

Definition ps_pend (s : nat * ps_state) (i : nat) : Prop := In i (ps_need (snd s)) \/ ps_len (snd s) <= i.
Definition psf (n0 : nat) (s : nat * ps_state) (n : nat) : Prop :=
  ps_fine (snd s) /\ n0 <= ps_len (snd s) <= n /\ forall i, In i (ps_need (snd s)) -> n0 <= i.
Lemma psf_mono n0 s n n' : psf n0 s n -> n <= n' -> psf n0 s n'.
Proof. unfold psf. intros (H1 & H2 & H3) H. split; auto. split; auto. lia. Qed.
Lemma nums_numbered h : nums h -> numbered (trim_H h).
Proof.
  intros [(A1 & A2 & _) _] i r E. assert (Hi : i < h_index h). { assert (X : i < length (trim_H h)) by (apply nth_error_Some; intros Y; discriminate (eq_trans (eq_sym E) Y)). rewrite trim_len in X; auto. }
  specialize (A2 i Hi). unfold cell in A2. unfold trim_H in E. rewrite nth_error_firstn in E. apply Nat.ltb_lt in Hi. rewrite Hi in E. destruct (nth_error (h_rows h) i) as [r0|] eqn:E0; [|discriminate].
  cbn in A2. injection A2 as A2. injection E as <-. now rewrite A2.
Qed.

Lemma pausing_pending U n0 v s m out s' : table_ok c m -> reach m -> set_order (v_ord v) -> h_index (m_h m) <= length (h_rows (m_h m)) -> (true = true -> nums (m_h m)) ->
  psf n0 s (h_index (m_h m)) -> pausing_alloc_fn c a U v s m = (out, s') ->
  (true = true -> ids_kept (trim_H (m_h m)) (o_rows out)) /\ psf n0 s' (h_index (m_h m)) /\ (forall w k, In (w, k) (o_work out) -> team_ok k) /\
  NoDup (sim_rows (o_work out)) /\ (forall i, In i (sim_rows (o_work out)) -> ps_pend s i /\ ~ ps_pend s' i /\ ~ i < n0) /\ forall i, ps_pend s' i -> ps_pend s i.
Proof.
  intros T R O Hl HN (F1 & F2 & F3) E. destruct (call_ok c a v m T R O) as [Hi Hr].
  assert (TO : forall w k, In (w, k) (o_work out) -> team_ok k) by (apply (Td_teams (call_context c a v m)); eapply (too_Td c a _ _ (ship_pausing c a U)); eauto).
  revert E TO. unfold pausing_alloc_fn. set (x := call_context c a v m) in *. set (u := U v s m). destruct (pausing_alloc _ _ _ _ _ _ _) as [o p'] eqn:E. intros [= <- <-] TO.
  destruct s as [g p]. cbn [fst snd] in *. unfold psf, ps_pend. cbn [snd].
  destruct (no_more_work c m).
  - injection E as <- <-. cbn [o_rows o_work]. split; [intros _ i r Er; eauto|]. split; [auto|]. split; [intros ? ? []|]. split; [constructor|]. split; [intros i []|auto].
  - pose proof (nums_numbered _ (HN eq_refl)) as HNu. pose proof (trim_len _ Hl) as EL. assert (L1 : ps_len p <= length (trim_H (m_h m))) by lia.
    pose proof (step_give p (trim_H (m_h m)) F1 HNu L1) as [G1 G2].
    destruct (step_fine x (h_dtype (m_h m)) u g p p' (trim_H (m_h m)) o Hi Hr F1 HNu L1 E) as [S1 S2].
    destruct (step_given x (h_dtype (m_h m)) u g p p' (trim_H (m_h m)) o Hi Hr F1 HNu L1 E) as [S3 S4].
    destruct (pausing_facts x (h_dtype (m_h m)) u g p p' (trim_H (m_h m)) o Hi Hr G1 E) as (_ & SB & _ & _ & _ & S5 & _).
    assert (ND : forall i, In i (ps_need p') -> In i (ps_need p) \/ ps_len p <= i) by (intros i Hx; apply S5, G2 in Hx; tauto).
    split. { intros _ i r Er. destruct (proj2 SB i r Er) as (r' & Er' & FF). exists r'. split; auto. apply FF. intros [X|[]]; discriminate. }
    split. { split; auto. split; [lia|]. intros i Hx. destruct (ND i Hx) as [X|X]; [auto|lia]. }
    split; [exact TO|]. split; [exact S3|]. split.
    + intros i Hx. destruct (S4 i Hx) as [X Y]. split; [tauto|]. split; [|destruct X as [X|X]; [specialize (F3 i X)|]; lia].
      intros [Z|Z]; [auto|]. destruct X as [X|X]; [apply F1 in X|]; lia.
    + intros i [X|X]; [apply ND in X; tauto|right; lia].
Qed.
End Three.
