(** Proofs about the queues of a run over TCP. *)
From Coq Require Import String Permutation.
From Verif Require Import Base BaseLemmas TextModel TextProofs TcpModel.
Local Open Scope nat_scope.
Local Notation length := List.length.

Lemma inbox_inj v w : inbox v = inbox w -> v = w.
Proof. unfold inbox. intros E. apply app_inv_head in E. now apply dec_inj. Qed.
Lemma outbox_inj v w : outbox v = outbox w -> v = w.
Proof. unfold outbox. intros E. apply app_inv_head in E. now apply dec_inj. Qed.
Lemma in_out v w : inbox v <> outbox w. Proof. discriminate. Qed.
Lemma in_shared v : inbox v <> shared. Proof. discriminate. Qed.
Lemma out_shared v : outbox v <> shared. Proof. discriminate. Qed.

Section Q.
Context {A : Type}.
Implicit Types (q : queues A) (l : list (ev A)).
Lemma get_set n m x q : get_queue m (set_queue n x q) = if teqb n m then x else get_queue m q.
Proof.
  induction q as [|[k y] q IH]; cbn; [reflexivity|]. destruct (teqb_spec k n) as [->|Hk]; cbn.
  - destruct (teqb_spec n m); auto.
  - destruct (teqb_spec k m) as [->|]; auto. destruct (teqb_spec n m); [congruence|auto].
Qed.
Lemma get_put n m x q : get_queue m (put n x q) = get_queue m q ++ if teqb n m then [x] else [].
Proof. unfold put. rewrite get_set. destruct (teqb_spec n m) as [->|]; [auto|now rewrite app_nil_r]. Qed.
Lemma get_take n x q q' : take n q = Some (x, q') -> get_queue n q = x :: get_queue n q' /\ forall m, m <> n -> get_queue m q' = get_queue m q.
Proof.
  unfold take. destruct (get_queue n q) as [|y l] eqn:E; intros [= <- <-]. rewrite get_set, teqb_refl. split; auto.
  intros m Hm. rewrite get_set. destruct (teqb_spec n m); congruence.
Qed.
Lemma teqb_no a b : a <> b -> teqb a b = false.
Proof. destruct (teqb_spec a b); congruence. Qed.

Lemma connected_app a b : connected (a ++ b : list (ev A)) = connected a ++ connected b.
Proof. induction a as [|[] a IH]; cbn; congruence. Qed.
Lemma joined_app a b : joined (a ++ b : list (ev A)) = joined a ++ joined b.
Proof. induction a as [|[] a IH]; cbn; congruence. Qed.
Lemma m_sent_app i a b : m_sent i (a ++ b : list (ev A)) = m_sent i a ++ m_sent i b.
Proof. induction a as [|[] a IH]; cbn; auto. destruct (_ =? _); cbn; congruence. Qed.
Lemma m_got_app i a b : m_got i (a ++ b : list (ev A)) = m_got i a ++ m_got i b.
Proof. induction a as [|[] a IH]; cbn; auto. destruct (_ =? _); cbn; congruence. Qed.
Lemma w_sent_app i a b : w_sent i (a ++ b : list (ev A)) = w_sent i a ++ w_sent i b.
Proof. induction a as [|[] a IH]; cbn; auto. destruct (_ =? _); cbn; congruence. Qed.
Lemma w_got_app i a b : w_got i (a ++ b : list (ev A)) = w_got i a ++ w_got i b.
Proof. induction a as [|[] a IH]; cbn; auto. destruct (_ =? _); cbn; congruence. Qed.
End Q.

Ltac logs := rewrite ?connected_app, ?joined_app, ?m_sent_app, ?m_got_app, ?w_sent_app, ?w_got_app; cbn [connected joined m_sent m_got w_sent w_got]; rewrite ?app_nil_r.

Section Inv.
Context {A : Type}.
Variables (ids : nat -> nat) (n : nat) (D : nat -> Prop).
Hypothesis ids_inj : forall p q, D p -> D q -> ids p = ids q -> p = q.

Definition chan (s : tcp A) : Prop :=
  (forall i p, nth_error (t_conn s) i = Some p ->
     (exists pend, get_queue (inbox (ids p)) (t_q s) = map IMsg pend /\ m_sent i (t_log s) = w_got p (t_log s) ++ pend) /\
     (exists pend, get_queue (outbox (ids p)) (t_q s) = map IMsg pend /\ w_sent p (t_log s) = m_got i (t_log s) ++ pend)) /\
  (forall i, length (t_conn s) <= i -> m_sent i (t_log s) = [] /\ m_got i (t_log s) = []) /\
  (forall p, ~ In p (t_conn s) -> w_sent p (t_log s) = [] /\ w_got p (t_log s) = []) /\
  (forall w, ~ In w (map ids (t_conn s)) -> get_queue (inbox w) (t_q s) = [] /\ get_queue (outbox w) (t_q s) = []).
Definition team (s : tcp A) : Prop :=
  connected (t_log s) = t_conn s /\ NoDup (t_conn s) /\ (forall p, In p (t_conn s) -> D p) /\
  exists k, k <= n /\ k <= length (t_conn s) /\ joined (t_log s) = map ids (firstn k (t_conn s)) /\
    get_queue shared (t_q s) = map (fun p => IId (ids p)) (skipn k (t_conn s)) /\
    t_comms s = map (fun w => (outbox w, inbox w)) (joined (t_log s)) /\
    (k < n -> forall i, m_sent i (t_log s) = [] /\ m_got i (t_log s) = []).
Definition inv (s : tcp A) : Prop := team s /\ chan s.

Lemma inv_start : inv start.
Proof.
  split.
  - split; [reflexivity|]. split; [constructor|]. split; [intros p []|]. exists 0. cbn. repeat split; auto; lia.
  - split; [intros [|i] p [=]|]. split; [auto|]. split; auto.
Qed.

Lemma comm_of s i a b : team s -> nth_error (t_comms s) i = Some (a, b) -> exists p, nth_error (t_conn s) i = Some p /\ a = outbox (ids p) /\ b = inbox (ids p).
Proof.
  intros (T1 & T2 & TD & k & K1 & K2 & K3 & K4 & K5 & K6) E. rewrite K5, K3 in E. rewrite map_map, nth_error_map in E.
  destruct (nth_error (firstn k (t_conn s)) i) as [p|] eqn:Ep; [|discriminate]. injection E as <- <-. exists p. split; auto.
  rewrite <- (firstn_skipn k (t_conn s)). rewrite nth_error_app1; auto. apply nth_error_Some. congruence.
Qed.
Lemma comms_length s : team s -> length (t_comms s) = length (joined (t_log s)).
Proof. intros (_ & _ & _ & k & _ & _ & _ & _ & K5 & _). rewrite K5. apply map_length. Qed.

Lemma nth_same (l : list nat) i j p : NoDup l -> nth_error l i = Some p -> nth_error l j = Some p -> i = j.
Proof. intros ND E F. apply (proj1 (NoDup_nth_error l) ND); [apply nth_error_Some|]; congruence. Qed.

Lemma step_inv a s s' : inv s -> (forall p, a = Connect p -> D p) -> step ids n a s = Some s' -> inv s'.
Proof.
  intros [HT HC] HD E. pose proof HT as (T1 & T2 & TD & k & K1 & K2 & K3 & K4 & K5 & K6). pose proof HC as (C1 & C2 & C3 & C4).
  pose proof (comms_length _ HT) as LC. rewrite K3, map_length, firstn_length in LC.
  destruct a as [p| |i x|i|p x|p]; cbn [step] in E.
  - (* sign up *) destruct (memb p (t_conn s)) eqn:Em; [discriminate|]. injection E as <-.
    assert (Hp : ~ In p (t_conn s)) by (intros H; apply memb_In in H; congruence).
    specialize (HD p eq_refl).
    assert (Hid : ~ In (ids p) (map ids (t_conn s))).
    { intros H. apply in_map_iff in H as (q & Eq & Hq). apply Hp. rewrite <- (ids_inj q p (TD q Hq) HD Eq). exact Hq. }
    assert (G : forall w, get_queue (inbox w) (put shared (IId (ids p)) (t_q s)) = get_queue (inbox w) (t_q s) /\ get_queue (outbox w) (put shared (IId (ids p)) (t_q s)) = get_queue (outbox w) (t_q s)).
    { intros w. split; rewrite get_put, teqb_no, app_nil_r; auto; discriminate. }
    split.
    + split; cbn [t_log t_conn t_q t_comms]; [logs; now rewrite T1|]. split.
      { apply (Permutation_NoDup (Permutation_cons_append (t_conn s) p)). now constructor. }
      split; [intros q Hq; apply in_app_iff in Hq as [Hq|[<-|[]]]; auto|].
      exists k. rewrite app_length, firstn_app, skipn_app. replace (k - length (t_conn s)) with 0 by lia. cbn [firstn skipn length]. rewrite app_nil_r.
      split; auto. split; [lia|]. split; [logs; auto|]. split; [|split; [logs; auto|intros Hk j; logs; auto]].
      rewrite get_put, teqb_refl, K4, map_app. reflexivity.
    + split; [|split; [|split]]; cbn [t_log t_conn t_q].
      * intros j q Hj. destruct (G (ids q)) as [G1 G2]. rewrite G1, G2. logs. destruct (Nat.lt_ge_cases j (length (t_conn s))) as [Hl|Hl].
        -- rewrite nth_error_app1 in Hj by auto. apply (C1 j q Hj).
        -- rewrite nth_error_app2 in Hj by auto. destruct (j - length (t_conn s)) as [|z]; [|destruct z; discriminate]. injection Hj as <-.
           destruct (C2 j Hl) as [-> ->]. destruct (C3 p Hp) as [-> ->]. destruct (C4 (ids p) Hid) as [-> ->]. split; exists []; auto.
      * intros j Hj. rewrite app_length in Hj. logs. apply C2. lia.
      * intros q Hq. logs. apply C3. intros H. apply Hq, in_app_iff. auto.
      * intros w Hw. destruct (G w) as [-> ->]. apply C4. intros H. apply Hw. rewrite map_app. apply in_app_iff. auto.
  - (* the manager takes a sign-up *)
    destruct (Nat.ltb_spec (length (t_comms s)) n) as [Hl|]; [|discriminate]. destruct (take shared (t_q s)) as [[[w|x] q]|] eqn:Et; try discriminate. injection E as <-.
    destruct (get_take _ _ _ _ Et) as [G1 G2]. rewrite K4 in G1. destruct (skipn k (t_conn s)) as [|p r] eqn:Es; [discriminate|]. cbn in G1. injection G1 as <- G1.
    assert (Lk : k < length (t_conn s)). { destruct (Nat.lt_ge_cases k (length (t_conn s))); auto. rewrite skipn_all2 in Es by auto. discriminate. }
    assert (F1 : firstn (Datatypes.S k) (t_conn s) = firstn k (t_conn s) ++ [p] /\ skipn (Datatypes.S k) (t_conn s) = r).
    { pose proof (firstn_skipn k (t_conn s)) as X. rewrite Es in X. rewrite <- X at 1 3. assert (Lf : length (firstn k (t_conn s)) = k) by (rewrite firstn_length; lia).
      split; [rewrite firstn_app, Lf|rewrite skipn_app, Lf]; replace (Datatypes.S k - k) with 1 by lia; [rewrite firstn_all2 by lia; reflexivity|rewrite skipn_all2 by lia; reflexivity]. }
    destruct F1 as [F1 F2]. split.
    + split; cbn [t_log t_conn t_q t_comms]; [logs; auto|]. split; auto. split; auto. exists (Datatypes.S k). rewrite F1, F2.
      split; [lia|]. split; [lia|]. split; [logs; rewrite K3, map_app; reflexivity|]. split; [auto|]. split; [logs; rewrite K5, map_app; reflexivity|].
      intros Hk j. logs. apply K6. lia.
    + split; [|split; [|split]]; cbn [t_log t_conn t_q].
      * intros j r' Hj. rewrite (G2 (inbox (ids r')) (in_shared _)), (G2 (outbox (ids r')) (out_shared _)). logs. apply (C1 j r' Hj).
      * intros j Hj. logs. auto.
      * intros j Hj. logs. auto.
      * intros v Hv. rewrite (G2 (inbox v) (in_shared _)), (G2 (outbox v) (out_shared _)). auto.
  - (* the manager sends *)
    destruct (nth_error (t_comms s) i) as [[a b]|] eqn:Ei; [|discriminate]. destruct (Nat.eqb_spec (length (t_comms s)) n) as [Hn|]; [|discriminate]. injection E as <-.
    destruct (comm_of s i a b HT Ei) as (p & Hp & -> & ->). split.
    + split; cbn [t_log t_conn t_q t_comms]; [logs; auto|]. split; auto. split; auto. exists k. split; auto. split; auto. split; [logs; auto|].
      split; [rewrite get_put, teqb_no, app_nil_r; auto; discriminate|]. split; [logs; auto|]. intros Hk. lia.
    + split; [|split; [|split]]; cbn [t_log t_conn t_q].
      * intros j q Hj. destruct (C1 j q Hj) as [(u & U1 & U2) (v & V1 & V2)]. rewrite !get_put. rewrite (teqb_no (inbox (ids p)) (outbox (ids q))) by discriminate. logs. split; [|exists v; auto].
        destruct (Nat.eqb_spec i j) as [<-|Hij].
        -- rewrite Hp in Hj. injection Hj as <-. rewrite teqb_refl. exists (u ++ [x]). rewrite U1, U2, map_app, app_assoc. auto.
        -- rewrite teqb_no; [exists u; rewrite !app_nil_r; auto|]. intros H. apply inbox_inj in H. apply Hij. apply nth_error_In in Hj as Iq. apply nth_error_In in Hp as Ip.
           pose proof (ids_inj p q (TD p Ip) (TD q Iq) H). subst q. eapply nth_same; eauto.
      * intros j Hj. logs. destruct (C2 j Hj) as [-> ->]. destruct (Nat.eqb_spec i j) as [<-|]; auto. assert (i < length (t_conn s)) by (apply nth_error_Some; congruence). lia.
      * intros q Hq. logs. auto.
      * intros w Hw. rewrite !get_put. rewrite (teqb_no (inbox (ids p)) (outbox w)) by discriminate. rewrite teqb_no; [rewrite !app_nil_r; auto|].
        intros H. apply inbox_inj in H. apply Hw. rewrite <- H. apply in_map. eapply nth_error_In; eauto.
  - (* the manager receives *)
    destruct (nth_error (t_comms s) i) as [[a b]|] eqn:Ei; [|discriminate]. destruct (Nat.eqb_spec (length (t_comms s)) n) as [Hn|]; [|discriminate].
    destruct (comm_of s i a b HT Ei) as (p & Hp & -> & ->). destruct (take (outbox (ids p)) (t_q s)) as [[[w|x] q]|] eqn:Et; try discriminate. injection E as <-.
    destruct (get_take _ _ _ _ Et) as [G1 G2]. split.
    + split; cbn [t_log t_conn t_q t_comms]; [logs; auto|]. split; auto. split; auto. exists k. split; auto. split; auto. split; [logs; auto|].
      split; [rewrite G2; auto; discriminate|]. split; [logs; auto|]. intros Hk. lia.
    + split; [|split; [|split]]; cbn [t_log t_conn t_q].
      * intros j r Hj. destruct (C1 j r Hj) as [(u & U1 & U2) (v & V1 & V2)]. rewrite (G2 (inbox (ids r))) by discriminate. logs. split; [exists u; auto|].
        destruct (Nat.eqb_spec i j) as [<-|Hij].
        -- rewrite Hp in Hj. injection Hj as <-. rewrite G1 in V1. destruct v as [|y v]; [discriminate|]. injection V1 as <- V1. exists v. rewrite V2, <- app_assoc. auto.
        -- rewrite G2; [exists v; rewrite ?app_nil_r; auto|]. intros H. apply outbox_inj in H. apply Hij. apply nth_error_In in Hj as Iq. apply nth_error_In in Hp as Ip.
           pose proof (ids_inj p r (TD p Ip) (TD r Iq) (eq_sym H)). subst r. eapply nth_same; eauto.
      * intros j Hj. logs. destruct (C2 j Hj) as [-> ->]. destruct (Nat.eqb_spec i j) as [<-|]; auto. assert (i < length (t_conn s)) by (apply nth_error_Some; congruence). lia.
      * intros r Hr. logs. auto.
      * intros w Hw. rewrite (G2 (inbox w)) by discriminate. rewrite G2; auto. intros H. apply outbox_inj in H. apply Hw. rewrite H. apply in_map. eapply nth_error_In; eauto.
  - (* a worker sends *)
    destruct (memb p (t_conn s)) eqn:Em; [|discriminate]. injection E as <-. apply memb_In in Em. split.
    + split; cbn [t_log t_conn t_q t_comms]; [logs; auto|]. split; auto. split; auto. exists k. split; auto. split; auto. split; [logs; auto|].
      split; [rewrite get_put, teqb_no, app_nil_r; auto; discriminate|]. split; [logs; auto|]. intros Hk j. logs. auto.
    + split; [|split; [|split]]; cbn [t_log t_conn t_q].
      * intros j q Hj. destruct (C1 j q Hj) as [(u & U1 & U2) (v & V1 & V2)]. rewrite !get_put. rewrite (teqb_no (outbox (ids p)) (inbox (ids q))) by discriminate. logs. split; [exists u; auto|].
        destruct (Nat.eqb_spec p q) as [<-|Hpq].
        -- rewrite teqb_refl. exists (v ++ [x]). rewrite V1, V2, map_app, app_assoc. auto.
        -- rewrite teqb_no; [exists v; rewrite !app_nil_r; auto|]. intros H. apply outbox_inj in H. apply Hpq. apply nth_error_In in Hj as Iq. apply ids_inj; auto.
      * intros j Hj. logs. auto.
      * intros q Hq. logs. destruct (C3 q Hq) as [-> ->]. destruct (Nat.eqb_spec p q) as [<-|]; [contradiction|auto].
      * intros w Hw. rewrite !get_put. rewrite (teqb_no (outbox (ids p)) (inbox w)) by discriminate. rewrite teqb_no; [rewrite !app_nil_r; auto|].
        intros H. apply outbox_inj in H. apply Hw. rewrite <- H. now apply in_map.
  - (* a worker receives *)
    destruct (memb p (t_conn s)) eqn:Em; [|discriminate]. apply memb_In in Em. destruct (take (inbox (ids p)) (t_q s)) as [[[w|x] q]|] eqn:Et; try discriminate. injection E as <-.
    destruct (get_take _ _ _ _ Et) as [G1 G2]. split.
    + split; cbn [t_log t_conn t_q t_comms]; [logs; auto|]. split; auto. split; auto. exists k. split; auto. split; auto. split; [logs; auto|].
      split; [rewrite G2; auto; discriminate|]. split; [logs; auto|]. intros Hk j. logs. auto.
    + split; [|split; [|split]]; cbn [t_log t_conn t_q].
      * intros j r Hj. destruct (C1 j r Hj) as [(u & U1 & U2) (v & V1 & V2)]. rewrite (G2 (outbox (ids r))) by discriminate. logs. split; [|exists v; auto].
        destruct (Nat.eqb_spec p r) as [<-|Hpr].
        -- rewrite G1 in U1. destruct u as [|y u]; [discriminate|]. injection U1 as <- U1. exists u. rewrite U2, <- app_assoc. auto.
        -- rewrite G2; [exists u; rewrite ?app_nil_r; auto|]. intros H. apply inbox_inj in H. apply Hpr. apply nth_error_In in Hj as Iq. symmetry. apply ids_inj; auto.
      * intros j Hj. logs. auto.
      * intros r Hr. logs. destruct (C3 r Hr) as [-> ->]. destruct (Nat.eqb_spec p r) as [<-|]; [contradiction|auto].
      * intros w Hw. rewrite (G2 (outbox w)) by discriminate. rewrite G2; auto. intros H. apply inbox_inj in H. apply Hw. rewrite H. now apply in_map.
Qed.

Lemma play_inv acts : forall s s', inv s -> (forall p, In (Connect p) acts -> D p) -> play ids n acts s = Some s' -> inv s'.
Proof.
  induction acts as [|a acts IH]; intros s s' HI HD E; cbn in E; [now injection E as <-|]. destruct (step ids n a s) as [s1|] eqn:E1; [|discriminate].
  eapply IH; [|intros; apply HD; now right|exact E]. eapply step_inv; eauto. intros p ->. apply HD. now left.
Qed.
End Inv.

Lemma play_conn {A} ids n (acts : list (act A)) : forall s s', play ids n acts s = Some s' -> forall p, In p (t_conn s') <-> In p (t_conn s) \/ In (Connect p) acts.
Proof.
  induction acts as [|a acts IH]; intros s s' E p; cbn in E; [injection E as <-; cbn; tauto|]. destruct (step ids n a s) as [s1|] eqn:E1; [|discriminate].
  rewrite (IH s1 s' E p). assert (X : In p (t_conn s1) <-> In p (t_conn s) \/ a = Connect p).
  { destruct a as [q| |i x|i|q x|q]; cbn [step] in E1; repeat (let y := fresh in let F := fresh in match type of E1 with context [match ?z with _ => _ end] => destruct z eqn:F; try discriminate end);
    injection E1 as <-; cbn [t_conn]; rewrite ?in_app_iff; cbn [In]; split; intuition congruence. }
  rewrite X. cbn [In]. tauto.
Qed.
