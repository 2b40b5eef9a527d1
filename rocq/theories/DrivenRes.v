(** Resource sets over a whole run driven by an allocation function. *)
From Coq Require Import Permutation.
From Verif Require Import Base BaseLemmas HistoryModel HistorySpec RsetModel RsetSpec RsetProofs WorkModel SchedModel SchedSpec AllocModel AllocSpec AllocProofs AllocLoops AllocFacts AllocFast AllocPersis ManagerModel ManagerSpec ManagerProofs ManagerMsg ManagerRun ManagerInv ManagerFinal ManagerEnd ManagerRes DrivenModel DrivenSpec DrivenProofs DrivenInv DrivenPoints.

(** ** Holders after an assignment *)

Lemma holder_upd m i w j fr g n : i < length (rm_rsets m) ->
  holder (set_rsets m (upd (rm_rsets m) i (own (Some w))) fr g n) j = if j =? i then Some w else holder m j.
Proof.
  intros Hi. unfold holder. cbn. destruct (Nat.eqb_spec j i) as [->|Hne].
  - destruct (nth_error (rm_rsets m) i) as [r|] eqn:E; [|apply nth_error_None in E; lia]. now rewrite (upd_nth_same _ _ _ r).
  - now rewrite upd_nth_other by auto.
Qed.

Lemma assign_holder_iff team w m m' : assign_rsets team w m = (m', None) -> (forall i, In i team -> holder m i = None \/ holder m i = Some w) ->
  forall i v, holder m' i = Some v <-> v = w /\ In i team \/ holder m i = Some v.
Proof.
  unfold assign_rsets. destruct (forallb _ _) eqn:EF; [|discriminate]. intros [= <-] HT i v.
  rewrite forallb_forall in EF.
  assert (G : forall l m0, (forall i, In i l -> In i team) -> length (rm_rsets m0) = length (rm_rsets m) ->
    holder (fold_left (fun m p => assign_one w p m) (map (fun i => (i, match nth_error (rm_rsets m) i with Some r => rs_owner r | None => None end)) l) m0) i = Some v
    <-> v = w /\ In i l /\ holder m i = None \/ holder m0 i = Some v /\ ~ (In i l /\ holder m i = None)).
  { induction l as [|j l IH]; intros m0 Hl Hlen; cbn [map fold_left].
    - cbn. tauto.
    - change (match nth_error (rm_rsets m) j with Some r => rs_owner r | None => None end) with (holder m j).
      assert (Hj : j < length (rm_rsets m)) by (apply Nat.ltb_lt, EF, Hl; now left).
      assert (HL : length (rm_rsets (assign_one w (j, holder m j) m0)) = length (rm_rsets m)).
      { rewrite (same_layout_length _ _ (assign_one_layout w (j, holder m j) m0)). auto. }
      rewrite IH; auto; [|intros; apply Hl; now right].
      assert (HS : holder (assign_one w (j, holder m j) m0) i = if (j =? i) && match holder m j with None => true | _ => false end then Some w else holder m0 i).
      { cbn [assign_one]. destruct (holder m j) as [u|]; [now rewrite andb_false_r|]. rewrite andb_true_r.
        destruct (nth_error (rm_rsets m0) j) as [r|] eqn:E; [|apply nth_error_None in E; lia].
        rewrite (Nat.eqb_sym j i). destruct (rs_gpu r); rewrite holder_upd by lia; reflexivity. }
      rewrite HS. cbn [In]. destruct (Nat.eqb_spec j i) as [->|Hne]; cbn [andb].
      + destruct (holder m i) as [u|] eqn:Eh.
        * split; [intros [(? & ? & ?)|[? ?]]; [discriminate|right; split; auto; intros [_ ?]; discriminate]|].
          intros [(? & ? & ?)|[? ?]]; [discriminate|]. right. split; auto. intros [_ ?]; discriminate.
        * split.
          { intros [(? & ? & _)|[E _]]; left; [auto|]. injection E as <-. auto. }
          { intros [(-> & _)|[_ Hn]]; [|exfalso; auto]. destruct (in_dec Nat.eq_dec i l); [left; auto|right; split; auto; tauto]. }
      + intuition congruence. }
  rewrite G; auto. split.
  - intros [(-> & ? & _)|[? _]]; auto.
  - intros [[-> Hi]|Hh].
    + destruct (HT i Hi) as [E|E]; auto. right. split; auto. intros [_ E']. congruence.
    + right. split; auto. intros [_ E]. congruence.
Qed.

Lemma assign_index team w m m' e : assign_rsets team w m = (m', e) -> rm_index m' = rm_index m.
Proof.
  unfold assign_rsets. destruct (forallb _ _); intros [= <- _]; auto.
  match goal with |- context [fold_left _ ?l m] => generalize l end. intros ps. revert m.
  induction ps as [|p ps IH]; intros m; cbn [fold_left]; auto. rewrite IH. destruct p as [i [v|]]; cbn; auto.
  destruct (nth_error (rm_rsets m) i) as [r|]; auto. destruct (rs_gpu r); auto.
Qed.

(** Each worker has its own default set. *)
Lemma index_loop_ge ws : forall x num zero a i, nth_error (index_loop ws x num zero) a = Some (Some i) -> x <= i.
Proof.
  induction ws as [|w ws IH]; intros x num zero a i; cbn [index_loop].
  - destruct a; discriminate.
  - destruct (memb w zero).
    + destruct a as [|a]; cbn; [discriminate|apply IH].
    + destruct a as [|a]; cbn; [destruct (num <=? x); [discriminate|intros [= <-]; lia]|]. intros E. apply IH in E. lia.
Qed.
Lemma index_loop_inj ws : forall x num zero a b i, nth_error (index_loop ws x num zero) a = Some (Some i) -> nth_error (index_loop ws x num zero) b = Some (Some i) -> a = b.
Proof.
  induction ws as [|w ws IH]; intros x num zero a b i; cbn [index_loop].
  - destruct a; discriminate.
  - destruct (memb w zero).
    + destruct a as [|a], b as [|b]; cbn; try discriminate. intros A B. f_equal. eapply IH; eauto.
    + destruct a as [|a], b as [|b]; cbn; auto.
      * destruct (num <=? x); [discriminate|]. intros [= <-] B. apply index_loop_ge in B. lia.
      * intros A. destruct (num <=? x); [discriminate|]. intros [= <-]. apply index_loop_ge in A. lia.
      * intros A B. f_equal. eapply IH; eauto.
Qed.

Lemma rstep_index o m m' e : rstep o m = (m', e) -> rm_index m' = rm_index m.
Proof. destruct o; cbn; try apply assign_index; intros [= <- _]; reflexivity. Qed.
Lemma rrun_index os : forall m m' e, rrun os m = (m', e) -> rm_index m' = rm_index m.
Proof.
  unfold rrun. induction os as [|o os IH]; intros m m' e; cbn [foldx]; [intros [= <- _]; auto|].
  destruct (rstep o m) as [m1 [e1|]] eqn:E; cbn [bindx]; apply rstep_index in E; [intros [= <- _]; auto|]. intros H. apply IH in H. congruence.
Qed.
Lemma default_inj rm v w i : reachable_table rm -> v <> 0 -> w <> 0 -> default_rset rm v = Ok (Some i) -> default_rset rm w = Ok (Some i) -> v = w.
Proof.
  intros (nw & p & m0 & os & _ & _ & H3 & _ & H5) Hv Hw. unfold default_rset. rewrite (rrun_index _ _ _ _ H5).
  assert (E : rm_index m0 = get_index_list nw (total_rsets nw p) (p_zero p)).
  { revert H3. unfold rman_init. intros H. repeat (match type of H with bindr ?X _ = _ => destruct X; [cbn in H|discriminate] end). injection H as <-. reflexivity. }
  rewrite E. unfold get_index_list. destruct v as [|v], w as [|w]; try congruence.
  destruct (nth_error _ v) as [x|] eqn:E1; [|discriminate]. intros [= ->]. destruct (nth_error _ w) as [y|] eqn:E2; [|discriminate]. intros [= ->].
  f_equal. eapply index_loop_inj; eauto.
Qed.

(** ** The traffic *)

Lemma held_app w a : forall acc b, held_from w acc (a ++ b) = held_from w (held_from w acc a) b.
Proof.
  induction a as [|e a IH]; intros acc b; auto. cbn [app held_from].
  destruct e as [v o|v i]; [destruct o|destruct i]; apply IH.
Qed.
(** events that move no resource sets *)
Definition still (e : event) : Prop := match e with Sent _ (OWork _) => False | Got _ (IData _) => False | _ => True end.
Lemma held_still w l : Forall still l -> forall acc, held_from w acc l = acc.
Proof.
  induction 1 as [|e l He Hl IH]; intros acc; auto. cbn [held_from].
  destruct e as [v o|v i]; [destruct o|destruct i]; cbn in He; try contradiction; apply IH.
Qed.
Lemma held_snoc_still w l q : Forall still q -> held_sets w (l ++ q) = held_sets w l.
Proof. intros H. unfold held_sets. now rewrite held_app, held_still. Qed.

Lemma shared_nil : never_shared [].
Proof. intros p q E v w i _ H. destruct p; [destruct H|discriminate]. Qed.
Lemma shared_snoc l e : never_shared l -> (forall v w i, v <> w -> In i (held_sets v (l ++ [e])) -> ~ In i (held_sets w (l ++ [e]))) -> never_shared (l ++ [e]).
Proof.
  intros Hl He p q E. destruct q as [|x q] using rev_ind; [rewrite app_nil_r in E; subst p; exact He|].
  rewrite app_assoc in E. apply app_inj_tail in E as [E _]. exact (Hl p q E).
Qed.
Lemma shared_app l q : never_shared l -> Forall still q -> never_shared (l ++ q).
Proof.
  intros Hl. induction q as [|x q IH] using rev_ind; intros Hq; [now rewrite app_nil_r|].
  apply Forall_app in Hq as [Hq Hx]. rewrite app_assoc. apply shared_snoc; [now apply IH|].
  intros v w i Hn. rewrite !held_snoc_still by auto. exact (Hl l [] (eq_sym (app_nil_r _)) v w i Hn).
Qed.
Lemma shared_now l v w i : never_shared l -> v <> w -> In i (held_sets v l) -> ~ In i (held_sets w l).
Proof. intros H. exact (H l [] (eq_sym (app_nil_r _)) v w i). Qed.

Definition gives_back (a : answer) : bool := fin_status a || negb (n_persistent a).
Lemma held_got w l v a : held_sets w (l ++ [Got v (IData a)]) = if (v =? w) && gives_back a then [] else held_sets w l.
Proof. unfold held_sets. rewrite held_app. cbn [held_from]. reflexivity. Qed.
Lemma held_sent w l v k : held_sets w (l ++ [Sent v (OWork k)]) = if v =? w then held_sets w l ++ team_of k else held_sets w l.
Proof. unfold held_sets. rewrite held_app. cbn [held_from]. reflexivity. Qed.

Lemma shared_got l v a : never_shared l -> never_shared (l ++ [Got v (IData a)]).
Proof.
  intros Hl. apply shared_snoc; auto. intros x y i Hn. rewrite !held_got.
  destruct ((v =? x) && _); [intros []|]. destruct ((v =? y) && _); [intros _ []|]. now apply shared_now.
Qed.
Lemma shared_sent l w k : never_shared l -> (forall i v, In i (team_of k) -> v <> w -> ~ In i (held_sets v l)) -> never_shared (l ++ [Sent w (OWork k)]).
Proof.
  intros Hl Ht. apply shared_snoc; auto. intros x y i Hn. rewrite !held_sent. intros H1 H2.
  assert (G1 : In i (held_sets x l) \/ x = w /\ In i (team_of k)).
  { destruct (Nat.eqb_spec w x) as [<-|_]; [|auto]. apply in_app_iff in H1 as [H1|H1]; auto. }
  assert (G2 : In i (held_sets y l) \/ y = w /\ In i (team_of k)).
  { destruct (Nat.eqb_spec w y) as [<-|_]; [|auto]. apply in_app_iff in H2 as [H2|H2]; auto. }
  destruct G1 as [G1|[-> G1]], G2 as [G2|[-> G2]]; auto.
  - exact (shared_now l x y i Hl Hn G1 G2).
  - eapply Ht; eauto.
  - eapply Ht; [exact G1| |exact G2]. auto.
Qed.

(** ** What an allocation function must do *)

(** With resource management every unit names its sets, which are free and named
    once; without, the manager fills in each worker's own set. *)
Definition sets_ok (b : bool) (m : mgr) (wk : wdict) : Prop :=
  (forall w k, In (w, k) wk -> In w (map w_id (m_W m))) /\
  match m_res m with
  | None => forall w k, In (w, k) wk -> team_of k = []
  | Some rm => if b then (forall w k, In (w, k) wk -> k_team k <> None) /\ NoDup (sets_given wk) /\ forall i, In i (sets_given wk) -> holder rm i = None
               else forall w k, In (w, k) wk -> k_team k = None
  end.

Section Res.
Variables (c : mcfg) (b : bool).

Definition Lres (m : mgr) : Prop := table_ok c m /\ never_shared (m_log m).
Definition own_sets (m : mgr) : Prop :=
  forall rm i v, m_res m = Some rm -> holder rm i = Some v -> v <> 0 /\ default_rset rm v = Ok (Some i).
Definition Jres (m : mgr) : Prop :=
  Lres m /\ reach m /\ table_tells m /\ (b = false -> ~ In 0 (map w_id (m_W m)) /\ own_sets m).

Lemma Jres_still m m' l : Jres m -> table_ok c m' -> map w_id (m_W m') = map w_id (m_W m) -> m_res m' = m_res m ->
  m_log m' = m_log m ++ l -> Forall still l -> Jres m'.
Proof.
  intros ((_ & H1) & H2 & H3 & H4) T Hid Er El Hl. split; [split; auto; rewrite El; now apply shared_app|].
  unfold reach, table_tells, own_sets. rewrite Er, El, Hid. split; auto. split; auto.
  intros rm Hr i w. rewrite held_snoc_still by auto. now apply H3.
Qed.
Lemma Lres_still m m' l : Lres m -> table_ok c m' -> m_log m' = m_log m ++ l -> Forall still l -> Lres m'.
Proof. intros (_ & H1) T El Hl. split; auto. rewrite El. now apply shared_app. Qed.

Lemma kill_still P m m' : ext (fun e => exists w, P w /\ e = Sent w (OStop SIG_KILL)) m m' -> exists l, m_log m' = m_log m ++ l /\ Forall still l.
Proof. intros (l & E & F). exists l. split; auto. eapply Forall_impl; [|exact F]. intros e (w & _ & ->). exact I. Qed.
Lemma finishes_still ws : Forall still (finishes ws).
Proof. unfold finishes. apply Forall_forall. intros e H. apply in_map_iff in H as (w & <- & _). exact I. Qed.

Lemma Jres_kill m m' e : Jres m -> kill_cancelled c m = (m', e) -> Lres m' /\ (e = None -> Jres m').
Proof.
  intros HJ E. apply kill_cancelled_spec in E as ((E1 & E2 & _) & E3 & _). apply kill_still in E3 as (l & El & Hl).
  assert (T : table_ok c m') by (unfold table_ok; rewrite E1; apply HJ).
  assert (J' : Jres m') by (eapply Jres_still; eauto; now rewrite E1). split; [apply J'|auto].
Qed.

Lemma Lres_poll w i t m m' e : Lres m -> poll c (w, i, t) m = (m', e) -> Lres m'.
Proof.
  intros HJ E. assert (T0 : table_ok c m) by apply HJ. pose proof (poll_table _ _ _ _ _ T0 E) as [T _].
  apply poll_spec in E as [(_ & -> & _)|(r0 & _ & _ & _ & _ & _ & E & _)]; auto.
  assert (G : Lres (logev m (Got w i))).
  { destruct i as [a| | |]; [split; [exact T0|apply shared_got, HJ]|..];
    (eapply (Lres_still m _ _ HJ); [exact T0|reflexivity|repeat constructor]). }
  destruct E as [(E & _)|(_ & _ & _ & E & _)].
  - split; auto. rewrite E. apply G.
  - split; auto. rewrite E. change (Got w i :: finishes (map w_id (m_W m))) with ([Got w i] ++ finishes (map w_id (m_W m))).
    rewrite app_assoc. apply shared_app; [apply G|apply finishes_still].
Qed.

Lemma Jres_poll w i t m m' e : Jres m -> poll c (w, i, t) m = (m', e) -> Lres m' /\ (e = None -> Jres m').
Proof.
  intros HJ E. split; [eapply Lres_poll; eauto; apply HJ|]. intros ->. assert (T0 : table_ok c m) by apply HJ.
  pose proof (poll_reach _ _ _ _ _ _ T0 (proj1 (proj2 HJ)) E) as R. pose proof (Lres_poll _ _ _ _ _ _ (proj1 HJ) E) as L.
  pose proof (poll_table _ _ _ _ _ T0 E) as [T Hid].
  apply poll_spec in E as [(_ & -> & _)|(r0 & _ & _ & _ & _ & _ & E1 & E2)]; auto. specialize (E2 eq_refl).
  destruct E1 as [(El & _)|(E1 & _)]; [|discriminate].
  destruct i as [a| | |]; [|destruct E2 as (_ & _ & _ & Er); eapply Jres_still; eauto; repeat constructor|subst m'; eapply Jres_still; eauto; repeat constructor..].
  destruct E2 as (_ & _ & Er & _). change (fin_status a || negb (n_persistent a)) with (gives_back a) in Er.
  destruct HJ as (_ & _ & H3 & H4). split; auto. split; auto. split.
  - intros rm Hr i v. rewrite El, held_got. destruct (gives_back a); [|rewrite andb_false_r; apply H3; congruence].
    rewrite andb_true_r. destruct (m_res m) as [rm0|] eqn:Em; [|rewrite Er in Hr; discriminate]. rewrite Er in Hr. injection Hr as <-.
    rewrite free_holder. pose proof (fun v => H3 rm0 Em i v) as H. destruct (Nat.eqb_spec w v) as [->|Hne].
    + split; [|intros []]. destruct (holder rm0 i) as [x|]; [|discriminate]. destruct (Nat.eqb_spec x v); congruence.
    + rewrite <- H. destruct (holder rm0 i) as [x|]; [|tauto]. destruct (Nat.eqb_spec x w) as [->|]; [|tauto]. split; congruence.
  - intros Hb. destruct (H4 Hb) as [H5 H6]. split; [now rewrite Hid|]. intros rm i v Hr Hh.
    destruct (gives_back a); [|apply (H6 rm); congruence].
    destruct (m_res m) as [rm0|] eqn:Em; [|rewrite Er in Hr; discriminate]. rewrite Er in Hr. injection Hr as <-.
    rewrite free_holder in Hh. destruct (holder rm0 i) as [x|] eqn:Ex; [|discriminate]. destruct (x =? w); [discriminate|]. injection Hh as <-.
    exact (H6 rm0 i x Em Ex).
Qed.

(** the order sent, also when something fails afterwards *)
Lemma give_sent t w k m m' e : table_ok c m -> give_order c t w k m = (m', e) ->
  m_log m' = m_log m \/ exists r0 k' l, wget (c_gom c) (m_W m) w = Some r0 /\ order_msgs (w_id r0) k' l /\ m_log m' = m_log m ++ l /\
    match m_res m with Some rm => set_resources w k rm = Ok k' | None => k' = k end.
Proof.
  intros T. unfold give_order. destruct (check_work_order c false w k m) as [e0|] eqn:EC; [intros [= <- _]; auto|].
  apply check_spec in EC as (r0 & G & _).
  assert (H : forall m1 e1, send_work_order c t w k m = (m1, e1) -> table_ok c m1 /\ (exists r1, wget (c_gom c) (m_W m1) w = Some r1) /\
    (m_log m1 = m_log m \/ exists k' l, order_msgs (w_id r0) k' l /\ m_log m1 = m_log m ++ l /\
       match m_res m with Some rm => set_resources w k rm = Ok k' | None => k' = k end)).
  { unfold send_work_order. intros m1 e1. destruct (m_res m) as [rm|] eqn:Er.
    - destruct (set_resources w k rm) as [k'|e2] eqn:SR; [|intros [= <- _]; eauto].
      destruct (assign_rsets _ w rm) as [rm' [e2|]]; [intros [= <- _]; eauto|].
      intros H. eapply (send_order_msgs_spec c t w k' (set_res m (Some rm'))) in H; [|exact T|exact G].
      destruct H as (A1 & _ & _ & _ & _ & _ & (l & A7 & A8) & _). cbn [m_log set_res] in A7.
      split; [eapply touch_table; [exact A1|exact T]|]. split; [eexists; apply A1|]. right. exists k', l. auto.
    - intros H. eapply (send_order_msgs_spec c t w k m) in H; [|exact T|exact G].
      destruct H as (A1 & _ & _ & _ & _ & _ & (l & A7 & A8) & _).
      split; [eapply touch_table; [exact A1|exact T]|]. split; [eexists; apply A1|]. right. exists k, l. auto. }
  destruct (send_work_order c t w k m) as [m1 e1] eqn:ES. destruct (H m1 e1 eq_refl) as (T1 & (r1 & G1) & H1). clear H.
  assert (H2 : m_log m' = m_log m1 -> m_log m' = m_log m \/ exists r0 k' l, wget (c_gom c) (m_W m) w = Some r0 /\ order_msgs (w_id r0) k' l /\ m_log m' = m_log m ++ l /\
    match m_res m with Some rm => set_resources w k rm = Ok k' | None => k' = k end).
  { intros ->. destruct H1 as [->|(k' & l & O & -> & K)]; [auto|]. right. exists r0, k', l. auto. }
  destruct e1 as [e1|]; cbn [bindx].
  - intros [= <- <-]. auto.
  - intros EU. apply H2. eapply update_alloc_spec in EU; eauto. apply EU.
Qed.

(** what is sent is free, or held by the worker itself *)
Lemma team_free w k wk m rm k' : reach m -> (b = false -> ~ In 0 (map w_id (m_W m)) /\ own_sets m) -> sets_ok b m ((w, k) :: wk) -> m_res m = Some rm ->
  set_resources w k rm = Ok k' ->
  NoDup (team_of k') /\ (forall i, In i (team_of k') -> holder rm i = None \/ holder rm i = Some w) /\
  (b = false -> w <> 0 /\ forall i, In i (team_of k') -> default_rset rm w = Ok (Some i)) /\
  (b = true -> team_of k' = team_of k).
Proof.
  intros R Ho (S1 & S2) Er. rewrite Er in S2. unfold set_resources. destruct b.
  - destruct S2 as (A1 & A2 & A3). specialize (A1 w k (or_introl eq_refl)). unfold team_of. destruct (k_team k) as [t|] eqn:Et; [|congruence].
    intros [= <-]. rewrite Et. unfold sets_given in A2, A3. cbn in A2, A3. rewrite Et in A2, A3. apply NoDup_app_iff in A2 as (N & _). split; auto.
    split; [|split; [discriminate|auto]]. intros i Hi. left. apply A3, in_app_iff. auto.
  - rewrite (S2 w k (or_introl eq_refl)). destruct (Ho eq_refl) as [H0 Hown].
    assert (Hw : w <> 0) by (intros ->; apply H0, (S1 0 k); now left).
    destruct (default_rset rm w) as [d|] eqn:Ed; [|discriminate]. cbn. intros [= <-]. unfold team_of. cbn [k_team with_team].
    split; [destruct d; repeat constructor; intros []|]. split; [|split; [|discriminate]].
    + intros i Hi. destruct d as [j|]; [destruct Hi as [<-|[]]|destruct Hi]. destruct (holder rm j) as [v|] eqn:Eh; auto. right. f_equal.
      destruct (Hown rm j v Er Eh) as [Hv Hd]. unfold reach in R. rewrite Er in R. exact (default_inj rm v w j R Hv Hw Hd Ed).
    + intros _. split; auto. intros i Hi. destruct d as [j|]; [destruct Hi as [<-|[]]; auto|destruct Hi].
Qed.

Lemma Lres_order t w k wk m m' e : Jres m -> sets_ok b m ((w, k) :: wk) -> give_order c t w k m = (m', e) -> Lres m'.
Proof.
  intros HJ HS E. assert (T : table_ok c m) by apply HJ. pose proof E as E0. apply give_order_spec in E0 as (_ & _ & _ & T1 & _); auto.
  split; auto. apply give_sent in E as [E|(r0 & k' & l & G & Ho & El & Hk)]; auto; [rewrite E; apply HJ|].
  assert (Hw : w_id r0 = w) by (refine (wget_same c m w r0 T _ G); apply (proj1 HS w k); now left). rewrite Hw in Ho.
  destruct HJ as ((_ & H1) & H2 & H3 & H4).
  assert (N : never_shared (m_log m ++ [Sent w (OWork k')])).
  { apply shared_sent; auto. intros i v Hi Hv Hh. destruct (m_res m) as [rm|] eqn:Er.
    - apply (H3 rm Er) in Hh. destruct (team_free w k wk m rm k' H2 H4 HS Er Hk) as (_ & F & _).
      destruct (F i Hi) as [F1|F1]; congruence.
    - subst k'. destruct HS as (_ & S2). rewrite Er in S2. rewrite (S2 w k (or_introl eq_refl)) in Hi. destruct Hi. }
  rewrite El. destruct Ho as [->|(d & ->)]; auto.
  change [Sent w (OWork k'); Sent w (ORows (k_fields k') d)] with ([Sent w (OWork k')] ++ [Sent w (ORows (k_fields k') d)]).
  rewrite app_assoc. apply shared_app; auto. repeat constructor.
Qed.

Lemma Jres_order t w k wk m m' : Jres m -> sets_ok b m ((w, k) :: wk) -> give_order c t w k m = (m', None) -> Jres m' /\ sets_ok b m' wk.
Proof.
  intros HJ HS E. pose proof (Lres_order _ _ _ _ _ _ _ HJ HS E) as HL. assert (T : table_ok c m) by apply HJ.
  pose proof (give_res _ _ _ _ _ _ T E) as ER.
  pose proof E as E1. apply give_log in E1 as (r0 & _ & _ & G & _ & Tc & _ & _); auto.
  assert (Hw : w_id r0 = w) by (refine (wget_same c m w r0 T _ G); apply (proj1 HS w k); now left).
  assert (Hid : map w_id (m_W m') = map w_id (m_W m)) by apply Tc.
  pose proof (give_sent _ _ _ _ _ _ T E) as ES.
  destruct HJ as (_ & H2 & H3 & H4).
  destruct (m_res m) as [rm|] eqn:Er.
  - destruct ER as (rm' & k' & team & R1 & R2 & R3 & R4).
    destruct (team_free w k wk m rm k' H2 H4 HS Er R1) as (F1 & F2 & F3 & F4).
    assert (Et : team_of k' = team) by (unfold team_of; now rewrite R2). rewrite Et in *.
    pose proof (assign_holder_iff _ _ _ _ R3 F2) as HH.
    assert (EL : forall v, held_sets v (m_log m') = if w =? v then held_sets v (m_log m) ++ team else held_sets v (m_log m)).
    { destruct ES as [ES|(r1 & k1 & l & G1 & Ho & El & Hk)].
      - exfalso. apply give_log in E as (r2 & k2 & l & _ & _ & _ & _ & _ & _ & El & Ho & _); auto.
        rewrite ES in El. apply (f_equal (@length event)) in El. rewrite app_length in El. destruct Ho as [->|(d & ->)]; cbn in El; lia.
      - rewrite R1 in Hk. injection Hk as <-. assert (r1 = r0) by congruence. subst r1. rewrite Hw in Ho. intros v. rewrite El. rewrite <- Et.
        destruct Ho as [->|(d & ->)]; [apply held_sent|].
        change [Sent w (OWork k'); Sent w (ORows (k_fields k') d)] with ([Sent w (OWork k')] ++ [Sent w (ORows (k_fields k') d)]).
        rewrite app_assoc, held_snoc_still by repeat constructor. apply held_sent. }
    split.
    + split; auto. split; [|split].
      * unfold reach in *. rewrite Er in H2. rewrite R4. apply (reachable_step rm (RAssign team w)); auto.
      * intros rm1 Hr i v. rewrite R4 in Hr. injection Hr as <-. rewrite HH, EL. pose proof (H3 rm Er i v) as H.
        destruct (Nat.eqb_spec w v) as [->|Hne]; [rewrite in_app_iff|]; intuition congruence.
      * intros Hb. destruct (H4 Hb) as [H5 H6]. split; [now rewrite Hid|]. intros rm1 i v Hr Hh. rewrite R4 in Hr. injection Hr as <-.
        assert (ED : forall u, default_rset rm' u = default_rset rm u) by (intros u; unfold default_rset; now rewrite (assign_index _ _ _ _ _ R3)).
        rewrite ED. apply HH in Hh as [[-> Hi]|Hh]; [|now apply (H6 rm)]. destruct (F3 Hb) as [F5 F6]. auto.
    + destruct HS as (S1 & S2). rewrite Er in S2. unfold sets_ok. rewrite Hid, R4. split; [intros w1 k1 Hin; apply (S1 w1 k1); now right|].
      destruct b eqn:Eb; [|intros w1 k1 Hin; apply (S2 w1 k1); now right]. destruct S2 as (S2 & S3 & S4).
      unfold sets_given in *. cbn [map concat snd] in S3, S4. apply NoDup_app_iff in S3 as (S3 & S5 & S6).
      split; [intros w1 k1 Hin; apply (S2 w1 k1); now right|]. split; auto. intros i Hi.
      assert (Hn : holder rm i = None) by (apply S4, in_app_iff; auto).
      destruct (holder rm' i) as [v|] eqn:Eh; auto. apply HH in Eh as [[-> Hx]|Hx]; [|congruence]. exfalso.
      assert (Ht : team = team_of k) by auto. rewrite Ht in Hx. exact (S6 i Hx Hi).
  - split.
    + split; auto. unfold reach, table_tells, own_sets. rewrite ER, Hid. split; auto. split; [discriminate|]. intros Hb. destruct (H4 Hb). split; auto. discriminate.
    + destruct HS as (S1 & S2). rewrite Er in S2. unfold sets_ok. rewrite Hid, ER. split; [intros w1 k1 Hin; apply (S1 w1 k1); now right|].
      intros w1 k1 Hin; apply (S2 w1 k1); now right.
Qed.

Lemma Jres_orders v wk : forall m m' e, Jres m -> sets_ok b m wk -> give_orders c (stamped v wk) m = (m', e) -> Lres m' /\ (e = None -> Jres m').
Proof.
  induction wk as [|[w k] wk IH]; intros m m' e HJ HS; cbn [stamped map give_orders].
  { intros [= <- <-]. split; auto. apply HJ. }
  destruct (sim_max_given c m); [intros [= <- <-]; split; auto; apply HJ|]. cbn [fst].
  destruct (give_order c (v_times v w) w k m) as [m1 [e1|]] eqn:E; cbn [bindx].
  - intros [= <- <-]. split; [|discriminate]. eapply Lres_order; eauto.
  - destruct (Jres_order _ _ _ _ _ _ HJ HS E) as [HJ1 HS1]. apply IH; auto.
Qed.

(** the final phase, when the generators are not sent a last batch *)
Lemma Lres_final t rounds m m' f : c_final_send c = false -> Lres m -> final_phase c t rounds m = (m', f) -> Lres m'.
Proof.
  intros HF HJ E. eapply (final_ind c Lres Lres (fun _ _ => True)) in E as [E _]; eauto.
  - intros a Ha. apply Ha.
  - intros w i t0 a a' e Ha _ E0. assert (Lres a'); [|auto]. eapply Lres_poll; eauto.
  - intros t0 w a a' e Ha Hp E0. assert (Lres a'); [|auto].
    pose proof E0 as E1. apply stop_persistent_spec in E1 as (T & _); [|apply Ha].
    assert (G : exists l, m_log a' = m_log a ++ l /\ Forall still l).
    { revert E0. unfold stop_persistent. rewrite HF. unfold send. destruct (wget _ _ w) as [r|]; cbn [bindx]; intros [= <- _].
      - unfold on_worker. destruct (wpos _ _ _); cbn; (eexists; split; [reflexivity|]); repeat constructor.
      - exists []. rewrite app_nil_r. auto. }
    destruct G as (l & El & Hl). eapply Lres_still; eauto.
  - intros a Ha. pose proof (kill_workers_spec a) as (E1 & _ & E2 & _). eapply Lres_still; eauto; [unfold table_ok; rewrite E2; apply Ha|apply finishes_still].
  - red. auto.
Qed.
End Res.
