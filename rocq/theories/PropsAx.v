(** C83: the multi-task generator sends its batches in turn and gives Ax each value with
    its point. *)
From Coq Require Import Ascii String QArith Permutation.
From Verif Require Import Base BaseLemmas TextModel TextProofs EnvModel AxModel.
Local Open Scope nat_scope.
Local Notation length := List.length.

(** ** Specification *)

(** the task and the size of the k-th batch *)
Definition wanted (s : specs) (k : nat) : bool * nat :=
  match k with
  | 0 => (true, n_init_hifi s)
  | 1 => (false, n_init_lofi s)
  | _ => if Nat.even k then (false, n_opt_lofi s) else (true, n_opt_hifi s)
  end.
(** parameters x0, ..., x(d-1), in any order *)
Definition well_formed (a : arm) : Prop := forall j, j < length a -> exists v, get (T "x" ++ dec j) a = Ok v.
(** positions in which the values do not decrease *)
Definition is_argsort (f : list Q) (p : list nat) : Prop :=
  Permutation p (seq 0 (length f)) /\
  forall i j a b, i < j -> nth_error p i = Some a -> nth_error p j = Some b -> (nth a f 0 <= nth b f 0)%Q.
(** Ax gives as many points as asked for, and a prediction for each *)
Definition well (A : ax) : Prop :=
  (forall n, length (sobol A n) = n /\ Forall well_formed (sobol A n)) /\
  (forall ts n, length (gen A ts n) = n /\ Forall well_formed (gen A ts n)) /\
  (forall ts gr, length (predict A ts gr) = length gr) /\
  (forall f, is_argsort f (argsort A f)).
(** the manager returns a value for each point of the batch, except when it stops *)
Definition answers (s : specs) (ys : list reply) : Prop :=
  forall k y, nth_error ys k = Some y -> match y_f y with Some f => length f = snd (wanted s k) | None => y_stop y = true end.
Definition stops (ys : list reply) : Prop := exists y, In y ys /\ y_stop y = true.
(** the row of an arm *)
Definition row_of (hifi : bool) (a : arm) (r : row) : Prop :=
  o_hifi r = hifi /\ o_sets r = 1 /\ length (o_x r) = length a /\ forall j, j < length a -> exists v, nth_error (o_x r) j = Some v /\ get (T "x" ++ dec j) a = Ok v.

(** ** Lemmas *)

Lemma mapr_all {A B} (f : A -> res B) l : (forall x, In x l -> exists y, f x = Ok y) -> exists ys, mapr f l = Ok ys /\ length ys = length l /\ forall i x, nth_error l i = Some x -> exists y, nth_error ys i = Some y /\ f x = Ok y.
Proof.
  induction l as [|x l IH]; intros H; [exists []; split; [reflexivity|]; split; auto; intros [|i] y; discriminate|]. destruct (H x (or_introl eq_refl)) as [y E]. destruct (IH (fun z Hz => H z (or_intror Hz))) as (ys & E2 & L & N).
  exists (y :: ys). cbn [mapr]. rewrite E. cbn [bindr]. rewrite E2. split; [reflexivity|]. split; [cbn; congruence|]. intros [|i] z Hz; cbn in *; [injection Hz as <-; eauto|eauto].
Qed.
Lemma vector_ok a : well_formed a -> exists x, vector a = Ok x /\ length x = length a /\ forall j, j < length a -> exists v, nth_error x j = Some v /\ get (T "x" ++ dec j) a = Ok v.
Proof.
  intros W. unfold vector. destruct (mapr_all (fun j => get (T "x" ++ dec j) a) (seq 0 (length a))) as (x & E & L & N); [intros j Hj; apply in_seq in Hj; apply W; lia|].
  exists x. split; auto. rewrite seq_length in L. split; auto. intros j Hj. apply N. rewrite nth_error_nth' with (d := 0) by now rewrite seq_length. rewrite seq_nth by exact Hj. reflexivity.
Qed.
Lemma batch_ok h arms : Forall well_formed arms -> exists b, batch h arms = Ok b /\ length b = length arms /\ forall i a, nth_error arms i = Some a -> exists r, nth_error b i = Some r /\ row_of h a r.
Proof.
  intros F. rewrite Forall_forall in F. unfold batch. destruct (mapr_all (fun a => bindr (vector a) (fun x => Ok (mkRow x 1 h))) arms) as (b & E & L & N).
  - intros a Ha. destruct (vector_ok a (F a Ha)) as (x & -> & _). cbn. eauto.
  - exists b. split; auto. split; auto. intros i a Ha. destruct (N i a Ha) as (r & Hr & Er). exists r. split; auto. destruct (vector_ok a (F a (nth_error_In _ _ Ha))) as (x & E' & L' & N'). rewrite E' in Er. cbn in Er. injection Er as <-. repeat split; auto.
Qed.
Lemma values_ok arms y : match y_f y with Some f => length f = length arms | None => True end -> values arms y = Ok (match y_f y with Some f => map Some f | None => repeat None (length arms) end).
Proof.
  intros H. unfold values. destruct (y_f y) as [f|].
  - rewrite <- H. clear H. assert (G : forall g k, mapr (fun i => match nth_error (g ++ f) i with Some v => Ok (Some v) | None => Err EIndex end) (seq (length g) k) = Ok (map Some (firstn k f)) \/ length f < k).
    { intros g k. revert f g. induction k as [|k IH]; intros f g; [left; reflexivity|]. destruct f as [|v f]; [right; cbn; lia|]. cbn [seq mapr]. rewrite nth_error_app2 by lia. rewrite Nat.sub_diag. cbn [nth_error bindr].
      destruct (IH f (g ++ [v])) as [E|E]; [left|right; cbn; lia]. rewrite <- app_assoc in E. cbn [app] in E. rewrite app_length in E. cbn in E. rewrite Nat.add_1_r in E. rewrite E. reflexivity. }
    destruct (G [] (length f)) as [E|E]; [|lia]. cbn in E. now rewrite firstn_all in E.
  - clear H. generalize 0 as k. induction (length arms) as [|n IH]; intros k; auto. cbn [seq mapr bindr]. now rewrite IH.
Qed.
Lemma NoDup_left {X} (l m : list X) : NoDup (l ++ m) -> NoDup l.
Proof. induction l as [|x l IH]; cbn; intros H; constructor; inversion H; subst; auto. intros I. apply H2. apply in_or_app. now left. Qed.
Lemma max_ok A n pred arms : well A -> length pred = length arms -> n <= length arms ->
  exists idx new, max_utility (argsort A) n pred arms = Ok new /\ length idx = n /\ NoDup idx /\ length new = n /\ (forall i q, nth_error idx i = Some q -> q < length arms /\ nth_error new i = nth_error arms q) /\
    forall q r, In q idx -> r < length arms -> ~ In r idx -> (nth q pred 0 <= nth r pred 0)%Q.
Proof.
  intros (_ & _ & _ & WS) L N. specialize (WS (map Qopp pred)). destruct WS as [P O]. rewrite map_length, L in P. set (p := argsort A (map Qopp pred)) in *.
  assert (LP : length p = length arms) by (rewrite (Permutation_length P); apply seq_length). assert (ND : NoDup p) by (eapply Permutation_NoDup; [symmetry; exact P|apply seq_NoDup]).
  assert (IN : forall q, In q p <-> q < length arms). { intros q. split; intros H. - eapply Permutation_in in H; [|exact P]. apply in_seq in H. lia. - eapply Permutation_in; [symmetry; exact P|]. apply in_seq. lia. }
  set (idx := firstn n (rev p)). assert (LI : length idx = n) by (unfold idx; rewrite firstn_length, rev_length; lia).
  assert (SPL : rev p = idx ++ skipn n (rev p)) by (symmetry; apply firstn_skipn).
  assert (NDR : NoDup (rev p)) by now apply NoDup_rev.
  unfold max_utility. fold p. fold idx. rewrite LI, Nat.eqb_refl.
  assert (IB : forall q, In q idx -> q < length arms). { intros q H. apply IN. apply in_rev. rewrite SPL. apply in_or_app. now left. }
  destruct (mapr_all (fun i => match nth_error arms i with Some a => Ok a | None => Err EIndex end) idx) as (new & E & LN & NN).
  { intros q H. apply IB in H. destruct (nth_error arms q) eqn:F; eauto. apply nth_error_None in F. lia. }
  exists idx, new. split; auto. split; auto. split; [rewrite SPL in NDR; eapply NoDup_left; exact NDR|]. split; [congruence|]. split.
  - intros i q H. split; [apply IB; eapply nth_error_In; eauto|]. destruct (NN i q H) as (a & Ha & Ea). rewrite Ha. destruct (nth_error arms q); [injection Ea as ->; reflexivity|discriminate].
  - intros q r Hq Hr NR. apply In_nth_error in Hq as [i Hi].
    assert (R : In r (skipn n (rev p))). { assert (X : In r (rev p)) by (rewrite <- in_rev; now apply IN). rewrite SPL in X. apply in_app_or in X as [X|X]; [contradiction|exact X]. }
    apply In_nth_error in R as [j Hj].
    assert (I1 : i < n) by (rewrite <- LI; apply nth_error_Some; congruence).
    assert (A1 : nth_error (rev p) i = Some q) by (rewrite SPL, nth_error_app1 by lia; exact Hi).
    assert (A2 : nth_error (rev p) (n + j) = Some r) by (rewrite SPL, nth_error_app2 by lia; rewrite LI; replace (n + j - n) with j by lia; exact Hj).
    assert (J1 : n + j < length p) by (rewrite <- rev_length; apply nth_error_Some; congruence).
    assert (RV : forall k x, k < length p -> nth_error (rev p) k = Some x -> nth_error p (length p - S k) = Some x).
    { intros k x Hk H. apply nth_error_nth with (d := 0) in H. rewrite rev_nth in H by exact Hk. rewrite <- H. apply nth_error_nth'. lia. }
    apply RV in A1; [|lia]. apply RV in A2; [|lia].
    assert (Z := O (length p - S (n + j)) (length p - S i) r q ltac:(lia) A2 A1).
    change 0%Q with (Qopp 0) in Z. rewrite !map_nth in Z. apply Qopp_le_compat in Z. rewrite !Qopp_involutive in Z. exact Z.
Qed.

(** which batch comes in which phase *)
Definition at_phase (s : specs) (k : nat) (p : phase) : Prop :=
  match p with InitHi => k = 0 | InitLo => k = 1 | OptLo => 2 <= k /\ Nat.even k = true | OptHi gr => 2 <= k /\ Nat.even k = false /\ length gr = n_opt_lofi s /\ Forall well_formed gr end.
Lemma arms_ok A s k p ts : well A -> n_opt_hifi s <= n_opt_lofi s -> at_phase s k p ->
  exists arms, arms_of A s p ts = Ok arms /\ Forall well_formed arms /\ wanted s k = (hifi_of p, length arms) /\ at_phase s (S k) (next p arms) /\
   match p with OptHi gr => exists idx, length idx = n_opt_hifi s /\ NoDup idx /\ (forall i q, nth_error idx i = Some q -> q < length gr /\ nth_error arms i = nth_error gr q) /\
       forall q r, In q idx -> r < length gr -> ~ In r idx -> (nth q (predict A ts gr) 0 <= nth r (predict A ts gr) 0)%Q | _ => True end.
Proof.
  intros W HN AP. pose proof W as (W1 & W2 & W3 & W4). destruct p as [| | |gr]; cbn [at_phase arms_of hifi_of next] in *.
  - subst k. destruct (W1 (n_init_hifi s)) as [L F]. eexists. split; [reflexivity|]. split; auto. split; [cbn; now rewrite L|]. auto.
  - subst k. destruct (W1 (n_init_lofi s)) as [L F]. eexists. split; [reflexivity|]. split; auto. split; [cbn; now rewrite L|]. split; auto.
  - destruct AP as [K E]. destruct (W2 ts (n_opt_lofi s)) as [L F]. eexists. split; [reflexivity|]. split; auto. destruct k as [|[|k]]; try lia. split; [cbn [wanted]; now rewrite E, L|]. split; auto. split; [lia|]. split; [|split; auto]. rewrite Nat.even_succ, <- Nat.negb_even, E. reflexivity.
  - destruct AP as (K & E & LG & F). destruct (max_ok A (n_opt_hifi s) (predict A ts gr) gr W (W3 ts gr) ltac:(lia)) as (idx & new & E1 & L1 & ND & L2 & N1 & B). exists new. split; auto. split.
    + rewrite Forall_forall in *. intros a Ha. apply In_nth_error in Ha as [i Hi]. destruct (nth_error idx i) as [q|] eqn:Q; [|apply nth_error_None in Q; assert (i < length new) by (apply nth_error_Some; congruence); lia]. destruct (N1 i q Q) as [_ X]. rewrite Hi in X. apply F. eapply nth_error_In. symmetry. exact X.
    + destruct k as [|[|k]]; try lia. split; [cbn [wanted]; now rewrite E, L2|]. split; [split; [lia|rewrite Nat.even_succ, <- Nat.negb_even, E; reflexivity]|]. exists idx. auto.
Qed.
(** all of the run from phase p on *)
Definition trial_ok (s : specs) (k : nat) (b : list row) (y : reply) (t : trial) : Prop :=
  t_hifi t = fst (wanted s k) /\ length (t_arms t) = length b /\ (forall i a, nth_error (t_arms t) i = Some a -> exists r, nth_error b i = Some r /\ row_of (t_hifi t) a r) /\
  t_f t = match y_f y with Some f => map Some f | None => repeat None (length b) end.
Definition chosen (A : ax) (s : specs) (ts : list trial) (gr : list arm) (b : list row) : Prop :=
  exists idx, length idx = n_opt_hifi s /\ NoDup idx /\ length b = n_opt_hifi s /\ (forall i q, nth_error idx i = Some q -> exists a r, nth_error gr q = Some a /\ nth_error b i = Some r /\ row_of true a r) /\
    forall q r, In q idx -> r < length gr -> ~ In r idx -> (nth q (predict A ts gr) 0 <= nth r (predict A ts gr) 0)%Q.
Lemma loop_ok A s : well A -> n_opt_hifi s <= n_opt_lofi s -> forall ys k p ts, at_phase s k p -> length ts = k ->
  (forall i y, nth_error ys i = Some y -> match y_f y with Some f => length f = snd (wanted s (k + i)) | None => y_stop y = true end) ->
  exists bs more st, loop A s p ts ys = (bs, ts ++ more, st) /\
    ((st = Done /\ exists j y, length bs = S j /\ length more = S j /\ nth_error ys j = Some y /\ y_stop y = true) \/ st = Waiting /\ length bs = S (length more) /\ length more = length ys /\ ~ stops ys) /\
    (forall i y, S i < length bs -> nth_error ys i = Some y -> y_stop y = false) /\
    (forall i b, nth_error bs i = Some b -> length b = snd (wanted s (k + i)) /\ forall r, In r b -> o_hifi r = fst (wanted s (k + i)) /\ o_sets r = 1) /\
    (forall i t, nth_error more i = Some t -> exists b y, nth_error bs i = Some b /\ nth_error ys i = Some y /\ trial_ok s (k + i) b y t) /\
    match p with OptHi gr => exists b, nth_error bs 0 = Some b /\ chosen A s ts gr b | _ => True end /\
    (forall i t b, nth_error more i = Some t -> nth_error bs (S i) = Some b -> 2 <= k + i -> t_hifi t = false -> chosen A s (ts ++ firstn (S i) more) (t_arms t) b).
Proof.
  intros W HN. induction ys as [|y ys IH]; intros k p ts AP LT HY.
  - destruct (arms_ok A s k p ts W HN AP) as (arms & E & F & WT & AN & CH). destruct (batch_ok (hifi_of p) arms F) as (b & EB & LB & NB). cbn [loop]. rewrite E. cbn [bindr]. rewrite EB. cbn [bindr].
    exists [b], [], Waiting. rewrite app_nil_r. split; [reflexivity|]. split; [right; repeat split; auto; intros (y & [] & _)|]. split; [intros i y; cbn; lia|]. split; [|split; [|split]].
    + intros [|i] b' Hb; cbn in Hb; [|destruct i; discriminate]. injection Hb as <-. rewrite Nat.add_0_r, WT. cbn. split; auto. intros r Hr. apply In_nth_error in Hr as [j Hj]. destruct (nth_error arms j) as [a|] eqn:Ha.
      * destruct (NB j a Ha) as (r' & Hr' & R1 & R2 & _). rewrite Hj in Hr'. injection Hr' as <-. auto.
      * apply nth_error_None in Ha. assert (j < length b) by (apply nth_error_Some; congruence). lia.
    + intros [|i] t; discriminate.
    + destruct p as [| | |gr]; auto. exists b. split; auto. destruct CH as (idx & C1 & C2 & C3 & C4). exists idx. split; auto. split; auto. cbn in AP. split; [rewrite LB; destruct k as [|[|k]]; [lia|lia|]; cbn [wanted] in WT; destruct AP as (_ & AE & _); rewrite AE in WT; now injection WT|]. split; auto.
      intros i q Hq. destruct (C3 i q Hq) as [Q1 Q2]. destruct (nth_error gr q) as [a|] eqn:Ha; [|apply nth_error_None in Ha; lia]. destruct (NB i a Q2) as (r & Hr & R). eauto.
    + intros [|i] t b'; discriminate.
  - destruct (arms_ok A s k p ts W HN AP) as (arms & E & F & WT & AN & CH). destruct (batch_ok (hifi_of p) arms F) as (b & EB & LB & NB). cbn [loop]. rewrite E. cbn [bindr]. rewrite EB. cbn [bindr].
    assert (RB : length b = snd (wanted s (k + 0)) /\ forall r, In r b -> o_hifi r = fst (wanted s (k + 0)) /\ o_sets r = 1).
    { rewrite Nat.add_0_r, WT. cbn. split; auto. intros r Hr. apply In_nth_error in Hr as [j Hj]. destruct (nth_error arms j) as [a|] eqn:Ha.
      * destruct (NB j a Ha) as (r' & Hr' & R1 & R2 & _). rewrite Hj in Hr'. injection Hr' as <-. auto.
      * apply nth_error_None in Ha. assert (j < length b) by (apply nth_error_Some; congruence). lia. }
    assert (CB : match p with OptHi gr => chosen A s ts gr b | _ => True end).
    { destruct p as [| | |gr]; auto. destruct CH as (idx & C1 & C2 & C3 & C4). exists idx. split; auto. split; auto. cbn in AP. split; [rewrite LB; destruct k as [|[|k]]; [lia|lia|]; cbn [wanted] in WT; destruct AP as (_ & AE & _); rewrite AE in WT; now injection WT|]. split; auto.
      intros i q Hq. destruct (C3 i q Hq) as [Q1 Q2]. destruct (nth_error gr q) as [a|] eqn:Ha; [|apply nth_error_None in Ha; lia]. destruct (NB i a Q2) as (r & Hr & R). eauto. }
    pose proof (HY 0 y eq_refl) as H0. rewrite Nat.add_0_r, WT in H0. cbn [snd] in H0. rewrite (values_ok arms y) by (destruct (y_f y); auto). set (f := match y_f y with Some f => map Some f | None => repeat None (length arms) end). set (t0 := mkTrial (hifi_of p) arms f).
    assert (T0 : trial_ok s (k + 0) b y t0). { rewrite Nat.add_0_r. unfold trial_ok, t0. cbn [t_hifi t_arms t_f]. rewrite WT, LB. repeat split; auto. }
    destruct (y_stop y) eqn:YS.
    + exists [b], [t0], Done. split; [reflexivity|]. split; [left; split; auto; exists 0, y; auto|]. split; [intros i y'; cbn; lia|]. split; [|split; [|split]].
      * intros [|i] b' Hb; cbn in Hb; [injection Hb as <-; exact RB|destruct i; discriminate].
      * intros [|i] t Ht; cbn in Ht; [|destruct i; discriminate]. injection Ht as <-. exists b, y. auto.
      * destruct p; auto. exists b. auto.
      * intros [|i] t b' _ Hb; cbn in Hb; [|destruct i]; discriminate.
    + destruct (IH (S k) (next p arms) (ts ++ [t0]) AN) as (bs & more & st & EL & ES & EN & EB' & ET & EP & EC); [rewrite app_length; cbn; lia|intros i y' Hy; specialize (HY (S i) y' Hy); now replace (S k + i) with (k + S i) by lia|].
      rewrite EL. exists (b :: bs), (t0 :: more), st. rewrite <- app_assoc. cbn [app]. split; [reflexivity|]. split; [|split; [|split; [|split; [|split]]]].
      * destruct ES as [(-> & j & y' & L & L2 & Y1 & Y2)|(-> & L & L2 & NS)]; [left; split; auto; exists (S j), y'; cbn [length]; repeat split; auto; lia|right]. cbn [length]; repeat split; auto; try lia. intros (y' & [<-|Y1] & Y2); [congruence|]. apply NS. exists y'. auto.
      * intros [|i] y' Hi Hy; cbn in *; [injection Hy as <-; auto|]. apply (EN i); auto. lia.
      * intros [|i] b' Hb; cbn in Hb; [injection Hb as <-; exact RB|]. replace (k + S i) with (S k + i) by lia. auto.
      * intros [|i] t Ht; cbn in Ht; [injection Ht as <-; exists b, y; auto|]. destruct (ET i t Ht) as (b' & y' & B1 & B2 & B3). exists b', y'. replace (k + S i) with (S k + i) by lia. auto.
      * destruct p; auto. exists b. auto.
      * intros [|i] t b' Ht Hb KI TH; cbn in Ht, Hb.
        -- injection Ht as <-. unfold t0 in TH. cbn in TH. destruct p as [| | |gr]; cbn in TH, AP; try discriminate; try lia. cbn [next] in EP. destruct EP as (b2 & B1 & B2). change (nth_error bs 0 = Some b') in Hb. rewrite B1 in Hb. injection Hb as <-. exact B2.
        -- replace (ts ++ firstn (S (S i)) (t0 :: more)) with ((ts ++ [t0]) ++ firstn (S i) more) by (rewrite <- app_assoc; reflexivity). apply (EC i t b'); auto. lia.
Qed.

(** ** Theorems *)

(** The batches alternate as specified, with one row of one simulation resource set for
    each point asked for; there is a next batch after each reply that is not a stop, and
    none after a stop. *)
Theorem C83_batches : forall A s ys, well A -> n_opt_hifi s <= n_opt_lofi s -> answers s ys ->
  exists bs ts st, gen_f A s ys = (bs, ts, st) /\
    (forall k b, nth_error bs k = Some b -> length b = snd (wanted s k) /\ forall r, In r b -> o_hifi r = fst (wanted s k) /\ o_sets r = 1) /\
    (~ stops ys -> st = Waiting /\ length bs = S (length ys)) /\
    (forall k y, nth_error ys k = Some y -> y_stop y = true -> (forall i z, i < k -> nth_error ys i = Some z -> y_stop z = false) -> st = Done /\ length bs = S k).
Proof.
  intros A s ys W HN HA. destruct (loop_ok A s W HN ys 0 InitHi [] eq_refl eq_refl HA) as (bs & more & st & E & ES & EN & EB & ET & _ & _).
  exists bs, more, st. split; [exact E|]. split; [exact EB|]. split.
  - intros NS. destruct ES as [(_ & j & y & _ & _ & Y1 & Y2)|(-> & L & L2 & _)]; [destruct NS; exists y; split; [eapply nth_error_In; eauto|auto]|]. split; auto. lia.
  - intros k y Hy YS HF. destruct ES as [(-> & j & z & L & _ & Z1 & Z2)|(_ & _ & _ & X)]; [|destruct X; exists y; split; [eapply nth_error_In; eauto|auto]].
    split; auto. rewrite L. f_equal. destruct (Nat.lt_trichotomy j k) as [K|[K|K]]; auto; exfalso.
    + rewrite (HF j z K Z1) in Z2. discriminate.
    + rewrite (EN k y) in YS; [discriminate|lia|exact Hy].
Qed.
Print Assumptions C83_batches.

(** Each trial has the points of its batch, each with its parameters by name, and the
    values the manager returned, in the same order. *)
Theorem C83_data : forall A s ys bs ts st, well A -> n_opt_hifi s <= n_opt_lofi s -> answers s ys -> gen_f A s ys = (bs, ts, st) ->
  forall k t, nth_error ts k = Some t -> exists b y, nth_error bs k = Some b /\ nth_error ys k = Some y /\ t_hifi t = fst (wanted s k) /\ length (t_arms t) = length b /\
    (forall i a, nth_error (t_arms t) i = Some a -> exists r, nth_error b i = Some r /\ row_of (t_hifi t) a r) /\
    t_f t = match y_f y with Some f => map Some f | None => repeat None (length b) end.
Proof.
  intros A s ys bs ts st W HN HA E. destruct (loop_ok A s W HN ys 0 InitHi [] eq_refl eq_refl HA) as (bs' & more & st' & E' & _ & _ & _ & ET & _ & _). unfold gen_f in E. rewrite E in E'. injection E' as -> -> ->. exact ET.
Qed.
Print Assumptions C83_data.

(** The high fidelity batch after a low fidelity batch of the optimization: different
    positions of that batch, those with the smallest predictions, with the same points. *)
Theorem C83_best : forall A s ys bs ts st, well A -> n_opt_hifi s <= n_opt_lofi s -> answers s ys -> gen_f A s ys = (bs, ts, st) ->
  forall k t b, 2 <= k -> Nat.even k = true -> nth_error ts k = Some t -> nth_error bs (S k) = Some b ->
  exists idx, length idx = n_opt_hifi s /\ NoDup idx /\ length b = n_opt_hifi s /\
    (forall i q, nth_error idx i = Some q -> exists a r, nth_error (t_arms t) q = Some a /\ nth_error b i = Some r /\ row_of true a r) /\
    forall q r, In q idx -> r < length (t_arms t) -> ~ In r idx ->
      (nth q (predict A (firstn (S k) ts) (t_arms t)) 0 <= nth r (predict A (firstn (S k) ts) (t_arms t)) 0)%Q.
Proof.
  intros A s ys bs ts st W HN HA E k t b K KE Ht Hb. destruct (loop_ok A s W HN ys 0 InitHi [] eq_refl eq_refl HA) as (bs' & more & st' & E' & _ & _ & _ & ET & _ & EC). unfold gen_f in E. rewrite E in E'. injection E' as -> -> ->.
  apply (EC k t b Ht Hb); auto. destruct (ET k t Ht) as (? & ? & _ & _ & TH & _). rewrite TH. cbn [plus]. destruct k as [|[|k]]; try lia. cbn [wanted]. now rewrite KE.
Qed.
Print Assumptions C83_best.

(** What Ax proposes at low fidelity is asked with all the trials so far. *)
Theorem C83_fit : forall A s ys bs ts st, well A -> n_opt_hifi s <= n_opt_lofi s -> answers s ys -> gen_f A s ys = (bs, ts, st) ->
  forall k b, 2 <= k -> Nat.even k = true -> nth_error bs k = Some b ->
  forall i r, nth_error b i = Some r -> exists a, nth_error (gen A (firstn k ts) (n_opt_lofi s)) i = Some a /\ row_of false a r.
Proof.
  intros A s ys bs ts st W HN HA E. unfold gen_f in E.
  assert (G : forall ys k0 p ts0 bs ts st, at_phase s k0 p -> length ts0 = k0 -> (forall i y, nth_error ys i = Some y -> match y_f y with Some f => length f = snd (wanted s (k0 + i)) | None => y_stop y = true end) -> loop A s p ts0 ys = (bs, ts, st) ->
     exists more, ts = ts0 ++ more /\ forall k b, 2 <= k0 + k -> Nat.even (k0 + k) = true -> nth_error bs k = Some b -> forall i r, nth_error b i = Some r -> exists a, nth_error (gen A (firstn (k0 + k) ts) (n_opt_lofi s)) i = Some a /\ row_of false a r).
  { clear E ys HA bs ts st. induction ys as [|y ys IH]; intros k0 p ts0 bs ts st AP LT HY E; destruct (arms_ok A s k0 p ts0 W HN AP) as (arms & E1 & F & WT & AN & CH); destruct (batch_ok (hifi_of p) arms F) as (b & EB & LB & NB); cbn [loop] in E; rewrite E1 in E; cbn [bindr] in E; rewrite EB in E; cbn [bindr] in E.
    - injection E as <- <- <-. exists []. rewrite app_nil_r. split; auto. intros [|k] b' K KE Hb i r Hr; cbn in Hb; [|destruct k; discriminate]. injection Hb as <-. rewrite Nat.add_0_r in *. rewrite <- LT, firstn_all.
      destruct p as [| | |gr]; cbn in AP; try lia; try (destruct AP as (_ & AE & _); congruence). cbn in E1. injection E1 as <-. destruct (nth_error (gen A ts0 (n_opt_lofi s)) i) as [a|] eqn:Ha; [|apply nth_error_None in Ha; assert (i < length b) by (apply nth_error_Some; congruence); lia]. exists a. split; auto. destruct (NB i a Ha) as (r' & Hr' & R). rewrite Hr in Hr'. injection Hr' as <-. exact R.
    - pose proof (HY 0 y eq_refl) as H0. rewrite Nat.add_0_r, WT in H0. cbn [snd] in H0. rewrite (values_ok arms y) in E by (destruct (y_f y); auto).
      assert (HEAD : forall more' b' i r, 2 <= k0 + 0 -> Nat.even (k0 + 0) = true -> Some b = Some b' -> nth_error b' i = Some r -> exists a, nth_error (gen A (firstn (k0 + 0) (ts0 ++ more')) (n_opt_lofi s)) i = Some a /\ row_of false a r).
      { intros more' b' i r K KE Hb Hr. injection Hb as <-. rewrite Nat.add_0_r in *. rewrite <- LT, firstn_app, Nat.sub_diag, firstn_all. cbn [firstn]. rewrite app_nil_r.
        destruct p as [| | |gr]; cbn in AP; try lia; try (destruct AP as (_ & AE & _); congruence). cbn in E1. injection E1 as <-. destruct (nth_error (gen A ts0 (n_opt_lofi s)) i) as [a|] eqn:Ha; [|apply nth_error_None in Ha; assert (i < length b) by (apply nth_error_Some; congruence); lia]. exists a. split; auto. destruct (NB i a Ha) as (r' & Hr' & R). rewrite Hr in Hr'. injection Hr' as <-. exact R. }
      destruct (y_stop y).
      + injection E as <- <- <-. eexists. split; [reflexivity|]. intros [|k] b' K KE Hb; cbn in Hb; [|destruct k; discriminate]. intros i r. now apply (HEAD _ b').
      + cbn zeta in E. destruct (loop A s (next p arms) _ ys) as [[bs1 ts1] st1] eqn:EL. injection E as <- <- <-. apply (IH (S k0)) in EL; auto; [|rewrite app_length; cbn; lia|intros i y' Hy; specialize (HY (S i) y' Hy); now replace (S k0 + i) with (k0 + S i) by lia].
        destruct EL as (more & -> & R). rewrite <- app_assoc. eexists. split; [reflexivity|]. intros [|k] b' K KE Hb; cbn in Hb; [intros i r; now apply (HEAD _ b')|]. intros i r. rewrite app_assoc. replace (k0 + S k) with (S k0 + k) in * by lia. now apply (R k b'). }
  destruct (G ys 0 InitHi [] bs ts st eq_refl eq_refl HA E) as (more & -> & R). intros k b. exact (R k b).
Qed.
Print Assumptions C83_fit.

(** A case: two parameters in the other order, predictions that prefer the last. *)
Definition arm_of (n : nat) : arm := [(T "x1", inject_Z (Z.of_nat n)); (T "x0", inject_Z (Z.of_nat (n + 10)))].
Fixpoint ins (f : list Q) (i : nat) (l : list nat) : list nat := match l with [] => [i] | j :: l' => if Qle_bool (nth i f 0%Q) (nth j f 0%Q) then i :: l else j :: ins f i l' end.
Definition isort (f : list Q) : list nat := fold_right (ins f) [] (seq 0 (length f)).
Definition demo : ax := mkAx (fun n => map arm_of (seq 0 n)) (fun ts n => map arm_of (seq (length ts) n)) (fun _ gr => map (fun i => inject_Z (- Z.of_nat i)) (seq 0 (length gr))) isort.
Definition dspecs : specs := mkSpecs 1 2 1 3.
Definition dreplies : list reply := [mkReply false (Some [7%Q]); mkReply false (Some [1%Q; 2%Q]); mkReply false (Some [3%Q; 4%Q; 5%Q]); mkReply true None].
Lemma ins_perm f i l : Permutation (ins f i l) (i :: l).
Proof. induction l as [|j l IH]; cbn; auto. destruct (Qle_bool _ _); auto. rewrite IH. apply perm_swap. Qed.
Definition sorted (f : list Q) (l : list nat) : Prop := forall i j a b, i < j -> nth_error l i = Some a -> nth_error l j = Some b -> (nth a f 0 <= nth b f 0)%Q.
Lemma sorted_cons f i l : (forall j, In j l -> (nth i f 0 <= nth j f 0)%Q) -> sorted f l -> sorted f (i :: l).
Proof. intros H S0 [|x] [|y] a b L Ha Hb; cbn in *; try lia; [injection Ha as <-; apply H; eapply nth_error_In; eauto|apply (S0 x y); auto; lia]. Qed.
Lemma sorted_tail f i l : sorted f (i :: l) -> sorted f l /\ forall j, In j l -> (nth i f 0 <= nth j f 0)%Q.
Proof. intros H. split; [intros x y a b L Ha Hb; apply (H (S x) (S y)); auto; lia|]. intros j Hj. apply In_nth_error in Hj as [y Hy]. apply (H 0 (S y)); auto. lia. Qed.
Lemma ins_sorted f i l : sorted f l -> sorted f (ins f i l).
Proof.
  induction l as [|j l IH]; intros H; cbn; [apply sorted_cons; auto; intros ? []|]. apply sorted_tail in H as H'. destruct H' as [H1 H2]. destruct (Qle_bool _ _) eqn:E.
  - apply Qle_bool_iff in E. apply sorted_cons; auto. intros k [<-|K]; auto. eapply Qle_trans; eauto.
  - apply sorted_cons; auto. intros k K. eapply Permutation_in in K; [|apply ins_perm]. destruct K as [<-|K]; auto. destruct (Qlt_le_dec (nth j f 0%Q) (nth i f 0%Q)) as [L|L]; [now apply Qlt_le_weak|]. apply Qle_bool_iff in L. congruence.
Qed.
Lemma isort_ok f : is_argsort f (isort f).
Proof.
  unfold isort. assert (G : forall l, Permutation (fold_right (ins f) [] l) l /\ sorted f (fold_right (ins f) [] l)).
  { induction l as [|i l [P O]]; cbn; [split; auto; intros [|x] y a b _; discriminate|]. split; [rewrite ins_perm; auto|now apply ins_sorted]. }
  destruct (G (seq 0 (length f))). split; auto.
Qed.
Lemma arm_wf n : well_formed (arm_of n).
Proof. intros [|[|j]] L; cbn in L; [eexists; reflexivity|eexists; reflexivity|lia]. Qed.
Example demo_well : well demo.
Proof.
  assert (F : forall l, Forall well_formed (map arm_of l)) by (intros l; apply Forall_forall; intros a Ha; apply in_map_iff in Ha as (n & <- & _); apply arm_wf).
  split; [|split; [|split]]; intros; cbn; rewrite ?map_length, ?seq_length; auto. apply isort_ok.
Qed.
Example demo_run : answers dspecs dreplies /\ n_opt_hifi dspecs <= n_opt_lofi dspecs /\
  let '(bs, ts, st) := gen_f demo dspecs dreplies in
  map (map (fun r => (o_hifi r, o_x r))) bs = [[(true, [10; 0])]; [(false, [10; 0]); (false, [11; 1])]; [(false, [12; 2]); (false, [13; 3]); (false, [14; 4])]; [(true, [14; 4])]]%Q /\
  map t_f ts = [[Some 7]; [Some 1; Some 2]; [Some 3; Some 4; Some 5]; [None]]%Q /\ st = Done.
Proof. split; [intros [|[|[|[|[|k]]]]] y H; cbn in H; try discriminate; injection H as <-; reflexivity|]. split; [cbn; lia|]. vm_compute. auto. Qed.

(** With more high fidelity than low fidelity points to choose from, the generator fails
    after its first low fidelity batch of the optimization. *)
Theorem C83_more_hifi_refuted : exists A s ys, well A /\ answers s ys /\ snd (gen_f A s ys) = Failed EValue.
Proof.
  exists demo, (mkSpecs 1 1 2 1), [mkReply false (Some [1%Q]); mkReply false (Some [1%Q]); mkReply false (Some [1%Q])].
  split; [apply demo_well|]. split; [intros [|[|[|[|k]]]] y H; cbn in H; try discriminate; injection H as <-; reflexivity|reflexivity].
Qed.
Print Assumptions C83_more_hifi_refuted.
(** Values that come back for a part of the batch, as with async_return, make it fail. *)
Theorem C83_async_refuted : exists A s ys, well A /\ n_opt_hifi s <= n_opt_lofi s /\ snd (gen_f A s ys) = Failed EIndex.
Proof. exists demo, (mkSpecs 2 1 1 1), [mkReply false (Some [1%Q])]. split; [apply demo_well|]. split; [cbn; lia|reflexivity]. Qed.
Print Assumptions C83_async_refuted.
