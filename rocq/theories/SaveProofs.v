(** Proofs about the history files. *)
From Verif Require Import Base HistoryModel SaveModel SaveSpec HistorySpec HistoryProofs HistoryInv HistoryInv2 HistoryRun.
Local Open Scope nat_scope.

Lemma kind_eqb_spec a b : reflect (a = b) (kind_eqb a b).
Proof. destruct a, b; cbn; try (constructor; congruence). destruct (Nat.eqb_spec n n0); constructor; congruence. Qed.
Lemma kind_eqb_refl a : kind_eqb a a = true.
Proof. destruct (kind_eqb_spec a a); congruence. Qed.

Lemma remove_first_kind k k' d : of_kind k' (remove_first k d) = if kind_eqb k' k then tl (of_kind k' d) else of_kind k' d.
Proof.
  unfold of_kind. induction d as [|f d IH]; [destruct (kind_eqb k' k); reflexivity|]. cbn [remove_first filter].
  destruct (kind_eqb_spec (f_kind f) k) as [E|E].
  - subst k. destruct (kind_eqb_spec k' (f_kind f)) as [E'|E'].
    + subst k'. now rewrite kind_eqb_refl.
    + destruct (kind_eqb_spec (f_kind f) k'); [congruence|reflexivity].
  - cbn [filter]. rewrite IH. destruct (kind_eqb_spec (f_kind f) k') as [E'|E']; [|reflexivity]. destruct (kind_eqb_spec k' k); [congruence|reflexivity].
Qed.
Lemma removals_kind k k' n : forall d x, In x (removals k n d) -> exists i, i <= n /\ of_kind k' x = if kind_eqb k' k then skipn i (of_kind k' d) else of_kind k' d.
Proof.
  induction n as [|n IH]; intros d x H; [destruct H|]. cbn in H. destruct H as [<-|H].
  - exists 1. split; [lia|]. rewrite remove_first_kind. destruct (kind_eqb k' k); [|reflexivity]. destruct (of_kind k' d); reflexivity.
  - apply IH in H as (i & Hi & E). exists (S i). split; [lia|]. rewrite E, remove_first_kind. destruct (kind_eqb k' k); [|reflexivity]. destruct (of_kind k' d); cbn; [now rewrite skipn_nil|reflexivity].
Qed.
Lemma removals_last k k' n : forall d, of_kind k' (last (removals k n d) d) = if kind_eqb k' k then skipn n (of_kind k' d) else of_kind k' d.
Proof.
  induction n as [|n IH]; intros d; [cbn; destruct (kind_eqb k' k); reflexivity|].
  cbn [removals]. cbn zeta. assert (E : last (remove_first k d :: removals k n (remove_first k d)) d = last (removals k n (remove_first k d)) (remove_first k d)).
  { generalize (remove_first k d). intros d'. destruct (removals k n d') as [|y l]; [reflexivity|]. cbn [last]. revert y. induction l as [|z l IHl]; intros y; [reflexivity|]. cbn [last]. apply IHl. }
  rewrite E, IH, remove_first_kind. destruct (kind_eqb k' k); [|reflexivity]. destruct (of_kind k' d); cbn; [now rewrite skipn_nil|reflexivity].
Qed.
Lemma removals_all k d : of_kind k (last (removals k (countb (fun f => kind_eqb (f_kind f) k) d) d) d) = [].
Proof. rewrite removals_last, kind_eqb_refl. unfold countb. apply skipn_all2. unfold of_kind. lia. Qed.

Lemma write_other k k' n x d : k' <> k -> of_kind k' (write k n x d) = of_kind k' d.
Proof.
  intros H. unfold of_kind, write. cbn [filter f_kind]. destruct (kind_eqb_spec k k'); [congruence|]. induction d as [|f d IH]; [reflexivity|]. cbn [filter].
  destruct (kind_eqb_spec (f_kind f) k) as [E|E]; cbn [andb negb].
  - destruct (kind_eqb_spec (f_kind f) k') as [E'|E']; [congruence|]. destruct (f_num f =? n); cbn [negb filter]; [exact IH|]. destruct (kind_eqb_spec (f_kind f) k'); [congruence|exact IH].
  - cbn [filter]. now rewrite IH.
Qed.
Lemma write_same k n x d : of_kind k d = [] -> of_kind k (write k n x d) = [mkFile k n x].
Proof.
  unfold of_kind, write. cbn [filter f_kind]. rewrite kind_eqb_refl. intros H. f_equal. induction d as [|f d IH]; [reflexivity|]. cbn [filter] in *.
  destruct (kind_eqb_spec (f_kind f) k) as [E|E]; [discriminate|]. cbn [andb negb filter]. destruct (kind_eqb_spec (f_kind f) k); [congruence|]. now apply IH.
Qed.
Lemma isfile_kind k n d : isfile k n d = existsb (fun f => f_num f =? n) (of_kind k d).
Proof.
  unfold isfile, of_kind. induction d as [|f d IH]; [reflexivity|]. cbn [existsb filter]. rewrite IH. destruct (kind_eqb (f_kind f) k); reflexivity.
Qed.
Lemma last_app2 {A} (l : list A) a b d : last (l ++ [a; b]) d = b.
Proof. induction l as [|x l IH]; [reflexivity|]. cbn [app last]. destruct (l ++ [a; b]) eqn:E; [destruct l; discriminate|exact IH]. Qed.

(** The states during one save. *)
Lemma save_states kd n k cpl h d x k' : In x (save_every_k kd n k cpl h d) ->
  (k' <> kd -> of_kind k' x = of_kind k' d) /\
  ((exists i, of_kind kd x = skipn i (of_kind kd d)) \/ (exists m, of_kind kd x = [mkFile kd m Torn]) \/ of_kind kd x = of_kind kd (last (save_every_k kd n k cpl h d) d)).
Proof.
  unfold save_every_k. set (c := if cpl then n else k * (n / k)). destruct (_ || cpl); [|intros []]. set (rs := removals kd _ d). intros H. assert (E : of_kind kd (last rs d) = []) by apply removals_all.
  assert (O : k' <> kd -> of_kind k' (last rs d) = of_kind k' d). { intros Hk. unfold rs. rewrite removals_last. destruct (kind_eqb_spec k' kd); [congruence|reflexivity]. }
  apply in_app_iff in H as [H|[<-|[<-|[]]]].
  - split.
    + intros Hk. apply (removals_kind kd k') in H as (i & _ & H). destruct (kind_eqb_spec k' kd); [congruence|exact H].
    + left. apply (removals_kind kd kd) in H as (i & _ & H). rewrite kind_eqb_refl in H. eauto.
  - split; [intros Hk; rewrite write_other by exact Hk; auto|]. right. left. exists c. now apply write_same.
  - split; [intros Hk; rewrite write_other by exact Hk; auto|]. right. right. now rewrite last_app2.
Qed.
Lemma save_last kd n k (cpl : bool) h d : let c := if cpl then n else k * (n / k) in
  of_kind kd (last (save_every_k kd n k cpl h d) d) =
  if (negb (existsb (fun f => f_num f =? c) (of_kind kd d)) && (0 <? c)) || cpl then [mkFile kd c (Whole (snapshot h))] else of_kind kd d.
Proof.
  cbn zeta. unfold save_every_k. set (c := if cpl then n else k * (n / k)). rewrite isfile_kind. destruct (_ || cpl); [|reflexivity]. rewrite last_app2. apply write_same. apply removals_all.
Qed.
Lemma last_other kd n k cpl h d k' : k' <> kd -> of_kind k' (last (save_every_k kd n k cpl h d) d) = of_kind k' d.
Proof.
  intros Hk. destruct (save_every_k kd n k cpl h d) as [|y t] eqn:E; [reflexivity|].
  destruct (save_states kd n k cpl h d (last (y :: t) d) k') as (H & _); [|now apply H]. rewrite E. clear. revert y. induction t as [|b l IH]; intros y; [now left|]. right. apply IH.
Qed.
Lemma last_app_last {A} (a b : list A) d : last (a ++ b) d = last b (last a d).
Proof.
  destruct b as [|y b]; [now rewrite app_nil_r|]. assert (X : forall (l : list A) d d' z, last (l ++ z :: b) d = last (z :: b) d').
  { clear. intros l d d' z. assert (Y : forall d d' z, last (z :: b) d = last (z :: b) d'). { clear. induction b as [|x b IH]; intros d d' z; [reflexivity|]. cbn [last]. apply IH. }
    induction l as [|x l IH]; [apply Y|]. cbn [app]. cbn [last]. destruct (l ++ z :: b) eqn:E; [destruct l; discriminate|]. exact IH. }
  apply X.
Qed.

(** One call for one kind: what it depends on and does. *)
Definition one (c : save_cfg) (cpl : bool) (kd : kind) (h : hist) (fs : list file) : list file :=
  let k := period kd c in
  let n := if cpl then counted kd h else k * (counted kd h / k) in
  let on := match kd with KSims => (0 <? k) || (cpl && (s_gens c =? 0)) | KGens => 0 <? k | _ => false end in
  if on && ((negb (existsb (fun f => f_num f =? n) fs) && (0 <? n)) || cpl) then [mkFile kd n (Whole (snapshot h))] else fs.
Lemma init_last c cpl h d kd : of_kind kd (last (init_every_k_save c cpl h d) d) = one c cpl kd h (of_kind kd d).
Proof.
  unfold init_every_k_save. set (t1 := if (0 <? s_sims c) || (cpl && (s_gens c =? 0)) then save_every_k KSims (h_ended h) (s_sims c) cpl h d else []). set (d1 := last t1 d). set (t2 := if 0 <? s_gens c then save_every_k KGens (h_index h) (s_gens c) cpl h d1 else []).
  rewrite last_app_last. fold d1. assert (O1 : kd <> KSims -> of_kind kd d1 = of_kind kd d). { intros Hk. unfold d1, t1. destruct ((0 <? s_sims c) || _); [|reflexivity]. now apply last_other. }
  assert (O2 : kd <> KGens -> of_kind kd (last t2 d1) = of_kind kd d1). { intros Hk. unfold t2. destruct (0 <? s_gens c); [|reflexivity]. now apply last_other. }
  unfold one. destruct kd; cbn [period counted].
  - rewrite O2 by discriminate. unfold d1, t1. destruct ((0 <? s_sims c) || _); [|reflexivity]. rewrite save_last. reflexivity.
  - unfold t2. destruct (0 <? s_gens c); [|apply O1; discriminate]. rewrite save_last, (O1 ltac:(discriminate)). reflexivity.
  - rewrite O2 by discriminate. rewrite O1 by discriminate. reflexivity.
Qed.
Lemma init_states c cpl h d kd x : In x (init_every_k_save c cpl h d) ->
  (exists i, of_kind kd x = skipn i (of_kind kd d)) \/ (exists m, of_kind kd x = [mkFile kd m Torn]) \/ of_kind kd x = of_kind kd (last (init_every_k_save c cpl h d) d).
Proof.
  unfold init_every_k_save. set (t1 := if (0 <? s_sims c) || (cpl && (s_gens c =? 0)) then save_every_k KSims (h_ended h) (s_sims c) cpl h d else []). set (d1 := last t1 d). set (t2 := if 0 <? s_gens c then save_every_k KGens (h_index h) (s_gens c) cpl h d1 else []).
  rewrite last_app_last. fold d1.
  assert (A1 : forall x, In x t1 -> (kd <> KSims -> of_kind kd x = of_kind kd d) /\ (kd = KSims -> (exists i, of_kind kd x = skipn i (of_kind kd d)) \/ (exists m, of_kind kd x = [mkFile kd m Torn]) \/ of_kind kd x = of_kind kd d1)).
  { intros y Hy. unfold t1 in Hy. destruct ((0 <? s_sims c) || _) eqn:E; [|destruct Hy]. assert (H := save_states _ _ _ _ _ _ _ kd Hy). split; [apply H|]. intros ->. unfold d1, t1. try rewrite E. apply H. }
  assert (A2 : forall x, In x t2 -> (kd <> KGens -> of_kind kd x = of_kind kd d1) /\ (kd = KGens -> (exists i, of_kind kd x = skipn i (of_kind kd d1)) \/ (exists m, of_kind kd x = [mkFile kd m Torn]) \/ of_kind kd x = of_kind kd (last t2 d1))).
  { intros y Hy. unfold t2 in Hy. destruct (0 <? s_gens c) eqn:E; [|destruct Hy]. assert (H := save_states _ _ _ _ _ _ _ kd Hy). split; [apply H|]. intros ->. unfold t2. try rewrite E. apply H. }
  assert (O1 : kd <> KSims -> of_kind kd d1 = of_kind kd d). { intros Hk. unfold d1, t1. destruct ((0 <? s_sims c) || _); [|reflexivity]. now apply last_other. }
  assert (O2 : kd <> KGens -> of_kind kd (last t2 d1) = of_kind kd d1). { intros Hk. unfold t2. destruct (0 <? s_gens c); [|reflexivity]. now apply last_other. }
  intros H. apply in_app_iff in H as [H|H].
  - destruct (A1 x H) as (B1 & B2). destruct (kind_eqb_spec kd KSims) as [->|Hk]; [rewrite O2 by discriminate; now apply B2|]. left. exists 0. now apply B1.
  - destruct (A2 x H) as (B1 & B2). destruct (kind_eqb_spec kd KGens) as [->|Hk]; [rewrite <- O1 by discriminate; now apply B2|]. right. right. rewrite O2 by exact Hk. now apply B1.
Qed.

(** ** Runs *)
Lemma saves_app c hs hs' d : saves c (hs ++ hs') d = saves c hs d ++ saves c hs' (last (saves c hs d) d).
Proof. revert d. induction hs as [|h hs IH]; intros d; [reflexivity|]. cbn [app saves]. rewrite IH, <- app_assoc, last_app_last. reflexivity. Qed.

Lemma rising_snoc kd hs h : rising kd (hs ++ [h]) -> rising kd hs /\ forall x, In x hs -> counted kd x <= counted kd h.
Proof.
  intros H. split.
  - intros a b pre mid post ->. apply (H a b pre mid (post ++ [h])). now rewrite <- !app_assoc, <- !app_comm_cons, <- app_assoc.
  - intros x Hx. apply in_split in Hx as (pre & post & ->). apply (H x h pre post []). now rewrite <- app_assoc.
Qed.
Lemma checkpoints c kd hs d : (kd = KSims \/ kd = KGens) -> 0 < period kd c -> rising kd hs -> of_kind kd d = [] ->
  checkpoint kd (period kd c) hs (of_kind kd (last (saves c hs d) d)).
Proof.
  intros Hkd Hk. set (k := period kd c) in *. revert d. induction hs as [|h hs IH] using rev_ind; intros d Hr Hd.
  - left. split; [exact Hd|intros h []].
  - apply rising_snoc in Hr as (Hr & Hle). specialize (IH d Hr Hd). rewrite saves_app, last_app_last. set (d1 := last (saves c hs d) d) in *. cbn [saves]. rewrite app_nil_r, init_last.
    assert (Hon : one c false kd h (of_kind kd d1) = if negb (existsb (fun f => f_num f =? k * (counted kd h / k)) (of_kind kd d1)) && (0 <? k * (counted kd h / k)) then [mkFile kd (k * (counted kd h / k)) (Whole (snapshot h))] else of_kind kd d1).
    { unfold one. fold k. assert (E : (0 <? k) = true) by now apply Nat.ltb_lt. destruct Hkd as [-> | ->]; rewrite E; cbn [andb orb]; rewrite orb_false_r; reflexivity. }
    rewrite Hon. clear Hon. set (M := counted kd h / k). assert (HM1 : M * k <= counted kd h) by (rewrite Nat.mul_comm; apply Nat.mul_div_le; lia).
    assert (HM2 : counted kd h < (M + 1) * k) by (rewrite Nat.mul_comm, Nat.add_1_r; apply Nat.mul_succ_div_gt; lia). rewrite (Nat.mul_comm k M).
    destruct IH as [(E & Hlt)|(pre & h0 & post & m & E & Hm & H1 & H2 & H3 & E4)].
    + rewrite E. cbn [existsb negb andb]. destruct (Nat.ltb_spec 0 (M * k)) as [H0|H0].
      * right. exists hs, h, [], M. split; [reflexivity|]. split; [lia|]. split; [|split; [exact HM1|split; [|reflexivity]]].
        -- intros x Hx. apply Hlt in Hx. destruct M; nia.
        -- intros x [<-|[]]. exact HM2.
      * left. split; [reflexivity|]. intros x Hx. apply in_app_iff in Hx as [Hx|[<-|[]]]; [auto|]. assert (M = 0) by nia. lia.
    + rewrite E4. cbn [existsb f_num]. rewrite orb_false_r. assert (Hge : counted kd h0 <= counted kd h) by (apply Hle; rewrite E; apply in_elt).
      assert (HmM : m <= M) by nia. destruct (Nat.eqb_spec (m * k) (M * k)) as [Em|Em]; cbn [negb andb].
      * assert (M = m) by nia. subst M. right. exists pre, h0, (post ++ [h]), m. split; [rewrite E; now rewrite <- app_assoc|]. repeat split; auto. intros x Hx. rewrite app_comm_cons in Hx. apply in_app_iff in Hx as [Hx|[<-|[]]]; [auto|]. congruence.
      * destruct (Nat.ltb_spec 0 (M * k)) as [H0|H0]; [|nia]. right. exists hs, h, [], M. split; [reflexivity|]. split; [nia|]. split; [|split; [exact HM1|split; [|reflexivity]]].
        -- intros x Hx. rewrite E in Hx. assert (m < M) by nia. apply in_app_iff in Hx as [Hx|Hx]; [apply H1 in Hx; nia|apply H3 in Hx; nia].
        -- intros x [<-|[]]. exact HM2.
Qed.
Lemma checkpoint_one kd k hs fs : checkpoint kd k hs fs -> fs = [] \/ exists f, fs = [f].
Proof. intros [(-> & _)|(pre & h & post & m & _ & _ & _ & _ & _ & ->)]; eauto. Qed.

Lemma saves_states c hs d x : In x (saves c hs d) -> exists pre h post, hs = pre ++ h :: post /\ In x (init_every_k_save c false h (last (saves c pre d) d)).
Proof.
  revert d. induction hs as [|h hs IH]; intros d H; [destruct H|]. cbn [saves] in H. apply in_app_iff in H as [H|H].
  - exists [], h, hs. split; [reflexivity|exact H].
  - apply IH in H as (pre & h' & post & -> & H). exists (h :: pre), h', post. split; [reflexivity|]. cbn [saves]. now rewrite last_app_last.
Qed.

(** ** Counts rise along a run *)
Lemma hstep_counts o h h' : h_index h <= length (h_rows h) -> hstep o h = (h', None) -> h_index h <= h_index h' /\ h_ended h <= h_ended h' /\ h_index h' <= length (h_rows h').
Proof.
  intros Hi E. destruct o; cbn [hstep] in E.
  - destruct (x_in_index _ _ _ _ _ _ Hi E). assert (C := x_in_counts gw D gs t h). rewrite E in C. cbn in C. lia.
  - assert (F := hf_frame inds ret kill t h). cbn zeta in F. rewrite E in F. cbn [fst snd] in F. destruct F as (F1 & F2 & _ & _ & _ & _ & _ & _ & _ & _ & _ & F3 & _). destruct (F3 eq_refl). lia.
  - assert (F := x_out_frame inds w kill t h). cbn zeta in F. rewrite E in F. cbn [fst snd] in F. destruct F as (F1 & F2 & _ & _ & F3 & _). lia.
  - assert (F := to_gen_frame inds t h). cbn zeta in F. rewrite E in F. cbn [fst snd] in F. destruct F as (F1 & F2 & _ & _ & F3 & _). lia.
  - assert (F := kill_frame h). cbn zeta in F. cbn in E. rewrite E in F. cbn [fst snd] in F. destruct F as (F1 & F2 & _ & _ & F3 & _). lia.
Qed.
