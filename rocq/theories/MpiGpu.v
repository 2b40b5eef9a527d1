(** GPUs of workers with disjoint teams. *)
From Coq Require Import String.
From Verif Require Import Base BaseLemmas RsetModel RsetSpec RsetProofs RsetLayout RsetWalk RsetGroups MpiModel MpiSpec MpiProofs MpiLayout.
Local Notation length := List.length.
Local Open Scope nat_scope.

(** The sets on one node have consecutive numbers. *)
Lemma dup_interval (l : list node) k m x : NoDup l -> forall i0, exists b, forall j, nth_error (dup_from k m i0 l) j = Some x -> b <= j < b + (k + (if 0 <? m then 1 else 0)).
Proof.
  induction l as [|y l IH]; intros Hn i0; [exists 0; intros [|j]; discriminate|]. inversion Hn as [|y0 l0 Hni Hnl]; subst.
  set (r := if i0 <? m then k + 1 else k). assert (Hr : r <= k + (if 0 <? m then 1 else 0)) by (unfold r; destruct (Nat.ltb_spec i0 m), (Nat.ltb_spec 0 m); lia).
  assert (E : dup_from k m i0 (y :: l) = repeat y r ++ dup_from k m (S i0) l) by apply dup_cons. rewrite E.
  destruct (IH Hnl (S i0)) as (b & Hb). destruct (string_dec x y) as [->|Hxy].
  - exists 0. intros j Hj. destruct (Nat.lt_ge_cases j r); [lia|]. rewrite nth_error_app2 in Hj by (rewrite repeat_length; auto). apply nth_error_In in Hj. apply dup_In in Hj. contradiction.
  - exists (r + b). intros j Hj. destruct (Nat.lt_ge_cases j r) as [Hlt|Hge].
    + rewrite nth_error_app1 in Hj by (rewrite repeat_length; auto). apply nth_error_In in Hj. apply repeat_spec in Hj. congruence.
    + rewrite nth_error_app2 in Hj by (rewrite repeat_length; auto). rewrite repeat_length in Hj. apply Hb in Hj. lia.
Qed.

Lemma mod_close a b n : n <> 0 -> a mod n = b mod n -> (exists c, c <= a < c + n /\ c <= b < c + n) -> a = b.
Proof.
  intros Hn E (c & Ha & Hb). assert (Da := Nat.div_mod a n Hn). assert (Db := Nat.div_mod b n Hn).
  assert (a / n = b / n); [|nia]. destruct (Nat.lt_trichotomy (a / n) (b / n)) as [H|[H|H]]; [|exact H|]; exfalso; nia.
Qed.

Lemma slots_inj r nodes sl loc x i j s : NoDup nodes -> get_split_list r nodes = Ok (sl, loc) ->
  In s (slots_of sl (ceil_div r (length nodes)) x i) -> In s (slots_of sl (ceil_div r (length nodes)) x j) -> i = j.
Proof.
  intros Hnd Hs Hi Hj. assert (Hon : forall q, In s (slots_of sl (ceil_div r (length nodes)) x q) -> In x (nth q sl [])).
  { intros q. unfold slots_of. destruct (nth q sl []) as [|m [|m' ns]]; [intros []| |].
    - destruct (String.eqb_spec x m) as [->|]; [intros _; now left|intros []].
    - intros H. apply in_map_iff in H as (z & _ & Hz). apply filter_In in Hz as (Hz & Ez). apply String.eqb_eq in Ez. now subst. }
  assert (Oi := Hon i Hi). assert (Oj := Hon j Hj). destruct (split_list_fair _ _ _ _ Hnd Hs) as (L1 & _ & F1 & F2).
  destruct (Nat.le_gt_cases (length nodes) r) as [Hle|Hlt].
  - assert (Hz : length nodes <> 0 /\ r <> 0). { unfold get_split_list in Hs. destruct (Nat.eqb_spec r 0); [discriminate|]. destruct (Nat.eqb_spec (length nodes) 0); [discriminate|]. auto. }
    assert (Hne : nodes <> []) by (intros ->; cbn in Hz; lia).
    set (k := r / length nodes). set (m := r mod length nodes). set (d := dup_from k m 0 nodes).
    assert (Ed : length d = r) by (apply expand_length; exact Hne).
    assert (Esl : sl = map (fun y => [y]) d).
    { unfold get_split_list in Hs. destruct (Nat.eqb_spec r 0); [lia|]. destruct (Nat.eqb_spec (length nodes) 0); [lia|]. destruct (Nat.leb_spec (length nodes) r); [|lia].
      rewrite expand_eq in Hs. injection Hs as <- _. fold k m. fold d. rewrite <- Ed. apply best_split_same. }
    assert (Hnth : forall q, In x (nth q sl []) -> nth_error d q = Some x /\ nth q sl [] = [x]).
    { intros q Hq. rewrite Esl in *. destruct (nth_error d q) as [y|] eqn:Ey.
      - assert (nth q (map (fun y => [y]) d) [] = [y]) as En by (apply nth_error_nth; rewrite nth_error_map, Ey; reflexivity). rewrite En in *. destruct Hq as [->|[]]. auto.
      - apply nth_error_None in Ey. rewrite nth_overflow in Hq by (rewrite map_length; auto). destruct Hq. }
    destruct (Hnth i Oi) as (Di & Ni). destruct (Hnth j Oj) as (Dj & Nj). unfold slots_of in Hi, Hj. rewrite Ni in Hi. rewrite Nj in Hj. rewrite String.eqb_refl in *.
    destruct Hi as [Hi|[]]. destruct Hj as [Hj|[]]. apply (mod_close i j (ceil_div r (length nodes))).
    + unfold ceil_div. assert (1 <= r / length nodes) by (apply Nat.div_str_pos; lia). lia.
    + congruence.
    + destruct (dup_interval nodes k m x Hnd 0) as (b & Hb). exists b. unfold ceil_div. fold k m. split; apply Hb; assumption.
  - destruct (F2 Hlt) as (H1 & _). apply (concat_nth_inj sl x); auto. now rewrite H1.
Qed.

(** ** GPU numbers *)
Lemma NoDup_app_intro {A} (a b : list A) : NoDup a -> NoDup b -> (forall x, In x a -> In x b -> False) -> NoDup (a ++ b).
Proof.
  induction a as [|x a IH]; intros Ha Hb Hd; [exact Hb|]. inversion Ha; subst. cbn. constructor.
  - intros Hx. apply in_app_or in Hx as [Hx|Hx]; [contradiction|]. apply (Hd x); [now left|exact Hx].
  - apply IH; auto. intros y Hy1 Hy2. apply (Hd y); [now right|exact Hy2].
Qed.

Lemma firstn_incl {A} n (l : list A) x : In x (firstn n l) -> In x l.
Proof. intros H. rewrite <- (firstn_skipn n l). apply in_or_app. auto. Qed.

Lemma gpu_ids_In on mult lim z : In z (gpu_ids on mult lim) -> exists s, In s on /\ s * mult <= z < s * mult + mult.
Proof. unfold gpu_ids. intros H. apply firstn_incl in H. apply in_flat_map in H as (s & Hs & Hz). apply in_seq in Hz. eauto. Qed.

Lemma gpu_slot_unique s t mult z : s * mult <= z < s * mult + mult -> t * mult <= z < t * mult + mult -> s = t.
Proof. intros H1 H2. destruct (Nat.lt_trichotomy s t) as [H|[H|H]]; [|exact H|]; exfalso; nia. Qed.

Lemma gpu_ids_NoDup on mult lim : NoDup on -> NoDup (gpu_ids on mult lim).
Proof.
  intros H. unfold gpu_ids. apply firstn_NoDup. induction on as [|s on IH]; cbn; [constructor|]. inversion H; subst.
  apply NoDup_app_intro; [apply seq_NoDup|auto|]. intros z H1 H4. apply in_seq in H1. apply in_flat_map in H4 as (t & Ht & Hz). apply in_seq in Hz. assert (s = t) by (eapply gpu_slot_unique; eauto). subst. contradiction.
Qed.

Lemma gpu_ids_length on mult lim : (0 <= lim <= Z.of_nat (length on * mult))%Z -> length (gpu_ids on mult lim) = Z.to_nat lim.
Proof.
  intros H. unfold gpu_ids. rewrite firstn_length. assert (E : length (flat_map (fun i => seq (i * mult) mult) on) = length on * mult).
  { clear. induction on as [|s on IH]; [reflexivity|]. cbn [flat_map length]. rewrite app_length, seq_length, IH. lia. }
  rewrite E. lia.
Qed.

(** Slots of one worker. *)
Lemma flat_NoDup {A B} (f : A -> list B) l : NoDup l -> (forall a, In a l -> NoDup (f a)) -> (forall a b z, In a l -> In b l -> In z (f a) -> In z (f b) -> a = b) -> NoDup (flat_map f l).
Proof.
  induction l as [|a l IH]; intros Hn H1 H2; cbn; [constructor|]. inversion Hn; subst. apply NoDup_app_intro; [apply H1; now left|apply IH; auto; intros|].
  - apply H1. now right.
  - apply (H2 a0 b z); auto; now right.
  - intros z Ha Hb. apply in_flat_map in Hb as (b & Hb & Hz). assert (a = b) by (apply (H2 a b z); auto; [now left|now right]). subst. contradiction.
Qed.

Lemma slots_of_NoDup sl pn x i : NoDup (nth i sl []) -> NoDup (slots_of sl pn x i).
Proof.
  intros H. assert (L := slots_count sl pn x i H). destruct (slots_of sl pn x i) as [|a [|b l]]; [constructor|repeat constructor; intros []|]. destruct (on_set sl x i); discriminate.
Qed.

(** Two workers with disjoint teams. *)
Lemma gpus_disjoint nw p t1 t2 w1 w2 on1 on2 x l1 l2 z : NoDup (p_nodes p) -> worker_view nw p t1 = Ok w1 -> worker_view nw p t2 = Ok w2 ->
  (forall i, In i t1 -> In i t2 -> False) -> In x (w_nodes w1) -> In x (w_nodes w2) -> w_on_node w1 = Some on1 -> w_on_node w2 = Some on2 ->
  In z (gpu_ids on1 (w_gpus w1) l1) -> In z (gpu_ids on2 (w_gpus w2) l2) -> False.
Proof.
  intros Hnd V1 V2 Hd X1 X2 O1 O2 Z1 Z2.
  destruct (view_spec _ _ _ _ Hnd V1) as (m & loc & A1 & A2 & A3 & A4 & A5 & A6 & A7 & A8 & A9).
  destruct (view_spec _ _ _ _ Hnd V2) as (m' & loc' & B1 & B2 & B3 & B4 & B5 & B6 & B7 & B8 & B9). assert (m' = m) by congruence. subst m'.
  rewrite B9 in Z2. rewrite A9 in Z1. destruct (A7 _ O1) as (_ & A7'). destruct (B7 _ O2) as (_ & B7'). rewrite <- (A7' x X1) in Z1. rewrite <- (B7' x X2) in Z2.
  apply gpu_ids_In in Z1 as (s & S1 & S2). apply gpu_ids_In in Z2 as (s' & S1' & S2'). assert (s = s') by (eapply gpu_slot_unique; eauto). subst s'.
  apply in_flat_map in S1 as (i & I1 & I2). apply in_flat_map in S1' as (j & J1 & J2).
  destruct (rman_init_spec _ _ _ A1) as (_&_&_&_&_&_&_&_&_&_&_&Ep&_). rewrite Ep in *. assert (i = j) by exact (slots_inj _ _ _ _ x i j s Hnd A2 I2 J2). subst j. eauto.
Qed.

Lemma gpus_own nw p t w on x per : NoDup (p_nodes p) -> worker_view nw p t = Ok w -> NoDup t -> In x (w_nodes w) -> w_on_node w = Some on ->
  NoDup (gpu_ids on (w_gpus w) per) /\ ((0 <= per <= gpu_share w (length on))%Z -> length (gpu_ids on (w_gpus w) per) = Z.to_nat per).
Proof.
  intros Hnd V Hn X O. destruct (view_spec _ _ _ _ Hnd V) as (m & loc & A1 & A2 & A3 & A4 & A5 & A6 & A7 & A8 & A9). destruct (A7 _ O) as (_ & A7'). specialize (A7' x X). split.
  - apply gpu_ids_NoDup. rewrite <- A7'. apply flat_NoDup; [exact Hn| |].
    + intros i Hi. apply slots_of_NoDup. apply (sets_NoDup _ _ _ _ Hnd A2).
    + intros i j z Hi Hj Zi Zj. destruct (rman_init_spec _ _ _ A1) as (_&_&_&_&_&_&_&_&_&_&_&Ep&_). rewrite Ep in *. exact (slots_inj _ _ _ _ x i j z Hnd A2 Zi Zj).
  - intros Hp. apply gpu_ids_length. unfold gpu_share in Hp. destruct (w_has_gpus w); lia.
Qed.

(** The GPUs exist when the sets divide evenly and all are GPU sets. *)
Lemma gpus_exist nw p t w on x per z m : NoDup (p_nodes p) -> worker_view nw p t = Ok w -> In x (w_nodes w) -> w_on_node w = Some on -> rman_init nw p = Ok m ->
  p_gpus_per_group p = None -> (total_rsets nw p mod length (p_nodes p) = 0 \/ total_rsets nw p < length (p_nodes p)) ->
  (forall i r, In i t -> nth_error (rm_rsets m) i = Some r -> rs_gpu r = true) -> In z (gpu_ids on (w_gpus w) per) -> z < p_gpus_per_node p.
Proof.
  intros Hnd V X O Hi Hgg Hev Hg Hz. destruct (view_spec _ _ _ _ Hnd V) as (m' & loc & A1 & A2 & A3 & A4 & A5 & A6 & A7 & A8 & A9). assert (m' = m) by congruence. subst m'.
  destruct (A7 _ O) as (_ & A7'). specialize (A7' x X). apply gpu_ids_In in Hz as (s & S1 & S2). rewrite <- A7' in S1. apply in_flat_map in S1 as (i & I1 & I2).
  destruct (rman_init_spec _ _ _ Hi) as (L & Z1 & Z2 & _ & _ & Hgpu & _ & _ & _ & _ & _ & Ep & Eg & _).
  assert (Hls : length (rm_split m) = total_rsets nw p) by (destruct (split_list_fair _ _ _ _ Hnd A2) as (? & _); auto).
  assert (Hir : i < length (rm_rsets m)) by (rewrite L, <- Hls; auto).
  assert (Hpn : rm_per_node m <> 0).
  { rewrite Ep. unfold ceil_div. destruct (p_nodes p) as [|n0 ns]; [congruence|]. assert (Hd := Nat.div_mod (total_rsets nw p) (length (n0 :: ns)) ltac:(discriminate)).
    destruct (Nat.ltb_spec 0 (total_rsets nw p mod length (n0 :: ns))); [lia|]. intros Hq. assert (total_rsets nw p / length (n0 :: ns) = 0) by lia. nia. }
  destruct (nth_error (rm_rsets m) i) as [r|] eqn:Er; [|apply nth_error_None in Er; lia].
  assert (Hgr := Hg i r I1 Er). rewrite (Hgpu r (nth_error_In _ _ Er)) in Hgr. apply Nat.ltb_lt in Hgr.
  assert (Hs : s < p_gpus_per_node p /\ s < rm_per_node m).
  { destruct Hev as [Hev|Hlt].
    - assert (Hpl := even_layout _ _ _ Hnd Hgg Hi Hev i Hir). unfold places in Hpl. rewrite nth_error_map, Er in Hpl. cbn in Hpl. injection Hpl as _ Hpl.
      assert (Hsi : s = i mod rm_per_node m \/ s = 0).
      { unfold slots_of in I2. destruct (nth i (rm_split m) []) as [|n [|n' ns]]; [destruct I2| |].
        - destruct (String.eqb x n); [|destruct I2]. destruct I2 as [<-|[]]. auto.
        - apply in_map_iff in I2 as (? & <- & _). auto. }
      assert (Hb := Nat.mod_upper_bound i (rm_per_node m) Hpn). destruct Hsi as [->| ->]; lia.
    - assert (E1 : rm_per_node m = 1). { rewrite Ep. unfold ceil_div. rewrite Nat.div_small, Nat.mod_small by lia. destruct (Nat.ltb_spec 0 (total_rsets nw p)); lia. }
      assert (s = 0); [|lia]. unfold slots_of in I2. rewrite E1 in I2. destruct (nth i (rm_split m) []) as [|n [|n' ns]]; [destruct I2| |].
      + destruct (String.eqb x n); [|destruct I2]. destruct I2 as [<-|[]]. apply Nat.mod_1_r.
      + now apply in_map_iff in I2 as (? & <- & _). }
  rewrite A9 in S2. rewrite Eg in S2. set (g := Nat.min (p_gpus_per_node p) (rm_per_node m)) in *. destruct (Nat.eqb_spec g 0) as [E0|E0]; [unfold g in E0; lia|].
  assert (s < g) by (unfold g; lia). assert (Hd := Nat.div_mod (p_gpus_per_node p) g E0). nia.
Qed.
