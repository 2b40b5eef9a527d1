(** Slots, cores and GPUs of workers with disjoint teams. *)
From Coq Require Import String.
From Verif Require Import Base BaseLemmas RsetModel RsetSpec RsetProofs RsetLayout RsetWalk RsetGroups MpiModel MpiSpec MpiProofs.
Local Notation length := List.length.
Local Open Scope nat_scope.

Lemma mem_node_In x l : mem_node x l = true <-> In x l.
Proof.
  unfold mem_node. rewrite existsb_exists. split; [intros (y & Hy & E); apply String.eqb_eq in E; now subst|].
  intros H. exists x. split; auto. apply String.eqb_refl.
Qed.

(** ** Slot dictionaries *)
Definition slots_of (sl : list (list node)) (pn : nat) (n : node) (i : nat) : list nat :=
  match nth i sl [] with
  | [m] => if String.eqb n m then [i mod pn] else []
  | ns => map (fun _ => 0) (filter (String.eqb n) ns)
  end.

Lemma push_many ns : forall d, fold_left (fun d n => push_slot n 0 d) ns d =
  map (fun p => (fst p, snd p ++ map (fun _ => 0) (filter (String.eqb (fst p)) ns))) d.
Proof.
  induction ns as [|n ns IH]; intros d; cbn [fold_left filter map].
  - rewrite <- (map_id d) at 1. apply map_ext. intros [x s]. cbn. now rewrite app_nil_r.
  - rewrite IH. unfold push_slot. rewrite map_map. apply map_ext. intros [x s]. cbn [fst snd].
    destruct (String.eqb x n); cbn [fst snd map]; [now rewrite <- app_assoc|reflexivity].
Qed.

Lemma fold_team sl pn : forall team d, fold_left (team_slots sl pn) team d =
  map (fun p => (fst p, snd p ++ flat_map (slots_of sl pn (fst p)) team)) d.
Proof.
  induction team as [|i team IH]; intros d; cbn [fold_left flat_map].
  - rewrite <- (map_id d) at 1. apply map_ext. intros [x s]. cbn. now rewrite app_nil_r.
  - rewrite IH. unfold team_slots at 1. destruct (nth i sl []) as [|n [|n' ns]] eqn:E.
    + apply map_ext. intros [x s]. cbn [fst snd]. assert (Hs : slots_of sl pn x i = []) by (unfold slots_of; now rewrite E). now rewrite Hs.
    + unfold push_slot. rewrite map_map. apply map_ext. intros [x s]. cbn [fst snd].
      assert (Hs : slots_of sl pn x i = if String.eqb x n then [i mod pn] else []) by (unfold slots_of; now rewrite E). rewrite Hs.
      destruct (String.eqb x n); cbn [fst snd]; [now rewrite <- app_assoc|reflexivity].
    + rewrite push_many, map_map. apply map_ext. intros [x s]. cbn [fst snd].
      assert (Hs : slots_of sl pn x i = map (fun _ => 0) (filter (String.eqb x) (n :: n' :: ns))) by (unfold slots_of; now rewrite E). rewrite Hs, <- app_assoc. reflexivity.
Qed.

Lemma local_nodelist_gen team sl pn nl d : get_local_nodelist team sl pn = Ok (nl, d) ->
  (forall i, In i team -> i < length sl) /\ NoDup nl /\ (forall n, In n nl <-> exists i, In i team /\ In n (nth i sl [])) /\
  d = map (fun n => (n, flat_map (slots_of sl pn n) team)) nl.
Proof.
  unfold get_local_nodelist. destruct (forallb _ team) eqn:F; [|discriminate]. intros H. injection H as <- <-.
  destruct (uniq_spec (flat_map (fun i => nth i sl []) team) []) as [U1 U2]. split; [|split; [exact U1|split]].
  - intros i Hi. rewrite forallb_forall in F. apply F in Hi. now apply Nat.ltb_lt.
  - intros n. rewrite U2, in_flat_map. cbn. firstorder.
  - rewrite fold_team, map_map. reflexivity.
Qed.

Lemma flags_spec first : forall l b e m, slot_flags first l b = (e, m) ->
  (e = true -> forall x s, In (x, s) l -> length s = length first) /\
  (m = true -> b = true /\ e = true /\ forall x s, In (x, s) l -> s = first).
Proof.
  induction l as [|[y t] l IH]; intros b e m; cbn [slot_flags].
  - intros E. injection E as <- <-. split; [intros _ x s []|intros H; repeat split; auto; intros x s []].
  - destruct (Nat.eqb_spec (length t) (length first)) as [El|En]; cbn [negb].
    + intros E. destruct (IH _ _ _ E) as (I1 & I2). split.
      * intros He x s [H|H]; [injection H as <- <-; exact El|eauto].
      * intros Hm. destruct (I2 Hm) as (J1 & J2 & J3). apply andb_true_iff in J1 as (J1 & J4). destruct (list_eq_dec Nat.eq_dec t first); [|discriminate].
        split; [exact J1|]. split; [exact J2|]. intros x s [H|H]; [congruence|eauto].
    + intros E. injection E as <- <-. split; discriminate.
Qed.

Definition on_set (sl : list (list node)) (n : node) (i : nat) : bool := mem_node n (nth i sl []).

Lemma slots_count sl pn n i : NoDup (nth i sl []) -> length (slots_of sl pn n i) = if on_set sl n i then 1 else 0.
Proof.
  intros Hn. unfold slots_of, on_set. assert (G : forall l, NoDup l -> length (filter (String.eqb n) l) = if mem_node n l then 1 else 0).
  { induction l as [|x l IH]; intros H; [reflexivity|]. inversion H; subst. cbn [filter mem_node existsb]. destruct (String.eqb_spec n x) as [->|]; cbn [orb length].
    - rewrite IH by auto. destruct (mem_node x l) eqn:E; [apply mem_node_In in E; contradiction|reflexivity].
    - now apply IH. }
  specialize (G _ Hn). destruct (nth i sl []) as [|m [|m' ns]].
  - reflexivity.
  - rewrite <- G. cbn. destruct (String.eqb n m); reflexivity.
  - rewrite map_length. exact G.
Qed.

Lemma slots_total sl pn n team : (forall i, In i team -> NoDup (nth i sl [])) -> length (flat_map (slots_of sl pn n) team) = countb (on_set sl n) team.
Proof.
  intros H. unfold countb. induction team as [|i team IH]; [reflexivity|]. cbn [flat_map filter]. rewrite app_length, slots_count by (apply H; now left).
  rewrite IH by (intros; apply H; now right). destruct (on_set sl n i); reflexivity.
Qed.

(** ** Sets on a node *)
Lemma NoDup_app_l {A} (a b : list A) : NoDup (a ++ b) -> NoDup a.
Proof. induction a as [|x a IH]; intros H; [constructor|]. inversion H; subst. constructor; auto. intros Hx. apply H2. apply in_or_app. auto. Qed.
Lemma NoDup_app_r {A} (a b : list A) : NoDup (a ++ b) -> NoDup b.
Proof. induction a as [|x a IH]; intros H; [exact H|]. inversion H; subst. auto. Qed.
Lemma NoDup_concat_in {A} (l : list (list A)) s : NoDup (concat l) -> In s l -> NoDup s.
Proof.
  induction l as [|x l IH]; intros H Hi; [destruct Hi|]. cbn in H. destruct Hi as [-> |Hi]; [now apply NoDup_app_l in H|]. apply NoDup_app_r in H. auto.
Qed.
Lemma NoDup_app_disj {A} (a b : list A) : NoDup (a ++ b) -> forall x, In x a -> In x b -> False.
Proof. induction a as [|y a IH]; intros H x Ha Hb; [destruct Ha|]. inversion H; subst. destruct Ha as [->|Ha]; [apply H2; apply in_or_app; auto|eauto]. Qed.
Lemma concat_nth_inj {A} (l : list (list A)) x : NoDup (concat l) -> forall i j, In x (nth i l []) -> In x (nth j l []) -> i = j.
Proof.
  induction l as [|s l IH]; intros H i j Hi Hj; [destruct i; destruct Hi|]. cbn in H.
  assert (Hd := NoDup_app_disj _ _ H). assert (Hc : forall k, In x (nth k l []) -> In x (concat l)).
  { intros k Hk. destruct (Nat.lt_ge_cases k (length l)) as [Hlt|Hge]; [|rewrite nth_overflow in Hk by auto; destruct Hk]. apply in_concat. exists (nth k l []). split; [now apply nth_In|auto]. }
  destruct i as [|i], j as [|j]; cbn in Hi, Hj; auto.
  - exfalso. eauto.
  - exfalso. eauto.
  - f_equal. apply IH; auto. now apply NoDup_app_r in H.
Qed.

Lemma sets_NoDup r nodes sl loc : NoDup nodes -> get_split_list r nodes = Ok (sl, loc) -> forall i, NoDup (nth i sl []).
Proof.
  intros Hnd Hs i. destruct (split_list_fair _ _ _ _ Hnd Hs) as (L1 & _ & F1 & F2). destruct (Nat.lt_ge_cases i (length sl)) as [Hi|Hi]; [|rewrite nth_overflow by auto; constructor].
  assert (Hin := nth_In sl [] Hi). destruct (Nat.le_gt_cases (length nodes) r) as [Hle|Hlt].
  - destruct (F1 Hle) as (H1 & _). destruct (H1 _ Hin) as (n & -> & _). repeat constructor. intros [].
  - destruct (F2 Hlt) as (H1 & _). eapply NoDup_concat_in; [|exact Hin]. now rewrite H1.
Qed.

Lemma count_seq {A} (f : A -> bool) (l : list A) (d : A) : length (filter f l) = countb (fun i => f (nth i l d)) (seq 0 (length l)).
Proof.
  unfold countb. induction l as [|x l IH]; [reflexivity|]. cbn [length seq filter nth]. rewrite <- seq_shift.
  assert (G : forall (g : nat -> bool) l0, length (filter g (map S l0)) = length (filter (fun i => g (S i)) l0)).
  { intros g. induction l0 as [|y l0 I0]; [reflexivity|]. cbn. destruct (g (S y)); cbn; auto. }
  destruct (f x); cbn [length]; rewrite G; cbn [nth]; rewrite IH; reflexivity.
Qed.

Lemma sets_loc r nodes sl loc n i : NoDup nodes -> get_split_list r nodes = Ok (sl, loc) -> i < length sl -> In n (nth i sl []) -> nth i loc 0 = sets_on sl n /\ In n nodes.
Proof.
  intros Hnd Hs Hi Hn. destruct (split_list_fair _ _ _ _ Hnd Hs) as (L1 & L2 & F1 & F2). assert (Hin := nth_In sl [] Hi).
  destruct (Nat.le_gt_cases (length nodes) r) as [Hle|Hlt].
  - destruct (F1 Hle) as (H1 & _ & _ & H4). destruct (H1 _ Hin) as (m & Em & Hm). rewrite Em in Hn. destruct Hn as [<-|[]]. split; [|exact Hm].
    apply nth_error_nth. apply H4. rewrite <- Em. now apply nth_error_nth'.
  - destruct (F2 Hlt) as (H1 & _). split; [|rewrite <- H1; apply in_concat; eauto].
    assert (El : loc = repeat 1 r). { unfold get_split_list in Hs. destruct (r =? 0); [discriminate|]. destruct (length nodes =? 0); [discriminate|].
      destruct (Nat.leb_spec (length nodes) r); [lia|]. now injection Hs as <- <-. }
    rewrite El. rewrite (nth_indep _ 0 1) by (rewrite repeat_length; lia). rewrite nth_repeat. unfold sets_on. rewrite (count_seq (mem_node n) sl []).
    assert (Hone : forall j, mem_node n (nth j sl []) = true -> j = i). { intros j Hj. apply mem_node_In in Hj. eapply concat_nth_inj; eauto. now rewrite H1. }
    unfold countb. rewrite (filter_ext_in _ (Nat.eqb i)).
    + clear -Hi. symmetry. assert (G : forall n a, a <= i < a + n -> length (filter (Nat.eqb i) (seq a n)) = 1).
      { induction n as [|m IH]; intros a Ha; [lia|]. cbn. destruct (Nat.eqb_spec i a) as [->|].
        - cbn. f_equal. assert (Z : forall k b, a < b -> filter (Nat.eqb a) (seq b k) = []).
          { induction k as [|k IHk]; intros b Hb; [reflexivity|]. cbn. destruct (Nat.eqb_spec a b); [lia|]. apply IHk. lia. }
          rewrite Z by lia. reflexivity.
        - apply IH. lia. }
      apply G. lia.
    + intros j Hj. destruct (mem_node n (nth j sl [])) eqn:E.
      * symmetry. apply Nat.eqb_eq. symmetry. auto.
      * symmetry. apply Nat.eqb_neq. intros <-. apply mem_node_In in Hn. congruence.
Qed.

Lemma disjoint_counts sl n teams : NoDup (concat teams) -> (forall t i, In t teams -> In i t -> i < length sl) ->
  suml (map (countb (on_set sl n)) teams) <= sets_on sl n.
Proof.
  intros Hnd Hr. assert (E : suml (map (countb (on_set sl n)) teams) = countb (on_set sl n) (concat teams)).
  { clear. unfold countb. induction teams as [|t ts IH]; [reflexivity|]. cbn. rewrite filter_app, app_length, IH. reflexivity. }
  rewrite E. unfold sets_on. rewrite (count_seq (mem_node n) sl []). unfold countb. apply NoDup_incl_length; [now apply NoDup_filter|].
  intros i Hi. apply filter_In in Hi as (H1 & H2). apply filter_In. split; [|exact H2]. apply in_concat in H1 as (t & Ht & Hit). apply in_seq. specialize (Hr t i Ht Hit). lia.
Qed.

(** ** What a worker sees *)
Lemma view_spec nw p team w : NoDup (p_nodes p) -> worker_view nw p team = Ok w ->
  exists m loc, rman_init nw p = Ok m /\ get_split_list (total_rsets nw p) (p_nodes p) = Ok (rm_split m, loc) /\
    (forall i, In i team -> i < length (rm_split m)) /\ NoDup (w_nodes w) /\
    (forall n, In n (w_nodes w) <-> exists i, In i team /\ In n (nth i (rm_split m) [])) /\
    (forall c, w_count w = Some c -> w_even w = true /\ forall n, In n (w_nodes w) -> countb (on_set (rm_split m) n) team = c) /\
    (forall on, w_on_node w = Some on -> w_count w = Some (length on) /\ forall n, In n (w_nodes w) -> flat_map (slots_of (rm_split m) (rm_per_node m) n) team = on) /\
    (forall i, In i team -> nth i loc 0 <= w_sets w) /\
    w_gpus w = (if rm_gpu_per_node m =? 0 then 0 else p_gpus_per_node p / rm_gpu_per_node m).
Proof.
  intros Hnd. unfold worker_view. destruct (rman_init nw p) as [m|] eqn:Em; [|discriminate]. cbn [bindr].
  destruct (get_split_list (total_rsets nw p) (p_nodes p)) as [[sl loc]|] eqn:Es; [|discriminate]. cbn [bindr snd].
  assert (sl = rm_split m). { destruct (rman_init_spec _ _ _ Em) as (_&_&_&_&_&_&_&_&_&(loc'&Hs)&_). congruence. } subst sl.
  destruct (get_local_nodelist team (rm_split m) (rm_per_node m)) as [[nl d]|] eqn:El; [|discriminate]. cbn [bindr fst snd].
  destruct (local_nodelist_gen _ _ _ _ _ El) as (L1 & L2 & L3 & L4).
  destruct (set_slot_count d) as [[[[e mt] on] c]|] eqn:Ed; [|discriminate]. destruct team as [|i0 team']; [discriminate|]. remember (i0 :: team') as team eqn:Et.
  intros E. injection E as <-. cbn [w_nodes w_count w_even w_on_node w_sets w_gpus].
  exists m, loc. split; [reflexivity|]. split; [reflexivity|]. split; [exact L1|]. split; [exact L2|]. split; [exact L3|].
  unfold set_slot_count in Ed. destruct d as [|[y first] d'] eqn:Edd; [discriminate|]. destruct (slot_flags first ((y, first) :: d') true) as [e' m'] eqn:Ef. injection Ed as <- <- <- <-.
  destruct (flags_spec _ _ _ _ _ Ef) as (F1 & F2).
  assert (Hd : forall n, In n nl -> In (n, flat_map (slots_of (rm_split m) (rm_per_node m) n) team) ((y, first) :: d')).
  { intros n Hn. rewrite L4. apply in_map_iff. eauto. }
  assert (Hnn := sets_NoDup _ _ _ _ Hnd Es).
  split; [|split; [|split; [|reflexivity]]].
  - intros c Hc. destruct e'; [|discriminate]. injection Hc as <-. split; [reflexivity|]. intros n Hn. rewrite <- (F1 eq_refl _ _ (Hd n Hn)). symmetry. apply slots_total. auto.
  - intros on Hon. destruct m'; [|discriminate]. injection Hon as <-. destruct (F2 eq_refl) as (_ & -> & F3). split; [reflexivity|]. intros n Hn. exact (F3 _ _ (Hd n Hn)).
  - intros i Hi. assert (G : forall l x, In x l -> x <= maxl l). { clear. induction l as [|z l IH]; intros x H; cbn; [destruct H|]. destruct H as [->|H]; [lia|]. specialize (IH x H). lia. }
    apply G. apply in_map_iff. eauto.
Qed.

(** ** Cores *)
Local Open Scope Z_scope.

Lemma cores_bound (cores s : Z) (l : list Z) (cs : list nat) : 0 <= cores -> 0 < s -> Forall2 (fun k c => k <= cores / s * Z.of_nat c) l cs ->
  Z.of_nat (suml cs) <= s -> fold_right Z.add 0 l <= cores.
Proof.
  intros Hc Hs HF Hsum. assert (Hq : 0 <= cores / s) by (apply Z.div_pos; lia).
  assert (H : fold_right Z.add 0 l <= cores / s * Z.of_nat (suml cs)).
  { clear Hsum. induction HF as [|k c l cs H HF IH]; cbn; [lia|]. rewrite Nat2Z.inj_add. nia. }
  assert (Hm := Z.mul_div_le cores s Hs). nia.
Qed.

Lemma core_bounded w cores enforce p n k P N K c : usable w c -> get_resources w cores enforce p n k = Ok (P, N, K) ->
  (enforce = true \/ ~ isset p /\ ~ isset k) -> K <= core_share w cores c.
Proof.
  intros (_ & _ & Hc & _) E H. apply resources_spec in E as (c' & (_ & _ & Hc' & _) & _ & _ & He & Hd & _). assert (c' = c) by congruence. subst c'.
  destruct H as [H|(H1 & H2)]; [apply He in H; tauto|]. destruct (Hd H1 H2). lia.
Qed.

Lemma div_antitone a b c : 0 <= a -> 0 < b <= c -> a / c <= a / b.
Proof. intros Ha Hb. apply Z.div_le_compat_l; lia. Qed.

Lemma task_ranks nw p cores team s x : NoDup (p_nodes p) -> 0 <= cores -> bounded_task nw p cores team s ->
  exists m loc, rman_init nw p = Ok m /\ get_split_list (total_rsets nw p) (p_nodes p) = Ok (rm_split m, loc) /\ (forall i, In i team -> (i < length (rm_split m))%nat) /\
    ranks x s <= cores / Z.max 1 (Z.of_nat (sets_on (rm_split m) x)) * Z.of_nat (countb (on_set (rm_split m) x) team).
Proof.
  intros Hnd Hc (w & r & en & ps & n & k & g & au & mt & Hv & Sp & Sn & Sk & Sg & E & Hb).
  destruct (view_spec _ _ _ _ Hnd Hv) as (m & loc & V1 & V2 & V3 & V4 & V5 & V6 & V7 & V8 & V9). exists m, loc. split; [exact V1|]. split; [exact V2|]. split; [exact V3|].
  destruct (specs_spec _ _ _ _ _ _ _ _ _ _ _ Sp Sn Sk Sg E) as (P & N & K & c & p1 & n1 & k1 & U & R & HN & HK & S1 & S2 & S3 & _ & _ & _ & _ & _ & _ & _ & HG & _ & Hh & Hm).
  assert (HKc : K <= core_share w cores c).
  { eapply core_bounded; eauto. destruct Hb as [->|(-> & -> & H1 & H2)]; [auto|]. destruct (HG eq_refl eq_refl) as (_ & G1 & G2). auto. }
  assert (Hq : 0 <= cores / Z.max 1 (Z.of_nat (sets_on (rm_split m) x))) by (apply Z.div_pos; lia).
  assert (Hk : ranks x s <= K /\ (0 < ranks x s -> In x (w_nodes w))).
  { assert (Hocc : forall l : list node, existsb (String.eqb x) l = true -> In x l). { intros l H. apply existsb_exists in H as (y & Hy & Ey). apply String.eqb_eq in Ey. now subst. }
    unfold ranks. rewrite Hh, Hm. destruct (r_express r).
    - destruct (s_ppn s) as [k0|]; [|split; [lia|lia]]. assert (k0 = K) by (destruct S3 as [S3|(_ & S3)]; congruence). subst k0.
      destruct (existsb (String.eqb x) (get_hostlist w N)) eqn:Ex; [|split; [lia|lia]]. split; [lia|]. intros _. apply Hocc in Ex. eapply py_first_In; exact Ex.
    - unfold create_machinefile. destruct (machinefile_spec (py_first N (w_nodes w)) (Z.to_nat K)) as (M1 & _); [apply firstn_NoDup; exact V4|]. rewrite M1.
      destruct (existsb (String.eqb x) (py_first N (w_nodes w))) eqn:Ex; [|split; [lia|lia]]. split; [lia|]. intros _. apply Hocc in Ex. eapply py_first_In; exact Ex.
    - split; lia. }
  destruct Hk as (Hk1 & Hk2). destruct (Z.le_gt_cases (ranks x s) 0) as [Hz|Hpos]; [nia|]. specialize (Hk2 ltac:(lia)).
  assert (Hcnt : w_count w = Some c) by (destruct U as (_ & _ & H & _); exact H). destruct (V6 c Hcnt) as (_ & V6'). rewrite (V6' x Hk2).
  destruct (proj1 (V5 x) Hk2) as (i & Hi & Hix). destruct (sets_loc _ _ _ _ x i Hnd V2 (V3 i Hi) Hix) as (L & _). assert (Hs := V8 i Hi). rewrite L in Hs.
  assert (1 <= sets_on (rm_split m) x)%nat.
  { unfold sets_on. assert (Hf : In (nth i (rm_split m) []) (filter (mem_node x) (rm_split m))) by (apply filter_In; split; [apply nth_In; auto|now apply mem_node_In]).
    destruct (filter (mem_node x) (rm_split m)); [destruct Hf|cbn; lia]. }
  assert (cores / Z.of_nat (w_sets w) <= cores / Z.max 1 (Z.of_nat (sets_on (rm_split m) x))) by (apply div_antitone; lia).
  unfold core_share in HKc. nia.
Qed.

Lemma no_oversubscription nw p cores l x : NoDup (p_nodes p) -> NoDup (concat (map fst l)) -> 0 <= cores ->
  (forall team s, In (team, s) l -> bounded_task nw p cores team s) -> all_ranks x (map snd l) <= cores.
Proof.
  intros Hnd Hd Hc Hl. destruct l as [|[t0 s0] l'] eqn:El; [cbn; lia|].
  destruct (task_ranks nw p cores t0 s0 x Hnd Hc (Hl _ _ (or_introl eq_refl))) as (m & loc & V1 & V2 & _). rewrite <- El in *.
  assert (Hall : forall team s, In (team, s) l -> (forall i, In i team -> (i < length (rm_split m))%nat) /\
    ranks x s <= cores / Z.max 1 (Z.of_nat (sets_on (rm_split m) x)) * Z.of_nat (countb (on_set (rm_split m) x) team)).
  { intros team s Hin. destruct (task_ranks nw p cores team s x Hnd Hc (Hl _ _ Hin)) as (m' & loc' & W1 & _ & W3 & W4). assert (m' = m) by congruence. subst m'. auto. }
  assert (E : all_ranks x (map snd l) = fold_right Z.add 0 (map (fun q => ranks x (snd q)) l)).
  { clear. unfold all_ranks. induction l as [|q l IH]; [reflexivity|]. cbn. now rewrite IH. }
  rewrite E. apply (cores_bound cores (Z.max 1 (Z.of_nat (sets_on (rm_split m) x))) _ (map (fun q => countb (on_set (rm_split m) x) (fst q)) l)); [exact Hc|lia| |].
  - clear -Hall. induction l as [|[t s] l IH]; cbn; constructor; [apply (Hall t s); now left|]. apply IH. intros; apply Hall; now right.
  - assert (H := disjoint_counts (rm_split m) x (map fst l) Hd). rewrite map_map in H. assert (suml (map (fun q => countb (on_set (rm_split m) x) (fst q)) l) <= sets_on (rm_split m) x)%nat; [|lia].
    apply H. intros t i Ht Hi. apply in_map_iff in Ht as ([t' s'] & <- & Hin). cbn in Hi. destruct (Hall _ _ Hin) as (H1 & _). auto.
Qed.
