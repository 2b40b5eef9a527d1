(** * C73: the generator that finds finite-difference parameters asks for the right points

    gen_funcs/persistent_fd_param_finder.py; model in FdModel, vocabulary in FdSpec. *)
From Coq Require Import QArith Permutation.
From Verif Require Import Base BaseLemmas PointsModel FdModel FdSpec.
Local Open Scope nat_scope.

(** ** One batch *)
Lemma in_build_pair {V} (u : fd_user V) h i j r :
  In r (build_pair u h (i, j)) <-> exists k, k <= u_nf u /\ k <> u_nf u / 2 /\ r = mkrow (shifted (u_x0 u) i ((Qn k - Qn (u_nf u) / 2) * h i j)%Q) i j k.
Proof.
  unfold build_pair. rewrite in_flat_map. split.
  - intros (k & Hk & h1). apply in_seq in Hk. destruct (k =? u_nf u / 2) eqn:E; [destruct h1|]. destruct h1 as [<-|[]]. apply Nat.eqb_neq in E. exists k. repeat split; [lia | exact E].
  - intros (k & Hk & Hn & ->). exists k. split; [apply in_seq; lia|]. apply Nat.eqb_neq in Hn. rewrite Hn. left. reflexivity.
Qed.
Lemma in_build {V} (u : fd_user V) h pairs r :
  In r (build u h pairs) <-> exists i j k, In (i, j) pairs /\ k <= u_nf u /\ k <> u_nf u / 2 /\ r = mkrow (shifted (u_x0 u) i ((Qn k - Qn (u_nf u) / 2) * h i j)%Q) i j k.
Proof.
  unfold build. rewrite in_flat_map. split.
  - intros ((i & j) & Hp & h1). apply in_build_pair in h1 as (k & A & B & C). exists i, j, k. auto.
  - intros (i & j & k & Hp & A & B & C). exists (i, j). split; [exact Hp|]. apply in_build_pair. exists k. auto.
Qed.
Definition key (r : fd_row) : nat * nat * nat := (r_i r, r_j r, r_k r).
Lemma NoDup_build {V} (u : fd_user V) h pairs : NoDup pairs -> NoDup (map key (build u h pairs)).
Proof.
  induction 1 as [|[i j] pairs Hn _ IH]; cbn [build flat_map]; [constructor|]. rewrite map_app.
  assert (P : NoDup (map key (build_pair u h (i, j)))).
  { unfold build_pair. generalize (seq_NoDup (u_nf u + 1) 0). generalize (seq 0 (u_nf u + 1)). induction 1 as [|k l Hk _ IHl]; cbn [flat_map]; [constructor|].
    destruct (k =? u_nf u / 2); [exact IHl|]. cbn [app map]. constructor; [|exact IHl]. intros h1. apply in_map_iff in h1 as (r & E & h1).
    apply in_flat_map in h1 as (k' & h1 & h2). destruct (k' =? u_nf u / 2); [destruct h2|]. destruct h2 as [<-|[]]. unfold key in E. cbn in E. injection E as ->. contradiction. }
  revert P. assert (D : forall q, In q (map key (build_pair u h (i, j))) -> ~ In q (map key (flat_map (build_pair u h) pairs))).
  { intros q h1 h2. apply in_map_iff in h1 as (r & <- & h1), h2 as (r' & E & h2). apply in_build_pair in h1 as (k & _ & _ & ->).
    apply in_build in h2 as (i' & j' & k' & h2 & _ & _ & ->). unfold key in E. cbn in E. injection E as -> -> ->. contradiction. }
  induction (map key (build_pair u h (i, j))) as [|q l IHl]; intros P; cbn [app]; [exact IH|]. inversion P; subst. constructor.
  - intros h1. apply in_app_or in h1 as [h1|h1]; [contradiction|]. exact (D q (or_introl eq_refl) h1).
  - apply IHl; [|assumption]. intros q' h1. apply D. right. exact h1.
Qed.
(** A batch has, for each of its pairs (variable i, function j), one point for each place
    but the middle one: x0 with its i-th coordinate moved by (k - nf/2) steps. *)
Theorem C73_batch {V} (u : fd_user V) h pairs : NoDup pairs ->
  (forall r, In r (build u h pairs) <->
     In (r_i r, r_j r) pairs /\ r_k r <= u_nf u /\ r_k r <> u_nf u / 2 /\ length (r_x r) = length (u_x0 u) /\
     forall c, nth_error (r_x r) c =
       if c =? r_i r then option_map (fun x => (x + (Qn (r_k r) - Qn (u_nf u) / 2) * h (r_i r) (r_j r))%Q) (nth_error (u_x0 u) c) else nth_error (u_x0 u) c) /\
  NoDup (map key (build u h pairs)) /\ length (build u h pairs) = length pairs * u_nf u.
Proof.
  intros ND. split; [|split; [apply NoDup_build, ND|]].
  - intros r. rewrite in_build. split.
    + intros (i & j & k & A & B & C & ->). cbn. unfold shifted. rewrite upd_length. repeat split; auto. intros c. rewrite upd_nth, Nat.eqb_sym. reflexivity.
    + intros (A & B & C & D & E). exists (r_i r), (r_j r), (r_k r). repeat split; auto.
      assert (X : r_x r = shifted (u_x0 u) (r_i r) ((Qn (r_k r) - Qn (u_nf u) / 2) * h (r_i r) (r_j r))%Q).
      { apply nth_error_ext. intros c. rewrite E. unfold shifted. rewrite upd_nth, (Nat.eqb_sym (r_i r)). reflexivity. }
      rewrite <- X. destruct r; reflexivity.
  - unfold build. clear ND. induction pairs as [|[i j] pairs IH]; cbn [flat_map length]; [reflexivity|]. rewrite app_length, IH. cbn [Nat.mul]. f_equal.
    unfold build_pair. 
    assert (K : forall m l, NoDup l -> In m l -> forall g : nat -> fd_row, S (length (flat_map (fun k => if k =? m then [] else [g k]) l)) = length l).
    { clear. intros m l ND Hm g.
      assert (N : forall l, ~ In m l -> length (flat_map (fun k => if k =? m then [] else [g k]) l) = length l).
      { clear. induction l as [|k l IH]; intros h; cbn; [reflexivity|]. destruct (k =? m) eqn:E; [apply Nat.eqb_eq in E; subst; destruct h; cbn; auto|]. cbn. rewrite IH; [reflexivity|]. intros q. apply h. cbn. auto. }
      induction ND as [|k l Hk _ IH]; [destruct Hm|]. cbn. destruct (k =? m) eqn:E.
      - apply Nat.eqb_eq in E. subst. cbn. rewrite N by exact Hk. reflexivity.
      - apply Nat.eqb_neq in E. destruct Hm as [->|Hm]; [congruence|]. cbn. rewrite IH by exact Hm. reflexivity. }
    assert (M : In (u_nf u / 2) (seq 0 (u_nf u + 1))) by (apply in_seq; pose proof (Nat.div_le_upper_bound (u_nf u) 2 (u_nf u)); lia).
    pose proof (K _ _ (seq_NoDup (u_nf u + 1) 0) M (fun k => mkrow (shifted (u_x0 u) i ((Qn k - Qn (u_nf u) / 2) * h i j)%Q) i j k)) as L.
    rewrite seq_length in L. lia.
Qed.
Print Assumptions C73_batch.
Example C73_batch_nonvacuous :
  map (fun r => (map Qred (r_x r), key r)) (build (V := Z) (mkuser [1%Q; 2%Q] 1 2 (fun _ _ => (1#10)%Q) 3 (fun _ => 0%Z)) (fun _ _ => (1#10)%Q) [(0, 0); (1, 0)]) =
  [([9#10; 2]%Q, (0, 0, 0)); ([11#10; 2]%Q, (0, 0, 2)); ([1; 19#10]%Q, (1, 0, 0)); ([1; 21#10]%Q, (1, 0, 2))].
Proof. reflexivity. Qed.

(** ** One message *)
Section Step.
Context {V : Type} (ecnoise : list (option V) -> nat * V).
Variables (u : fd_user V) (m : nat).
Hypothesis Hnf : u_nf u = 2 * m.

Lemma middle : u_nf u / 2 = m.
Proof. rewrite Hnf, Nat.mul_comm. apply Nat.div_mul. lia. Qed.
Lemma read_values_spec calc i j (vals : nat -> V) : forall ks hist,
  (forall k, In k ks -> k <> m -> first_value calc i j k = Ok (vals k)) ->
  exists hist', read_values u calc i j ks hist = Ok hist' /\
    forall i' j' k', hist' i' j' k' = if (i' =? i) && (j' =? j) && memb k' ks && negb (k' =? m) then Some (vals k') else hist i' j' k'.
Proof.
  induction ks as [|k ks IH]; intros hist h; cbn [read_values].
  - exists hist. split; [reflexivity|]. intros. cbn. rewrite andb_false_r. reflexivity.
  - rewrite Hnf. destruct (2 * k =? 2 * m) eqn:E.
    + apply Nat.eqb_eq in E. assert (k = m) by lia. subst k. destruct (IH hist) as (hist' & A & B); [intros; apply h; cbn; auto|].
      exists hist'. split; [exact A|]. intros i' j' k'. rewrite B. unfold memb. cbn [existsb]. destruct (k' =? m) eqn:Ek; cbn; [rewrite !andb_false_r; reflexivity|]. reflexivity.
    + apply Nat.eqb_neq in E. rewrite (h k) by (cbn; auto; lia). cbn [bindr].
      destruct (IH (fun i' j' k' => if (i' =? i) && (j' =? j) && (k' =? k) then Some (vals k) else hist i' j' k')) as (hist' & A & B); [intros; apply h; cbn; auto|].
      exists hist'. split; [exact A|]. intros i' j' k'. rewrite B. unfold memb. cbn [existsb]. 
      destruct ((i' =? i) && (j' =? j)); [|reflexivity]. cbn [andb].
      destruct (k' =? k) eqn:Ek; cbn [orb andb]; [|reflexivity]. apply Nat.eqb_eq in Ek. subst k'.
      replace (k =? m) with false by (symmetry; apply Nat.eqb_neq; lia). cbn [negb andb]. destruct (existsb (Nat.eqb k) ks); reflexivity.
Qed.

Variable calc : list (fd_result V).
Variable vals : nat -> nat -> nat -> V.
(** The values an estimate is made from. *)
Definition data (i j : nat) : list (option V) := map (fun k => Some (if k =? m then u_f0 u j else vals i j k)) (seq 0 (u_nf u + 1)).
Definition call_of (ij : nat * nat) : fd_call V := mkcall (fst ij) (snd ij) (data (fst ij) (snd ij)) (fst (ecnoise (data (fst ij) (snd ij)))) (snd (ecnoise (data (fst ij) (snd ij)))).
Definition retry (g : fd_state V) (ij : nat * nat) : bool := (2 <=? c_inform (call_of ij)) && (g_iters g (fst ij) (snd ij) <? u_maxits u).
Definition inp (pairs : list (nat * nat)) (i j : nat) : bool := existsb (fun ij => (fst ij =? i) && (snd ij =? j)) pairs.
Lemma inp_In pairs i j : inp pairs i j = true <-> In (i, j) pairs.
Proof.
  unfold inp. rewrite existsb_exists. split.
  - intros ((a & b) & h & E). apply andb_true_iff in E as [E1 E2]. apply Nat.eqb_eq in E1, E2. cbn in *. subst. exact h.
  - intros h. exists (i, j). split; [exact h|]. cbn. rewrite !Nat.eqb_refl. reflexivity.
Qed.
Lemma do_pairs_spec : forall pairs g, NoDup pairs ->
  (forall i j k, In (i, j) pairs -> k <= u_nf u -> k <> m -> first_value calc i j k = Ok (vals i j k)) ->
  (forall i j, g_hist g i j m = Some (u_f0 u j)) ->
  exists g', do_pairs ecnoise u calc pairs g = Ok (g', map call_of pairs, filter (retry g) pairs) /\
    (forall i j, g_hist g' i j m = Some (u_f0 u j)) /\
    (forall i j, g_h g' i j = if inp pairs i j && retry g (i, j) then (if c_inform (call_of (i, j)) =? 3 then g_h g i j / 100 else g_h g i j * 100)%Q else g_h g i j) /\
    (forall i j, g_iters g' i j = if inp pairs i j && retry g (i, j) then g_iters g i j + 1 else g_iters g i j) /\
    (forall i j, g_inform g' i j = if inp pairs i j then c_inform (call_of (i, j)) else g_inform g i j) /\
    (forall i j, g_noise g' i j = if inp pairs i j && negb (2 <=? c_inform (call_of (i, j))) then Some (c_noise (call_of (i, j))) else g_noise g i j).
Proof.
  induction pairs as [|[i j] pairs IH]; intros g ND Hv Hm; cbn [do_pairs].
  - exists g. cbn. repeat split; auto.
  - inversion ND as [|? ? Hn ND']; subst.
    unfold do_pair at 1. destruct (read_values_spec calc i j (vals i j) (seq 0 (u_nf u + 1)) (g_hist g)) as (hist' & -> & Hh).
    { intros k Hk Hkm. apply in_seq in Hk. apply Hv; [left; reflexivity | lia | exact Hkm]. }
    cbn [bindr].
    assert (D : map (hist' i j) (seq 0 (u_nf u + 1)) = data i j).
    { unfold data. apply map_ext_in. intros k Hk. rewrite Hh, !Nat.eqb_refl. cbn [andb].
      replace (memb k (seq 0 (u_nf u + 1))) with true.
      2: { symmetry. unfold memb. apply existsb_exists. exists k. split; [exact Hk | apply Nat.eqb_refl]. }
      destruct (k =? m) eqn:E; cbn; [apply Nat.eqb_eq in E; subst; apply Hm | reflexivity]. }
    assert (Hm' : forall i' j', hist' i' j' m = Some (u_f0 u j')).
    { intros i' j'. rewrite Hh, (Nat.eqb_refl m). cbn [negb]. rewrite andb_false_r. apply Hm. }
    cbv zeta. rewrite D. destruct (ecnoise (data i j)) as [inform noise] eqn:Ee.
    assert (C : call_of (i, j) = mkcall i j (data i j) inform noise) by (unfold call_of; cbn [fst snd]; rewrite Ee; reflexivity).
    set (g1 := if 2 <=? inform then if g_iters g i j <? u_maxits u
        then mkfd (set2 (g_h g) i j (if inform =? 3 then g_h g i j / 100 else g_h g i j * 100)%Q) (set2 (g_inform g) i j inform) (g_noise g) hist' (set2 (g_iters g) i j (g_iters g i j + 1))
        else mkfd (g_h g) (set2 (g_inform g) i j inform) (g_noise g) hist' (g_iters g)
      else mkfd (g_h g) (set2 (g_inform g) i j inform) (set2 (g_noise g) i j (Some noise)) hist' (g_iters g)).
    assert (Eg : (if 2 <=? inform then if g_iters g i j <? u_maxits u
        then Ok (mkfd (set2 (g_h g) i j (if inform =? 3 then g_h g i j / 100 else g_h g i j * 100)%Q) (set2 (g_inform g) i j inform) (g_noise g) hist' (set2 (g_iters g) i j (g_iters g i j + 1)), mkcall i j (data i j) inform noise, true)
        else Ok (mkfd (g_h g) (set2 (g_inform g) i j inform) (g_noise g) hist' (g_iters g), mkcall i j (data i j) inform noise, false)
      else Ok (mkfd (g_h g) (set2 (g_inform g) i j inform) (set2 (g_noise g) i j (Some noise)) hist' (g_iters g), mkcall i j (data i j) inform noise, false))
      = Ok (g1, mkcall i j (data i j) inform noise, retry g (i, j))).
    { unfold g1, retry. rewrite C. cbn [c_inform fst snd]. destruct (2 <=? inform); [|reflexivity]. destruct (g_iters g i j <? u_maxits u); reflexivity. }
    rewrite Eg. cbn [bindr]. clear Eg.
    assert (G1 : forall i' j',
      g_h g1 i' j' = (if (i =? i') && (j =? j') && retry g (i, j) then (if inform =? 3 then g_h g i j / 100 else g_h g i j * 100)%Q else g_h g i' j') /\
      g_iters g1 i' j' = (if (i =? i') && (j =? j') && retry g (i, j) then g_iters g i j + 1 else g_iters g i' j') /\
      g_inform g1 i' j' = (if (i =? i') && (j =? j') then inform else g_inform g i' j') /\
      g_noise g1 i' j' = (if (i =? i') && (j =? j') && negb (2 <=? inform) then Some noise else g_noise g i' j') /\
      g_hist g1 i' j' m = Some (u_f0 u j')).
    { intros i' j'. unfold g1, retry. rewrite C. cbn [c_inform fst snd].
      rewrite (Nat.eqb_sym i i'), (Nat.eqb_sym j j').
      destruct (2 <=? inform); [destruct (g_iters g i j <? u_maxits u)|]; cbn [g_h g_iters g_inform g_noise g_hist andb negb]; unfold set2;
        rewrite ?andb_true_r, ?andb_false_r; auto using Hm'. }
    assert (R : forall a b, In (a, b) pairs -> retry g1 (a, b) = retry g (a, b)).
    { intros a b h. unfold retry. cbn [fst snd]. destruct (G1 a b) as (_ & -> & _).
      destruct ((i =? a) && (j =? b)) eqn:E; [|reflexivity]. apply andb_true_iff in E as [E1 E2]. apply Nat.eqb_eq in E1, E2. subst. contradiction. }
    destruct (IH g1 ND') as (g' & E' & A1 & A2 & A3 & A4 & A5).
    { intros a b k h. apply Hv. right. exact h. }
    { intros a b. apply G1. }
    rewrite E'. cbn [bindr]. exists g'. split.
    { cbn [map filter]. rewrite C. do 2 f_equal.
      replace (filter (retry g1) pairs) with (filter (retry g) pairs) by (apply filter_ext_in; intros [a b] h; symmetry; apply R, h). reflexivity. }
    split; [exact A1|].
    assert (N : forall a b, (i =? a) && (j =? b) = true -> inp pairs a b = false /\ a = i /\ b = j).
    { intros a b E. apply andb_true_iff in E as [E1 E2]. apply Nat.eqb_eq in E1, E2. subst. split; [|auto]. apply not_true_is_false. intros h. apply inp_In in h. contradiction. }
    assert (NN : forall a b, inp pairs a b = true -> retry g1 (a, b) = retry g (a, b)) by (intros a b h; apply R, inp_In, h).
    repeat split; intros a b.
    + rewrite A2. destruct (G1 a b) as (-> & _). cbn [inp existsb fst snd]. fold (inp pairs a b).
      destruct ((i =? a) && (j =? b)) eqn:E; cbn [orb andb].
      * destruct (N a b E) as (-> & -> & ->). cbn [andb]. rewrite C. reflexivity.
      * destruct (inp pairs a b) eqn:Ei; [rewrite (NN a b Ei); reflexivity | reflexivity].
    + rewrite A3. destruct (G1 a b) as (_ & -> & _). cbn [inp existsb fst snd]. fold (inp pairs a b).
      destruct ((i =? a) && (j =? b)) eqn:E; cbn [orb andb].
      * destruct (N a b E) as (-> & -> & ->). reflexivity.
      * destruct (inp pairs a b) eqn:Ei; [rewrite (NN a b Ei); reflexivity | reflexivity].
    + rewrite A4. destruct (G1 a b) as (_ & _ & -> & _). cbn [inp existsb fst snd]. fold (inp pairs a b).
      destruct ((i =? a) && (j =? b)) eqn:E; cbn [orb].
      * destruct (N a b E) as (-> & -> & ->). rewrite C. reflexivity.
      * reflexivity.
    + rewrite A5. destruct (G1 a b) as (_ & _ & _ & -> & _). cbn [inp existsb fst snd]. fold (inp pairs a b).
      destruct ((i =? a) && (j =? b)) eqn:E; cbn [orb andb].
      * destruct (N a b E) as (-> & -> & ->). rewrite C. reflexivity.
      * reflexivity.
Qed.
End Step.

(** ** A run *)
Lemma in_all_pairs n p i j : In (i, j) (all_pairs n p) <-> i < n /\ j < p.
Proof.
  unfold all_pairs. rewrite in_flat_map. split.
  - intros (a & Ha & h). apply in_map_iff in h as (b & E & Hb). injection E as <- <-. apply in_seq in Ha, Hb. lia.
  - intros [h1 h2]. exists i. split; [apply in_seq; lia|]. apply in_map_iff. exists j. split; [reflexivity | apply in_seq; lia].
Qed.
Lemma NoDup_all_pairs n p : NoDup (all_pairs n p).
Proof.
  unfold all_pairs. generalize (seq_NoDup n 0). generalize (seq 0 n). induction 1 as [|i l Hi _ IH]; cbn [flat_map]; [constructor|].
  assert (D : forall q, In q (map (pair i) (seq 0 p)) -> ~ In q (flat_map (fun i => map (pair i) (seq 0 p)) l)).
  { intros q h1 h2. apply in_map_iff in h1 as (b & <- & _). apply in_flat_map in h2 as (a & Ha & h2). apply in_map_iff in h2 as (b' & E & _). injection E as -> _. contradiction. }
  assert (N : NoDup (map (pair i) (seq 0 p))).
  { generalize (seq_NoDup p 0). generalize (seq 0 p). induction 1 as [|b l' Hb _ IHb]; cbn; constructor; [|exact IHb]. intros h. apply in_map_iff in h as (x & E & h). injection E as ->. contradiction. }
  revert N D. generalize (map (pair i) (seq 0 p)). intros l1. induction l1 as [|q l1 IHl]; intros N D; cbn [app]; [exact IH|]. inversion N; subst. constructor.
  - intros h. apply in_app_or in h as [h|h]; [contradiction|]. exact (D q (or_introl eq_refl) h).
  - apply IHl; [assumption|]. intros q' h1. apply D. right. exact h1.
Qed.

Section Run.
Context {V : Type} (ecnoise : list (option V) -> nat * V) (f : nat -> list Q -> V).
Variables (u : fd_user V) (m : nat).

Lemma after_last_app ev1 : forall ev2 b cs, after_last (V := V) (ev1 ++ ev2) b cs = after_last ev2 (fst (after_last ev1 b cs)) (snd (after_last ev1 b cs)).
Proof. induction ev1 as [|[r|c] ev1 IH]; intros ev2 b cs; cbn; [reflexivity | apply IH | apply IH]. Qed.
Lemma after_last_calls cs : forall b cs0, after_last (V := V) (map FCalled cs) b cs0 = (b, cs0 ++ cs).
Proof. induction cs as [|c cs IH]; intros b cs0; cbn; [rewrite app_nil_r; reflexivity|]. rewrite IH, <- app_assoc. reflexivity. Qed.
Lemma sent_app ev1 ev2 : sent (V := V) (ev1 ++ ev2) = sent ev1 ++ sent ev2.
Proof. apply flat_map_app. Qed.
Lemma calls_app ev1 ev2 : calls (V := V) (ev1 ++ ev2) = calls ev1 ++ calls ev2.
Proof. apply flat_map_app. Qed.
Lemma sent_calls cs : sent (V := V) (map FCalled cs) = [].
Proof. induction cs; cbn; auto. Qed.
Lemma calls_calls cs : calls (V := V) (map FCalled cs) = cs.
Proof. unfold calls. induction cs as [|c cs IH]; cbn; [reflexivity|]. f_equal. exact IH. Qed.

Lemma calls_snoc ev b : calls (V := V) (ev ++ [FSent b]) = calls ev.
Proof. rewrite calls_app. apply app_nil_r. Qed.

(** A call made after the events [ev] has the values of the points of its pair in the last
    batch, each in its place, and the given value in the middle. *)
Definition call_ok (ev : list (fd_event V)) (c : fd_call V) : Prop :=
  length (c_data c) = u_nf u + 1 /\
  nth_error (c_data c) (u_nf u / 2) = Some (Some (u_f0 u (c_j c))) /\
  (forall k, k <= u_nf u -> k <> u_nf u / 2 ->
     exists r, In r (last_batch ev) /\ key r = (c_i c, c_j c, k) /\ nth_error (c_data c) k = Some (Some (f (c_j c) (r_x r)))) /\
  (c_inform c, c_noise c) = ecnoise (c_data c).
(** A batch sent after the events [ev]: there was one call for each pair of the batch
    before, and the batch has the points of the pairs for which the step was wrong and that
    were sent fewer than [maxnoiseits] times, with the corrected step. *)
Definition batch_ok (ev : list (fd_event V)) (b : list fd_row) : Prop :=
  let pair_of c := (c_i c, c_j c) in
  NoDup (map pair_of (recent_calls ev)) /\
  (forall i j, In (i, j) (map pair_of (recent_calls ev)) <-> has_pair i j (last_batch ev) = true) /\
  (forall r, In r b <-> exists c k, In c (recent_calls ev) /\ 2 <= c_inform c /\ times ev (c_i c) (c_j c) < u_maxits u /\
     k <= u_nf u /\ k <> u_nf u / 2 /\
     r = mkrow (shifted (u_x0 u) (c_i c) ((Qn k - Qn (u_nf u) / 2) * step_after (u_h u (c_i c) (c_j c)) ev (c_i c) (c_j c))%Q) (c_i c) (c_j c) k) /\
  NoDup (map key b).
Definition noise_ok (ev : list (fd_event V)) (noise : nat -> nat -> option V) : Prop :=
  forall i j v, noise i j = Some v <-> exists c, In c (calls ev) /\ c_i c = i /\ c_j c = j /\ c_inform c < 2 /\ c_noise c = v.
Definition found (ev : list (fd_event V)) (i j : nat) : Prop := exists c, In c (calls ev) /\ c_i c = i /\ c_j c = j /\ c_inform c = 1.

Hypothesis Hnf : u_nf u = 2 * m.
Hypothesis Hm : 0 < m.

Lemma has_pair_build h pairs i j : has_pair i j (build u h pairs) = true <-> In (i, j) pairs.
Proof.
  unfold has_pair. rewrite existsb_exists. split.
  - intros (r & h1 & E). apply in_build in h1 as (i' & j' & k & h1 & _ & _ & ->). cbn in E. apply andb_true_iff in E as [E1 E2]. apply Nat.eqb_eq in E1, E2. subst. exact h1.
  - intros h1. exists (mkrow (shifted (u_x0 u) i ((Qn 0 - Qn (u_nf u) / 2) * h i j)%Q) i j 0). split.
    + apply in_build. exists i, j, 0. rewrite (middle u m Hnf). repeat split; [exact h1 | lia | lia].
    + cbn. rewrite !Nat.eqb_refl. reflexivity.
Qed.
(** The invariant of the loop; [pairs]: those of the last batch. *)
Record Inv (pre : list (fd_event V)) (g : fd_state V) (pairs : list (nat * nat)) : Prop := mkInv {
  I_nodup : NoDup pairs;
  I_range : forall i j, In (i, j) pairs -> i < length (u_x0 u) /\ j < u_p u;
  I_batch : last_batch pre = build u (g_h g) pairs;
  I_recent : recent_calls pre = [];
  I_mid : forall i j, g_hist g i j m = Some (u_f0 u j);
  I_iters : forall i j, i < length (u_x0 u) -> j < u_p u -> g_iters g i j = times pre i j;
  I_bound : forall i j, times pre i j <= Nat.max 1 (u_maxits u);
  I_step : forall i j, In (i, j) pairs -> g_h g i j = step_after (u_h u i j) pre i j;
  I_noise : noise_ok pre (g_noise g);
  I_inform : forall i j, In (i, j) pairs -> g_noise g i j = None;
  I_one : forall i j, g_inform g i j = 1 -> found pre i j;
}.

Lemma first_value_perm calc b i j k r : Permutation calc (map (answer f) b) -> NoDup (map key b) -> In r b -> key r = (i, j, k) ->
  first_value calc i j k = Ok (f j (r_x r)).
Proof.
  intros P ND Hr K. unfold key in K. injection K as <- <- <-. unfold first_value.
  assert (X : In (answer f r) calc) by (apply (Permutation_in _ (Permutation_sym P)), in_map, Hr).
  destruct (find _ calc) as [s|] eqn:E.
  - apply find_some in E as [h1 h2]. apply (Permutation_in _ P) in h1. apply in_map_iff in h1 as (r' & <- & h1). cbn in h2.
    apply andb_true_iff in h2 as [h2 h4]. apply andb_true_iff in h2 as [h2 h3]. apply Nat.eqb_eq in h2, h3, h4.
    assert (r' = r) as ->; [|reflexivity].
    assert (Kk : key r' = key r) by (unfold key; congruence). revert ND Hr h1 Kk. clear. intros ND Hr h1 Kk.
    apply In_nth_error in Hr as [a Ha], h1 as [c Hc].
    assert (a = c); [|subst; congruence].
    assert (La : a < length (map key b)) by (rewrite map_length; apply nth_error_Some; congruence).
    apply (proj1 (NoDup_nth_error _) ND a c La). rewrite !nth_error_map, Ha, Hc. cbn. congruence.
  - exfalso. pose proof (find_none _ _ E _ X) as h. cbn in h. rewrite !Nat.eqb_refl in h. discriminate.
Qed.

(** What is claimed of the events [ev] and the end [e] of the loop after the events [pre]. *)
Record Good (msgs : list (fd_msg V)) (pre ev : list (fd_event V)) (e : fd_end V) : Prop := mkGood {
  G_ok : forall x, e <> FRaised x;
  G_calls : forall l c r, ev = l ++ FCalled c :: r -> call_ok (pre ++ l) c;
  G_batches : forall l b r, ev = l ++ FSent b :: r -> batch_ok (pre ++ l) b;
  G_times : forall i j, times (pre ++ ev) i j <= Nat.max 1 (u_maxits u);
  G_end : forall h0 noise, e = FReturned h0 noise -> h0 = last_batch (pre ++ ev) /\ noise_ok (pre ++ ev) noise /\
    (~ In FStop msgs -> forall i j, i < length (u_x0 u) -> j < u_p u -> found (pre ++ ev) i j);
}.
Lemma recent_snoc pre cs : recent_calls pre = [] -> last_batch (pre ++ map FCalled cs) = last_batch pre /\ recent_calls (V := V) (pre ++ map FCalled cs) = cs.
Proof.
  intros h. unfold last_batch, recent_calls in *. rewrite after_last_app, after_last_calls. cbn. rewrite h. split; reflexivity.
Qed.
Lemma split_calls cs rest : forall l x r, map (@FCalled V) cs ++ rest = l ++ x :: r ->
  (exists cs1 c cs2, cs = cs1 ++ c :: cs2 /\ l = map FCalled cs1 /\ x = FCalled c) \/ (exists l', l = map FCalled cs ++ l' /\ rest = l' ++ x :: r).
Proof.
  induction cs as [|c cs IH]; intros l x r E; cbn [map app] in E.
  - right. exists l. auto.
  - destruct l as [|y l]; cbn [app] in E; injection E as <- E.
    + left. exists [], c, cs. auto.
    + destruct (IH l x r E) as [(cs1 & c' & cs2 & -> & -> & ->)|(l' & -> & ->)].
      * left. exists (c :: cs1), c', cs2. auto.
      * right. exists l'. auto.
Qed.

Lemma loop_good : forall msgs pre g pairs, Inv pre g pairs ->
  answered f (last_batch pre :: sent (fst (fd_loop ecnoise u g (last_batch pre) msgs))) msgs ->
  Good msgs pre (fst (fd_loop ecnoise u g (last_batch pre) msgs)) (snd (fd_loop ecnoise u g (last_batch pre) msgs)).
Proof.
  induction msgs as [|msg msgs IH]; intros pre g pairs I A; cbn [fd_loop].
  { cbn. constructor; try (intros; discriminate); try (intros [|? ?] * h; discriminate).
    intros i j. rewrite app_nil_r. apply (I_bound _ _ _ I). }
  destruct msg as [|calc].
  { cbn. constructor; try (intros; discriminate); try (intros [|? ?] * h; discriminate).
    - intros i j. rewrite app_nil_r. apply (I_bound _ _ _ I).
    - intros h0 noise E. injection E as <- <-. rewrite app_nil_r. split; [reflexivity|]. split; [apply (I_noise _ _ _ I)|]. intros h. exfalso. apply h. left. reflexivity. }
  pose proof (A 0 calc _ eq_refl eq_refl) as P.
  assert (Rg : forallb (in_range u) calc = true).
  { apply forallb_forall. intros s h. apply (Permutation_in _ P) in h. apply in_map_iff in h as (r & <- & h). rewrite (I_batch _ _ _ I) in h.
    apply in_build in h as (i & j & k & h & _ & _ & ->). apply (I_range _ _ _ I) in h as [h1 h2]. unfold in_range. cbn.
    apply andb_true_iff. split; apply Nat.ltb_lt; assumption. }
  rewrite Rg.
  set (ps := unique_pairs u calc).
  assert (Ps : forall i j, In (i, j) ps <-> In (i, j) pairs).
  { intros i j. unfold ps, unique_pairs. rewrite filter_In, in_all_pairs, existsb_exists. rewrite (I_batch _ _ _ I) in P. split.
    - intros [_ (s & h & E)]. apply (Permutation_in _ P) in h. apply in_map_iff in h as (r & <- & h).
      apply in_build in h as (i' & j' & k & h & _ & _ & ->). cbn in E. apply andb_true_iff in E as [E1 E2]. apply Nat.eqb_eq in E1, E2. subst. exact h.
    - intros h. split; [apply (I_range _ _ _ I), h|]. apply (has_pair_build (g_h g)) in h. unfold has_pair in h. apply existsb_exists in h as (r & h & E).
      exists (answer f r). split; [apply (Permutation_in _ (Permutation_sym P)), in_map, h | exact E]. }
  assert (NDp : NoDup ps) by (apply NoDup_filter, NoDup_all_pairs).
  set (vals := fun i j k => f j (shifted (u_x0 u) i ((Qn k - Qn (u_nf u) / 2) * g_h g i j)%Q)).
  assert (FV : forall i j k, In (i, j) ps -> k <= u_nf u -> k <> m ->
     In (mkrow (shifted (u_x0 u) i ((Qn k - Qn (u_nf u) / 2) * g_h g i j)%Q) i j k) (last_batch pre)).
  { intros i j k h h1 h2. rewrite (I_batch _ _ _ I). apply in_build. exists i, j, k. rewrite (middle u m Hnf). repeat split; auto. apply Ps, h. }
  destruct (do_pairs_spec ecnoise u m Hnf calc vals ps g NDp) as (g1 & E & B1 & B2 & B3 & B4 & B5).
  { intros i j k h h1 h2. refine (first_value_perm calc (last_batch pre) i j k _ P _ (FV i j k h h1 h2) eq_refl). rewrite (I_batch _ _ _ I). apply NoDup_build, (I_nodup _ _ _ I). }
  { apply (I_mid _ _ _ I). }
  cbn [fd_loop] in A. rewrite Rg in A. fold ps in A. rewrite E in A |- *.
  set (cs := map (call_of ecnoise u m vals) ps) in *.
  set (new := filter (retry ecnoise u m vals g) ps) in *.
  assert (CO : forall cs1 c cs2, cs = cs1 ++ c :: cs2 -> call_ok (pre ++ map FCalled cs1) c).
  { intros cs1 c cs2 Ec. destruct (recent_snoc pre cs1 (I_recent _ _ _ I)) as [L _]. unfold call_ok. rewrite L.
    assert (h : In c cs) by (rewrite Ec; apply in_or_app; cbn; auto). unfold cs in h. apply in_map_iff in h as ((i & j) & <- & h).
    unfold call_of, data. cbn [fst snd c_data c_i c_j c_inform c_noise].
    assert (NE : forall k, k <= u_nf u -> nth_error (map (fun k => Some (if k =? m then u_f0 u j else vals i j k)) (seq 0 (u_nf u + 1))) k = Some (Some (if k =? m then u_f0 u j else vals i j k))).
    { intros k Hk. rewrite nth_error_map. replace (nth_error (seq 0 (u_nf u + 1)) k) with (Some k); [reflexivity|]. symmetry.
      rewrite (nth_error_nth' (seq 0 (u_nf u + 1)) 0) by (rewrite seq_length; lia). rewrite seq_nth by lia. reflexivity. }
    rewrite (middle u m Hnf). split; [rewrite map_length, seq_length; reflexivity|]. split; [rewrite NE by lia; rewrite Nat.eqb_refl; reflexivity|]. split.
    - intros k Hk Hkm. eexists. split; [apply (FV i j k h Hk Hkm)|]. split; [reflexivity|]. rewrite NE by exact Hk. apply Nat.eqb_neq in Hkm. rewrite Hkm. reflexivity.
    - rewrite <- surjective_pairing. reflexivity. }
  assert (Tm : forall i j, times (pre ++ map FCalled cs) i j = times pre i j) by (intros; unfold times; rewrite sent_app, sent_calls, app_nil_r; reflexivity).
  assert (Cin : forall c, In c cs <-> exists i j, In (i, j) pairs /\ c = call_of ecnoise u m vals (i, j)).
  { intros c. unfold cs. rewrite in_map_iff. split.
    - intros ((i & j) & <- & h). exists i, j. split; [apply Ps, h | reflexivity].
    - intros (i & j & h & ->). exists (i, j). split; [reflexivity | apply Ps, h]. }
  assert (Nz : noise_ok (pre ++ map FCalled cs) (g_noise g1)).
  { intros i j v. rewrite B5. rewrite calls_app, calls_calls. destruct (inp ps i j && negb (2 <=? c_inform (call_of ecnoise u m vals (i, j)))) eqn:Eb.
    - apply andb_true_iff in Eb as [Eb1 Eb2]. apply inp_In, Ps in Eb1. apply negb_true_iff, Nat.leb_gt in Eb2. split.
      + intros Ev. injection Ev as <-. exists (call_of ecnoise u m vals (i, j)). split; [apply in_or_app; right; apply Cin; eauto|]. repeat split; try exact Eb2. 
      + intros (c & h & <- & <- & h1 & <-). apply in_app_or in h as [h|h].
        * pose proof (I_inform _ _ _ I _ _ Eb1) as N. assert (X : g_noise g (c_i c) (c_j c) = Some (c_noise c)) by (apply (I_noise _ _ _ I); exists c; auto). congruence.
        * apply Cin in h as (i & j & h & ->). reflexivity.
    - rewrite (I_noise _ _ _ I i j v). split.
      + intros (c & h & h1). exists c. split; [apply in_or_app; auto | exact h1].
      + intros (c & h & h1 & h2 & h3 & h4). apply in_app_or in h as [h|h]; [exists c; auto|]. exfalso.
        apply Cin in h as (i' & j' & h & ->). cbn [call_of c_i c_j fst snd] in h1, h2. subst i' j'. apply Ps, inp_In in h. rewrite h in Eb. cbn [andb] in Eb.
        apply negb_false_iff, Nat.leb_le in Eb. lia. }
  assert (On : forall i j, g_inform g1 i j = 1 -> found (pre ++ map FCalled cs) i j).
  { intros i j. rewrite B4. unfold found. rewrite calls_app, calls_calls. destruct (inp ps i j) eqn:Ei.
    - intros h. exists (call_of ecnoise u m vals (i, j)). apply inp_In, Ps in Ei. split; [apply in_or_app; right; apply Cin; eauto|]. auto.
    - intros h. destruct (I_one _ _ _ I i j h) as (c & h1 & h2). exists c. split; [apply in_or_app; auto | exact h2]. }
  destruct (all_found u g1) eqn:Ea.
  - cbn [fst snd]. constructor.
    + intros; discriminate.
    + intros l c r El. rewrite <- (app_nil_r (map FCalled cs)) in El. apply split_calls in El as [(cs1 & c' & cs2 & h1 & -> & h2)|(l' & _ & h)]; [|destruct l'; discriminate].
      injection h2 as <-. eapply CO, h1.
    + intros l b r El. rewrite <- (app_nil_r (map FCalled cs)) in El. apply split_calls in El as [(cs1 & c' & cs2 & h1 & -> & h2)|(l' & _ & h)]; [discriminate | destruct l'; discriminate].
    + intros i j. rewrite Tm. apply (I_bound _ _ _ I).
    + intros h0 noise Ee. injection Ee as <- <-. destruct (recent_snoc pre cs (I_recent _ _ _ I)) as [-> _]. split; [reflexivity|]. split; [exact Nz|].
      intros _ i j Hi Hj. apply On. unfold all_found in Ea. rewrite forallb_forall in Ea. specialize (Ea (i, j)). cbn in Ea. apply Nat.eqb_eq, Ea, in_all_pairs. auto.
  - set (h1 := build u (g_h g1) new) in *.
    assert (LB : last_batch (pre ++ map FCalled cs ++ [FSent h1]) = h1) by (unfold last_batch; rewrite app_assoc, after_last_app; reflexivity).
    assert (New : forall i j, In (i, j) new <-> In (i, j) pairs /\ 2 <= c_inform (call_of ecnoise u m vals (i, j)) /\ times pre i j < u_maxits u).
    { intros i j. unfold new. rewrite filter_In, Ps. unfold retry. cbn [fst snd]. rewrite andb_true_iff, Nat.leb_le, Nat.ltb_lt. split.
      - intros (h & h2 & h3). repeat split; auto. rewrite <- (I_iters _ _ _ I); [exact h3 | apply (I_range _ _ _ I _ _ h) | apply (I_range _ _ _ I _ _ h)].
      - intros (h & h2 & h3). repeat split; auto. rewrite (I_iters _ _ _ I); [exact h3 | apply (I_range _ _ _ I _ _ h) | apply (I_range _ _ _ I _ _ h)]. }
    assert (St : forall i j, In (i, j) pairs -> step_after (u_h u i j) (pre ++ map FCalled cs) i j =
      (if c_inform (call_of ecnoise u m vals (i, j)) =? 3 then g_h g i j / 100 else g_h g i j * 100)%Q).
    { intros i j h. rewrite (I_step _ _ _ I i j h). unfold step_after. rewrite calls_app, calls_calls, fold_left_app.
      generalize (fold_left (fun h c => if (c_i c =? i) && (c_j c =? j) then (if c_inform c =? 3 then h / 100 else h * 100)%Q else h) (calls pre) (u_h u i j)). intros q.
      apply Ps in h. unfold cs. clear - h NDp. 
      assert (Z : forall l q, ~ In (i, j) l -> fold_left (fun h c => if (c_i c =? i) && (c_j c =? j) then (if c_inform c =? 3 then h / 100 else h * 100)%Q else h) (map (call_of ecnoise u m vals) l) q = q).
      { induction l as [|[a b] l IHl]; intros q0 hn; cbn [map fold_left]; [reflexivity|]. cbn [call_of c_i c_j fst snd]. destruct ((a =? i) && (b =? j)) eqn:Eab.
        - apply andb_true_iff in Eab as [E1 E2]. apply Nat.eqb_eq in E1, E2. subst. exfalso. apply hn. left. reflexivity.
        - apply IHl. intros h1. apply hn. right. exact h1. }
      induction NDp as [|[a b] l Hn _ IHl]; [destruct h|]. cbn [map fold_left].
      change (c_i (call_of ecnoise u m vals (a, b))) with a. change (c_j (call_of ecnoise u m vals (a, b))) with b.
      destruct ((a =? i) && (b =? j)) eqn:Eab.
      - apply andb_true_iff in Eab as [E1 E2]. apply Nat.eqb_eq in E1, E2. subst. rewrite Z by exact Hn. reflexivity.
      - destruct h as [h|h]; [injection h as -> ->; rewrite !Nat.eqb_refl in Eab; discriminate|]. apply IHl, h. }
    assert (Nh : forall i j, In (i, j) new -> g_h g1 i j = step_after (u_h u i j) (pre ++ map FCalled cs) i j).
    { intros i j h. pose proof h as h2. unfold new in h2. apply filter_In in h2 as [h2 h3]. rewrite B2. apply inp_In in h2 as h4. rewrite h4, h3. cbn [andb].
      symmetry. apply St, Ps, h2. }
    assert (Tm1 : forall i j, times (pre ++ map FCalled cs ++ [FSent h1]) i j = times pre i j + (if inp new i j then 1 else 0)).
    { intros i j. unfold times. rewrite !sent_app, sent_calls. cbn [sent flat_map app]. rewrite filter_app, app_length. f_equal. cbn [filter].
      destruct (inp new i j) eqn:Ei; destruct (has_pair i j h1) eqn:Eh; try reflexivity; exfalso.
      - apply inp_In, (has_pair_build (g_h g1)) in Ei. unfold h1 in Eh. congruence.
      - unfold h1 in Eh. apply has_pair_build, inp_In in Eh. congruence. }
    assert (I1 : Inv (pre ++ map FCalled cs ++ [FSent h1]) g1 new).
    { constructor.
      - apply NoDup_filter, NDp.
      - intros i j h. apply New in h as [h _]. apply (I_range _ _ _ I _ _ h).
      - exact LB.
      - unfold recent_calls. rewrite app_assoc, after_last_app. reflexivity.
      - exact B1.
      - intros i j Hi Hj. rewrite B3, Tm1, (I_iters _ _ _ I i j Hi Hj).
        replace (inp new i j) with (inp ps i j && retry ecnoise u m vals g (i, j)); [destruct (inp ps i j && _); lia|].
        unfold new. destruct (inp ps i j && retry ecnoise u m vals g (i, j)) eqn:Ei; symmetry.
        + apply andb_true_iff in Ei as [E1 E2]. apply inp_In. apply filter_In. split; [apply inp_In, E1 | exact E2].
        + apply not_true_is_false. intros h. apply inp_In, filter_In in h as [h h2]. apply inp_In in h. rewrite h, h2 in Ei. discriminate.
      - intros i j. rewrite Tm1. pose proof (I_bound _ _ _ I i j). destruct (inp new i j) eqn:Ei; [|lia]. apply inp_In, New in Ei as (_ & _ & h). lia.
      - intros i j h. rewrite (Nh i j h). unfold step_after. rewrite app_assoc, calls_snoc. reflexivity.
      - intros i j v. rewrite app_assoc, calls_snoc. apply Nz.
      - intros i j h. apply New in h as (h & h2 & _). rewrite B5. replace (2 <=? _) with true by (symmetry; apply Nat.leb_le; exact h2). cbn [negb]. rewrite andb_false_r. apply (I_inform _ _ _ I _ _ h).
      - intros i j h. unfold found. rewrite app_assoc, calls_snoc. apply On, h. }
    destruct (fd_loop ecnoise u g1 h1 msgs) as [ev e] eqn:El. cbn [fst snd] in *.
    specialize (IH _ _ _ I1). rewrite LB, El in IH. cbn [fst snd] in IH.
    assert (A' : answered f (h1 :: sent ev) msgs).
    { intros n c b Hn Hb. apply (A (S n) c b Hn). cbn [nth_error]. rewrite sent_app, sent_calls. exact Hb. }
    specialize (IH A'). destruct IH as [G1 G2 G3 G4 G5].
    assert (BO : batch_ok (pre ++ map FCalled cs) h1).
    { destruct (recent_snoc pre cs (I_recent _ _ _ I)) as [L R]. unfold batch_ok. rewrite L, R.
      assert (Mp : map (fun c : fd_call V => (c_i c, c_j c)) cs = ps).
      { unfold cs. rewrite map_map. rewrite <- (map_id ps) at 2. apply map_ext. intros [a b]. reflexivity. }
      rewrite Mp. split; [exact NDp|]. split; [|split].
      - intros i j. rewrite Ps, (I_batch _ _ _ I). symmetry. apply has_pair_build.
      - intros r. unfold h1. rewrite in_build. split.
        + intros (i & j & k & h & h2 & h3 & ->). pose proof h as hn. apply New in h as (h & h4 & h5). exists (call_of ecnoise u m vals (i, j)), k.
          split; [apply Cin; eauto|]. split; [exact h4|]. cbn [call_of c_i c_j fst snd]. rewrite Tm. split; [exact h5|]. split; [exact h2|]. split; [exact h3|]. rewrite (Nh i j hn). reflexivity.
        + intros (c & k & h & h2 & h3 & h4 & h5 & ->). apply Cin in h as (i & j & h & ->). cbn [call_of c_i c_j fst snd] in *. rewrite Tm in h3.
          assert (hn : In (i, j) new) by (apply New; auto). exists i, j, k. split; [exact hn|]. split; [exact h4|]. split; [exact h5|]. rewrite (Nh i j hn). reflexivity.
      - apply NoDup_build, NoDup_filter, NDp. }
    assert (App : forall l, pre ++ map FCalled cs ++ FSent h1 :: l = (pre ++ map FCalled cs ++ [FSent h1]) ++ l) by (intros l; rewrite <- !app_assoc; reflexivity).
    constructor.
    + exact G1.
    + intros l c r Es. apply split_calls in Es as [(cs1 & c' & cs2 & h2 & -> & h3)|(l' & -> & Es)].
      * injection h3 as <-. eapply CO, h2.
      * destruct l' as [|x l']; [discriminate|]. cbn [app] in Es. injection Es as <- Es. rewrite App. eapply G2, Es.
    + intros l b r Es. apply split_calls in Es as [(cs1 & c' & cs2 & h2 & -> & h3)|(l' & -> & Es)]; [discriminate|].
      destruct l' as [|x l']; cbn [app] in Es; injection Es as <- Es; [rewrite app_nil_r; exact BO|]. rewrite App. eapply G3, Es.
    + intros i j. rewrite App. apply G4.
    + intros h0 noise Ee. rewrite App. destruct (G5 h0 noise Ee) as (K1 & K2 & K3). split; [exact K1|]. split; [exact K2|].
      intros hn. apply K3. intros q. apply hn. right. exact q.
Qed.
End Run.

(** With two variables, an even number of points (at least 2) and results of each batch, in
    any order, before the next: the function does not raise; the first batch has all pairs;
    every estimate is made from the values at the points of its own pair (C73: [call_ok]);
    every later batch repeats the pairs whose step was wrong, with the corrected step
    ([batch_ok]); no pair is sent more than [maxnoiseits] times; the noise returned for a
    pair is that of its estimate that succeeded, and there is none for other pairs; without
    a request to stop the function returns only when all pairs have an estimate. *)
Theorem C73_run {V} (ecnoise : list (option V) -> nat * V) f (u : fd_user V) m msgs :
  u_nf u = 2 * m -> 0 < m -> length (u_x0 u) = 2 ->
  answered f (sent (fst (fd_run ecnoise u msgs))) msgs ->
  let ev := fst (fd_run ecnoise u msgs) in
  (forall x, snd (fd_run ecnoise u msgs) <> FRaised x) /\
  (exists b ev', ev = FSent b :: ev' /\
     (forall r, In r b <-> r_i r < 2 /\ r_j r < u_p u /\ r_k r <= u_nf u /\ r_k r <> u_nf u / 2 /\
        r_x r = shifted (u_x0 u) (r_i r) ((Qn (r_k r) - Qn (u_nf u) / 2) * u_h u (r_i r) (r_j r))%Q) /\ NoDup (map key b)) /\
  (forall l c r, ev = l ++ FCalled c :: r -> call_ok ecnoise f u l c) /\
  (forall l b r, ev = l ++ FSent b :: r -> l <> [] -> batch_ok u l b) /\
  (forall i j, times ev i j <= Nat.max 1 (u_maxits u)) /\
  (forall h0 noise, snd (fd_run ecnoise u msgs) = FReturned h0 noise ->
     h0 = last_batch ev /\ noise_ok ev noise /\
     (~ In FStop msgs -> forall i j, i < 2 -> j < u_p u -> found ev i j)).
Proof.
  intros Hnf Hm Hx. unfold fd_run, first_pairs. rewrite Hx. cbn [Nat.eqb]. set (h0 := build u (u_h u) (all_pairs 2 (u_p u))).
  assert (I : Inv u m [FSent h0] (fd_start u) (all_pairs 2 (u_p u))).
  { constructor.
    - apply NoDup_all_pairs.
    - intros i j h. apply in_all_pairs in h. lia.
    - reflexivity.
    - reflexivity.
    - intros i j. cbn [fd_start g_hist]. rewrite (middle u m Hnf), Nat.eqb_refl. reflexivity.
    - intros i j Hi Hj. cbn [fd_start g_iters]. unfold times. cbn [sent flat_map app filter]. 
      replace (has_pair i j h0) with true; [reflexivity|]. symmetry. apply (has_pair_build (fun _ _ => u_f0 u 0) u m Hnf Hm), in_all_pairs. lia.
    - intros i j. unfold times. cbn [sent flat_map app filter]. destruct (has_pair i j h0); cbn [length]; lia.
    - reflexivity.
    - intros i j v. cbn. split; [discriminate | intros (c & [] & _)].
    - reflexivity.
    - intros i j h. discriminate. }
  destruct (fd_loop ecnoise u (fd_start u) h0 msgs) as [ev e] eqn:El. cbn [fst snd]. intros A.
  pose proof (loop_good ecnoise f u m Hnf Hm msgs _ _ _ I) as G. change (last_batch [FSent (V := V) h0]) with h0 in G. rewrite El in G. cbn [fst snd] in G.
  specialize (G A). destruct G as [G1 G2 G3 G4 G5]. cbn [app] in *. cbv zeta.
  split; [exact G1|]. split.
  { exists h0, ev. split; [reflexivity|]. split; [|apply NoDup_build, NoDup_all_pairs].
    intros r. unfold h0. rewrite in_build. split.
    - intros (i & j & k & h & h1 & h2 & ->). apply in_all_pairs in h. cbn. repeat split; auto; lia.
    - intros (h1 & h2 & h3 & h4 & h5). exists (r_i r), (r_j r), (r_k r). split; [apply in_all_pairs; lia|]. repeat split; auto. rewrite <- h5. destruct r; reflexivity. }
  split.
  { intros [|x l] c r E; [discriminate|]. cbn [app] in E. injection E as <- E. eapply G2, E. }
  split.
  { intros [|x l] b r E h; [contradiction|]. cbn [app] in E. injection E as <- E. eapply G3, E. }
  split; [exact G4|]. intros h noise E. rewrite <- Hx. apply (G5 h noise E).
Qed.
Print Assumptions C73_run.

(** Example: two variables, one function, two points each; the first estimate for variable
    0 asks for a larger step, that for variable 1 succeeds; then variable 0 succeeds. *)
Definition ex_user : fd_user Z := mkuser [0%Q; 0%Q] 1 2 (fun _ _ => 1%Q) 3 (fun _ => 7%Z).
Definition ex_f (j : nat) (x : list Q) : Z := match x with [a; b] => (Qround.Qfloor a + 2 * Qround.Qfloor b)%Z | _ => 0%Z end.
Definition ex_noise (d : list (option Z)) : nat * Z := match d with [Some a; _; Some b] => if (b - a =? 2)%Z then (2, 0%Z) else (1, (b - a)%Z) | _ => (0, 0%Z) end.
Definition ex_msgs : list (fd_msg Z) :=
  [FResults [mkres 1 0 2 2%Z; mkres 0 0 0 (-1)%Z; mkres 1 0 0 (-2)%Z; mkres 0 0 2 1%Z];
   FResults [mkres 0 0 2 100%Z; mkres 0 0 0 (-100)%Z]].
Example C73_run_nonvacuous :
  answered ex_f (sent (fst (fd_run ex_noise ex_user ex_msgs))) ex_msgs /\
  map (map (fun r => (map Qred (r_x r), key r))) (sent (fst (fd_run ex_noise ex_user ex_msgs))) =
    [[([(-1); 0]%Q, (0, 0, 0)); ([1; 0]%Q, (0, 0, 2)); ([0; (-1)]%Q, (1, 0, 0)); ([0; 1]%Q, (1, 0, 2))]; [([(-100); 0]%Q, (0, 0, 0)); ([100; 0]%Q, (0, 0, 2))]] /\
  calls (fst (fd_run ex_noise ex_user ex_msgs)) =
    [mkcall 0 0 [Some (-1); Some 7; Some 1]%Z 2 0%Z; mkcall 1 0 [Some (-2); Some 7; Some 2]%Z 1 4%Z; mkcall 0 0 [Some (-100); Some 7; Some 100]%Z 1 200%Z] /\
  exists h0 noise, snd (fd_run ex_noise ex_user ex_msgs) = FReturned h0 noise /\ noise 0 0 = Some 200%Z /\ noise 1 0 = Some 4%Z.
Proof.
  split; [|split; [reflexivity|]; split; [reflexivity|]].
  - intros [|[|n]] c b Hc Hb; cbn in Hc; [| |destruct n; discriminate]; injection Hc as <-.
    + assert (E : nth_error (sent (fst (fd_run ex_noise ex_user ex_msgs))) 0 = Some (build ex_user (fun _ _ => 1%Q) (all_pairs 2 1))) by reflexivity. rewrite E in Hb. injection Hb as <-.
      vm_compute. apply Permutation_sym. eapply perm_trans; [|apply perm_swap]. apply perm_skip.
      eapply perm_trans; [apply perm_swap|]. 
      change (Permutation ([mkres 1 0 0 (-2)%Z] ++ mkres 0 0 2 1%Z :: [mkres 1 0 2 2%Z]) (mkres 1 0 2 2%Z :: [mkres 1 0 0 (-2)%Z; mkres 0 0 2 1%Z])).
      apply Permutation_sym. apply (Permutation_cons_append [mkres 1 0 0 (-2)%Z; mkres 0 0 2 1%Z]).
    + assert (E : exists b1, nth_error (sent (fst (fd_run ex_noise ex_user ex_msgs))) 1 = Some b1 /\ map (answer ex_f) b1 = [mkres 0 0 0 (-100)%Z; mkres 0 0 2 100%Z]) by (eexists; split; vm_compute; reflexivity).
      destruct E as (b1 & E1 & E2). rewrite E1 in Hb. injection Hb as <-. rewrite E2. apply perm_swap.
  - eexists _, _. split; [reflexivity|]. split; reflexivity.
Qed.

(** With another number of variables the function raises before it sends anything; with an
    odd number of points, when the first results come. *)
Theorem C73_two_variables_only {V} (ecnoise : list (option V) -> nat * V) u msgs :
  length (u_x0 u) <> 2 -> fd_run ecnoise u msgs = ([], FRaised EValue).
Proof. intros h. unfold fd_run, first_pairs. apply Nat.eqb_neq in h. rewrite h. reflexivity. Qed.
Print Assumptions C73_two_variables_only.
Theorem C73_even_only {V} (ecnoise : list (option V) -> nat * V) f (u : fd_user V) m calc msgs b :
  u_nf u = 2 * m + 1 -> length (u_x0 u) = 2 -> 0 < u_p u ->
  nth_error (sent (fst (fd_run ecnoise u (FResults calc :: msgs)))) 0 = Some b -> Permutation calc (map (answer f) b) ->
  snd (fd_run ecnoise u (FResults calc :: msgs)) = FRaised EIndex.
Proof.
  intros Hnf Hx Hp. unfold fd_run, first_pairs. rewrite Hx. cbn [Nat.eqb]. set (h0 := build u (u_h u) (all_pairs 2 (u_p u))).
  destruct (fd_loop ecnoise u (fd_start u) h0 (FResults calc :: msgs)) as [ev e] eqn:El. cbn [fst snd sent flat_map app nth_error]. intros Eb P. injection Eb as <-.
  assert (D : u_nf u / 2 = m) by (rewrite Hnf, Nat.mul_comm, Nat.div_add_l by lia; cbn; lia).
  cbn [fd_loop] in El.
  assert (Rg : forallb (in_range u) calc = true).
  { apply forallb_forall. intros s h. apply (Permutation_in _ P) in h. apply in_map_iff in h as (r & <- & h).
    apply in_build in h as (i & j & k & h & _ & _ & ->). apply in_all_pairs in h as [h1 h2]. unfold in_range. cbn. apply andb_true_iff. split; apply Nat.ltb_lt; lia. }
  rewrite Rg in El.
  assert (U : exists i j rest, unique_pairs u calc = (i, j) :: rest).
  { assert (h : In (0, 0) (unique_pairs u calc)).
    { unfold unique_pairs. apply filter_In. split; [apply in_all_pairs; lia|]. apply existsb_exists.
      assert (Hk : exists k, k <= u_nf u /\ k <> u_nf u / 2) by (destruct m; [exists 1 | exists 0]; lia). destruct Hk as (k & K1 & K2).
      exists (answer f (mkrow (shifted (u_x0 u) 0 ((Qn k - Qn (u_nf u) / 2) * u_h u 0 0)%Q) 0 0 k)). split; [|reflexivity].
      apply (Permutation_in _ (Permutation_sym P)), in_map, in_build. exists 0, 0, k. repeat split; auto. apply in_all_pairs. lia. }
    destruct (unique_pairs u calc) as [|[i j] rest]; [destruct h | eauto]. }
  destruct U as (i & j & rest & U). rewrite U in El. cbn [do_pairs] in El.
  assert (N : first_value calc i j m = Err EIndex).
  { unfold first_value. destruct (find _ calc) as [s|] eqn:Es; [|reflexivity]. exfalso. apply find_some in Es as [h1 h2].
    apply (Permutation_in _ P) in h1. apply in_map_iff in h1 as (r & <- & h1). apply in_build in h1 as (i' & j' & k & _ & _ & K & ->). cbn in h2.
    apply andb_true_iff in h2 as [_ h2]. apply Nat.eqb_eq in h2. lia. }
  assert (R : forall ks hist, In m ks -> read_values u calc i j ks hist = Err EIndex).
  { induction ks as [|k ks IH]; intros hist h; [destruct h|]. cbn [read_values]. replace (2 * k =? u_nf u) with false by (symmetry; apply Nat.eqb_neq; lia).
    destruct h as [->|h]; [rewrite N; reflexivity|]. unfold first_value. destruct (find _ calc); cbn [bindr]; [apply IH, h | reflexivity]. }
  unfold do_pair in El. rewrite R in El by (apply in_seq; lia). cbn [bindr] in El. injection El as _ <-. reflexivity.
Qed.
Print Assumptions C73_even_only.
Example C73_even_only_nonvacuous :
  snd (fd_run ex_noise (mkuser [0%Q; 0%Q] 1 1 (fun _ _ => 1%Q) 3 (fun _ => 7%Z)) [FResults [mkres 0 0 1 2%Z; mkres 1 0 1 3%Z]]) = FRaised EIndex.
Proof. reflexivity. Qed.

(** A pair that does not succeed in [maxnoiseits] attempts keeps the function from
    returning: it sends an empty batch, for which no result can come, and waits. *)
Theorem C73_batches_not_empty_refuted :
  ~ (forall V (ecnoise : list (option V) -> nat * V) f u m msgs, u_nf u = 2 * m -> 0 < m -> length (u_x0 u) = 2 -> 0 < u_p u ->
      answered f (sent (fst (fd_run ecnoise u msgs))) msgs -> forall b, In b (sent (fst (fd_run ecnoise u msgs))) -> b <> []).
Proof.
  intros h. set (u := mkuser [0%Q; 0%Q] 1 2 (fun _ _ => 1%Q) 1 (fun _ => 7%Z)).
  set (ms := [FResults (map (answer ex_f) (build u (u_h u) (all_pairs 2 1)))]).
  refine (h Z (fun _ => (2, 0%Z)) ex_f u 1 ms eq_refl ltac:(lia) eq_refl ltac:(cbn; lia) _ [] _ eq_refl).
  - intros [|n] c b Hc Hb; [|destruct n; discriminate]. cbn [ms nth_error] in Hc. injection Hc as <-.
    assert (E : nth_error (sent (fst (fd_run (fun _ => (2, 0%Z)) u ms))) 0 = Some (build u (u_h u) (all_pairs 2 1))) by reflexivity. rewrite E in Hb. injection Hb as <-. reflexivity.
  - vm_compute. right. left. reflexivity.
Qed.
Print Assumptions C73_batches_not_empty_refuted.
