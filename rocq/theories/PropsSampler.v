(** * C69: the sampling functions send as many points as they got results, and keep count

    The persistent sampling functions (gen_funcs/persistent_sampling.py and
    persistent_sampling_var_resources.py; model in SamplerModel, vocabulary in
    SamplerSpec), for every random stream and every way in which results arrive. *)
From Verif Require Import Base BaseLemmas SamplerModel SamplerSpec.
Local Open Scope nat_scope.

Lemma going_cons {R} m (ms : list (mail R)) : going (m :: ms) -> exists l, m = Go l /\ going ms.
Proof. intros G. inversion G as [|? ? [l El] G']; subst. eauto. Qed.
Lemma stopped_cons {R} m (ms : list (mail R)) : stopped (m :: ms) -> stops m = true \/ exists l, m = Go l /\ stopped ms.
Proof.
  intros (before & m0 & after & E & G & h). destruct before as [|a before].
  - injection E as <- <-. left. destruct h as [->|[l ->]]; reflexivity.
  - injection E as <- ->. apply going_cons in G as (l & -> & G). right. exists l. split; [reflexivity|]. exists before, m0, after. auto.
Qed.

(** ** persistent_uniform and the loops of the same form *)
Definition batch {X} (draw : nat -> X) (k n : nat) : list X := map draw (seq k n).
(** While nobody asks to stop, the function goes on and has sent its first batch and one
    point for each result; the points are the stream's, in order, however the results
    came. *)
Theorem C69_one_point_per_result {X R} (draw : nat -> X) b (ms : list (mail R)) outs r :
  uniform draw b 0 ms = (outs, r) -> going ms ->
  r = false /\ length outs = S (length ms) /\ concat outs = batch draw 0 (b + received ms).
Proof.
  intros E G.
  assert (K : forall (ms : list (mail R)) b d outs r, uniform draw b d ms = (outs, r) -> going ms ->
              r = false /\ length outs = S (length ms) /\ concat outs = batch draw d (b + received ms)).
  { clear. induction ms as [|m ms IH]; intros b d outs r E G; cbn [uniform] in E.
    - injection E as <- <-. cbn. rewrite app_nil_r, Nat.add_0_r. auto.
    - apply going_cons in G as (l & -> & G). cbn [stops] in E. cbn [size rows received] in E |- *.
      destruct (uniform draw (length l) (d + b) ms) as [o r0] eqn:Eu. injection E as <- <-.
      destruct (IH _ _ _ _ Eu G) as (-> & L & C). cbn [length concat]. split; [reflexivity|]. split; [lia|].
      rewrite C. unfold batch. rewrite <- map_app, <- seq_app. reflexivity. }
  exact (K ms b 0 outs r E G).
Qed.
Print Assumptions C69_one_point_per_result.
(** It returns as soon as it is asked to stop, and sends nothing after that. *)
Theorem C69_stops {X R} (draw : nat -> X) b (before : list (mail R)) m after outs r :
  uniform draw b 0 (before ++ m :: after) = (outs, r) -> going before -> m = Stop \/ (exists l, m = Last l) ->
  r = true /\ concat outs = batch draw 0 (b + received before).
Proof.
  intros E G h.
  assert (K : forall (before : list (mail R)) b d outs r, uniform draw b d (before ++ m :: after) = (outs, r) -> going before ->
              r = true /\ concat outs = batch draw d (b + received before)).
  { clear - h. induction before as [|m0 ms IH]; intros b d outs r E G; cbn [uniform app] in E.
    - replace (stops m) with true in E by (destruct h as [->|[l ->]]; reflexivity).
      injection E as <- <-. cbn. rewrite app_nil_r, Nat.add_0_r. auto.
    - apply going_cons in G as (l & -> & G). cbn [stops] in E. cbn [size rows received] in E |- *.
      destruct (uniform draw (length l) (d + b) (ms ++ m :: after)) as [o r0] eqn:Eu. injection E as <- <-.
      destruct (IH _ _ _ _ Eu G) as (-> & C). cbn [concat]. split; [reflexivity|].
      rewrite C. unfold batch. rewrite <- map_app, <- seq_app. reflexivity. }
  exact (K before b 0 outs r E G).
Qed.
Print Assumptions C69_stops.
Example C69_one_point_per_result_nonvacuous :
  uniform (fun k => k) 3 0 [Go [7; 8]; Go [9]; Last [1]] = ([[0; 1; 2]; [3; 4]; [5]], true) /\
  going [Go [7; 8]; Go [9]] /\ received [Go [7; 8]; Go [9]] = 3.
Proof. repeat split. repeat constructor; eexists; reflexivity. Qed.

(** The same with priorities that change after the first batch. *)
Theorem C69_one_point_per_result_var_priorities {X R} (draw first : nat -> X) b (ms : list (mail R)) outs r :
  var_priorities draw first b ms = (outs, r) -> going ms ->
  r = false /\ length outs = S (length ms) /\ concat outs = map first (seq 0 b) ++ batch draw b (received ms).
Proof.
  unfold var_priorities. intros E G. destruct ms as [|m ms].
  - injection E as <- <-. cbn. auto.
  - apply going_cons in G as (l & -> & G). cbn [stops size rows received] in E |- *.
    destruct (uniform draw (length l) b ms) as [o r0] eqn:Eu. injection E as <- <-.
    assert (K : forall (ms : list (mail R)) b d outs r, uniform draw b d ms = (outs, r) -> going ms ->
              r = false /\ length outs = S (length ms) /\ concat outs = batch draw d (b + received ms)).
    { clear. induction ms as [|m ms IH]; intros b d outs r E G; cbn [uniform] in E.
      - injection E as <- <-. cbn. rewrite app_nil_r, Nat.add_0_r. auto.
      - apply going_cons in G as (l & -> & G). cbn [stops] in E. cbn [size rows received] in E |- *.
        destruct (uniform draw (length l) (d + b) ms) as [o r0] eqn:Eu. injection E as <- <-.
        destruct (IH _ _ _ _ Eu G) as (-> & L & C). cbn [length concat]. split; [reflexivity|]. split; [lia|].
        rewrite C. unfold batch. rewrite <- map_app, <- seq_app. reflexivity. }
    destruct (K ms (length l) b o r0 Eu G) as (-> & L & C). cbn [length concat]. rewrite C. split; [reflexivity|]. split; [lia | reflexivity].
Qed.
Print Assumptions C69_one_point_per_result_var_priorities.
Example C69_var_priorities_nonvacuous :
  var_priorities (fun k => (k, 10)) (fun k => (k, 1)) 2 [Go [tt; tt]; Go [tt]; Stop] = ([[(0, 1); (1, 1)]; [(2, 10); (3, 10)]; [(4, 10)]], true).
Proof. reflexivity. Qed.

(** Polling makes no difference to what is sent. *)
Theorem C69_nonblocking_is_the_same {X R} (draw : nat -> X) b (ms : list (nat * mail R)) :
  fst (nonblocking draw b 0 0 ms) = uniform draw b 0 (map snd ms).
Proof.
  assert (K : forall (ms : list (nat * mail R)) b d spin, fst (nonblocking draw b d spin ms) = uniform draw b d (map snd ms)); [|apply K].
  clear. induction ms as [|[p m] ms IH]; intros b d spin; cbn [nonblocking uniform map snd]; [reflexivity|].
  destruct (stops m); [reflexivity|]. specialize (IH (size b m) (d + b) p).
  destruct (nonblocking draw (size b m) (d + b) p ms) as [[o r] n]. cbn [fst] in IH. rewrite <- IH. reflexivity.
Qed.
Print Assumptions C69_nonblocking_is_the_same.
Example C69_nonblocking_nonvacuous :
  nonblocking (fun k => k) 2 0 0 [(4, Go [tt]); (9, @Stop unit)] = ([[0; 1]; [2]], true, 9).
Proof. reflexivity. Qed.

(** ** persistent_request_shutdown *)
(** Unless it is asked to stop, the function returns with the first batch of results that
    brings their number to the limit, and not before. *)
Theorem C69_shutdown_at_the_limit {X R} (draw : nat -> X) limit b (ms : list (mail R)) outs r :
  shutdown draw limit b 0 0 ms = (outs, r) -> going ms ->
  (r = true -> exists before l after, ms = before ++ Go l :: after /\
                 limit <= received (before ++ [Go l]) /\ (before = [] \/ received before < limit) /\
                 concat outs = batch draw 0 (b + received before)) /\
  (r = false -> (ms = [] \/ received ms < limit) /\ concat outs = batch draw 0 (b + received ms)).
Proof.
  intros E G.
  assert (Ra : forall (l l' : list (mail R)), received (l ++ l') = received l + received l').
  { clear. induction l as [|[x|x|] l IH]; intros l'; cbn; rewrite ?IH; lia. }
  assert (K : forall (ms : list (mail R)) b d count outs r, shutdown draw limit b d count ms = (outs, r) -> going ms ->
    (r = true -> exists before l after, ms = before ++ Go l :: after /\
                 limit <= count + received (before ++ [Go l]) /\ (before = [] \/ count + received before < limit) /\
                 concat outs = batch draw d (b + received before)) /\
    (r = false -> (ms = [] \/ count + received ms < limit) /\ concat outs = batch draw d (b + received ms))).
  { clear E G ms b outs r. induction ms as [|m ms IH]; intros b d count outs r E G; cbn [shutdown] in E.
    - injection E as <- <-. split; [discriminate|]. intros _. split; [left; reflexivity|]. cbn. rewrite app_nil_r, Nat.add_0_r. reflexivity.
    - apply going_cons in G as (l & -> & G). cbn [size rows stops] in E. rewrite orb_false_r in E.
      destruct (limit <=? count + length l) eqn:El.
      + apply Nat.leb_le in El. injection E as <- <-. split; [|discriminate]. intros _. exists [], l, ms. cbn.
        rewrite !app_nil_r, !Nat.add_0_r. repeat split; auto; lia.
      + apply Nat.leb_gt in El. destruct (shutdown draw limit (length l) (d + b) (count + length l) ms) as [o r0] eqn:Eu.
        injection E as <- <-. destruct (IH _ _ _ _ _ Eu G) as [K1 K2]. cbn [concat]. split; intros Er.
        * destruct (K1 Er) as (before & l1 & after & -> & A & B & C). exists (Go l :: before), l1, after. cbn [app received].
          rewrite C. unfold batch. rewrite <- map_app, <- seq_app. repeat split; auto; try lia.
          right. destruct B as [->|B]; [cbn; lia | lia].
        * destruct (K2 Er) as (A & C). cbn [received]. rewrite C. unfold batch. rewrite <- map_app, <- seq_app.
          split; [|reflexivity]. right. destruct A as [->|A]; [cbn; lia | lia]. }
  exact (K ms b 0 0 outs r E G).
Qed.
Print Assumptions C69_shutdown_at_the_limit.
Example C69_shutdown_nonvacuous :
  shutdown (fun k => k) 3 2 0 0 [Go [5; 6]; Go [7; 8]; Go [9]] = ([[0; 1]; [2; 3]], true).
Proof. reflexivity. Qed.

(** ** persistent_uniform_with_cancellations *)
(** The points cancelled are consecutive, each is cancelled once, one for each result; if
    no batch of results is larger than the second half of the first batch, every point
    cancelled has been sent before. *)
Theorem C69_cancellations {X R} (draw : nat -> X) b (ms : list (mail R)) outs r :
  cancellations draw b ms = (outs, r) -> going ms ->
  cancelled outs = seq (b / 2) (received ms) /\
  points outs = batch draw 0 (b + received ms) /\
  (Forall (fun m => forall l, m = Go l -> length l <= b - b / 2) ms ->
   forall k c, nth_error outs k = Some (Cancel c) -> forall i, In i c -> i < length (points (firstn k outs))).
Proof.
  unfold cancellations. intros E G.
  assert (K : forall (ms : list (mail R)) b1 d from outs r, cancelling draw b1 d from ms = (outs, r) -> going ms ->
    cancelled outs = seq from (received ms) /\ points outs = batch draw d (b1 + received ms)).
  { clear. induction ms as [|m ms IH]; intros b1 d from outs r E G; cbn [cancelling] in E.
    - injection E as <- <-. cbn. rewrite app_nil_r, Nat.add_0_r. auto.
    - apply going_cons in G as (l & -> & G). cbn [size rows stops] in E.
      destruct (cancelling draw (length l) (d + b1) (from + length l) ms) as [o r0] eqn:Eu. injection E as <- <-.
      destruct (IH _ _ _ _ _ Eu G) as (C & P). cbn [app cancelled points received]. rewrite C, P. unfold batch.
      rewrite <- map_app, <- !seq_app. auto. }
  split; [exact (proj1 (K ms b 0 (b / 2) outs r E G))|]. split; [exact (proj2 (K ms b 0 (b / 2) outs r E G))|].
  intros F.
  assert (Hb : b / 2 <= b) by (apply Nat.div_le_upper_bound; lia).
  assert (M : forall (ms : list (mail R)) b1 d from outs r, cancelling draw b1 d from ms = (outs, r) -> going ms ->
    Forall (fun m => forall l, m = Go l -> length l <= b - b / 2) ms -> from + (b - b / 2) <= d + b1 ->
    forall k c, nth_error outs k = Some (Cancel c) -> forall i, In i c -> i < d + length (points (firstn k outs))).
  { clear E G F ms outs r. induction ms as [|m ms IH]; intros b1 d from outs r E G F L k c Ek i Hi; cbn [cancelling] in E.
    - injection E as <- <-. destruct k as [|[|k]]; discriminate.
    - apply going_cons in G as (l & -> & G). cbn [size rows stops] in E. inversion F as [|? ? F1 F2]; subst. specialize (F1 l eq_refl).
      destruct (cancelling draw (length l) (d + b1) (from + length l) ms) as [o r0] eqn:Eu. injection E as <- <-.
      destruct k as [|[|k]]; [discriminate | |].
      + cbn in Ek. injection Ek as <-. apply in_seq in Hi. cbn. rewrite app_nil_r, map_length, seq_length. lia.
      + cbn in Ek. pose proof (IH _ _ _ _ _ Eu G F2 ltac:(lia) k c Ek i Hi) as Q. cbn [firstn app points].
        rewrite app_length, map_length, seq_length. lia. }
  intros k c Ek i Hi. pose proof (M ms b 0 (b / 2) outs r E G F ltac:(lia) k c Ek i Hi) as Q. exact Q.
Qed.
Print Assumptions C69_cancellations.
(** Asked to stop, it cancels once more for the results that come with it, and returns. *)
Theorem C69_cancellations_stop {X R} (draw : nat -> X) b (before : list (mail R)) m after outs r :
  cancellations draw b (before ++ m :: after) = (outs, r) -> going before -> m = Stop \/ (exists l, m = Last l) ->
  r = true /\ points outs = batch draw 0 (b + received before) /\
  cancelled outs = seq (b / 2) (received before + match m with Last l => length l | _ => 0 end).
Proof.
  intros E G h. unfold cancellations in E.
  assert (K : forall (before : list (mail R)) b1 d from outs r, cancelling draw b1 d from (before ++ m :: after) = (outs, r) -> going before ->
    r = true /\ points outs = batch draw d (b1 + received before) /\
    cancelled outs = seq from (received before + match m with Last l => length l | _ => 0 end)).
  { clear - h. induction before as [|m0 ms IH]; intros b1 d from outs r E G; cbn [cancelling app] in E.
    - replace (stops m) with true in E by (destruct h as [->|[l ->]]; reflexivity).
      injection E as <- <-. cbn [received plus]. rewrite Nat.add_0_r.
      destruct h as [->|[l ->]]; cbn; rewrite ?app_nil_r; auto.
    - apply going_cons in G as (l & -> & G). cbn [size rows stops] in E.
      destruct (cancelling draw (length l) (d + b1) (from + length l) (ms ++ m :: after)) as [o r0] eqn:Eu. injection E as <- <-.
      destruct (IH _ _ _ _ _ Eu G) as (-> & P & C). cbn [app cancelled points received]. rewrite C, P. unfold batch.
      rewrite <- map_app, <- Nat.add_assoc, <- !seq_app. auto. }
  exact (K before b 0 (b / 2) outs r E G).
Qed.
Print Assumptions C69_cancellations_stop.
Example C69_cancellations_stop_nonvacuous :
  cancellations (fun k => k) 4 [Go [tt]; Last [tt; tt]] = ([Points [0; 1; 2; 3]; Cancel [2]; Points [4]; Cancel [3; 4]], true).
Proof. reflexivity. Qed.
Example C69_cancellations_nonvacuous :
  cancellations (fun k => k) 4 [Go [tt]; Go [tt; tt]] = ([Points [0; 1; 2; 3]; Cancel [2]; Points [4]; Cancel [3; 4]; Points [5; 6]], false).
Proof. reflexivity. Qed.
(** With results in one batch, points are cancelled that were never sent. *)
Theorem C69_cancelled_points_were_sent_refuted :
  ~ (forall X R (draw : nat -> X) b (ms : list (mail R)) outs r, cancellations draw b ms = (outs, r) -> going ms ->
      forall k c, nth_error outs k = Some (Cancel c) -> forall i, In i c -> i < length (points (firstn k outs))).
Proof.
  intros h. specialize (h nat unit (fun k => k) 2 [Go [tt; tt]] _ _ eq_refl).
  assert (G : going [Go [tt; tt]]) by (repeat constructor; eexists; reflexivity).
  specialize (h G 1 _ eq_refl 2 ltac:(cbn; auto)). cbn in h. lia.
Qed.
Print Assumptions C69_cancelled_points_were_sent_refuted.

Lemma NoDup_map_in {A B} (g : A -> B) l : NoDup l -> (forall a b, In a l -> In b l -> g a = g b -> a = b) -> NoDup (map g l).
Proof.
  induction 1 as [|a l Na Nl IH]; intros J; cbn; constructor.
  - intros h. apply in_map_iff in h as (b & Eb & Hb). apply Na. rewrite <- (J b a); auto; cbn; auto.
  - apply IH. intros x y Hx Hy. apply J; cbn; auto.
Qed.
(** ** persistent_uniform_final_update *)
(** The corners of a box: each list of bounds occurs, exactly once. *)
Lemma corner_ext {X} (lb ub : list X) : forall i a b, (forall j, j < length lb -> Nat.testbit a (i + j) = Nat.testbit b (i + j)) ->
  corner lb ub a i = corner lb ub b i.
Proof.
  revert ub. induction lb as [|l lb IH]; intros [|u ub] i a b h; cbn [corner]; try reflexivity.
  pose proof (h 0 ltac:(cbn; lia)) as h0. rewrite Nat.add_0_r in h0. rewrite h0. f_equal. apply IH.
  intros j Hj. replace (S i + j) with (i + S j) by lia. apply h. cbn. lia.
Qed.
Theorem C69_every_corner_once {X} (lb ub : list X) :
  length ub = length lb -> (forall i l u, nth_error lb i = Some l -> nth_error ub i = Some u -> l <> u) ->
  NoDup (corners lb ub) /\
  (forall c, In c (corners lb ub) <->
     length c = length lb /\ forall i y, nth_error c i = Some y -> nth_error lb i = Some y \/ nth_error ub i = Some y).
Proof.
  intros L D. unfold corners.
  assert (Nth : forall (lb ub : list X) k i j, length ub = length lb -> j < length lb ->
            nth_error (corner lb ub k i) j = (if Nat.testbit k (i + j) then nth_error lb j else nth_error ub j)).
  { clear. induction lb as [|l lb IH]; intros [|u ub] k i j L Hj; cbn in L, Hj; try lia. cbn [corner].
    destruct j as [|j]; cbn [nth_error].
    - rewrite Nat.add_0_r. destruct (Nat.testbit k i); reflexivity.
    - rewrite IH by lia. replace (S i + j) with (i + S j) by lia. reflexivity. }
  assert (Len : forall (lb ub : list X) k i, length ub = length lb -> length (corner lb ub k i) = @length X lb).
  { clear. induction lb as [|l lb IH]; intros [|u ub] k i L; cbn in *; try lia. rewrite IH; lia. }
  assert (Bits : forall k, k < 2 ^ length lb -> forall j, length lb <= j -> Nat.testbit k j = false).
  { intros k Hk j Hj. destruct (Nat.eq_dec k 0) as [->|Nz]; [apply Nat.bits_0|]. apply Nat.bits_above_log2.
    apply Nat.log2_lt_pow2; [lia|]. eapply Nat.lt_le_trans; [exact Hk|]. apply Nat.pow_le_mono_r; lia. }
  split.
  - apply NoDup_map_in; [apply seq_NoDup|]. intros a b Ha Hb E. apply in_seq in Ha, Hb.
    apply Nat.bits_inj. intros j. destruct (Nat.lt_ge_cases j (length lb)) as [Hj|Hj].
    + pose proof (f_equal (fun l => nth_error l j) E) as Ej. cbn beta in Ej. rewrite !Nth in Ej by assumption. cbn [plus] in Ej.
      destruct (nth_error lb j) as [l|] eqn:El; [|apply nth_error_None in El; lia].
      destruct (nth_error ub j) as [u|] eqn:Eu; [|apply nth_error_None in Eu; lia].
      pose proof (D j l u El Eu). destruct (Nat.testbit a j), (Nat.testbit b j); congruence.
    + rewrite !Bits by lia. reflexivity.
  - intros cr. rewrite in_map_iff. split.
    + intros (k & <- & _). split; [apply Len; exact L|]. intros i y E.
      assert (Hi : i < length lb) by (rewrite <- (Len lb ub k 0 L); apply nth_error_Some; congruence).
      rewrite Nth in E by assumption. destruct (Nat.testbit k (0 + i)); auto.
    + intros [Lc h].
      assert (Ex : forall (lb ub c : list X) i, length ub = length lb -> length c = length lb ->
        (forall j y, nth_error c j = Some y -> nth_error lb j = Some y \/ nth_error ub j = Some y) ->
        exists k, k < 2 ^ length lb /\ corner lb ub (k * 2 ^ i) i = c).
      { clear. induction lb as [|l lb IH]; intros [|u ub] [|y c] i Lu Lc h; cbn in Lu, Lc; try lia.
        - exists 0. cbn. split; [lia | reflexivity].
        - destruct (IH ub c (S i)) as (k & Hk & Ek); [lia | lia | intros j z Ej; exact (h (S j) z Ej)|].
          assert (Hz : exists bit : bool, (if bit then l else u) = y).
          { destruct (h 0 y eq_refl) as [E|E]; cbn in E; injection E as <-; [exists true | exists false]; reflexivity. }
          destruct Hz as [bit Hz]. exists (2 * k + Nat.b2n bit). split.
          + cbn [length]. rewrite Nat.pow_succ_r'. destruct bit; cbn [Nat.b2n]; lia.
          + cbn [corner].
            assert (B0 : Nat.testbit ((2 * k + Nat.b2n bit) * 2 ^ i) i = bit).
            { rewrite Nat.mul_pow2_bits_high by lia. rewrite Nat.sub_diag. apply Nat.testbit_0_r. }
            rewrite B0, Hz. f_equal. rewrite <- Ek. apply corner_ext. intros j _.
            rewrite !Nat.mul_pow2_bits_high by lia. replace (S i + j - i) with (S j) by lia. replace (S i + j - S i) with j by lia.
            apply Nat.testbit_succ_r. }
      destruct (Ex lb ub cr 0 L Lc h) as (k & Hk & Ek). exists k. rewrite Nat.mul_1_r in Ek. split; [exact Ek|]. apply in_seq. lia.
Qed.
Print Assumptions C69_every_corner_once.
Example C69_every_corner_once_nonvacuous : corners [0; 0] [1; 2] = [[1; 2]; [0; 2]; [1; 0]; [0; 0]].
Proof. reflexivity. Qed.

Lemma count_in_spec l : forall t t', count_in l t = Ok t' -> length (number t) = length (total t) ->
  length (total t') = length (total t) /\ length (number t') = length (total t') /\
  forall k, k < length (total t) ->
    nth_error (number t') k = option_map (fun n => n + length (at_corner k l)) (nth_error (number t) k) /\
    nth_error (total t') k = option_map (fun a => fold_left add_value (at_corner k l) a) (nth_error (total t) k).
Proof.
  induction l as [|[j f] l IH]; intros t t' E L; cbn [count_in] in E.
  - injection E as <-. repeat split; auto; cbn.
    + destruct (nth_error (number t) k); cbn; [rewrite Nat.add_0_r|]; reflexivity.
    + destruct (nth_error (total t) k); reflexivity.
  - destruct (j <? length (total t)) eqn:Ej; [|discriminate]. apply Nat.ltb_lt in Ej.
    destruct (IH _ _ E) as (L1 & L2 & K); cbn [total number] in *; [rewrite !upd_length; exact L|].
    rewrite upd_length in L1, K. split; [exact L1|]. split; [exact L2|]. intros k Hk. destruct (K k Hk) as [K1 K2]. rewrite K1, K2.
    unfold at_corner. cbn [filter fst]. destruct (j =? k) eqn:Ek.
    + apply Nat.eqb_eq in Ek. subst j. rewrite !upd_nth, Nat.eqb_refl. cbn [map snd length fold_left].
      split; [destruct (nth_error (number t) k) | destruct (nth_error (total t) k)]; cbn; try reflexivity.
      f_equal. lia.
    + apply Nat.eqb_neq in Ek. rewrite !upd_nth_other by congruence. auto.
Qed.
Lemma at_corner_app k l l' : at_corner k (l ++ l') = at_corner k l ++ at_corner k l'.
Proof. unfold at_corner. rewrite filter_app, map_app. reflexivity. Qed.
Lemma fold_add l : Forall (fun v : value => exists z, v = Some z) l -> forall a, fold_left add_value l (Some a) = Some (a + sum l)%Z.
Proof.
  induction 1 as [|v l [z ->] _ IH]; intros a; cbn; [f_equal; lia|]. rewrite IH. f_equal. lia.
Qed.
Lemma fold_add_none l : Forall (fun v : value => exists z, v = Some z) l ->
  fold_left add_value l None = match l with [] => None | _ => Some (sum l) end.
Proof. intros F. destruct F as [|v l [z ->] F]; [reflexivity|]. cbn. rewrite fold_add by exact F. reflexivity. Qed.
Lemma numbers_at k l : numbers l -> Forall (fun v : value => exists z, v = Some z) (at_corner k l).
Proof.
  intros F. unfold at_corner. apply Forall_forall. intros v h. apply in_map_iff in h as ([j w] & <- & h).
  apply filter_In in h as [h _]. unfold numbers in F. rewrite Forall_forall in F. exact (F _ h).
Qed.

(** The points sent are numbered in order, each number once; when the function returns it
    reports, for each number, the corner that was sent under it and the mean of all
    results for this corner, those included that come with the request to stop. *)
Theorem C69_final_means pick n b (before : list (mail (nat * value))) m after outs rep :
  run_final_update pick n b (before ++ m :: after) = (outs, Some (Ok rep)) ->
  going before -> m = Stop \/ (exists l, m = Last l) ->
  numbers (results (before ++ [m])) ->
  concat outs = map (fun k => (k, pick k)) (seq 0 (b + received before)) /\
  length rep = b + received before /\
  forall i, i < b + received before -> pick i < 2 ^ n ->
    nth_error rep i = Some (i, pick i, mean (at_corner (pick i) (results (before ++ [m])))).
Proof.
  unfold run_final_update. intros E G h N.
  assert (Rs : forall l l' : list (mail (nat * value)), results (l ++ l') = results l ++ results l').
  { clear. induction l as [|[x|x|] l IH]; intros l'; cbn; rewrite ?IH, ?app_assoc; reflexivity. }
  assert (K : forall (before : list (mail (nat * value))) b next all t outs rep,
    final_update pick b next all t (before ++ m :: after) = (outs, Some (Ok rep)) -> going before ->
    length (number t) = length (total t) ->
    concat outs = map (fun k => (k, pick k)) (seq next (b + received before)) /\
    exists t', rep = report t' (all ++ map pick (seq next (b + received before))) /\
      count_in (results (before ++ [m])) t = Ok t').
  { clear - h. induction before as [|m0 ms IH]; intros b next all t outs rep E G L; cbn [final_update app] in E.
    - replace (stops m) with true in E by (destruct h as [->|[l ->]]; reflexivity).
      assert (Er : results [m] = match rows m with Some l => l | None => [] end).
      { destruct h as [->|[l ->]]; cbn; rewrite ?app_nil_r; reflexivity. }
      cbn [app received]. rewrite Er, Nat.add_0_r.
      destruct (rows m) as [l|].
      + destruct (count_in l t) as [t1|e] eqn:Ec; [|discriminate]. injection E as <- <-. cbn [concat]. rewrite app_nil_r. eauto.
      + injection E as <- <-. cbn [concat count_in]. rewrite app_nil_r. eauto.
    - apply going_cons in G as (l & -> & G). cbn [stops rows size] in E. cbn [received results app].
      destruct (count_in l t) as [t1|e] eqn:Ec; [|discriminate].
      destruct (final_update pick (length l) (next + b) (all ++ map pick (seq next b)) t1 (ms ++ m :: after)) as [o r0] eqn:Eu.
      injection E as <- ->. destruct (count_in_spec l t t1 Ec L) as (L1 & L2 & _).
      destruct (IH _ _ _ _ _ _ Eu G L2) as (C & t' & -> & Ct). cbn [concat]. rewrite C. split.
      + rewrite <- map_app, <- seq_app. reflexivity.
      + exists t'. split; [rewrite <- app_assoc, <- map_app, <- seq_app; reflexivity|].
        clear - Ec Ct. revert t Ec. induction l as [|[j f] l IHl]; intros t Ec; cbn [count_in app] in *; [injection Ec as ->; exact Ct|].
        destruct (j <? length (total t)); [|discriminate]. apply IHl. exact Ec. }
  destruct (K before b 0 [] _ outs rep E G) as (C & t' & -> & Ct); [cbn; rewrite !repeat_length; reflexivity|].
  split; [exact C|]. cbn [app]. unfold report. rewrite map_length, combine_length, !map_length, !seq_length, Nat.min_id.
  split; [reflexivity|]. intros i Hi Hp.
  destruct (count_in_spec _ _ _ Ct) as (L1 & L2 & Q); cbn [total number] in *; [rewrite !repeat_length; reflexivity|].
  rewrite repeat_length in *. destruct (Q (pick i) Hp) as [Q1 Q2].
  rewrite nth_error_map. replace (nth_error (combine (seq 0 (b + received before)) (map pick (seq 0 (b + received before)))) i) with (Some (i, pick i)).
  - cbn [option_map fst snd]. f_equal. f_equal. unfold estimate. rewrite Q1, Q2.
    rewrite !nth_error_repeat by exact Hp. cbn [option_map plus]. rewrite (fold_add_none _ (numbers_at (pick i) _ N)).
    unfold mean. destruct (at_corner (pick i) (results (before ++ [m]))); reflexivity.
  - clear - Hi. assert (Z : forall n s i, i < n -> nth_error (combine (seq s n) (map pick (seq s n))) i = Some (s + i, pick (s + i))).
    { induction n as [|n IH]; intros s j Hj; [lia|]. destruct j as [|j]; cbn [seq map combine nth_error]; [rewrite Nat.add_0_r; reflexivity|].
      rewrite IH by lia. replace (s + S j) with (S s + j) by lia. reflexivity. }
    rewrite Z by exact Hi. reflexivity.
Qed.
Print Assumptions C69_final_means.
Example C69_final_means_nonvacuous :
  run_final_update (fun k => k mod 2) 1 3 [Go [(0, Some 4%Z); (1, Some 7%Z)]; Last [(0, Some 6%Z)]] =
  ([[(0, 0); (1, 1); (2, 0)]; [(3, 1); (4, 0)]],
   Some (Ok [(0, 0, Some (10%Z, 2)); (1, 1, Some (7%Z, 1)); (2, 0, Some (10%Z, 2)); (3, 1, Some (7%Z, 1)); (4, 0, Some (10%Z, 2))])).
Proof. reflexivity. Qed.
(** A value that is nan makes the function forget the values before it, but not their
    number: the mean reported afterwards is neither nan nor the mean of the others. *)
Theorem C69_nan_in_the_means_refuted :
  ~ (forall pick n b (ms : list (mail (nat * value))) outs rep i e,
      run_final_update pick n b (ms ++ [Stop]) = (outs, Some (Ok rep)) -> going ms ->
      nth_error rep i = Some (i, pick i, e) ->
      e = None \/ e = mean (at_corner (pick i) (results ms)) \/
      e = mean (filter (fun v => match v with Some _ => true | None => false end) (at_corner (pick i) (results ms)))).
Proof.
  intros h. specialize (h (fun _ => 0) 0 1 [Go [(0, Some 8%Z)]; Go [(0, None)]; Go [(0, Some 1%Z)]] _ _ 0 (Some (1%Z, 3)) eq_refl).
  destruct h as [e|[e|e]]; [repeat constructor; eexists; reflexivity | reflexivity | | |]; vm_compute in e; discriminate.
Qed.
Print Assumptions C69_nan_in_the_means_refuted.
