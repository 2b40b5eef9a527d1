(** Property theorems C88: every worker gets a random stream of its own. *)
From Verif Require Import Base BaseLemmas StreamModel.

(** Vocabulary: no two workers have one dictionary object in persis_info. *)
Definition separate (st : state) : Prop :=
  NoDup (map snd (st_info st)) /\ NoDup (map fst (st_info st)) /\
  forall k a, In (k, a) (st_info st) -> a < length (st_dicts st).

Lemma key_eqb_spec a b : reflect (a = b) (key_eqb a b).
Proof.
  destruct a, b; cbn; try (constructor; congruence). destruct (Nat.eqb_spec n n0); constructor; congruence.
Qed.

Lemma address_In i l a : address i l = Some a -> In (i, a) l.
Proof.
  induction l as [|[k b] l IH]; cbn; [discriminate|]. destruct (Nat.eqb_spec k i); [intros [= ->]; subst; auto|auto].
Qed.
Lemma address_None i l : address i l = None <-> ~ In i (map fst l).
Proof.
  induction l as [|[k b] l IH]; cbn; [tauto|]. destruct (Nat.eqb_spec k i); [|tauto]. split; [discriminate|subst; tauto].
Qed.
Lemma address_app i l k a : address i (l ++ [(k, a)]) = match address i l with Some b => Some b | None => if k =? i then Some a else None end.
Proof. induction l as [|[k' b] l IH]; cbn; [auto|]. destruct (k' =? i); auto. Qed.
Lemma address_apart l i j a : NoDup (map snd l) -> address i l = Some a -> address j l = Some a -> i = j.
Proof.
  intros N Hi Hj. apply address_In in Hi, Hj. induction l as [|[k b] l IH]; [contradiction|]. cbn in N. inversion N; subst.
  destruct Hi as [Hi|Hi], Hj as [Hj|Hj].
  - congruence.
  - inversion Hi; subst. exfalso. apply H1. change a with (snd (j, a)). now apply in_map.
  - inversion Hj; subst. exfalso. apply H1. change a with (snd (i, a)). now apply in_map.
  - auto.
Qed.

Lemma NoDup_snoc {A} (l : list A) x : NoDup l -> ~ In x l -> NoDup (l ++ [x]).
Proof.
  induction l as [|y l IH]; cbn; intros N H; [repeat constructor; auto|]. inversion N; subst. constructor; [|apply IH; tauto].
  rewrite in_app_iff. cbn. intuition.
Qed.

(** One round gives worker i its entry and leaves the others alone. *)
Lemma add_stream_step seed st i :
  separate st ->
  let st' := add_stream seed st i in
  separate st' /\ st_next st' = S (st_next st) /\
  info_of i st' = Some (stamp (mkStream (seed_for seed i) (st_next st)) i (match info_of i st with Some e => e | None => fun _ => None end)) /\
  forall j, j <> i -> info_of j st' = info_of j st.
Proof.
  intros (N1 & N2 & B). cbn zeta. unfold add_stream, info_of. destruct (address i (st_info st)) as [a|] eqn:E; cbn [st_info st_dicts st_next].
  - pose proof (B _ _ (address_In _ _ _ E)) as La.
    split. { split; [auto|]. split; [auto|]. cbn. intros. rewrite upd_length. eauto. }
    split; [auto|]. split.
    + rewrite E. destruct (nth_error (st_dicts st) a) as [e|] eqn:En; [|apply nth_error_None in En; lia].
      now apply upd_nth_same.
    + intros j Hj. destruct (address j (st_info st)) as [b|] eqn:Eb; [|auto]. apply upd_nth_other. intros ->.
      apply Hj. eapply address_apart; eauto.
  - split.
    { split; [|split]; cbn.
      - rewrite map_app. cbn. apply NoDup_snoc; auto. intros H. apply in_map_iff in H as ([k a] & Ha & H). cbn in Ha. subst a.
        apply B in H. lia.
      - rewrite map_app. cbn. apply NoDup_snoc; auto. now apply address_None.
      - intros k a H. rewrite app_length. cbn. apply in_app_iff in H as [H|[H|[]]]; [apply B in H; lia|inversion H; lia]. }
    split; [auto|]. split.
    + rewrite address_app, E, Nat.eqb_refl, nth_error_app2, Nat.sub_diag by lia. reflexivity.
    + intros j Hj. rewrite address_app. destruct (address j (st_info st)) as [b|] eqn:Eb.
      * apply nth_error_app1. apply address_In in Eb. eauto.
      * destruct (Nat.eqb_spec i j); [congruence|auto].
Qed.

Lemma add_streams_loop seed n : forall a st, separate st ->
  let st' := fold_left (add_stream seed) (seq a n) st in
  separate st' /\ st_next st' = st_next st + n /\
  (forall i, a <= i < a + n -> info_of i st' =
     Some (stamp (mkStream (seed_for seed i) (st_next st + (i - a))) i (match info_of i st with Some e => e | None => fun _ => None end))) /\
  (forall i, ~ (a <= i < a + n) -> info_of i st' = info_of i st).
Proof.
  induction n as [|n IH]; intros a st Hs; cbn [seq fold_left]; [repeat split; try apply Hs; auto; lia|].
  destruct (add_stream_step seed st a Hs) as (S1 & S2 & S3 & S4).
  destruct (IH (S a) _ S1) as (I1 & I2 & I3 & I4). cbn zeta. split; [auto|]. split; [lia|]. split.
  - intros i Hi. destruct (Nat.eq_dec i a) as [->|n0].
    + rewrite I4 by lia. rewrite S3, Nat.sub_diag, Nat.add_0_r. reflexivity.
    + rewrite I3 by lia. rewrite S2, S4 by auto. do 3 f_equal. lia.
  - intros i Hi. rewrite I4 by lia. apply S4. lia.
Qed.

(** ** C88 *)

(** Every worker below the given number has a stream and its own number
    afterwards. The streams are new and no two workers have the same one. *)
Theorem C88_every_worker_has_a_stream_of_its_own :
  forall n seed st, separate st ->
  let st' := add_unique_random_streams n seed st in
  (forall i, i < n -> setting i K_worker_num st' = Some (VNum i) /\
     exists s, setting i K_rand_stream st' = Some (VStream s) /\ st_next st <= s_object s) /\
  (forall i j s s', i < n -> j < n -> i <> j ->
     setting i K_rand_stream st' = Some (VStream s) -> setting j K_rand_stream st' = Some (VStream s') -> s_object s <> s_object s').
Proof.
  intros n seed st Hs. destruct (add_streams_loop seed n 0 st Hs) as (L1 & L2 & L3 & L4). fold (add_unique_random_streams n seed st) in *.
  cbn zeta. split.
  - intros i Hi. unfold setting. rewrite L3 by lia. split; [reflexivity|]. eexists. split; [reflexivity|]. cbn. lia.
  - intros i j s s' Hi Hj Hne. unfold setting. rewrite !L3 by lia. cbn. intros [= <-] [= <-]. cbn. lia.
Qed.
Print Assumptions C88_every_worker_has_a_stream_of_its_own.

(** The seeds: by default worker i's is i, so all differ and a rerun repeats
    them; a given int is the seed of all; None leaves it to the system.
    ([SdOther] is also any seed that is no Python int, such as the text that the
    documentation announces: it is ignored.) *)
Theorem C88_seeds_are_as_documented :
  forall n seed st i, separate st -> i < n ->
  exists s, setting i K_rand_stream (add_unique_random_streams n seed st) = Some (VStream s) /\
    match seed with
    | SdOther => s_origin s = Seeded (Z.of_nat i)
    | SdInt z => s_origin s = Seeded z
    | SdNone => s_origin s = Entropy
    end.
Proof.
  intros n seed st i Hs Hi. destruct (add_streams_loop seed n 0 st Hs) as (L1 & L2 & L3 & L4). fold (add_unique_random_streams n seed st) in *.
  unfold setting. rewrite L3 by lia. eexists. split; [reflexivity|]. destruct seed; reflexivity.
Qed.
Print Assumptions C88_seeds_are_as_documented.

(** Everything else the user put into persis_info stays: other settings of
    these workers, and the whole entries of others. Entries are not mixed up by
    further calls either. *)
Theorem C88_other_settings_are_kept :
  forall n seed st, separate st ->
  let st' := add_unique_random_streams n seed st in
  separate st' /\
  (forall i k, k <> K_rand_stream -> k <> K_worker_num -> setting i k st' = setting i k st) /\
  (forall i k, n <= i -> setting i k st' = setting i k st) /\
  (forall i, info_of i st' = None <-> n <= i /\ info_of i st = None).
Proof.
  intros n seed st Hs. destruct (add_streams_loop seed n 0 st Hs) as (L1 & L2 & L3 & L4). fold (add_unique_random_streams n seed st) in *.
  cbn zeta. split; [auto|]. split; [|split].
  - intros i k H1 H2. unfold setting. destruct (Nat.lt_ge_cases i n).
    + rewrite L3 by lia. unfold stamp, set_key. destruct (key_eqb_spec K_worker_num k); [congruence|].
      destruct (key_eqb_spec K_rand_stream k); [congruence|]. destruct (info_of i st); reflexivity.
    + rewrite L4 by lia. reflexivity.
  - intros i k Hi. unfold setting. rewrite L4 by lia. reflexivity.
  - intros i. destruct (Nat.lt_ge_cases i n).
    + rewrite L3 by lia. split; [discriminate|lia].
    + rewrite L4 by lia. tauto.
Qed.
Print Assumptions C88_other_settings_are_kept.

(** The Ensemble object's method serves the manager (0) and all its workers. *)
Theorem C88_the_ensemble_serves_all_workers :
  forall nworkers seed st i, separate st -> i <= nworkers ->
  exists s, setting i K_rand_stream (add_random_streams nworkers 0 seed st) = Some (VStream s).
Proof.
  intros nw seed st i Hs Hi. unfold add_random_streams. cbn [Nat.eqb].
  destruct (C88_every_worker_has_a_stream_of_its_own (nw + 1) seed st Hs) as [A _]. cbn zeta in A.
  destruct (A i ltac:(lia)) as (_ & s & E & _). eauto.
Qed.
Print Assumptions C88_the_ensemble_serves_all_workers.

(** A generator object always has a stream; if it was given one, its
    persis_info is what it was given. *)
Theorem C88_a_generator_object_has_a_stream :
  forall e next, exists e' v, generator_info e next = Some e' /\ e' K_rand_stream = Some v /\
    forall w, e K_rand_stream = Some w -> forall k, e' k = e k.
Proof.
  intros e next. unfold generator_info. destruct (e K_rand_stream) as [v|] eqn:E.
  - exists e, v. auto.
  - do 2 eexists. split; [reflexivity|]. split; [reflexivity|]. discriminate.
Qed.
Print Assumptions C88_a_generator_object_has_a_stream.

(** ** Examples *)
Definition user_entry : entry := set_key (K_user 7) (VUser 70) (fun _ => None).
Definition some_info : state := mkSt [(2, 0); (9, 1)] [user_entry; user_entry] 0.
Example C88_hypotheses_met :
  separate some_info /\
  setting 2 (K_user 7) (add_unique_random_streams 4 SdOther some_info) = Some (VUser 70) /\
  setting 2 K_rand_stream (add_unique_random_streams 4 SdOther some_info) = Some (VStream (mkStream (Seeded 2) 2)) /\
  setting 3 K_rand_stream (add_unique_random_streams 4 SdOther some_info) = Some (VStream (mkStream (Seeded 3) 3)) /\
  info_of 4 (add_unique_random_streams 4 SdOther some_info) = None.
Proof.
  split; [|repeat split; reflexivity]. split; [|split]; cbn.
  - repeat constructor; cbn; intuition lia.
  - repeat constructor; cbn; intuition lia.
  - intros k a [E|[E|[]]]; inversion E; lia.
Qed.

(** If the user's persis_info has one dictionary for two workers, both end up
    with one stream and one number. *)
Theorem C88_workers_with_one_dictionary_share_the_stream_refuted :
  exists st s, setting 1 K_rand_stream (add_unique_random_streams 3 SdOther st) = Some (VStream s) /\
    setting 2 K_rand_stream (add_unique_random_streams 3 SdOther st) = Some (VStream s) /\
    setting 1 K_worker_num (add_unique_random_streams 3 SdOther st) = Some (VNum 2).
Proof. exists (mkSt [(1, 0); (2, 0)] [user_entry] 0). eexists. repeat split; reflexivity. Qed.

(** Two generator objects that are given no random stream draw the same
    numbers; and the other settings of the persis_info they are given are lost. *)
Theorem C88_generator_objects_draw_the_same_numbers_refuted :
  exists s s' e e', s_object s <> s_object s' /\ s_origin s = s_origin s' /\
    generator_info user_entry 0 = Some e /\ generator_info user_entry 4 = Some e' /\
    e K_rand_stream = Some (VStream s) /\ e' K_rand_stream = Some (VStream s') /\
    user_entry (K_user 7) = Some (VUser 70) /\ e (K_user 7) = None.
Proof.
  exists (mkStream (Seeded 4321) 1), (mkStream (Seeded 4321) 5). do 2 eexists.
  split; [cbn; lia|]. split; [reflexivity|]. split; [reflexivity|]. split; [reflexivity|]. repeat split; reflexivity.
Qed.
