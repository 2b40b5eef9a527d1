(** Property theorem C93: the sampling generator objects. *)
From Coq Require Import QArith String Lqa Lia.
From Verif Require Import Base BaseLemmas SampleObjModel.
Local Open Scope Q_scope.
Local Notation length := List.length.

(** Vocabulary: domains with lower and upper bounds; numbers in [0, 1). *)
Definition domains_ok (vs : variables) : Prop := forall name lo hi, In (name, (lo, hi)) vs -> lo < hi.
Definition unit_numbers (u : Z -> nat -> Q) : Prop := forall seed i, 0 <= u seed i /\ u seed i < 1.
(** A value for every variable, in order, each within its own domain. *)
Definition coordinate_ok (v : string * (Q * Q)) (x : Q) : Prop := fst (snd v) <= x /\ x < snd (snd v).
Definition in_domain (vs : variables) (x : list Q) : Prop := Forall2 coordinate_ok vs x.

Lemma between_ok lo hi x : lo < hi -> 0 <= x /\ x < 1 -> lo <= between lo hi x /\ between lo hi x < hi.
Proof. unfold between. intros H [H0 H1]. split; nra. Qed.

Lemma uniform_ok u vs : domains_ok vs -> (forall i, 0 <= u i /\ u i < 1) -> forall k,
  in_domain vs (uniform u (map (fun v => fst (snd v)) vs) (map (fun v => snd (snd v)) vs) k).
Proof.
  intros Hd Hu. induction vs as [|[name [lo hi]] vs IH]; intros k; cbn; constructor.
  - apply between_ok; auto. apply (Hd name). now left.
  - apply IH. intros n l h Hin. apply (Hd n). now right.
Qed.
Lemma rows_ok u vs : domains_ok vs -> (forall i, 0 <= u i /\ u i < 1) -> forall n k,
  Forall (in_domain vs) (suggest_rows u (map (fun v => fst (snd v)) vs) (map (fun v => snd (snd v)) vs) n k).
Proof. intros Hd Hu. induction n as [|n IH]; intros k; cbn [suggest_rows]; constructor; auto. now apply uniform_ok. Qed.
Lemma rows_length u lb ub n : forall k, length (suggest_rows u lb ub n k) = n.
Proof. induction n as [|n IH]; intros k; cbn [suggest_rows length]; auto. Qed.
Lemma rows_app u lb ub a b : forall k, suggest_rows u lb ub (a + b) k = suggest_rows u lb ub a k ++ suggest_rows u lb ub b (k + a * length lb)%nat.
Proof.
  induction a as [|a IH]; intros k; cbn [suggest_rows Nat.add app]; [now rewrite Nat.add_0_r|].
  rewrite IH. do 2 f_equal. f_equal. cbn [Nat.mul]. lia.
Qed.
Lemma trial_row u vs : forall k, trial u vs k = combine (map fst vs) (uniform u (map (fun v => fst (snd v)) vs) (map (fun v => snd (snd v)) vs) k).
Proof. induction vs as [|[name [lo hi]] vs IH]; intros k; cbn; [reflexivity|]. now rewrite IH. Qed.
Lemma trials_rows u vs n : forall k, trials u vs n k =
  map (combine (map fst vs)) (suggest_rows u (map (fun v => fst (snd v)) vs) (map (fun v => snd (snd v)) vs) n k).
Proof. induction n as [|n IH]; intros k; cbn [trials suggest_rows map]; [reflexivity|]. now rewrite IH, trial_row, map_length. Qed.

(** ** C93 *)

(** As many points as asked for, each with a value for every variable within that
    variable's own domain. *)
Theorem C93_points_are_in_the_domain :
  forall u n s pts s', unit_numbers u -> domains_ok (s_vars s) -> suggest_numpy u n s = (pts, s') ->
  length pts = n /\ forall x, In x pts -> Forall2 (fun v c => fst (snd v) <= c /\ c < snd (snd v)) (s_vars s) x.
Proof.
  intros u n s pts s' Hu Hd E. unfold suggest_numpy in E. cbn zeta in E. inversion E; subst. split; [apply rows_length|].
  apply Forall_forall. exact (rows_ok (u (s_seed s)) (s_vars s) Hd (Hu _) n _).
Qed.
Print Assumptions C93_points_are_in_the_domain.

(** How the points are asked for makes no difference: a points and then b points
    are the same as a + b points at once, and the object is in the same state. *)
Theorem C93_batches_do_not_matter :
  forall u a b s pa sa pb sb, suggest_numpy u a s = (pa, sa) -> suggest_numpy u b sa = (pb, sb) ->
  suggest_numpy u (a + b) s = (pa ++ pb, sb).
Proof.
  unfold suggest_numpy. cbn zeta. intros u a b s pa sa pb sb Ea Eb. inversion Ea; subst. cbn [s_vars s_seed s_drawn] in Eb. inversion Eb; subst.
  rewrite rows_app. do 2 f_equal. lia.
Qed.
Print Assumptions C93_batches_do_not_matter.

(** The sampler that works with dictionaries names every variable, in order, and,
    asked as often, gives the points of the other one with its default seed. *)
Fixpoint ask_numpy (u : Z -> nat -> Q) (ns : list nat) (s : sampler) : list (list Q) :=
  match ns with [] => [] | n :: ns' => fst (suggest_numpy u n s) ++ ask_numpy u ns' (snd (suggest_numpy u n s)) end.
Fixpoint ask (u : Z -> nat -> Q) (ns : list nat) (s : sampler) : list (list (string * Q)) :=
  match ns with [] => [] | n :: ns' => fst (suggest u n s) ++ ask u ns' (snd (suggest u n s)) end.

Lemma combine_split {A B} (a : list A) : forall (b : list B), length a = length b -> map fst (combine a b) = a /\ map snd (combine a b) = b.
Proof. induction a as [|x a IH]; intros [|y b] L; try discriminate; cbn; auto. destruct (IH b) as [-> ->]; auto. Qed.

Theorem C93_the_two_samplers_agree :
  forall u vs s ns, new_external vs = Ok s ->
  map (map snd) (ask u ns s) = ask_numpy u ns (new_sampler vs 1) /\
  (forall d, In d (ask u ns s) -> map fst d = map fst vs).
Proof.
  intros u vs s ns E. assert (Es : s = new_sampler vs 1) by (destruct vs; [discriminate|]; unfold new_external in E; unfold new_sampler; congruence).
  subst s. clear E. unfold new_sampler. generalize 0%nat as k. induction ns as [|n ns IH]; intros k; [split; [reflexivity|intros d []]|].
  cbn [ask ask_numpy]. unfold suggest, suggest_numpy. cbn zeta. cbn [fst snd s_vars s_seed s_drawn]. rewrite map_length.
  destruct (IH (k + n * length vs)%nat) as [I1 I2].
  assert (Hrow : forall lbv k', length (uniform (u 1%Z) (map (fun v : string * (Q * Q) => fst (snd v)) lbv) (map (fun v => snd (snd v)) lbv) k') = length lbv).
  { induction lbv as [|[a [b c]] l IHl]; intros k'; cbn; auto. }
  assert (Hrows : forall r, In r (suggest_rows (u 1%Z) (map (fun v => fst (snd v)) vs) (map (fun v => snd (snd v)) vs) n k) -> length r = length vs).
  { clear - Hrow. revert k. induction n as [|n IHn]; intros k r Hin; [destruct Hin|]. cbn [suggest_rows] in Hin. destruct Hin as [<-|Hin]; [apply Hrow|eauto]. }
  rewrite trials_rows. split.
  - rewrite map_app, map_map, <- I1. f_equal.
    erewrite map_ext_in; [apply map_id|]. intros r Hr. apply combine_split. rewrite map_length. symmetry. now apply Hrows.
  - intros d Hd. apply in_app_iff in Hd as [Hd|Hd]; [|now apply I2].
    apply in_map_iff in Hd as (r & <- & Hr). apply combine_split. rewrite map_length. symmetry. now apply Hrows.
Qed.
Print Assumptions C93_the_two_samplers_agree.

(** A sampler without variables is refused. *)
Theorem C93_no_variables_are_refused : forall vs, (exists s, new_external vs = Ok s) <-> vs <> [].
Proof. intros [|v vs]; cbn; split; try congruence; eauto. intros [s H]. discriminate H. Qed.
Print Assumptions C93_no_variables_are_refused.

(** Example: two variables, three points, asked for as one and two. *)
Definition two_vars : variables := [("a"%string, (0, 10)); ("b"%string, (-(1), 1))].
Definition numbers (seed : Z) (i : nat) : Q := Z.of_nat i mod 7 # 8.
Example C93_hypotheses_met : domains_ok two_vars /\ (exists s, new_external two_vars = Ok s) /\
  map (map Qred) (ask_numpy numbers [1; 2]%nat (new_sampler two_vars 1)) = [[0; -(3) # 4]; [5 # 2; -(1) # 4]; [5; 1 # 4]].
Proof.
  split; [|split; [eauto|vm_compute; reflexivity]].
  - intros name lo hi [H|[H|[]]]; inversion H; subst; reflexivity.
  - eexists. reflexivity.
Qed.
Example C93_numbers_met : unit_numbers numbers.
Proof.
  intros seed i. unfold numbers. pose proof (Z.mod_pos_bound (Z.of_nat i) 7 ltac:(lia)). unfold Qle, Qlt. cbn [Qnum Qden]. lia.
Qed.

(** ** One variable that is an array *)
Fixpoint ask_array (u : Z -> nat -> Q) (ns : list nat) (s : array_sampler) : list (list (string * list Q)) :=
  match ns with [] => [] | n :: ns' => fst (suggest_array u n s) ++ ask_array u ns' (snd (suggest_array u n s)) end.

Lemma array_ok u dom : (forall lo hi, In (lo, hi) dom -> lo < hi) -> (forall i, 0 <= u i /\ u i < 1) -> forall k,
  Forall2 (fun b c => fst b <= c /\ c < snd b) dom (array_of u dom k).
Proof.
  intros Hd Hu. induction dom as [|[lo hi] dom IH]; intros k; cbn; constructor.
  - apply between_ok; auto. apply Hd. now left.
  - apply IH. intros l h Hin. apply Hd. now right.
Qed.

(** Whatever is asked for: as many points, each with the one variable and an array
    with a value within each pair of bounds, in order. *)
Theorem C93_arrays_are_in_the_domain :
  forall u vs s ns, unit_numbers u -> new_array vs = Ok s -> exists key dom, vs = [(key, dom)] /\
  ((forall lo hi, In (lo, hi) dom -> lo < hi) ->
   length (ask_array u ns s) = list_sum ns /\
   forall p, In p (ask_array u ns s) -> exists x, p = [(key, x)] /\ Forall2 (fun b c => fst b <= c /\ c < snd b) dom x).
Proof.
  intros u vs s ns Hu E. destruct vs as [|[key dom] [|v vs]]; try discriminate. exists key, dom. split; [reflexivity|]. intros Hd.
  assert (Es : s = mkArr key dom 0) by (unfold new_array in E; congruence). subst s. clear E. generalize 0%nat as k.
  assert (Hn : forall n k, length (arrays (u 1%Z) key dom n k) = n /\
    forall p, In p (arrays (u 1%Z) key dom n k) -> exists x, p = [(key, x)] /\ Forall2 (fun b c => fst b <= c /\ c < snd b) dom x).
  { induction n as [|n IH]; intros k; cbn [arrays]; [split; [reflexivity|intros p []]|]. destruct (IH (k + length dom)%nat) as [I1 I2].
    split; [cbn [length]; now rewrite I1|]. intros p [<-|Hp]; [|auto]. eexists. split; [reflexivity|]. apply array_ok; auto. }
  induction ns as [|n ns IH]; intros k; [split; [reflexivity|intros p []]|].
  cbn [ask_array]. unfold suggest_array. cbn [fst snd r_key r_domain r_drawn]. destruct (IH (k + n * length dom)%nat) as [I1 I2]. destruct (Hn n k) as [N1 N2].
  split; [rewrite app_length, N1, I1; reflexivity|]. intros p Hp. apply in_app_iff in Hp as [Hp|Hp]; auto.
Qed.
Print Assumptions C93_arrays_are_in_the_domain.

(** It suggests the points of the sampler with one variable for each pair of bounds. *)
Theorem C93_arrays_are_the_same_points :
  forall u key vs s ns, new_array [(key, map snd vs)] = Ok s ->
  ask_array u ns s = map (fun x => [(key, x)]) (ask_numpy u ns (new_sampler vs 1)).
Proof.
  intros u key vs s ns E. assert (Es : s = mkArr key (map snd vs) 0) by (unfold new_array in E; congruence). subst s. clear E. unfold new_sampler. generalize 0%nat as k.
  assert (H1 : forall l k, array_of (u 1%Z) (map snd l) k = uniform (u 1%Z) (map (fun v : string * (Q * Q) => fst (snd v)) l) (map (fun v => snd (snd v)) l) k).
  { induction l as [|v l IHl]; intros k; cbn; [reflexivity|]. now rewrite IHl. }
  assert (H2 : forall n k, arrays (u 1%Z) key (map snd vs) n k = map (fun x => [(key, x)]) (suggest_rows (u 1%Z) (map (fun v => fst (snd v)) vs) (map (fun v => snd (snd v)) vs) n k)).
  { induction n as [|n IHn]; intros k; cbn [arrays suggest_rows map]; [reflexivity|]. now rewrite IHn, H1, !map_length. }
  induction ns as [|n ns IH]; intros k; [reflexivity|]. cbn [ask_array ask_numpy]. unfold suggest_array, suggest_numpy. cbn zeta.
  cbn [fst snd r_key r_domain r_drawn s_vars s_seed s_drawn]. rewrite map_app, H2, !map_length. f_equal. apply IH.
Qed.
Print Assumptions C93_arrays_are_the_same_points.

Example C93_array_hypotheses_met : exists s, new_array [("x"%string, map snd two_vars)] = Ok s /\ length (ask_array numbers [1; 2]%nat s) = 3%nat.
Proof. eexists. split; reflexivity. Qed.
