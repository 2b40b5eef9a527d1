(** Counting orders and answers in the traffic of a run. *)
From Verif Require Import Base BaseLemmas HistoryModel HistorySpec RsetModel WorkModel ManagerModel ManagerSpec ManagerProofs ManagerMsg ManagerRun ManagerInv ManagerRes DrivenModel DrivenSpec DrivenProofs DrivenInv.

(** ** The counts, event by event *)
Lemma open_snoc w l e : open_order w (l ++ [e]) = step_open w (open_order w l) e.
Proof. unfold open_order. now rewrite fold_left_app. Qed.
Lemma orders_app a b : orders_sent (a ++ b) = orders_sent a + orders_sent b.
Proof. induction a as [|e a IH]; auto. destruct e as [w o|w i]; [destruct o|]; cbn; auto. rewrite IH. lia. Qed.
Lemma calls_app a b : gen_calls (a ++ b) = gen_calls a + gen_calls b.
Proof. induction a as [|e a IH]; auto. destruct e as [w o|w i]; [destruct o|]; cbn; auto. rewrite IH. lia. Qed.
Lemma answers_app a b : answers_in (a ++ b) = answers_in a + answers_in b.
Proof. induction a as [|e a IH]; auto. destruct e as [w o|w i]; [|destruct i]; cbn; auto. Qed.
Fixpoint gen_answers (l : list event) : nat :=
  match l with
  | [] => 0
  | Got _ (IData a) :: l' => (if n_type a =? EVAL_GEN then 1 else 0) + gen_answers l'
  | _ :: l' => gen_answers l'
  end.
Lemma gen_answers_app a b : gen_answers (a ++ b) = gen_answers a + gen_answers b.
Proof. induction a as [|e a IH]; auto. destruct e as [w o|w i]; [|destruct i]; cbn; auto. rewrite IH. lia. Qed.
Lemma points_len l : length (points_sent l) = points_out l.
Proof. induction l as [|e l IH]; auto. destruct e as [w o|w i]; [destruct o|]; cbn; auto. rewrite app_length, IH. now destruct (_ =? _). Qed.

(** what is assumed of the traffic; it holds of every first part of it *)
Definition fine (l : list event) : Prop := answers_match l /\ cancels_nothing l /\ gens_deliver l.
Lemma match_app l l' : answers_match (l ++ l') -> answers_match l.
Proof. intros H p w a q ->. apply (H p w a (q ++ l')). now rewrite <- app_assoc. Qed.
Lemma fine_app l l' : fine (l ++ l') -> fine l.
Proof.
  intros (H1 & H2 & H3). split; [eapply match_app; eauto|]. split.
  - intros w a D Hin. apply (H2 w a D), in_app_iff. auto.
  - intros w a Hin. apply (H3 w a), in_app_iff. auto.
Qed.

(** ** The open orders *)
(** a condition on orders: they go to workers without an open order *)
Definition fair (l : list event) : Prop :=
  forall p w k q, l = p ++ Sent w (OWork k) :: q -> k_tag k <> PERSIS_STOP -> open_order w p = None /\ (k_tag k = EVAL_SIM \/ k_tag k = EVAL_GEN).
Lemma fair_app l l' : fair (l ++ l') -> fair l.
Proof. intros H p w k q ->. apply (H p w k (q ++ l')). now rewrite <- app_assoc. Qed.

Definition step_opens (s : list (nat * work)) (e : event) : list (nat * work) :=
  match e with
  | Sent v (OWork k) => if k_tag k =? PERSIS_STOP then s else (v, k) :: s
  | Got v (IData _) => filter (fun p => negb (fst p =? v)) s
  | _ => s
  end.
Definition opens (l : list event) : list (nat * work) := fold_left step_opens l [].
Lemma opens_snoc l e : opens (l ++ [e]) = step_opens (opens l) e.
Proof. unfold opens. now rewrite fold_left_app. Qed.

Lemma NoDup_map_filter {A B} (f : A -> B) g l : NoDup (map f l) -> NoDup (map f (filter g l)).
Proof.
  induction l as [|x l IH]; auto. cbn. intros N. inversion_clear N as [|? ? N1 N2]. destruct (g x); auto. cbn. constructor; auto.
  intros Hin. apply N1. apply in_map_iff in Hin as (y & <- & Hy). apply filter_In in Hy as [Hy _]. now apply in_map.
Qed.

Lemma opens_spec l : fair l -> NoDup (map fst (opens l)) /\ forall w k, open_order w l = Some k <-> In (w, k) (opens l).
Proof.
  induction l as [|e l IH] using rev_ind; intros HF.
  { split; [constructor|]. intros w k. split; [discriminate|intros []]. }
  destruct (IH (fair_app _ _ HF)) as [H1 H2]. rewrite opens_snoc. split.
  - destruct e as [v o|v i]; [destruct o as [k| | |]|destruct i]; cbn [step_opens]; auto; [|now apply NoDup_map_filter].
    destruct (Nat.eqb_spec (k_tag k) PERSIS_STOP) as [E|E]; auto. cbn. constructor; auto. intros Hin. apply in_map_iff in Hin as ([w' k'] & Ew & Hin). cbn in Ew. subst w'.
    apply H2 in Hin. destruct (HF l v k [] eq_refl E) as [Ho _]. congruence.
  - intros w k. rewrite open_snoc. destruct e as [v o|v i]; [destruct o as [k1| | |]|destruct i]; cbn [step_opens step_open]; auto.
    + destruct (Nat.eqb_spec (k_tag k1) PERSIS_STOP) as [E|E]; cbn [negb]; [now rewrite andb_false_r|]. rewrite andb_true_r.
      destruct (HF l v k1 [] eq_refl E) as [Ho _]. destruct (Nat.eqb_spec v w) as [->|Hne].
      * split; [intros [= <-]; now left|]. intros [Hin|Hin]; [congruence|]. apply H2 in Hin. congruence.
      * rewrite H2. split; [now right|]. intros [Hin|Hin]; auto. congruence.
    + rewrite filter_In. cbn [fst]. rewrite <- H2. destruct (Nat.eqb_spec v w) as [->|Hne].
      * rewrite Nat.eqb_refl. cbn. split; [discriminate|intros [_ ?]; discriminate].
      * destruct (Nat.eqb_spec w v); [congruence|]. cbn. tauto.
Qed.

(** an answer takes its order out *)
Lemma filter_out (f : nat * work -> nat) l w k : NoDup (map fst l) -> In (w, k) l ->
  fold_right (fun p n => f p + n) 0 l = f (w, k) + fold_right (fun p n => f p + n) 0 (filter (fun p => negb (fst p =? w)) l).
Proof.
  induction l as [|[v x] l IH]; [intros _ []|]. cbn [map fst]. intros N. inversion_clear N as [|? ? N1 N2]. cbn [fold_right filter fst].
  intros [Hin|Hin].
  - injection Hin as -> ->. rewrite Nat.eqb_refl. cbn [negb]. f_equal. f_equal. symmetry.
    clear IH N2. induction l as [|[v x] l IH]; auto. cbn [filter fst]. destruct (Nat.eqb_spec v w) as [->|Hne]; [destruct N1; now left|]. cbn [negb]. f_equal. apply IH. intros Hin. apply N1. now right.
  - destruct (Nat.eqb_spec v w) as [->|Hne]. { destruct N1. change w with (fst (w, k)). now apply in_map. }
    cbn [negb fold_right]. rewrite (IH N2 Hin). lia.
Qed.
Definition total (f : nat * work -> nat) (l : list (nat * work)) : nat := fold_right (fun p n => f p + n) 0 l.
Definition is_gen_call (p : nat * work) : nat := if k_tag (snd p) =? EVAL_GEN then 1 else 0.
Definition sim_points (p : nat * work) : nat := if k_tag (snd p) =? EVAL_SIM then length (k_rows (snd p)) else 0.

(** orders = answers + open orders, and so on *)
Lemma balance ret l : fair l -> answers_match l ->
  orders_sent l = answers_in l + length (opens l) /\
  gen_calls l = gen_answers l + total is_gen_call (opens l) /\
  points_out l = results_in ret l + total sim_points (opens l).
Proof.
  induction l as [|e l IH] using rev_ind; intros HF HM; [cbn; auto|].
  destruct (IH (fair_app _ _ HF) (match_app _ _ HM)) as (I1 & I2 & I3). destruct (opens_spec l (fair_app _ _ HF)) as [O1 O2].
  rewrite orders_app, answers_app, calls_app, gen_answers_app, points_out_app, results_app, opens_snoc.
  destruct e as [v o|v i]; [destruct o as [k| | |]|destruct i as [a| | |]]; cbn [orders_sent answers_in gen_calls gen_answers points_out results_in step_opens]; try lia.
  - destruct (Nat.eqb_spec (k_tag k) PERSIS_STOP) as [E|E].
    + rewrite E. cbn. lia.
    + destruct (HF l v k [] eq_refl E) as [_ Ht]. cbn [length total fold_right]. fold (total is_gen_call (opens l)). fold (total sim_points (opens l)).
      unfold is_gen_call at 1, sim_points at 1. cbn [snd]. lia.
  - destruct (HM l v a [] eq_refl) as ((k & K1 & K2 & K3) & _ & _ & K4 & K5). apply O2 in K1.
    pose proof (filter_out (fun _ => 1) (opens l) v k O1 K1) as F1. pose proof (filter_out is_gen_call (opens l) v k O1 K1) as F2.
    pose proof (filter_out sim_points (opens l) v k O1 K1) as F3. cbn beta in F1.
    fold (total is_gen_call (opens l)) in F2. fold (total is_gen_call (filter (fun p => negb (fst p =? v)) (opens l))) in F2.
    fold (total sim_points (opens l)) in F3. fold (total sim_points (filter (fun p => negb (fst p =? v)) (opens l))) in F3.
    assert (L : forall l : list (nat * work), fold_right (fun _ n => 1 + n) 0 l = length l) by (clear; induction l; cbn; auto).
    rewrite !L in F1. unfold answered_rows. destruct (Nat.eqb_spec (n_status a) FIN_PERSIS_SIM); [congruence|].
    destruct (Nat.eqb_spec (n_status a) FIN_PERSIS_GEN); [congruence|]. cbn [orb]. unfold is_gen_call at 2 in F2. unfold sim_points at 2 in F3. cbn [snd] in *.
    rewrite <- K2 in *. destruct (Nat.eqb_spec (n_type a) EVAL_SIM) as [Es|Es].
    + rewrite (K3 Es) in *. lia.
    + lia.
Qed.

(** who is in a generator call: the workers with [task] EVAL_GEN *)
Lemma task_open l w : answers_match l -> task w l = match open_order w l with Some k => k_tag k | None => 0 end.
Proof.
  induction l as [|e l IH] using rev_ind; intros HM; auto.
  rewrite open_snoc. unfold task. rewrite fold_left_app. fold (task w l). cbn [fold_left]. rewrite (IH (match_app _ _ HM)).
  destruct e as [v o|v i]; [destruct o as [k| | |]|destruct i as [a| | |]]; cbn [step_task step_open]; auto.
  - destruct (_ && _); auto.
  - destruct (HM l v a [] eq_refl) as (_ & _ & K & _). rewrite K. cbn. rewrite andb_true_r. now destruct (v =? w).
Qed.
Lemma open_gens n l : fair l -> answers_match l -> at_most_gens task n l -> total is_gen_call (opens l) <= n.
Proof.
  intros HF HM HG. destruct (opens_spec l HF) as [O1 O2].
  assert (E : total is_gen_call (opens l) = length (map fst (filter (fun p => k_tag (snd p) =? EVAL_GEN) (opens l)))).
  { rewrite map_length. clear. induction (opens l) as [|p s IH]; auto. change (total is_gen_call (p :: s)) with (is_gen_call p + total is_gen_call s).
    rewrite IH. cbn [filter]. unfold is_gen_call. now destruct (_ =? _). }
  rewrite E. apply (HG l [] (eq_sym (app_nil_r _))).
  - now apply NoDup_map_filter.
  - intros w Hin. apply in_map_iff in Hin as ([w' k] & Ew & Hin). cbn in Ew. subst w'. apply filter_In in Hin as [Hin Hk].
    apply O2 in Hin. rewrite task_open, Hin by auto. now apply Nat.eqb_eq.
Qed.

(** ** Generator calls *)
(** the generator is called only if each earlier call has brought a point that was sent out *)
Definition calls_needed (l : list event) : Prop :=
  forall p w k q, l = p ++ Sent w (OWork k) :: q -> k_tag k = EVAL_GEN -> gen_answers p <= length (points_sent p).

Lemma few_calls n l : fair l -> answers_match l -> calls_needed l -> at_most_gens task n l -> gen_calls l <= length (points_sent l) + n.
Proof.
  intros HF HM HC HG. induction l as [|e l IH] using rev_ind; [cbn; lia|].
  assert (HG' : at_most_gens task n l) by (intros p q ->; apply (HG p (q ++ [e])); now rewrite <- app_assoc).
  assert (HC' : calls_needed l) by (intros p w k q ->; apply (HC p w k (q ++ [e])); now rewrite <- app_assoc).
  specialize (IH (fair_app _ _ HF) (match_app _ _ HM) HC' HG'). rewrite calls_app, points_sent_app, app_length.
  destruct e as [v o|v i]; [destruct o as [k| | |]|]; cbn [gen_calls points_sent length]; try lia.
  destruct (Nat.eqb_spec (k_tag k) EVAL_GEN) as [E|E]; [|lia]. rewrite E. cbn [Nat.eqb EVAL_GEN EVAL_SIM length app].
  pose proof (HC l v k [] eq_refl E) as H. destruct (balance true (l ++ [Sent v (OWork k)]) HF HM) as (_ & B & _).
  pose proof (open_gens n _ HF HM HG) as O. rewrite calls_app, gen_answers_app in B. cbn [gen_calls gen_answers] in B. rewrite E in B. cbn in B |- *. lia.
Qed.

(** with single points, every order is a simulated point or a generator call *)
Lemma orders_kinds l : (forall w k, In (Sent w (OWork k)) l -> k_tag k = EVAL_SIM -> length (k_rows k) = 1) -> fair l ->
  orders_sent l = points_out l + gen_calls l.
Proof.
  intros HS HF. induction l as [|e l IH] using rev_ind; auto.
  rewrite orders_app, points_out_app, calls_app, IH; [|intros w k Hin; apply (HS w k), in_app_iff; auto|eapply fair_app; eauto].
  destruct e as [v o|v i]; [destruct o as [k| | |]|]; cbn [orders_sent points_out gen_calls]; try lia.
  destruct (Nat.eqb_spec (k_tag k) PERSIS_STOP) as [E|E]; [rewrite E; cbn; lia|].
  destruct (HF l v k [] eq_refl E) as [_ [Ht|Ht]]; rewrite Ht; cbn; [|lia]. rewrite (HS v k); [lia| |auto]. apply in_app_iff. right. now left.
Qed.
