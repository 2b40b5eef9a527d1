(** C81: a worker's executor, resources and directory are its own. *)
From Coq Require Import Ascii String.
From Verif Require Import Base BaseLemmas TextModel TextProofs ShareModel.
Local Open Scope nat_scope.
Local Notation length := List.length.

(** ** Specification *)

(** the worker that does a step, or that a message is sent to *)
Definition whose (x : step) : nat :=
  match x with Init w | Order w _ | Enter w _ | Leave w | Submit w _ | Poll w | Recv w | Stats w | Quit w | Send w _ => w end.
Definition seen_by (o : obs) : nat := match o with OTask w _ | OPoll w _ | ORecv w _ | OStats w _ => w end.
(** what concerns worker w *)
Definition own (w : nat) (l : list step) : list step := filter (fun x => whose x =? w) l.
Definition sees (w : nat) (l : list obs) : list obs := filter (fun o => seen_by o =? w) l.
Definition tasks (w : nat) (l : list obs) : list task := flat_map (fun o => match o with OTask v t => if v =? w then [t] else [] | _ => [] end) l.
Definition lines (w : nat) (l : list obs) : list (list task) := flat_map (fun o => match o with OStats v t => if v =? w then [t] else [] | _ => [] end) l.
Definition all_tasks (l : list obs) : list task := flat_map (fun o => match o with OTask _ t => [t] | _ => [] end) l.
(** no such step of worker w *)
Definition none (w : nat) (P : step -> Prop) (l : list step) : Prop := forall x, In x l -> whose x = w -> ~ P x.

(** ** Lemmas *)

Lemma set_same {A} (f : nat -> A) i x : set f i x i = x. Proof. unfold set. now rewrite Nat.eqb_refl. Qed.
Lemma set_other {A} (f : nat -> A) i j x : j <> i -> set f i x j = f j. Proof. unfold set. intros H. now rewrite (proj2 (Nat.eqb_neq j i) H). Qed.
Lemma run_app th z a : forall b s, run th z (a ++ b) s = (fst (run th z b (fst (run th z a s))), snd (run th z a s) ++ snd (run th z b (fst (run th z a s)))).
Proof.
  induction a as [|x a IH]; intros b s; cbn [app run fst snd]; [now destruct (run th z b s)|]. destruct (do_step th z x s) as [s1 o1]. rewrite IH. destruct (run th z a s1) as [s2 o2]. cbn [fst snd]. now rewrite app_assoc.
Qed.

(** the channel of a worker's executor is its own *)
Definition good (s : world) : Prop := forall w, p_comm (w_proc s w) = None \/ p_comm (w_proc s w) = Some w.
Definition same (w : nat) (s s' : world) : Prop := w_proc s w = w_proc s' w /\ w_chan s w = w_chan s' w /\ w_stack s w = w_stack s' w.
Ltac at_ v w := destruct (Nat.eq_dec v w) as [->|?]; [rewrite !set_same|rewrite ?set_other by congruence].
Lemma good_step z x s : good s -> good (fst (do_step false z x s)).
Proof.
  intros G v. pose proof (G v) as Gv. destruct x as [w|w t|w d|w|w a|w|w|w|w|w m]; cbn [do_step pid]; try exact Gv.
  - cbn [fst w_proc]. at_ v w; cbn; auto.
  - destruct (match p_rworker _ with Some _ => _ | None => _ end); cbn [fst w_proc]; auto. at_ v w; cbn; auto.
  - cbn [fst w_proc]. at_ v w; cbn; auto.
  - destruct (w_stack s w); cbn [fst w_proc]; auto. at_ v w; cbn; auto.
  - cbn [fst w_proc]. at_ v w; cbn; auto.
  - destruct (p_comm (w_proc s w)) as [c|]; auto. destruct (c_in (w_chan s c)); auto. destruct (recv (w_chan s c)) as [[[g|g] ch]|]; auto.
  - destruct (recv (w_chan s w)) as [[m ch]|]; auto.
  - cbn [fst w_proc]. at_ v w; cbn; auto.
  - cbn [fst w_proc]. at_ v w; cbn; auto.
Qed.
Lemma good_run z l : forall s, good s -> good (fst (run false z l s)).
Proof. induction l as [|x l IH]; intros s G; cbn [run]; auto. pose proof (good_step z x s G) as G1. destruct (do_step false z x s) as [s1 o1]. cbn in G1. apply IH in G1. now destruct (run false z l s1). Qed.

(** a step of another worker changes nothing *)
Lemma other_step z x s w : good s -> whose x <> w -> same w (fst (do_step false z x s)) s /\ sees w (snd (do_step false z x s)) = [].
Proof.
  intros G N. unfold same. pose proof (G (whose x)) as Gx. destruct x as [v|v t|v d|v|v a|v|v|v|v|v m]; cbn [whose] in *; cbn [do_step pid]; unfold sees.
  all: try (destruct (match p_rworker _ with Some _ => _ | None => _ end)).
  all: try (destruct (w_stack s v)).
  all: try (destruct Gx as [-> | ->]; [|destruct (c_in (w_chan s v)); [|destruct (recv (w_chan s v)) as [[[g|g] ch]|]]]).
  all: try (destruct (recv (w_chan s v)) as [[m' ch]|]).
  all: cbn [fst snd w_proc w_chan w_stack filter seen_by].
  all: rewrite ?(proj2 (Nat.eqb_neq v w) N), ?set_other by congruence; auto.
Qed.
(** a step of this worker depends only on what is its own *)
Lemma own_step z x s s' : good s -> same (whose x) s s' -> same (whose x) (fst (do_step false z x s)) (fst (do_step false z x s')) /\ snd (do_step false z x s) = snd (do_step false z x s').
Proof.
  intros G (P & C & K). unfold same. pose proof (G (whose x)) as Gx. destruct x as [v|v t|v d|v|v a|v|v|v|v|v m]; cbn [whose] in *; cbn [do_step pid]; rewrite <- ?P, <- ?C, <- ?K.
  all: try (destruct (match p_rworker _ with Some _ => _ | None => _ end)).
  all: try (destruct (w_stack s v) eqn:?).
  all: try (destruct Gx as [-> | ->]; [|rewrite <- ?C; destruct (c_in (w_chan s v)) eqn:?; [|destruct (recv (w_chan s v)) as [[[g|g] ch]|] eqn:?]]).
  all: try (destruct (recv (w_chan s v)) as [[m' ch]|] eqn:?).
  all: cbn [fst snd w_proc w_chan w_stack]; rewrite ?set_same, <- ?P, <- ?C, <- ?K; repeat split; auto; congruence.
Qed.

(** ** Theorems *)

(** With processes, whatever the schedule: a worker sees exactly what it would see if
    it were alone. *)
Theorem C81_alone : forall zero steps n d w, sees w (snd (run false zero steps (start n d))) = snd (run false zero (own w steps) (start n d)).
Proof.
  intros z steps n d w. assert (H : forall l s s', good s -> good s' -> same w s s' -> sees w (snd (run false z l s)) = snd (run false z (own w l) s')).
  { induction l as [|x l IH]; intros s s' G G' S'; cbn [run own filter]; auto. pose proof (good_step z x s G) as G1. destruct (Nat.eqb_spec (whose x) w) as [E|E].
    - subst w. pose proof (good_step z x s' G') as G2. destruct (own_step z x s s' G S') as [S1 O1]. cbn [run]. destruct (do_step false z x s) as [s1 o1] eqn:D1, (do_step false z x s') as [s2 o2]. cbn in S1, O1, G1, G2. subst o2.
      specialize (IH s1 s2 G1 G2 S1). fold (own (whose x) l). destruct (run false z l s1) as [t1 q1], (run false z (own (whose x) l) s2) as [t2 q2]. cbn [snd] in *. unfold sees in *. rewrite filter_app, IH. f_equal.
      clear - D1. assert (A : forall o, In o o1 -> seen_by o =? whose x = true).
      { destruct x; cbn [do_step] in D1; repeat (match type of D1 with context [match ?e with _ => _ end] => destruct e end); injection D1 as <- <-; cbn [whose]; intros o Ho; cbn in Ho; try contradiction; destruct Ho as [<-|Ho]; try contradiction; cbn [seen_by]; apply Nat.eqb_refl. }
      clear D1. induction o1 as [|o o1 IHo]; cbn [filter]; auto. rewrite A by now left. f_equal. apply IHo. intros; apply A; now right.
    - destruct (other_step z x s w G E) as [(P & C & K) O1]. destruct (do_step false z x s) as [s1 o1]. cbn in P, C, K, O1, G1. destruct S' as (P' & C' & K').
      assert (S1 : same w s1 s') by (repeat split; congruence). specialize (IH s1 s' G1 G' S1). fold (own w l). destruct (run false z l s1) as [t1 q1]. cbn [snd] in *. unfold sees in *. now rewrite filter_app, O1. }
  apply H; try (intros v; now left). repeat split.
Qed.
Print Assumptions C81_alone.
Definition ex_steps : list step :=
  [Init 1; Init 2; Order 1 [0]; Order 2 [1]; Enter 1 11; Enter 2 12; Submit 1 (T "app"); Submit 2 (T "app"); Send 2 (Stop 20); Poll 1; Poll 2; Stats 1; Leave 1; Stats 2; Leave 2; Recv 2].
Example C81_alone_applies : snd (run false [] ex_steps (start 0 10)) =
  [OTask 1 (mkTask 0 (Some 1) (T "app") (Some [0]) 11 1); OTask 2 (mkTask 0 (Some 2) (T "app") (Some [1]) 12 2); OPoll 1 (Ok None); OPoll 2 (Ok (Some 20));
   OStats 1 [mkTask 0 (Some 1) (T "app") (Some [0]) 11 1]; OStats 2 [mkTask 0 (Some 2) (T "app") (Some [1]) 12 2]; ORecv 2 (Some (Stop 20))].
Proof. reflexivity. Qed.

Lemma other_run z l w : forall s, good s -> (forall x, In x l -> whose x <> w) -> same w (fst (run false z l s)) s.
Proof.
  induction l as [|x l IH]; intros s G H; cbn [run]; [repeat split|]. destruct (other_step z x s w G (H x (or_introl eq_refl))) as [(P & C & K) _]. pose proof (good_step z x s G) as G1.
  destruct (do_step false z x s) as [s1 o1]. cbn in *. destruct (IH s1 G1 (fun y Hy => H y (or_intror Hy))) as (P' & C' & K'). destruct (run false z l s1). cbn in *. repeat split; congruence.
Qed.
(** a property of a worker's own state that its steps keep *)
Lemma keep_run z w (Q : proc -> list nat -> Prop) l : (forall x s, In x l -> whose x = w -> good s -> Q (w_proc s w) (w_stack s w) -> Q (w_proc (fst (do_step false z x s)) w) (w_stack (fst (do_step false z x s)) w)) ->
  forall s, good s -> Q (w_proc s w) (w_stack s w) -> Q (w_proc (fst (run false z l s)) w) (w_stack (fst (run false z l s)) w).
Proof.
  induction l as [|x l IH]; intros H s G HQ; cbn [run]; auto. pose proof (good_step z x s G) as G1.
  assert (Q1 : Q (w_proc (fst (do_step false z x s)) w) (w_stack (fst (do_step false z x s)) w)).
  { destruct (Nat.eq_dec (whose x) w) as [E|E]; [apply H; auto; now left|]. destruct (other_step z x s w G E) as [(-> & _ & ->) _]. exact HQ. }
  destruct (do_step false z x s) as [s1 o1]. cbn [fst] in *. specialize (IH (fun y s Hy => H y s (or_intror Hy)) s1 G1 Q1). now destruct (run false z l s1).
Qed.
Ltac steps :=
  repeat (match goal with |- context [match ?e with _ => _ end] => destruct e eqn:? end); cbn [fst w_proc w_chan w_stack]; rewrite ?set_same; cbn; auto.
Lemma good_start n d : good (start n d). Proof. intros v. now left. Qed.
Lemma labelled z l w : forall s, good s -> In (Init w) l \/ p_worker (w_proc s w) = Some w /\ p_rworker (w_proc s w) = Some w ->
  p_worker (w_proc (fst (run false z l s)) w) = Some w /\ p_rworker (w_proc (fst (run false z l s)) w) = Some w.
Proof.
  induction l as [|x l IH]; intros s G H; cbn [run]; [destruct H as [[]|H]; auto|]. pose proof (good_step z x s G) as G1.
  assert (H1 : In (Init w) l \/ p_worker (w_proc (fst (do_step false z x s)) w) = Some w /\ p_rworker (w_proc (fst (do_step false z x s)) w) = Some w).
  { destruct H as [[->|H]|H]; [right; cbn; rewrite set_same; auto|now left|right]. destruct (Nat.eq_dec (whose x) w) as [E|E].
    - destruct H as [H1 H2]. destruct x; cbn [whose] in E; subst w; cbn [do_step pid]; steps.
    - destruct (other_step z x s w G E) as [(-> & _ & _) _]. exact H. }
  destruct (do_step false z x s) as [s1 o1]. cbn [fst] in *. specialize (IH s1 G1 H1). now destruct (run false z l s1).
Qed.
Lemma run_submit th z l w app s : exists o, snd (run th z (l ++ [Submit w app]) s) = o ++ [OTask w (mkTask (p_next (w_proc (fst (run th z l s)) (pid th w))) (p_worker (w_proc (fst (run th z l s)) (pid th w))) app (p_team (w_proc (fst (run th z l s)) (pid th w))) (p_cwd (w_proc (fst (run th z l s)) (pid th w))) w)].
Proof. rewrite run_app. cbn. eexists. reflexivity. Qed.

(** With processes: a task carries its worker's number and runs on the resource sets
    of its worker's latest order. *)
Theorem C81_task : forall zero a team b app w n d, In (Init w) a -> ~ In w zero -> none w (fun x => x = Init w \/ exists t, x = Order w t) b ->
  exists o t, snd (run false zero (a ++ Order w team :: b ++ [Submit w app]) (start n d)) = o ++ [OTask w t] /\ k_label t = Some w /\ k_team t = Some team /\ k_app t = app.
Proof.
  intros z a team b app w n d I Z N. replace (a ++ Order w team :: b ++ [Submit w app]) with ((a ++ Order w team :: b) ++ [Submit w app]) by (rewrite <- app_assoc; reflexivity).
  destruct (run_submit false z (a ++ Order w team :: b) w app (start n d)) as [o ->]. eexists _, _. split; [reflexivity|]. cbn [k_label k_team k_app pid].
  split; [apply labelled; [apply good_start|left; apply in_or_app; now left]|]. split; auto.
  rewrite run_app. cbn [fst run]. destruct (labelled z a w (start n d) (good_start n d) (or_introl I)) as [L1 L2]. pose proof (good_run z a (start n d) (good_start n d)) as G. set (s := fst (run false z a (start n d))) in *.
  pose proof (good_step z (Order w team) s G) as G1. assert (T1 : p_team (w_proc (fst (do_step false z (Order w team) s)) w) = Some team).
  { cbn [do_step pid]. rewrite L2. destruct (memb w z) eqn:M; [exfalso; apply Z; now apply memb_In|]. cbn. now rewrite set_same. }
  destruct (do_step false z (Order w team) s) as [s1 o1]. cbn [fst] in *.
  pose proof (keep_run z w (fun p _ => p_team p = Some team) b) as K. cbn beta in K. specialize (fun H => K H s1 G1 T1).
  destruct (run false z b s1) as [s2 o2] eqn:R. cbn [fst] in *. apply K. intros x s' Hx E Gs HQ. specialize (N x Hx E).
  destruct x; cbn [whose] in E; subst w; cbn [do_step pid]; try (exfalso; apply N; eauto; fail); steps.
Qed.
Print Assumptions C81_task.

(** It starts in the directory that its worker entered last and has not left: steps in
    which the worker leaves what it entered change nothing. *)
Definition moves (x : step) : Prop := (exists w d, x = Enter w d) \/ exists w, x = Leave w.
Inductive balanced (w : nat) : list step -> Prop :=
| bal_nil : balanced w []
| bal_step x l : (whose x = w -> ~ moves x) -> balanced w l -> balanced w (x :: l)
| bal_nest d a b : balanced w a -> balanced w b -> balanced w (Enter w d :: a ++ Leave w :: b).
Lemma stays z w c : balanced w c -> forall s, good s -> p_cwd (w_proc (fst (run false z c s)) w) = p_cwd (w_proc s w) /\ w_stack (fst (run false z c s)) w = w_stack s w.
Proof.
  intros BC. induction BC as [|x l N _ IH|d a b _ IHa _ IHb]; intros s G; [now cbn| |].
  - pose proof (good_step z x s G) as G1. assert (A : p_cwd (w_proc (fst (do_step false z x s)) w) = p_cwd (w_proc s w) /\ w_stack (fst (do_step false z x s)) w = w_stack s w).
    { destruct (Nat.eq_dec (whose x) w) as [E|E].
      - specialize (N E). destruct x; cbn [whose] in E; subst w; cbn [do_step pid]; try (exfalso; apply N; unfold moves; eauto; fail); steps.
      - destruct (other_step z x s w G E) as [(-> & _ & ->) _]. auto. }
    cbn [run]. destruct (do_step false z x s) as [s1 o1]. cbn [fst] in *. destruct (IH s1 G1) as [B1 B2]. destruct (run false z l s1). cbn [fst] in *. destruct A. split; congruence.
  - change (Enter w d :: a ++ Leave w :: b) with ([Enter w d] ++ a ++ [Leave w] ++ b). rewrite run_app. cbn [fst]. set (s1 := fst (run false z [Enter w d] s)). assert (G1 : good s1) by now apply good_run.
    rewrite run_app. cbn [fst]. destruct (IHa s1 G1) as [_ A2]. pose proof (good_run z a s1 G1) as G2. set (s2 := fst (run false z a s1)) in *. rewrite run_app. cbn [fst]. pose proof (good_run z [Leave w] s2 G2) as G3.
    destruct (IHb _ G3) as [-> ->]. assert (K : w_stack s1 w = p_cwd (w_proc s w) :: w_stack s w) by (cbn; now rewrite set_same). rewrite K in A2. cbn [run do_step pid]. rewrite A2. cbn. now rewrite !set_same.
Qed.
Theorem C81_directory : forall zero a w b app n d, balanced w b ->
  (forall dir, exists o t, snd (run false zero (a ++ Enter w dir :: b ++ [Submit w app]) (start n d)) = o ++ [OTask w t] /\ k_dir t = dir) /\
  (exists o t o' t', snd (run false zero (a ++ b ++ [Submit w app]) (start n d)) = o ++ [OTask w t] /\
     snd (run false zero (a ++ [Submit w app]) (start n d)) = o' ++ [OTask w t'] /\ k_dir t = k_dir t').
Proof.
  intros z a w b app n d N. pose proof (good_run z a (start n d) (good_start n d)) as G. split.
  - intros dir. replace (a ++ Enter w dir :: b ++ [Submit w app]) with ((a ++ Enter w dir :: b) ++ [Submit w app]) by (rewrite <- app_assoc; reflexivity).
    destruct (run_submit false z (a ++ Enter w dir :: b) w app (start n d)) as [o ->]. eexists _, _. split; [reflexivity|]. cbn [k_dir pid].
    rewrite run_app. cbn [fst]. set (s := fst (run false z a (start n d))) in *. cbn [run]. pose proof (good_step z (Enter w dir) s G) as G1. destruct (stays z w b N _ G1) as [S1 _].
    destruct (do_step false z (Enter w dir) s) as [s1 o1] eqn:D. cbn [fst] in *. destruct (run false z b s1). cbn [fst] in *. rewrite S1. injection D as <- _. cbn. now rewrite set_same.
  - rewrite app_assoc. destruct (run_submit false z (a ++ b) w app (start n d)) as [o ->]. destruct (run_submit false z a w app (start n d)) as [o' ->]. eexists _, _, _, _. split; [reflexivity|]. split; [reflexivity|]. cbn [k_dir pid].
    rewrite run_app. cbn [fst]. now apply stays.
Qed.
Print Assumptions C81_directory.

(** Every task of a worker is in exactly one of its lines of statistics, in order, and
    no other worker's is. *)
Lemma tasks_app w a b : tasks w (a ++ b) = tasks w a ++ tasks w b. Proof. apply flat_map_app. Qed.
Lemma lines_app w a b : lines w (a ++ b) = lines w a ++ lines w b. Proof. apply flat_map_app. Qed.
Lemma no_seen w o : sees w o = [] -> tasks w o = [] /\ lines w o = [].
Proof.
  induction o as [|x o IH]; cbn; auto. destruct (seen_by x =? w) eqn:E; [discriminate|]. intros H. destruct (IH H) as [H1 H2]. destruct x; cbn [seen_by] in E; rewrite ?E; auto.
Qed.
Lemma recorded z w l : forall s, good s -> p_last (w_proc s w) <= length (p_tasks (w_proc s w)) ->
  let s' := fst (run false z l s) in let o := snd (run false z l s) in
  p_tasks (w_proc s' w) = p_tasks (w_proc s w) ++ tasks w o /\ p_last (w_proc s' w) <= length (p_tasks (w_proc s' w)) /\
  firstn (p_last (w_proc s' w)) (p_tasks (w_proc s' w)) = firstn (p_last (w_proc s w)) (p_tasks (w_proc s w)) ++ concat (lines w o).
Proof.
  induction l as [|x l IH]; intros s G L; cbn [run]; [cbn; rewrite !app_nil_r; auto|]. pose proof (good_step z x s G) as G1.
  assert (A : let s1 := fst (do_step false z x s) in let o1 := snd (do_step false z x s) in p_tasks (w_proc s1 w) = p_tasks (w_proc s w) ++ tasks w o1 /\ p_last (w_proc s1 w) <= length (p_tasks (w_proc s1 w)) /\
     firstn (p_last (w_proc s1 w)) (p_tasks (w_proc s1 w)) = firstn (p_last (w_proc s w)) (p_tasks (w_proc s w)) ++ concat (lines w o1)).
  { destruct (Nat.eq_dec (whose x) w) as [E|E].
    - destruct x; cbn [whose] in E; subst w; cbn [do_step pid].
      5:{ cbn. rewrite set_same, Nat.eqb_refl. cbn. rewrite app_length. cbn. repeat split; try lia. rewrite firstn_app, app_nil_r. replace (p_last _ - length _) with 0 by lia. cbn. now rewrite app_nil_r. }
      7:{ cbn. rewrite set_same, Nat.eqb_refl. cbn. rewrite skipn_length, !app_nil_r. repeat split; try lia. replace (p_last (w_proc s w0) + (length (p_tasks (w_proc s w0)) - p_last (w_proc s w0))) with (length (p_tasks (w_proc s w0))) by lia. now rewrite firstn_all, firstn_skipn. }
      all: cbn zeta; steps; rewrite ?app_nil_r; repeat split; auto; lia.
    - cbn zeta. destruct (other_step z x s w G E) as [(-> & _ & _) O]. destruct (no_seen _ _ O) as [-> ->]. cbn. rewrite !app_nil_r. auto. }
  destruct (do_step false z x s) as [s1 o1]. cbn [fst snd] in *. destruct A as (A1 & A2 & A3). destruct (IH s1 G1 A2) as (B1 & B2 & B3). destruct (run false z l s1) as [s2 o2]. cbn [fst snd] in *.
  rewrite tasks_app, lines_app, concat_app. split; [now rewrite B1, A1, app_assoc|]. split; auto. now rewrite B3, A3, app_assoc.
Qed.
Theorem C81_statistics : forall zero steps w n d, let o := snd (run false zero (steps ++ [Stats w]) (start n d)) in concat (lines w o) = tasks w o.
Proof.
  intros z steps w n d. rewrite run_app. destruct (recorded z w steps (start n d) (good_start n d) (Nat.le_refl _)) as (A1 & A2 & A3). destruct (run false z steps (start n d)) as [s o]. cbn [fst snd] in *.
  cbn [run do_step pid fst snd app] in *. rewrite lines_app, tasks_app, concat_app. cbn. rewrite Nat.eqb_refl. cbn. rewrite !app_nil_r. cbn in A3. rewrite <- A3, firstn_skipn. now rewrite A1.
Qed.
Print Assumptions C81_statistics.
Example C81_statistics_applies : lines 1 (snd (run false [] (ex_steps ++ [Submit 1 (T "b"); Submit 1 (T "c"); Stats 1]) (start 0 10))) =
  [[mkTask 0 (Some 1) (T "app") (Some [0]) 11 1]; [mkTask 1 (Some 1) (T "b") (Some [0]) 10 1; mkTask 2 (Some 1) (T "c") (Some [0]) 10 1]].
Proof. reflexivity. Qed.

(** Messages: what worker w takes is what was sent to it, in order and complete, if it
    does not poll; stop signals are never lost, even if it polls. *)
Definition sent (w : nat) (l : list step) : list msg := flat_map (fun x => match x with Send v m => if v =? w then [m] else [] | _ => [] end) l.
Definition received (w : nat) (l : list obs) : list msg := flat_map (fun o => match o with ORecv v (Some m) => if v =? w then [m] else [] | _ => [] end) l.
Definition is_stop (m : msg) : bool := match m with Stop _ => true | Other _ => false end.
Definition inside (c : chan) : list msg := match c_buf c with Some m => m :: c_in c | None => c_in c end.
Definition buffered (s : world) : Prop := forall w m, c_buf (w_chan s w) = Some m -> is_stop m = true.
Lemma received_app w a b : received w (a ++ b) = received w a ++ received w b. Proof. apply flat_map_app. Qed.
Lemma no_received w o : sees w o = [] -> received w o = [].
Proof. unfold sees, received. induction o as [|x o IH]; cbn [filter flat_map]; auto. destruct (seen_by x =? w) eqn:E; [discriminate|]. intros H. rewrite (IH H). destruct x as [| |v [m|]|]; cbn [seen_by] in E; rewrite ?E; auto. Qed.
Lemma buffered_step th z x s : buffered s -> buffered (fst (do_step th z x s)).
Proof.
  intros B w m. pose proof (B w m) as Bw. destruct x as [v|v t|v d|v|v a|v|v|v|v|v m']; cbn [do_step]; auto.
  - destruct (match p_rworker _ with Some _ => _ | None => _ end); auto.
  - destruct (w_stack s v); auto.
  - destruct (p_comm _) as [c|]; auto. destruct (c_in (w_chan s c)) eqn:E; auto. unfold recv. rewrite E. destruct (c_buf (w_chan s c)) as [[g|g]|] eqn:F; cbn [c_in]; [| |destruct m0 as [g|g]]; cbn [fst w_chan]; at_ w c; cbn; auto; intros H; try discriminate; injection H as <-; reflexivity.
  - unfold recv. destruct (c_buf (w_chan s v)) eqn:F; [|destruct (c_in (w_chan s v)) eqn:E; auto]; cbn [fst w_chan]; at_ w v; cbn; auto; discriminate.
  - cbn [fst w_chan]. at_ w v; cbn; auto.
Qed.
Lemma flow z w f l : ((forall n, f (Other n) = false) \/ none w (fun x => x = Poll w) l) -> forall s, good s -> buffered s ->
  filter f (received w (snd (run false z l s))) ++ filter f (inside (w_chan (fst (run false z l s)) w)) = filter f (inside (w_chan s w)) ++ filter f (sent w l).
Proof.
  induction l as [|x l IH]; intros H s G B; cbn [run]; [cbn; now rewrite app_nil_r|]. pose proof (good_step z x s G) as G1. pose proof (buffered_step false z x s B) as B1.
  assert (A : filter f (received w (snd (do_step false z x s))) ++ filter f (inside (w_chan (fst (do_step false z x s)) w)) = filter f (inside (w_chan s w)) ++ filter f (sent w [x])).
  { destruct (Nat.eq_dec (whose x) w) as [E|E].
    - subst w. pose proof (G (whose x)) as Gx. pose proof (B (whose x)) as Bx. unfold inside. destruct x as [v|v t|v d|v|v a|v|v|v|v|v m]; cbn [whose] in *; cbn [do_step pid sent flat_map].
      1-5,8,9: try (destruct (match p_rworker _ with Some _ => _ | None => _ end)); try (destruct (w_stack s v)); cbn; now rewrite app_nil_r.
      + destruct Gx as [-> | ->]; [cbn; now rewrite app_nil_r|]. destruct (c_in (w_chan s v)) as [|m ms] eqn:E; [cbn; rewrite E; now rewrite app_nil_r|]. unfold recv. rewrite E.
        destruct (c_buf (w_chan s v)) as [[g|g]|] eqn:F; [| |destruct m as [g|g]]; cbn [fst snd w_chan received flat_map app]; rewrite set_same; cbn [c_buf c_in]; rewrite app_nil_r; auto.
        * specialize (Bx _ eq_refl). discriminate.
        * cbn [filter app]. destruct H as [H|H]; [now rewrite H|]. exfalso. exact (H (Poll v) (or_introl eq_refl) eq_refl eq_refl).
      + unfold recv. destruct (c_buf (w_chan s v)) as [m|] eqn:F.
        * cbn. rewrite set_same, Nat.eqb_refl. cbn. rewrite app_nil_r. now destruct (f m).
        * destruct (c_in (w_chan s v)) as [|m ms] eqn:E; cbn; [rewrite F, E; reflexivity|]. rewrite set_same, Nat.eqb_refl. cbn. rewrite app_nil_r. now destruct (f m).
      + cbn. rewrite set_same, Nat.eqb_refl. cbn [c_buf c_in app]. destruct (c_buf (w_chan s v)) as [b|]; cbn [filter]; rewrite filter_app; cbn [filter]; auto. now destruct (f b).
    - destruct (other_step z x s w G E) as [(_ & -> & _) O]. rewrite (no_received _ _ O). cbn [sent flat_map]. destruct x; cbn [whose] in E; rewrite ?(proj2 (Nat.eqb_neq _ _) E); cbn; now rewrite app_nil_r. }
  assert (H' : (forall n, f (Other n) = false) \/ none w (fun x => x = Poll w) l) by (destruct H as [H|H]; [now left|right; intros y Hy; apply H; now right]).
  destruct (do_step false z x s) as [s1 o1]. cbn [fst snd] in *. specialize (IH H' s1 G1 B1). destruct (run false z l s1) as [s2 o2]. cbn [fst snd] in *.
  rewrite received_app, filter_app, <- app_assoc, IH, app_assoc, A. change (x :: l) with ([x] ++ l). unfold sent at 3. rewrite flat_map_app, filter_app. now rewrite app_assoc.
Qed.
Lemma filter_all {A} (l : list A) : filter (fun _ => true) l = l. Proof. induction l; cbn; congruence. Qed.
Theorem C81_messages : forall zero steps w n d, let o := snd (run false zero steps (start n d)) in
  (none w (fun x => x = Poll w) steps -> exists rest, sent w steps = received w o ++ rest) /\
  (exists rest, filter is_stop (sent w steps) = filter is_stop (received w o) ++ rest).
Proof.
  intros z steps w n d o. assert (B : buffered (start n d)) by (intros v m; discriminate). split.
  - intros N. pose proof (flow z w (fun _ => true) steps (or_intror N) _ (good_start n d) B) as H. rewrite !filter_all in H. cbn in H. eexists. symmetry. exact H.
  - pose proof (flow z w is_stop steps (or_introl (fun _ => eq_refl)) _ (good_start n d) B) as H. cbn in H. eexists. symmetry. exact H.
Qed.
Print Assumptions C81_messages.

(** A poll works as long as the worker has not ended, and a signal it reports was sent
    to this worker. *)
Theorem C81_poll : forall zero a w n d, In (Init w) a -> none w (fun x => x = Quit w) a ->
  exists o r, snd (run false zero (a ++ [Poll w]) (start n d)) = o ++ [OPoll w (Ok r)] /\ forall g, r = Some g -> In (Send w (Stop g)) a.
Proof.
  intros z a w n d I N. assert (C : p_comm (w_proc (fst (run false z a (start n d))) w) = Some w).
  { assert (H : forall l s, good s -> none w (fun x => x = Quit w) l -> In (Init w) l \/ p_comm (w_proc s w) = Some w -> p_comm (w_proc (fst (run false z l s)) w) = Some w); [|apply H; auto using good_start].
    clear. induction l as [|x l IH]; intros s G N H; cbn [run]; [destruct H as [[]|H]; auto|]. pose proof (good_step z x s G) as G1.
    assert (H1 : In (Init w) l \/ p_comm (w_proc (fst (do_step false z x s)) w) = Some w).
    { destruct H as [[->|H]|H]; [right; cbn; now rewrite set_same|now left|right]. destruct (Nat.eq_dec (whose x) w) as [E|E].
      - specialize (N x (or_introl eq_refl) E). destruct x; cbn [whose] in E; subst w; cbn [do_step pid]; try (now destruct N); steps; congruence.
      - destruct (other_step z x s w G E) as [(-> & _ & _) _]. exact H. }
    destruct (do_step false z x s) as [s1 o1]. cbn [fst] in *. specialize (IH s1 G1 (fun y Hy => N y (or_intror Hy)) H1). now destruct (run false z l s1). }
  assert (B : buffered (start n d)) by (intros v m; discriminate).
  pose proof (flow z w is_stop a (or_introl (fun _ => eq_refl)) _ (good_start n d) B) as F. rewrite run_app. set (s := fst (run false z a (start n d))) in *. cbn [run do_step pid fst snd]. rewrite C.
  assert (K : forall g m ms, inside (w_chan s w) = m :: ms -> m = Stop g -> In (Send w (Stop g)) a).
  { intros g m ms E ->. assert (X : In (Stop g) (filter is_stop (sent w a))).
    { cbn in F. rewrite <- F. apply in_or_app. right. rewrite E. now left. }
    apply filter_In in X as [X _]. unfold sent in X. apply in_flat_map in X as (x & X1 & X2). destruct x; cbn in X2; try contradiction. destruct (Nat.eqb_spec w0 w) as [->|]; [|contradiction]. destruct X2 as [->|[]]. exact X1. }
  unfold inside in K. unfold recv. destruct (c_in (w_chan s w)) as [|m ms]; [eexists _, _; split; [reflexivity|discriminate]|].
  destruct (c_buf (w_chan s w)) as [[g|g]|]; [| |destruct m as [g|g]]; cbn [snd]; rewrite app_nil_r; eexists _, _; (split; [reflexivity|]); try discriminate; intros g' Hg; injection Hg as <-; eapply K; reflexivity.
Qed.
Print Assumptions C81_poll.

(** ** Names *)

Lemma last_us a : forall b x y : text, ~ In "_"%char x -> ~ In "_"%char y -> a ++ "_"%char :: x = b ++ "_"%char :: y -> a = b /\ x = y.
Proof.
  induction a as [|c a IH]; intros [|e b] x y NX NY E; cbn [app] in E.
  - now injection E as ->.
  - injection E as _ E. exfalso. apply NX. rewrite E. apply in_elt.
  - injection E as _ E. exfalso. apply NY. rewrite <- E. apply in_elt.
  - injection E as -> E. destruct (IH b x y NX NY E) as [-> ->]. auto.
Qed.
Lemma dec_us n : ~ In "_"%char (dec n).
Proof. intros H. pose proof (dec_digits n) as D. rewrite forallb_forall in D. apply D in H. discriminate. Qed.
Lemma name_id t u : name t = name u -> k_id t = k_id u.
Proof.
  unfold name. rewrite !app_assoc. intros E. change (T "_") with ["_"%char] in E. rewrite <- (app_assoc _ ["_"%char] (dec (k_id t))), <- (app_assoc _ ["_"%char] (dec (k_id u))) in E. cbn [app] in E.
  apply last_us in E as [_ E]; auto using dec_us. now apply dec_inj.
Qed.
Lemma name_label t u v w : k_label t = Some (S v) -> k_label u = Some (S w) -> name t = name u -> v = w.
Proof.
  intros L1 L2. unfold name. rewrite L1, L2. rewrite !app_assoc. intros E. change (T "_") with ["_"%char] in E. rewrite <- (app_assoc _ ["_"%char] (dec (k_id t))), <- (app_assoc _ ["_"%char] (dec (k_id u))) in E. cbn [app] in E.
  apply last_us in E as [E _]; auto using dec_us. rewrite <- !app_assoc in E. apply app_inv_head in E. change (T "_worker") with ("_"%char :: T "worker") in E. cbn [app] in E.
  assert (N : forall k, ~ In "_"%char (T "worker" ++ dec k)). { intros k H. apply in_app_or in H as [H|H]; [|exact (dec_us k H)]. cbn in H. decompose [or] H; try discriminate. assumption. }
  apply last_us in E as [_ E]; auto. apply app_inv_head in E. apply dec_inj in E. lia.
Qed.
Definition key (th : bool) (t : task) : nat * nat := (pid th (k_by t), k_id t).
Lemma all_app a b : all_tasks (a ++ b) = all_tasks a ++ all_tasks b. Proof. apply flat_map_app. Qed.
Lemma next_step th z x s i : p_next (w_proc s i) <= p_next (w_proc (fst (do_step th z x s)) i).
Proof.
  destruct x; cbn [do_step]; repeat (match goal with |- context [match ?e with _ => _ end] => destruct e eqn:? end); cbn [fst w_proc]; auto; unfold set; destruct (Nat.eqb_spec i (pid th w)) as [->|]; cbn; lia.
Qed.
Lemma keys th z l : forall s, (forall t, In t (all_tasks (snd (run th z l s))) -> p_next (w_proc s (pid th (k_by t))) <= k_id t) /\ NoDup (map (key th) (all_tasks (snd (run th z l s)))).
Proof.
  induction l as [|x l IH]; intros s; cbn [run]; [split; [intros t []|constructor]|]. pose proof (next_step th z x s) as M. destruct (do_step th z x s) as [s1 o1] eqn:D. cbn [fst] in M. destruct (IH s1) as [B ND]. destruct (run th z l s1) as [s2 o2]. cbn [snd] in *. rewrite all_app.
  assert (A : all_tasks o1 = [] \/ exists t, all_tasks o1 = [t] /\ k_id t = p_next (w_proc s (pid th (k_by t))) /\ p_next (w_proc s1 (pid th (k_by t))) = S (k_id t)).
  { destruct x; cbn [do_step] in D; repeat (match type of D with context [match ?e with _ => _ end] => destruct e eqn:? end); injection D as <- <-; auto. right. eexists. split; [reflexivity|]. cbn. rewrite set_same. auto. }
  destruct A as [->|(t & -> & A1 & A2)]; cbn [app map].
  - split; auto. intros t Ht. apply B in Ht. specialize (M (pid th (k_by t))). lia.
  - split; [intros u [<-|Hu]; [lia|apply B in Hu; specialize (M (pid th (k_by u))); lia]|]. constructor; auto. intros H. apply in_map_iff in H as (u & E & Hu). apply B in Hu. injection E as E1 E2. rewrite E1 in Hu. lia.
Qed.
Lemma task_from th z l : forall s t, In t (all_tasks (snd (run th z l s))) -> exists a b, l = a ++ Submit (k_by t) (k_app t) :: b /\ k_label t = p_worker (w_proc (fst (run th z a s)) (pid th (k_by t))).
Proof.
  induction l as [|x l IH]; intros s t; cbn [run]; [intros []|]. destruct (do_step th z x s) as [s1 o1] eqn:D. specialize (IH s1 t). destruct (run th z l s1) as [s2 o2]. cbn [snd] in *. rewrite all_app. intros H. apply in_app_or in H as [H|H].
  - exists [], l. destruct x; cbn [do_step] in D; repeat (match type of D with context [match ?e with _ => _ end] => destruct e eqn:? end); injection D as <- <-; cbn in H; try contradiction. destruct H as [<-|[]]. cbn. auto.
  - destruct (IH H) as (a & b & -> & L). exists (x :: a), b. split; [reflexivity|]. cbn [run]. rewrite D. destruct (run th z a s1). exact L.
Qed.
(** Within a run no two tasks have the same name, so their output files are different:
    with processes and with threads. *)
Theorem C81_names : forall threads zero steps n d, (forall a w app b, steps = a ++ Submit w app :: b -> In (Init w) a /\ 1 <= w) -> NoDup (map name (all_tasks (snd (run threads zero steps (start n d))))).
Proof.
  intros th z steps n d H. destruct (keys th z steps (start n d)) as [_ ND].
  assert (L : forall t, In t (all_tasks (snd (run th z steps (start n d)))) -> th = false -> exists v, k_by t = S v /\ k_label t = Some (S v)).
  { intros t Ht ->. destruct (task_from _ _ _ _ _ Ht) as (a & b & E & ->). destruct (H _ _ _ _ E) as [HI HW]. destruct (k_by t) as [|v] eqn:F; [lia|]. exists v. split; auto. apply labelled; auto using good_start. }
  set (l := all_tasks _) in *. clearbody l. clear H. induction l as [|t l IH]; cbn in *; constructor.
  - inversion_clear ND as [|? ? N1 _]. intros X. apply in_map_iff in X as (u & E & Hu). apply N1. apply in_map_iff. exists u. split; auto. unfold key. f_equal; [|now apply name_id].
    destruct th; auto. destruct (L t (or_introl eq_refl) eq_refl) as (v1 & B1 & L1), (L u (or_intror Hu) eq_refl) as (v2 & B2 & L2). rewrite B1, B2. cbn. f_equal. exact (name_label _ _ _ _ L2 L1 E).
  - inversion_clear ND. apply IH; auto.
Qed.
Print Assumptions C81_names.
Example C81_names_applies : map name (all_tasks (snd (run false [] ex_steps (start 0 10)))) = [T "libe_task_app_worker1_0"; T "libe_task_app_worker2_0"] /\
  map name (all_tasks (snd (run true [] ex_steps (start 0 10)))) = [T "libe_task_app_worker2_0"; T "libe_task_app_worker2_1"].
Proof. split; reflexivity. Qed.

(** ** With threads *)

(** A task of worker 1 carries number 2, runs on worker 2's resource sets and in its
    directory; worker 2 polls and gets nothing of its own. *)
Theorem C81_threads_task_refuted : all_tasks (snd (run true [] ex_steps (start 0 10))) =
  [mkTask 0 (Some 2) (T "app") (Some [1]) 12 1; mkTask 1 (Some 2) (T "app") (Some [1]) 12 2].
Proof. reflexivity. Qed.
Print Assumptions C81_threads_task_refuted.
(** A poll of worker 1 reads the channel of the worker that was set up last: it takes
    that worker's kill signal for its own, and swallows its next order; its own kill
    signal it does not see. *)
Theorem C81_threads_poll_refuted :
  snd (run true [] [Init 1; Init 2; Send 2 (Stop 20); Poll 1] (start 0 10)) = [OPoll 1 (Ok (Some 20))] /\
  snd (run true [] [Init 1; Init 2; Send 2 (Other 5); Poll 1; Recv 2] (start 0 10)) = [OPoll 1 (Ok None); ORecv 2 None] /\
  snd (run true [] [Init 1; Init 2; Send 1 (Stop 20); Poll 1] (start 0 10)) = [OPoll 1 (Ok None)].
Proof. repeat split. Qed.
Print Assumptions C81_threads_poll_refuted.
(** Once any worker has ended, the polls of the others fail. *)
Theorem C81_threads_end_refuted : snd (run true [] [Init 1; Init 2; Quit 1; Poll 2] (start 0 10)) = [OPoll 2 (Err (EOther 1))]. Proof. reflexivity. Qed.
Print Assumptions C81_threads_end_refuted.
(** Leaving the directories in the order they were entered: worker 2 goes on in the
    starting directory, and in the end the process is left in worker 1's directory. *)
Theorem C81_threads_directory_refuted :
  map k_dir (all_tasks (snd (run true [] [Init 1; Init 2; Enter 1 11; Enter 2 12; Leave 1; Submit 2 (T "app"); Leave 2; Submit 1 (T "app")] (start 0 10)))) = [10; 11].
Proof. reflexivity. Qed.
Print Assumptions C81_threads_directory_refuted.
(** Worker 1's line of statistics has worker 2's task too, and worker 2's has none. *)
Theorem C81_threads_statistics_refuted :
  let o := snd (run true [] ex_steps (start 0 10)) in map (map k_by) (lines 1 o) = [[1; 2]] /\ map (map k_by) (lines 2 o) = [[]].
Proof. split; reflexivity. Qed.
Print Assumptions C81_threads_statistics_refuted.
(** If the worker that was set up last has no resources, then no worker's resource sets
    are ever set. *)
Theorem C81_threads_zero_refuted : map k_team (all_tasks (snd (run true [2] [Init 1; Init 2; Order 1 [0]; Submit 1 (T "app")] (start 0 10)))) = [None]. Proof. reflexivity. Qed.
Print Assumptions C81_threads_zero_refuted.
(** ** A second call *)
(** The processes of the next call number their tasks from the same number, so that
    its tasks have the names of the first call's, and overwrite their output. *)
Theorem C81_second_call_refuted : forall threads zero l1 l2 n d t1 o1 t2 o2, threads = false ->
  snd (run threads zero (l1 ++ [Submit 1 (T "app")]) (start n d)) = o1 ++ [OTask 1 t1] -> snd (run threads zero (l2 ++ [Submit 1 (T "app")]) (start n d)) = o2 ++ [OTask 1 t2] ->
  In (Init 1) l1 -> In (Init 1) l2 -> length (tasks 1 o1) = length (tasks 1 o2) -> name t1 = name t2.
Proof.
  intros th z l1 l2 n d t1 o1 t2 o2 -> E1 E2 I1 I2 L.
  assert (K : forall l o t, In (Init 1) l -> snd (run false z (l ++ [Submit 1 (T "app")]) (start n d)) = o ++ [OTask 1 t] -> k_label t = Some 1 /\ k_app t = T "app" /\ k_id t = n + length (tasks 1 o)).
  { intros l o t I E. rewrite run_app in E. cbn [run do_step pid fst snd app] in E. apply app_inj_tail in E as [<- E]. injection E as <-. cbn [k_label k_app k_id]. split; [apply labelled; auto using good_start|]. split; auto.
    assert (Q : forall l s, good s -> p_next (w_proc (fst (run false z l s)) 1) = p_next (w_proc s 1) + length (tasks 1 (snd (run false z l s)))).
    { clear. induction l as [|x l IH]; intros s G; cbn [run]; [cbn; lia|]. pose proof (good_step z x s G) as G1.
      assert (A : p_next (w_proc (fst (do_step false z x s)) 1) = p_next (w_proc s 1) + length (tasks 1 (snd (do_step false z x s)))).
      { destruct (Nat.eq_dec (whose x) 1) as [E|E].
        - destruct x; cbn [whose] in E; subst; cbn [do_step pid]; repeat (match goal with |- context [match ?e with _ => _ end] => destruct e eqn:? end); cbn; lia.
        - destruct (other_step z x s 1 G E) as [(-> & _ & _) O]. destruct (no_seen _ _ O) as [-> _]. cbn. lia. }
      destruct (do_step false z x s) as [s1 q1]. cbn [fst snd] in *. specialize (IH s1 G1). destruct (run false z l s1) as [s2 q2]. cbn [fst snd] in *. rewrite IH, A, tasks_app, app_length. lia. }
    now rewrite Q by apply good_start. }
  destruct (K _ _ _ I1 E1) as (A1 & A2 & A3), (K _ _ _ I2 E2) as (B1 & B2 & B3). unfold name. now rewrite A1, A2, A3, B1, B2, B3, L.
Qed.
Print Assumptions C81_second_call_refuted.
Example C81_second_call_applies : exists o1 t1 o2 t2, snd (run false [] ([Init 1; Init 2; Submit 2 (T "b")] ++ [Submit 1 (T "app")]) (start 3 10)) = o1 ++ [OTask 1 t1] /\
  snd (run false [] ([Init 1] ++ [Submit 1 (T "app")]) (start 3 10)) = o2 ++ [OTask 1 t2] /\ length (tasks 1 o1) = length (tasks 1 o2) /\ name t1 = T "libe_task_app_worker1_3".
Proof. eexists [_], _, [], _. repeat split. Qed.
(** The hypotheses of the theorems above, met by one schedule. *)
Definition ex_a : list step := [Init 1; Init 2; Order 2 [1]; Enter 2 12].
Definition ex_b : list step := [Order 2 [4]; Submit 2 (T "x"); Send 1 (Stop 20); Poll 2; Leave 2; Stats 2].
Example C81_hypotheses_apply : In (Init 1) ex_a /\ ~ In 1 [2] /\ none 1 (fun x => x = Init 1 \/ exists t, x = Order 1 t) ex_b /\ balanced 1 ex_b /\ balanced 2 ([Enter 2 13] ++ [Enter 2 14; Poll 2] ++ [Leave 2] ++ [Enter 1 15] ++ [Leave 2]) /\
  none 1 (fun x => x = Quit 1) (ex_a ++ ex_b) /\ none 1 (fun x => x = Poll 1) (ex_a ++ ex_b) /\
  snd (run false [2] (ex_a ++ Order 1 [0] :: ex_b ++ [Submit 1 (T "app"); Poll 1; Recv 1]) (start 0 10)) =
  [OTask 2 (mkTask 0 (Some 2) (T "x") None 12 2); OPoll 2 (Ok None); OStats 2 [mkTask 0 (Some 2) (T "x") None 12 2]; OTask 1 (mkTask 0 (Some 1) (T "app") (Some [0]) 10 1); OPoll 1 (Ok (Some 20)); ORecv 1 (Some (Stop 20))].
Proof.
  split; [now left|]. split; [cbn; intuition discriminate|]. split; [|split; [|split]].
  2:{ unfold ex_b. repeat (constructor; [intros E; cbn in E; try discriminate; intros [(? & ? & H)|(? & H)]; discriminate|]). constructor. }
  2:{ apply (bal_nest 2 13 ([Enter 2 14; Poll 2] ++ [Leave 2] ++ [Enter 1 15]) []); [|constructor]. apply (bal_nest 2 14 [Poll 2] [Enter 1 15]); repeat (constructor; [intros E; cbn in E; try discriminate; intros [(? & ? & H)|(? & H)]; discriminate|]); constructor. }
  all: unfold none. all: repeat split; try (cbn; intuition discriminate); intros x Hx E; cbn in Hx; decompose [or] Hx; subst; cbn in E; try discriminate; try contradiction; intros P; repeat match goal with H : _ \/ _ |- _ => destruct H | H : exists _, _ |- _ => destruct H end; discriminate.
Qed.
