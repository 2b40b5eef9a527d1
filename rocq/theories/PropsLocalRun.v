(** C84: local optimization runs in persistent generators. *)
From Verif Require Import Base BaseLemmas LocalRunModel.
Local Open Scope nat_scope.

(** ** Specification *)
Section Spec.
Context {X V : Type}.

(** A run, as one sees it from outside: its rows, the row whose values it waits for, and
    whether it has ended (and the allocation function was not called since). *)
Record seen_run := mkSeen { g_rows : list nat; g_pending : option nat; g_ended : bool }.
Definition holds (i : nat) (o : option seen_run) : bool := match o with Some g => memb i (g_rows g) | None => false end.
Definition cleared (o : option seen_run) : option seen_run := match o with Some g => if g_ended g then None else Some g | None => None end.
(** The runs after an event, where n is the number of rows; None if the event cannot
    occur. Runs end by converging. *)
Definition follow (e : @event X) (st : list (option seen_run) * nat) : option (list (option seen_run) * nat) :=
  let '(gs, n) := st in
  match e with
  | Call => Some (map cleared gs, n)
  | Sample _ => Some (gs, S n)
  | Start w i => match nth_error gs w with
                 | Some None => if i <? n then Some (upd gs w (fun _ => Some (mkSeen [i] None false)), n) else None
                 | _ => None end
  | New w _ => match nth_error gs w with
               | Some (Some (mkSeen l None false)) => Some (upd gs w (fun _ => Some (mkSeen (l ++ [n]) (Some n) false)), S n)
               | _ => None end
  | Give w i => match nth_error gs w with
                | Some (Some (mkSeen l (Some j) false)) => if i =? j then Some (upd gs w (fun _ => Some (mkSeen l None false)), n) else None
                | _ => None end
  | End w u => match nth_error gs w, u_done u, u_xopt u with
               | Some (Some (mkSeen l None false)), true, Some _ => Some (upd gs w (fun _ => Some (mkSeen l None true)), n)
               | _, _, _ => None end
  end.
Fixpoint follow_all (es : list (@event X)) (st : list (option seen_run) * nat) : option (list (option seen_run) * nat) :=
  match es with [] => Some st | e :: es => match follow e st with Some st => follow_all es st | None => None end end.
Definition runs (nworkers : nat) (es : list (@event X)) : option (list (option seen_run) * nat) := follow_all es (repeat None nworkers, 0).
End Spec.

(** ** Lemmas *)
Section Proofs.
Context {X V : Type} (eqd : forall a b : X, {a = b} + {a <> b}).

Definition other (x0 : X) (p : X * V) : bool := if eqd (fst p) x0 then false else true.
Lemma run_ok cube (opt : list V -> request) z x0 v0 n : forall vs ys out seen o, run eqd cube opt z x0 v0 n vs ys = (out, seen, o) ->
  (forall i x v, nth_error seen i = Some (x, v) -> opt (vs ++ map snd (firstn i seen)) = Eval x /\ (x = x0 -> v = v0)) /\
  (exists more, out = map (fun x => [mkRow x (cube x) true 1]) (map fst (filter (other x0) seen) ++ more) /\
    (more = [] \/ exists x, more = [x] /\ x <> x0 /\ opt (vs ++ map snd seen) = Eval x /\ (o = Waiting \/ nth_error ys (length (filter (other x0) seen)) = Some Stop /\ o = Returned (mkUpdates false None)))) /\
  (firstn (length (filter (other x0) seen)) ys = map Value (map snd (filter (other x0) seen))) /\
  match o with
  | Returned u => u = mkUpdates false None \/ exists x c, opt (vs ++ map snd seen) = Return x c /\ u_done u = true /\ (u_xopt u = Some x /\ (0 < c < 5)%Z \/ u_xopt u = None /\ ~ (0 < c < 5)%Z)
  | Waiting => length (filter (other x0) seen) = length ys
  | Busy => length seen = n
  end /\ (forall x c, opt (vs ++ map snd seen) = Return x c -> exists u, o = Returned u /\ u_done u = true).
Proof.
  induction n as [|n IH]; intros vs ys out seen o E; cbn [run] in E; destruct (opt vs) as [x|x c|] eqn:O.
  - injection E as <- <- <-. cbn. rewrite app_nil_r. split; [intros [|i]; discriminate|]. split; [exists []; auto|]. split; auto. split; auto. intros; congruence.
  - injection E as <- <- <-. cbn. rewrite app_nil_r. split; [intros [|i]; discriminate|]. split; [exists []; auto|]. split; auto. split; [right; exists x, c|intros; eauto]. split; auto. cbn. split; auto. destruct (Z.ltb_spec 0 c), (Z.ltb_spec c 5); cbn; auto; right; split; auto; lia.
  - injection E as <- <- <-. cbn. rewrite app_nil_r. split; [intros [|i]; discriminate|]. split; [exists []; auto|]. split; auto. split; auto. intros; congruence.
  - destruct (eqd x x0) as [->|N].
    + destruct (run eqd cube opt z x0 v0 n (vs ++ [v0]) ys) as [[out' seen'] o'] eqn:R. injection E as <- <- <-. destruct (IH _ _ _ _ _ R) as (A & B & C & D & F).
      assert (FE : filter (other x0) ((x0, v0) :: seen') = filter (other x0) seen') by (cbn [filter]; unfold other at 1; cbn [fst]; destruct (eqd x0 x0); congruence).
      rewrite FE. cbn [map snd]. assert (AE : forall l, vs ++ v0 :: l = (vs ++ [v0]) ++ l) by (intros; now rewrite <- app_assoc). rewrite AE. split; [|split; [exact B|split; [exact C|split; [|exact F]]]].
      * intros [|i] y v H; cbn in H; [injection H as <- <-; cbn; rewrite app_nil_r; auto|]. cbn [firstn map snd]. rewrite AE. now apply A.
      * destruct o'; auto. cbn. congruence.
    + cbn [add_to_out upd map] in E. change (add_to_out cube [mkRow z z false 0] x 0 true true) with [mkRow x (cube x) true 1] in E. destruct ys as [|[v|] ys].
      * injection E as <- <- <-. cbn. rewrite app_nil_r. split; [intros [|i]; discriminate|]. split; [exists [x]; split; auto; right; exists x; auto|]. split; auto. split; auto. intros; congruence.
      * destruct (run eqd cube opt z x0 v0 n (vs ++ [v]) ys) as [[out' seen'] o'] eqn:R. injection E as <- <- <-. destruct (IH _ _ _ _ _ R) as (A & (more & B1 & B2) & C & D & F).
        assert (FE : filter (other x0) ((x, v) :: seen') = (x, v) :: filter (other x0) seen') by (cbn [filter]; unfold other at 1; cbn [fst]; destruct (eqd x x0); congruence).
        rewrite FE. cbn [map snd fst length app firstn nth_error]. assert (AE : forall l, vs ++ v :: l = (vs ++ [v]) ++ l) by (intros; now rewrite <- app_assoc). rewrite AE. split; [|split; [|split; [|split; [|exact F]]]].
        -- intros [|i] y v' H; cbn in H; [injection H as <- <-; cbn; rewrite app_nil_r; split; [auto|congruence]|]. cbn [firstn map snd]. rewrite AE. now apply A.
        -- exists more. split; [now rewrite B1|exact B2].
        -- now rewrite C.
        -- destruct o'; auto.
      * injection E as <- <- <-. cbn. rewrite app_nil_r. split; [intros [|i]; discriminate|]. split; [exists [x]; split; auto; right; exists x; auto 6|]. split; auto. split; auto. intros; congruence.
  - injection E as <- <- <-. cbn. rewrite app_nil_r. split; [intros [|i]; discriminate|]. split; [exists []; auto|]. split; auto. split; [right; exists x, c|intros; eauto]. split; auto. cbn. split; auto. destruct (Z.ltb_spec 0 c), (Z.ltb_spec c 5); cbn; auto; right; split; auto; lia.
  - injection E as <- <- <-. cbn. rewrite app_nil_r. split; [intros [|i]; discriminate|]. split; [exists []; auto|]. split; auto. split; auto. intros; congruence.
Qed.

Lemma nth_error_ext_l {A} (l m : list A) : (forall i, nth_error l i = nth_error m i) -> l = m.
Proof. revert m. induction l as [|a l IH]; intros [|b m] H; auto; [specialize (H 0); discriminate|specialize (H 0); discriminate|]. pose proof (H 0) as H0. injection H0 as ->. f_equal. apply IH. intros i. exact (H (S i)). Qed.
Lemma bump_nth d rows a i : nth_error (bump d rows a) i = option_map (fun z => if memb i rows then (z + d)%Z else z) (nth_error a i).
Proof.
  unfold bump. assert (G : forall k, nth_error (map (fun iz => if memb (fst iz) rows then (snd iz + d)%Z else snd iz) (combine (seq k (length a)) a)) i = option_map (fun z => if memb (k + i) rows then (z + d)%Z else z) (nth_error a i)).
  { revert i. induction a as [|z a IH]; intros [|i] k; cbn [length seq combine map nth_error option_map fst snd]; auto; [now rewrite Nat.add_0_r|]. rewrite IH. now replace (S k + i) with (k + S i) by lia. }
  apply (G 0).
Qed.
Lemma bump_length d rows a : length (bump d rows a) = length a.
Proof. unfold bump. rewrite map_length, combine_length, seq_length. lia. Qed.

Definition pend (g : seen_run) : list nat := match g_pending g with Some i => [i] | None => [] end.
Definition good (s : @state X) (gs : list (option seen_run)) (n : nat) : Prop :=
  length (s_x s) = n /\ length (s_active s) = n /\ length (s_min s) = n /\ length (s_info s) = length gs /\
  (forall w, nth_error gs w = Some None -> exists o, nth_error (s_info s) w = Some (mkPinfo false None o)) /\
  (forall w g, nth_error gs w = Some (Some g) -> exists l x, nth_error (s_info s) w = Some (mkPinfo (g_ended g) x (Some l)) /\ (g_ended g = true <-> x <> None) /\ (g_ended g = true -> g_pending g = None) /\ g_rows g = l ++ pend g /\ forall i, In i (g_rows g) -> i < n) /\
  forall i, i < n -> nth_error (s_active s) i = Some (Z.of_nat (countb (holds i) gs)).
Lemma countb_holds (gs : list (option seen_run)) w o f i : nth_error gs w = Some o -> Z.of_nat (countb (holds i) (upd gs w f)) = (Z.of_nat (countb (holds i) gs) + (if holds i (f o) then 1 else 0) - (if holds i o then 1 else 0))%Z.
Proof. intros H. pose proof (countb_upd (holds i) gs w f o H). destruct (holds i o), (holds i (f o)); lia. Qed.
Lemma settle_ok s gs n w s' : good s gs n -> settle eqd w s = Ok s' -> good s' (upd gs w cleared) n.
Proof.
  intros (L1 & L2 & L3 & L4 & N & R & A) E. unfold settle in E. destruct (nth_error (s_info s) w) as [p|] eqn:P.
  - destruct (nth_error gs w) as [[g|]|] eqn:G.
    + destruct (R w g G) as (l & x & P' & X1 & X2 & X3 & X4). rewrite P in P'. injection P' as ->. cbn [p_done p_order p_xopt] in E. destruct (g_ended g) eqn:GE.
      * cbn [bindr] in E. destruct x as [x|]; [|exfalso; now apply X1]. cbn [s_x s_min s_active s_info] in E. destruct (_ =? 1) in E; [|discriminate]. injection E as <-. assert (PE : pend g = []) by (unfold pend; now rewrite X2). rewrite PE, app_nil_r in X3. subst l.
        assert (CL : cleared (Some g) = None) by (cbn; now rewrite GE).
        unfold good. cbn [s_x s_min s_active s_info]. rewrite bump_length, map_length, combine_length, map_length, !upd_length. split; auto. split; auto. split; [lia|]. split; auto. split; [|split].
        -- intros w' H. revert H; rewrite ?upd_nth; destruct (Nat.eqb_spec w w') as [<-|]; intros H; [rewrite P; cbn; eauto|rewrite ?P; auto].
        -- intros w' g' H. revert H; rewrite ?upd_nth; destruct (Nat.eqb_spec w w') as [<-|]; intros H; [rewrite G in H; cbn [option_map] in H; rewrite CL in H; discriminate|auto].
        -- intros i Hi. rewrite bump_nth, (A i Hi). cbn [option_map]. rewrite (countb_holds gs w (Some g) cleared i G), CL. cbn [holds]. destruct (memb i (g_rows g)); f_equal; lia.
      * cbn [bindr] in E. destruct x as [x|]; [exfalso; destruct X1 as [_ X1]; assert (false = true) by (apply X1; discriminate); discriminate|]. injection E as <-.
        assert (UE : upd gs w cleared = gs). { apply nth_error_ext_l. intros i. rewrite upd_nth. destruct (Nat.eqb_spec w i) as [<-|]; auto. rewrite G. cbn. now rewrite GE. }
        rewrite UE. repeat split; auto.
    + destruct (N w G) as (o & P'). rewrite P in P'. injection P' as ->. cbn in E. injection E as <-.
      assert (UE : upd gs w cleared = gs). { apply nth_error_ext_l. intros i. rewrite upd_nth. destruct (Nat.eqb_spec w i) as [<-|]; auto. now rewrite G. }
      rewrite UE. repeat split; auto.
    + apply nth_error_None in G. assert (w < length (s_info s)) by (apply nth_error_Some; congruence). lia.
  - injection E as <-. apply nth_error_None in P. rewrite upd_none by lia. repeat split; auto.
Qed.

Lemma call_ok s gs n s' : good s gs n -> call eqd s = Ok s' -> good s' (map cleared gs) n.
Proof.
  intros H E. unfold call in E.
  assert (F : forall ws m s1, fold_left (fun m w => bindr m (settle eqd w)) ws m = Ok s1 -> exists s0, m = Ok s0 /\ forall gs, good s0 gs n -> good s1 (fold_left (fun gs w => upd gs w cleared) ws gs) n).
  { induction ws as [|w ws IH]; intros m s1 E1; cbn [fold_left] in E1; [subst; eauto|]. destruct (IH _ _ E1) as (s2 & B & C). destruct m as [s0|]; [|discriminate]. exists s0. split; auto. intros gs0 G. apply C. eapply settle_ok; eauto. }
  destruct (F _ _ _ E) as (s0 & E0 & C). injection E0 as <-. specialize (C gs H). replace (map cleared gs) with (fold_left (fun gs w => upd gs w cleared) (seq 0 (length (s_info s))) gs); auto.
  destruct H as (_ & _ & _ & L & _). rewrite L. clear. rename gs into gs1.
  assert (G : forall k gs, k <= length gs -> fold_left (fun gs w => upd gs w cleared) (seq 0 k) gs = map cleared (firstn k gs) ++ skipn k gs).
  { induction k as [|k IH]; intros gs K; auto. rewrite seq_S, fold_left_app, IH by lia. cbn [fold_left plus]. apply nth_error_ext_l. intros i. rewrite upd_nth.
    destruct (skipn k gs) as [|x t] eqn:S0; [apply (f_equal (@length _)) in S0; rewrite skipn_length in S0; cbn in S0; lia|].
    assert (FS : firstn (S k) gs = firstn k gs ++ [x] /\ skipn (S k) gs = t). { clear IH. revert k K S0. induction gs as [|g gs IH]; intros [|k] K S0; cbn in *; try discriminate; [injection S0 as -> ->; auto|]. destruct (IH k ltac:(lia) S0) as [A B]. rewrite A, B. auto. }
    destruct FS as [-> ->]. rewrite map_app, <- app_assoc. cbn [map app]. assert (LF : length (map cleared (firstn k gs)) = k) by (rewrite map_length, firstn_length; lia).
    destruct (Nat.eqb_spec k i) as [->|NE]; [rewrite !nth_error_app2 by lia; rewrite LF, Nat.sub_diag; reflexivity|]. destruct (Nat.lt_ge_cases i k); [rewrite !nth_error_app1 by lia; auto|]. rewrite !nth_error_app2 by lia. rewrite LF. destruct (i - k) eqn:IK; [lia|reflexivity]. }
  rewrite G by lia. now rewrite firstn_all, skipn_all, app_nil_r.
Qed.
Lemma memb_app i l m : memb i (l ++ m) = memb i l || memb i m.
Proof. apply existsb_app. Qed.
Lemma apply_ok e s gs n gs' n' s' : good s gs n -> follow e (gs, n) = Some (gs', n') -> apply eqd e s = Ok s' -> good s' gs' n'.
Proof.
  intros Hg F E. pose proof Hg as (L1 & L2 & L3 & L4 & N & R & A). destruct e as [|w i|x|w x|w i|w u]; cbn [follow apply] in F, E.
  - injection F as <- <-. eapply call_ok; eauto.
  - destruct (nth_error gs w) as [[g|]|] eqn:G; try discriminate. destruct (Nat.ltb_spec i n) as [I|]; [|discriminate]. injection F as <- <-. injection E as <-. unfold good. cbn [s_x s_min s_active s_info]. rewrite bump_length, !upd_length. repeat split; auto.
    + intros w' H. revert H; rewrite ?upd_nth; destruct (Nat.eqb_spec w w') as [<-|]; intros H; [rewrite G in H; discriminate|auto].
    + intros w' g' H. revert H; rewrite ?upd_nth; destruct (Nat.eqb_spec w w') as [<-|]; intros H; [|auto]. rewrite G in H. cbn in H. injection H as <-. destruct (N w G) as (o & P). rewrite P. cbn. exists [i], None. repeat split; auto; try discriminate; try tauto. intros j [<-|[]]. auto.
    + intros j Hj. rewrite bump_nth, (A j Hj). cbn [option_map]. rewrite (countb_holds gs w None _ j G). cbn [holds g_rows]. destruct (memb j [i]); f_equal; lia.
  - injection F as <- <-. injection E as <-. unfold good. cbn [s_x s_min s_active s_info]. rewrite !app_length. cbn [length]. repeat split; try lia; auto.
    + intros w g G. destruct (R w g G) as (l & y & P & X1 & X2 & X3 & X4). exists l, y. repeat split; auto; try tauto. intros i Hi. specialize (X4 i Hi). lia.
    + intros i Hi. destruct (Nat.eq_dec i n) as [->|]; [|rewrite nth_error_app1 by lia; apply A; lia]. rewrite nth_error_app2, L2, Nat.sub_diag by lia. cbn. rewrite countb_0; auto. intros [g|] Hin; auto. cbn. apply In_nth_error in Hin as [w G]. destruct (R w g G) as (l & y & _ & _ & _ & _ & X4). apply memb_false. intros I. specialize (X4 n I). lia.
  - destruct (nth_error gs w) as [[[l [j|] [|]]|]|] eqn:G; try discriminate. injection F as <- <-. injection E as <-. unfold good. cbn [s_x s_min s_active s_info]. rewrite !app_length, upd_length. cbn [length]. repeat split; try lia; auto.
    + intros w' H. revert H; rewrite ?upd_nth; destruct (Nat.eqb_spec w w') as [<-|]; intros H; [rewrite G in H; discriminate|auto].
    + intros w' g' H. revert H; rewrite ?upd_nth; destruct (Nat.eqb_spec w w') as [<-|]; intros H.
      * rewrite G in H. cbn in H. injection H as <-. destruct (R w _ G) as (l0 & y & P & X1 & X2 & X3 & X4). cbn in P, X1, X2, X3, X4. unfold pend in X3. cbn in X3. rewrite app_nil_r in X3. subst l0. exists l, y. cbn. repeat split; auto; try tauto; try discriminate. intros i Hi. apply in_app_or in Hi as [Hi|[<-|[]]]; [specialize (X4 i Hi)|]; lia.
      * destruct (R w' g' H) as (l0 & y & P & X1 & X2 & X3 & X4). exists l0, y. repeat split; auto; try tauto. intros i Hi. specialize (X4 i Hi). lia.
    + intros i Hi. rewrite (countb_holds gs w _ _ i G). cbn [holds g_rows]. rewrite memb_app. destruct (Nat.eq_dec i n) as [->|].
      * rewrite nth_error_app2, L2, Nat.sub_diag by lia. cbn [nth_error]. assert (C0 : forall o, In o gs -> holds n o = false). { intros [g|] Hin; auto. cbn. apply In_nth_error in Hin as [w' G']. destruct (R w' g G') as (l' & y & _ & _ & _ & _ & X4). apply memb_false. intros I. specialize (X4 n I). lia. }
        rewrite countb_0 by exact C0. pose proof (C0 _ (nth_error_In _ _ G)) as C1. change (memb n l = false) in C1. rewrite C1. cbn. rewrite Nat.eqb_refl. reflexivity.
      * rewrite nth_error_app1 by lia. rewrite A by lia. assert (M : memb i [n] = false) by (cbn; destruct (Nat.eqb_spec i n); auto; lia). rewrite M, orb_false_r. f_equal. destruct (memb i l); lia.
  - destruct (nth_error gs w) as [[[l [j|] [|]]|]|] eqn:G; try discriminate. destruct (Nat.eqb_spec i j) as [->|]; [|discriminate]. injection F as <- <-. destruct (R w _ G) as (l0 & y & P & X1 & X2 & X3 & X4). cbn in P, X1, X2, X3, X4. rewrite P in E. injection E as <-. unfold good. cbn [s_x s_min s_active s_info]. rewrite !upd_length. repeat split; auto.
    + intros w' H. revert H; rewrite ?upd_nth; destruct (Nat.eqb_spec w w') as [<-|]; intros H; [rewrite G in H; discriminate|auto].
    + intros w' g' H. revert H; rewrite ?upd_nth; destruct (Nat.eqb_spec w w') as [<-|]; intros H; [|auto]. rewrite G in H. cbn in H. injection H as <-. rewrite P. cbn. exists (l0 ++ [j]), y. unfold pend in *. cbn in *. rewrite app_nil_r. repeat split; auto; try tauto.
    + intros i Hi. rewrite (countb_holds gs w _ _ i G), (A i Hi). cbn [holds g_rows]. f_equal. destruct (memb i l); lia.
  - destruct (nth_error gs w) as [[[l [j|] [|]]|]|] eqn:G; try discriminate. destruct u as [[|] [x|]]; try discriminate. cbn in F. injection F as <- <-. destruct (R w _ G) as (l0 & y & P & X1 & X2 & X3 & X4). cbn in P, X1, X2, X3, X4. injection E as <-. unfold good. cbn [s_x s_min s_active s_info]. rewrite !upd_length. repeat split; auto.
    + intros w' H. revert H; rewrite ?upd_nth; destruct (Nat.eqb_spec w w') as [<-|]; intros H; [rewrite G in H; discriminate|auto].
    + intros w' g' H. revert H; rewrite ?upd_nth; destruct (Nat.eqb_spec w w') as [<-|]; intros H; [|auto]. rewrite G in H. cbn in H. injection H as <-. rewrite P. cbn. exists l0, (Some x). unfold pend in *. cbn in *. repeat split; auto; discriminate.
    + intros i Hi. rewrite (countb_holds gs w _ _ i G), (A i Hi). cbn [holds g_rows]. f_equal. destruct (memb i l); lia.
Qed.
Lemma history_ok nw es st s : runs nw es = Some st -> history eqd nw es = Ok s -> good s (fst st) (snd st).
Proof.
  unfold runs, history. intros F E.
  assert (I0 : good (mkState [] [] [] (repeat (mkPinfo (X := X) false None None) nw)) (repeat None nw) 0).
  { unfold good. cbn. rewrite !repeat_length. repeat split; auto; try lia.
    - intros w H. exists None. apply nth_error_In in H as I. assert (W : w < nw) by (rewrite <- (repeat_length (@None seen_run) nw); apply nth_error_Some; congruence). rewrite nth_error_repeat by exact W. reflexivity.
    - intros w g H. apply nth_error_In, repeat_spec in H. discriminate. }
  assert (G : forall es m gs n s, fold_left (fun m e => bindr m (apply eqd e)) es m = Ok s -> exists s0, m = Ok s0 /\ forall st, follow_all es (gs, n) = Some st -> good s0 gs n -> good s (fst st) (snd st)).
  { clear. induction es as [|e es IH]; intros m gs n s E; cbn [fold_left] in E; [subst m; exists s; split; auto; intros st F H; cbn in F; injection F as <-; exact H|].
    destruct m as [s0|]; [|destruct (IH _ gs n s E) as (? & B & _); discriminate]. exists s0. split; auto. intros st F H. cbn [follow_all] in F. destruct (follow e (gs, n)) as [[gs1 n1]|] eqn:FE; [|discriminate]. destruct (IH _ gs1 n1 s E) as (s1 & B & C). cbn [bindr] in B. apply C; auto. eapply apply_ok; eauto. }
  destruct (G es _ (repeat None nw) 0 s E) as (s0 & E0 & C). injection E0 as <-. apply C; auto.
Qed.

Definition opt_of (s : @state X) (w : nat) : option X := match nth_error (s_info s) w with Some p => p_xopt p | None => None end.
Definition is_pt (o : option X) (x : X) : bool := match o with Some y => if eqd x y then true else false | None => false end.
Lemma settle_min w s s' : length (s_min s) = length (s_x s) -> settle eqd w s = Ok s' ->
  s_x s' = s_x s /\ length (s_min s') = length (s_x s) /\ length (s_info s') = length (s_info s) /\ (forall w', w' <> w -> nth_error (s_info s') w' = nth_error (s_info s) w') /\
  (forall i x b, nth_error (s_x s) i = Some x -> nth_error (s_min s) i = Some b -> nth_error (s_min s') i = Some (is_pt (opt_of s w) x || b)) /\
  (forall y, opt_of s w = Some y -> countb (fun x => if eqd x y then true else false) (s_x s) = 1).
Proof.
  intros L E. unfold settle, opt_of in *. destruct (nth_error (s_info s) w) as [[d xo o]|] eqn:P; [|injection E as <-; repeat split; auto; discriminate]. cbn [p_done p_order p_xopt] in *.
  assert (B : exists s1, (if d then match o with None => Err EKey | Some l => Ok (mkState (s_x s) (bump (-1) l (s_active s)) (s_min s) (s_info s)) end else Ok s) = Ok s1 /\ s_x s1 = s_x s /\ s_min s1 = s_min s /\ s_info s1 = s_info s).
  { destruct d; [destruct o; [|discriminate]|]; eauto. }
  destruct B as (s1 & BE & B1 & B2 & B3). rewrite BE in E. cbn [bindr] in E. destruct xo as [x|]; [|injection E as <-; rewrite B1, B2, B3; repeat split; auto; discriminate].
  cbn zeta in E. rewrite B1, B2, B3 in E. destruct (Nat.eqb_spec (countb (fun b => b) (map (fun y => if eqd y x then true else false) (s_x s))) 1) as [C|]; [|discriminate]. injection E as <-. cbn [s_x s_min s_info]. rewrite map_length, combine_length, map_length, upd_length. split; auto. split; [lia|]. split; auto. split; [intros w' N; apply upd_nth_other; auto|]. split.
  - intros i y b Hy Hb. cbn [is_pt]. clear - Hy Hb. revert Hy Hb. generalize (s_x s), (s_min s), i. clear. induction l as [|a l IH]; intros [|c m] [|i] Hy Hb; cbn in *; try discriminate; [injection Hy as ->; injection Hb as ->; reflexivity|auto].
  - intros y [= <-]. rewrite <- C. clear. unfold countb. induction (s_x s) as [|a l IH]; auto. cbn. destruct (eqd a x); cbn; congruence.
Qed.
Lemma call_min s s' : length (s_min s) = length (s_x s) -> call eqd s = Ok s' -> s_x s' = s_x s /\ length (s_min s') = length (s_x s) /\
  (forall i x b, nth_error (s_x s) i = Some x -> nth_error (s_min s) i = Some b -> exists b', nth_error (s_min s') i = Some b' /\ (b' = true <-> b = true \/ exists w, opt_of s w = Some x)) /\
  (forall w y, opt_of s w = Some y -> countb (fun x => if eqd x y then true else false) (s_x s) = 1).
Proof.
  intros L E. unfold call in E.
  assert (F : forall k s1, k <= length (s_info s) -> fold_left (fun m w => bindr m (settle eqd w)) (seq 0 k) (Ok s) = Ok s1 ->
     s_x s1 = s_x s /\ length (s_min s1) = length (s_x s) /\ length (s_info s1) = length (s_info s) /\ (forall w, k <= w -> nth_error (s_info s1) w = nth_error (s_info s) w) /\
     (forall i x b, nth_error (s_x s) i = Some x -> nth_error (s_min s) i = Some b -> exists b', nth_error (s_min s1) i = Some b' /\ (b' = true <-> b = true \/ exists w, w < k /\ opt_of s w = Some x)) /\
     (forall w y, w < k -> opt_of s w = Some y -> countb (fun x => if eqd x y then true else false) (s_x s) = 1)).
  { induction k as [|k IH]; intros s1 K E1.
    - injection E1 as <-. repeat split; auto; [|intros; lia]. intros i x b Hx Hb. exists b. split; auto. split; auto. intros [?|(w & ? & _)]; auto; lia.
    - rewrite seq_S, fold_left_app in E1. cbn [fold_left plus] in E1. destruct (fold_left _ (seq 0 k) (Ok s)) as [s0|] eqn:E0; [|discriminate]. cbn [bindr] in E1. destruct (IH s0 ltac:(lia) eq_refl) as (A1 & A2 & A3 & A4 & A5 & A6).
      destruct (settle_min k s0 s1 ltac:(congruence) E1) as (B1 & B2 & B3 & B4 & B5 & B6). assert (OE : opt_of s0 k = opt_of s k) by (unfold opt_of; now rewrite A4). rewrite OE, A1 in *. repeat split; try congruence; try lia.
      + intros w W. rewrite B4 by lia. apply A4. lia.
      + intros i x b Hx Hb. destruct (A5 i x b Hx Hb) as (b' & Hb' & IB). exists (is_pt (opt_of s k) x || b'). split; [apply B5; auto|]. rewrite orb_true_iff, IB. split.
        * intros [P|[P|(w & W & P)]]; auto; [|right; exists w; split; auto]. right. exists k. split; auto. unfold is_pt in P. destruct (opt_of s k) as [y|]; [|discriminate]. destruct (eqd x y); [congruence|discriminate].
        * intros [P|(w & W & P)]; auto. destruct (Nat.eq_dec w k) as [->|]; [left; rewrite P; cbn; destruct (eqd x x); congruence|right; right; exists w; split; auto; lia].
      + intros w y W P. destruct (Nat.eq_dec w k) as [->|]; [auto|apply (A6 w); auto; lia]. }
  destruct (F _ _ (le_n _) E) as (A1 & A2 & A3 & A4 & A5 & A6). assert (IN : forall w y, opt_of s w = Some y -> w < length (s_info s)). { intros w y H. unfold opt_of in H. apply nth_error_Some. destruct (nth_error (s_info s) w); congruence. }
  repeat split; auto; [|intros w y H; apply (A6 w); eauto]. intros i x b Hx Hb. destruct (A5 i x b Hx Hb) as (b' & Hb' & IB). exists b'. split; auto. rewrite IB. split; (intros [?|(w & H)]; [auto|right; exists w]); [tauto|eauto].
Qed.
End Proofs.

(** ** Theorems *)

(** The objective's k-th call is for a point that NLopt chose given the values of the
    earlier calls; for the starting point it returns the value the run was started with;
    for the others, in order, one row each is sent, marked as a point of one run, and the
    value that came back for it is returned. Nothing is sent after a stop. *)
Theorem C84_values : forall (X V : Type) (eqd : forall a b : X, {a = b} + {a <> b}) cube (opt : list V -> request) z x0 v0 n ys out seen o,
  run eqd cube opt z x0 v0 n [] ys = (out, seen, o) ->
  let asked := filter (fun p => if eqd (fst p) x0 then false else true) seen in
  (forall i x v, nth_error seen i = Some (x, v) -> opt (map snd (firstn i seen)) = Eval x /\ (x = x0 -> v = v0)) /\
  (exists more, length more <= 1 /\ out = map (fun x => [mkRow x (cube x) true 1]) (map fst asked ++ more) /\
     (forall x, In x more -> x <> x0 /\ opt (map snd seen) = Eval x /\ (o = Waiting \/ nth_error ys (length asked) = Some Stop))) /\
  map Value (map snd asked) = firstn (length asked) ys.
Proof.
  intros X V eqd cube opt z x0 v0 n ys out seen o E asked. destruct (run_ok eqd cube opt z x0 v0 n _ _ _ _ _ E) as (A & (more & B1 & B2) & C & _). split; [exact A|]. split; [|symmetry; exact C]. exists more. destruct B2 as [->|(x & -> & B2 & B3 & B4)]; [split; auto; split; auto; intros ? []|]. split; auto. split; auto. intros y [<-|[]]. split; auto. split; auto. destruct B4 as [|[]]; auto.
Qed.
Print Assumptions C84_values.
(** The run reports that it is done exactly if NLopt returned, and an optimum exactly if
    it returned with a code of success from 1 to 4: the point NLopt returned. *)
Theorem C84_result : forall (X V : Type) (eqd : forall a b : X, {a = b} + {a <> b}) cube (opt : list V -> request) z x0 v0 n ys out seen u,
  run eqd cube opt z x0 v0 n [] ys = (out, seen, Returned u) ->
  (u_done u = true <-> exists x c, opt (map snd seen) = Return x c) /\
  forall x, u_xopt u = Some x <-> exists c, opt (map snd seen) = Return x c /\ (0 < c < 5)%Z.
Proof.
  intros X V eqd cube opt z x0 v0 n ys out seen u E. destruct (run_ok eqd cube opt z x0 v0 n _ _ _ _ _ E) as (_ & _ & _ & D & F). cbn [app] in *. split.
  - split; [intros U; destruct D as [->|(x & c & D1 & _)]; [discriminate|eauto]|]. intros (x & c & H). destruct (F x c H) as (u' & [= <-] & U). exact U.
  - intros x. destruct D as [->|(y & c & D1 & D2 & D3)].
    + split; [discriminate|]. intros (c & H & _). destruct (F x c H) as (u' & [= <-] & U). discriminate.
    + rewrite D1. destruct D3 as [[-> D3]|[-> D3]]; split; try discriminate; [intros [= <-]; eauto|intros (c' & [= -> ->] & _); auto|intros (c' & [= -> ->] & ?); contradiction].
Qed.
Print Assumptions C84_result.

(** In all histories in which runs end by converging, num_active_runs is, for each row,
    the number of workers with a run that has this row. *)
Theorem C84_active : forall (X : Type) (eqd : forall a b : X, {a = b} + {a <> b}) nworkers es gs n s,
  runs nworkers es = Some (gs, n) -> history eqd nworkers es = Ok s ->
  length (s_active s) = n /\ forall i, i < n -> nth_error (s_active s) i = Some (Z.of_nat (countb (holds i) gs)).
Proof. intros X eqd nw es gs n s R E. destruct (history_ok eqd nw es (gs, n) s R E) as (_ & L & _ & _ & _ & _ & A). auto. Qed.
Print Assumptions C84_active.

(** A call marks as minima the rows of the optima that runs have reported, and no others;
    each is one row. *)
Theorem C84_minima : forall (X : Type) (eqd : forall a b : X, {a = b} + {a <> b}) s s', length (s_min s) = length (s_x s) -> call eqd s = Ok s' ->
  s_x s' = s_x s /\
  (forall i x b, nth_error (s_x s) i = Some x -> nth_error (s_min s) i = Some b ->
     exists b', nth_error (s_min s') i = Some b' /\ (b' = true <-> b = true \/ exists w p, nth_error (s_info s) w = Some p /\ p_xopt p = Some x)) /\
  (forall w p y, nth_error (s_info s) w = Some p -> p_xopt p = Some y -> exists i, nth_error (s_x s) i = Some y /\ forall j, nth_error (s_x s) j = Some y -> j = i).
Proof.
  intros X eqd s s' L E. destruct (call_min eqd s s' L E) as (A & _ & B & C). split; auto. split.
  - intros i x b Hx Hb. destruct (B i x b Hx Hb) as (b' & Hb' & IB). exists b'. split; auto. rewrite IB. unfold opt_of. split; (intros [?|H]; [auto|right]).
    + destruct H as (w & H). exists w. destruct (nth_error (s_info s) w) as [p|]; [eauto|discriminate].
    + destruct H as (w & p & H & H2). exists w. now rewrite H.
  - intros w p y Hp Hy. specialize (C w y). unfold opt_of in C. rewrite Hp in C. specialize (C Hy). clear - C. unfold countb in C. induction (s_x s) as [|a l IH]; [discriminate|]. cbn in C. destruct (eqd a y) as [->|N].
    + exists 0. split; auto. intros [|j] Hj; auto. exfalso. cbn in Hj, C. injection C as C. apply length_zero_iff_nil in C. assert (In y (filter (fun x => if eqd x y then true else false) l)) by (apply filter_In; split; [eapply nth_error_In; eauto|destruct (eqd y y); congruence]). rewrite C in H. destruct H.
    + destruct (IH C) as (i & I1 & I2). exists (S i). split; auto. intros [|j] Hj; cbn in Hj; [congruence|]. f_equal. auto.
Qed.
Print Assumptions C84_minima.

(** The sample: one row for each draw, in order, none of them a point of a run. *)
Theorem C84_sample : forall (X : Type) cube (draw : nat -> X) z b, sample cube draw z b = map (fun i => mkRow (draw i) (cube (draw i)) false 0) (seq 0 b).
Proof.
  intros. unfold sample, add_to_out. cbn zeta.
  assert (G : forall k done, fold_left (fun out i => upd out i (fun r => mkRow (draw i) (cube (draw i)) (r_local r) (r_active r))) (seq (length done) k) (done ++ repeat (mkRow z z false 0) k) = done ++ map (fun i => mkRow (draw i) (cube (draw i)) false 0) (seq (length done) k)).
  { induction k as [|k IH]; intros done; auto. cbn [seq fold_left repeat map]. assert (U : forall f (a : row) t, upd (done ++ a :: t) (length done) f = (done ++ [f a]) ++ t). { intros. clear. induction done; cbn; auto. now rewrite IHdone. }
    rewrite U. cbn [r_local r_active]. specialize (IH (done ++ [mkRow (draw (length done)) (cube (draw (length done))) false 0])). rewrite app_length in IH. cbn [length] in IH. rewrite Nat.add_1_r in IH. rewrite IH, <- app_assoc. reflexivity. }
  apply (G b []).
Qed.
Print Assumptions C84_sample.

(** ** Cases *)
Definition plan (vs : list nat) : request := match vs with [] => Eval 5 | [_] => Eval 7 | [_; _] => Eval 9 | [_; _; _] => Eval 5 | _ => Return 9 4%Z end.
Example run_case : run Nat.eq_dec (fun x => x + 100) plan 0 5 50 10 [] [Value 70; Value 30] =
  ([[mkRow 7 107 true 1]; [mkRow 9 109 true 1]], [(5, 50); (7, 70); (9, 30); (5, 50)], Returned (mkUpdates true (Some 9))) /\
  run Nat.eq_dec (fun x => x + 100) plan 0 5 50 10 [] [Value 70; Stop] = ([[mkRow 7 107 true 1]; [mkRow 9 109 true 1]], [(5, 50); (7, 70)], Returned (mkUpdates false None)) /\
  snd (run Nat.eq_dec (fun x => x + 100) plan 0 5 50 2 [] [Value 70]) = Busy.
Proof. repeat split. Qed.
Definition es0 : list (@event nat) :=
  [Call; Sample 5; Sample 6; Call; Start 0 0; Start 1 0; New 0 7; Call; Give 0 2; New 1 8; New 0 9; Call; Give 0 4; End 0 (mkUpdates true (Some 9)); Call; Start 0 1].
Example history_case : (exists gs, runs 2 es0 = Some (gs, 5)) /\ exists s, history Nat.eq_dec 2 es0 = Ok s /\ s_active s = [1; 1; 0; 1; 0]%Z /\ s_min s = [false; false; false; false; true].
Proof. split; [eexists; vm_compute; reflexivity|]. eexists. split; [vm_compute; reflexivity|]. vm_compute. auto. Qed.

(** A run that ends otherwise, as with localopt_maxeval reached, is counted off again in
    each later call. *)
Theorem C84_active_refuted : exists (opt : list nat -> request) x0 v0 ys out seen u, run Nat.eq_dec (fun x => x) opt 0 x0 v0 10 [] ys = (out, seen, Returned u) /\ u_done u = true /\
  exists s, history Nat.eq_dec 2 [Sample x0; Call; Start 0 0; New 0 7; Give 0 1; End 0 u; Call; Call; Call] = Ok s /\ s_active s = [-2; -2]%Z.
Proof.
  exists (fun vs => match vs with [] => Eval 7 | _ => Return 7 5%Z end), 5, 50, [Value 70]. repeat eexists.
Qed.
Print Assumptions C84_active_refuted.
(** It is counted off from the next run of the same worker, too. *)
Theorem C84_next_run_refuted : exists s, history Nat.eq_dec 2 [Sample 5; Sample 6; Call; Start 0 0; New 0 7; Give 0 2; End 0 (mkUpdates true None); Call; Start 0 1; Call] = Ok s /\ nth_error (s_active s) 1 = Some 0%Z.
Proof. eexists. split; vm_compute; reflexivity. Qed.
Print Assumptions C84_next_run_refuted.
(** If NLopt asks for its optimum twice, the history has it twice and the call fails. *)
Theorem C84_twice_refuted : exists (opt : list nat -> request) out seen u, run Nat.eq_dec (fun x => x) opt 0 5 50 10 [] [Value 70; Value 70] = (out, seen, Returned u) /\ concat out = [mkRow 7 7 true 1; mkRow 7 7 true 1] /\
  (exists st, runs 2 [Sample 5; Call; Start 0 0; New 0 7; Give 0 1; New 0 7; Give 0 2; End 0 u; Call] = Some st) /\
  history Nat.eq_dec 2 [Sample 5; Call; Start 0 0; New 0 7; Give 0 1; New 0 7; Give 0 2; End 0 u; Call] = Err EAssert.
Proof.
  exists (fun vs => match vs with [] => Eval 7 | [_] => Eval 7 | _ => Return 7 4%Z end). repeat eexists.
Qed.
Print Assumptions C84_twice_refuted.
