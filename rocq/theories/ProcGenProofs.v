(** Lemmas about generator functions behind an object: what is handed out. *)
From Verif Require Import Base BaseLemmas MapModel MapSpec MapProofs ProcGenModel ProcGenSpec.
Local Open Scope nat_scope.

Lemma minimum_is row : is_min row = minimum row.
Proof. unfold is_min, minimum, truth. destruct (get LOCAL_MIN row) as [[[]|]|]; reflexivity. Qed.

Lemma skipn_skipn {A} (l : list A) a b : skipn a (skipn b l) = skipn (b + a) l.
Proof. revert l. induction b as [|b IH]; intros [|x l]; cbn; auto. now destruct a. Qed.
Lemma filter_none {A} (p : A -> bool) l : (forall a, In a l -> p a = false) -> filter p l = [].
Proof. induction l as [|a l IH]; intros H; auto. cbn. rewrite H by now left. apply IH. intros; apply H; now right. Qed.

Section P.
Variable gen : gfun.
Variable N : nat.
Variable pi : list name.
Hypothesis ST : steady gen.

(** The object after a call that only sends. *)
Record grown (o o' : obj) : Prop := {
  gr_idx : o_idx o' = o_idx o;
  gr_last : o_last o' = o_last o;
  gr_minima : o_minima o' = o_minima o;
  gr_taken : o_taken o' = o_taken o;
  gr_done : o_done o' = o_done o;
  gr_result : o_result o' = o_result o;
  gr_in : exists ms, o_in o' = o_in o ++ ms;
  gr_run : o_running o' = o_running o \/ o_running o = None }.
Lemma grown_refl o : grown o o.
Proof. split; auto. exists []. now rewrite app_nil_r. Qed.
Lemma grown_trans a b c : grown a b -> grown b c -> grown a c.
Proof.
  intros [] []. split; try congruence.
  - destruct gr_in0 as [x E], gr_in1 as [y E']. exists (x ++ y). now rewrite E', E, app_assoc.
  - destruct gr_run0 as [E|E]; [|auto]. destruct gr_run1 as [E'|E']; [left; congruence|right; congruence].
Qed.
Lemma grown_outbox o o' : grown o o' -> exists r, outbox gen o' = outbox gen o ++ r.
Proof.
  intros [? ? ? ? ? ? (ms&E) R]. unfold outbox. destruct R as [-> | ->].
  - rewrite E. destruct (o_running o); [apply ST|exists []; reflexivity].
  - cbn. eexists; reflexivity.
Qed.
Lemma grown_first m o : grown o (set_first m o).
Proof. unfold set_first. destruct (o_first o); [apply grown_refl|]. split; auto. exists []. cbn. now rewrite app_nil_r. Qed.
Lemma grown_call m n o : grown o (set_call m n o).
Proof. split; auto. exists []. cbn. now rewrite app_nil_r. Qed.
Lemma grown_buf o b n t : grown o (set_buf o b n t).
Proof. split; auto. exists []. cbn. now rewrite app_nil_r. Qed.
Lemma grown_start o : grown o (start o) \/ o_made o = false /\ o_running o <> None.
Proof.
  unfold start. destruct (o_made o); [left; apply grown_refl|]. destruct (o_running o) eqn:E; [right; split; [auto|congruence]|].
  left. split; auto. exists []. cbn. now rewrite app_nil_r.
Qed.
(** A process runs only if it was made. *)
Definition sane (o : obj) : Prop := o_made o = false -> o_running o = None.
Lemma start_grown o : sane o -> grown o (start o).
Proof. intros HS. destruct (grown_start o) as [G|[A B]]; auto. now apply HS in A. Qed.
Lemma start_sane o : sane (start o).
Proof. unfold start, sane. destruct (o_made o) eqn:E; [congruence|discriminate]. Qed.
Lemma start_made o : o_made (start o) = true.
Proof. unfold start. destruct (o_made o) eqn:E; auto. Qed.
Lemma grown_send ms o : grown o (send ms o).
Proof. split; auto. now exists ms. Qed.

Lemma base_ingest_grown o x s o' r : sane o -> base_ingest pi o x s = (o', r) -> grown o o' /\ sane o' /\ r <> Hang.
Proof.
  intros HS H. unfold base_ingest in H. assert (G := start_grown o HS). assert (S1 := start_sane o).
  destruct x as [a|].
  - destruct (bindr _ _) as [[p ids]|e]; injection H as <- <-; repeat split; try apply G; try discriminate; auto.
    eapply (grown_trans _ _ _ G (grown_send _ _)).
  - injection H as <- <-. split; [exact (grown_trans _ _ _ G (grown_send _ _))|]. split; [exact S1|discriminate].
Qed.
Lemma first_sane m o : sane o -> sane (set_first m o).
Proof. unfold set_first, sane. destruct (o_first o); auto. Qed.
Lemma hand_over_grown a s o o' r : sane o -> hand_over N pi a s o = (o', r) -> grown o o' /\ sane o' /\ r <> Hang.
Proof.
  intros HS H. unfold hand_over in H. destruct (enough N o).
  - destruct (o_buf o) as [b|]; [|injection H as <- <-; split; [apply grown_refl|split; [auto|discriminate]]].
    destruct (if memb _ _ && _ then _ else _) as [b1|e]; [|injection H as <- <-; split; [apply grown_refl|split; [auto|discriminate]]].
    destruct (base_ingest _ _ _ _) as [o2 x] eqn:E. apply base_ingest_grown in E as (G&S2&NH); [|exact HS].
    assert (G1 := grown_trans _ _ _ (grown_buf o (Some b1) (o_n o) (o_told o)) G).
    destruct x; injection H as <- <-; (split; [|split; [|discriminate || exact NH]]); auto.
    eapply grown_trans; [exact G1|]. eapply grown_trans; [apply grown_buf|apply grown_call].
  - injection H as <- <-. split; [apply grown_call|split; [exact HS|discriminate]].
Qed.
Lemma ingest_grown x s o o' r : sane o -> ingest N pi x s o = (o', r) -> grown o o' /\ sane o' /\ r <> Hang.
Proof.
  intros HS H. unfold ingest in H. assert (G0 := grown_first MIngest o). apply (first_sane MIngest) in HS.
  set (o0 := set_first MIngest o) in *. destruct (_ || _).
  - destruct (base_ingest _ _ _ _) as [o1 y] eqn:E. apply base_ingest_grown in E as (G&S2&NH); auto.
    assert (G1 := grown_trans _ _ _ G0 G). destruct y; injection H as <- <-; (split; [|split; [|discriminate || exact NH]]); auto.
    eapply grown_trans; [exact G1|apply grown_call].
  - destruct x as [a|]; [|injection H as <- <-; split; [auto|split; [auto|discriminate]]].
    set (o1 := if o_n o0 =? 0 then _ else _) in *.
    assert (G1 : grown o o1) by (unfold o1; destruct (o_n o0 =? 0); auto; eapply grown_trans; [exact G0|apply grown_buf]).
    assert (S1 : sane o1) by (unfold o1; destruct (o_n o0 =? 0); auto).
    destruct (enough N o1).
    + apply hand_over_grown in H as (G&S2&NH); auto. split; auto. eapply grown_trans; eauto.
    + destruct (o_buf o1) as [b|]; [|injection H as <- <-; split; [auto|split; [auto|discriminate]]].
      destruct (slot _ _ _) as [b' [e|]].
      * injection H as <- <-. split; [eapply grown_trans; [exact G1|apply grown_buf]|split; [auto|discriminate]].
      * apply hand_over_grown in H as (G&S2&NH); auto. split; auto. eapply grown_trans; [exact G1|]. eapply grown_trans; [apply grown_buf|exact G].
Qed.

(** What is kept back of the last message. *)
Definition held (o : obj) : list dict := match o_last o with Some l => skipn (o_idx o) (a_rows l) | None => [] end.
Definition plain (row : dict) : bool := negb (minimum row).
Record inv (o : obj) (G M : list dict) : Prop := {
  iv_sane : sane o;
  iv_taken : o_taken o <= length (outbox gen o);
  iv_pts : filter plain (rows_of (firstn (o_taken o) (outbox gen o))) = G ++ held o;
  iv_min : filter minimum (rows_of (firstn (o_taken o) (outbox gen o))) = M ++ flat_map a_rows (o_minima o);
  iv_tight : held o <> [] -> exists k before, o_taken o = S k /\
               filter plain (rows_of (skipn k (firstn (o_taken o) (outbox gen o)))) = before ++ held o }.

Lemma inv_grown o o' G M : inv o G M -> grown o o' -> sane o' -> inv o' G M.
Proof.
  intros [IS IT IP IM IH] GR S'. destruct (grown_outbox _ _ GR) as [r E]. destruct GR.
  assert (Hh : held o' = held o) by (unfold held; now rewrite gr_last0, gr_idx0).
  assert (F : firstn (o_taken o') (outbox gen o') = firstn (o_taken o) (outbox gen o)).
  { rewrite gr_taken0, E, firstn_app. replace (o_taken o - length (outbox gen o)) with 0 by lia. cbn. apply app_nil_r. }
  split; auto.
  - rewrite gr_taken0, E, app_length. lia.
  - now rewrite F, Hh.
  - now rewrite F, gr_minima0.
  - rewrite F, Hh, gr_taken0. exact IH.
Qed.
Lemma inv_sugg o G M idx last mi : inv o G M -> o_idx o = idx -> o_last o = last -> o_minima o = mi -> inv (set_sugg o idx last mi) G M.
Proof. intros [] <- <- <-. split; auto. Qed.

Lemma rows_of_app a b : rows_of (a ++ b) = rows_of a ++ rows_of b.
Proof. apply flat_map_app. Qed.
Lemma firstn_S_snoc {A} (l : list A) k x : nth_error l k = Some x -> firstn (S k) l = firstn k l ++ [x].
Proof.
  revert k. induction l as [|y l IH]; intros [|k] H; try discriminate.
  - now injection H as ->.
  - cbn [firstn app]. f_equal. now apply IH.
Qed.

(** Reading one message when nothing is held back. *)
Lemma fetch_inv n o o' l G M : inv o G M -> held o = [] -> fetch gen pi n o = (o', Ret l) ->
  (o_last o' <> None /\ o_idx o' = 0 /\ inv o' G M /\ o_made o' = true /\ o_taken o' = S (o_taken o)) /\
  nth_error (outbox gen o') (o_taken o) = Some (MPoints l).
Proof.
  intros I H0 H. unfold fetch in H. destruct (_ && _ && _).
  - destruct (finalize _ _ _) as [o2 [u|e|]]; discriminate.
  - unfold base_suggest, recv in H. set (o1 := start (set_sugg o 0 (o_last o) (o_minima o))) in *.
    assert (Sn : sane (set_sugg o 0 (o_last o) (o_minima o))) by apply I.
    assert (GR := start_grown _ Sn). fold o1 in GR.
    destruct (o_done o1); [discriminate|]. destruct (nth_error _ _) as [m|] eqn:E; [|discriminate].
    destruct m as [a| |]; try discriminate. cbn [lift] in H.
    destruct (column LOCAL_MIN a); [|discriminate]. cbn [lift] in H. injection H as <- <-.
    destruct I as [IS IT IP IM IH].
    assert (ET : o_taken o1 = o_taken o) by apply (gr_taken _ _ GR).
    assert (EM : o_minima o1 = o_minima o) by apply (gr_minima _ _ GR).
    assert (EI : o_idx o1 = 0) by apply (gr_idx _ _ GR).
    assert (EX : exists r, outbox gen o1 = outbox gen o ++ r).
    { destruct (grown_outbox _ _ GR) as [r Er]. exists r. exact Er. }
    destruct EX as [r EX].
    assert (F0 : firstn (o_taken o) (outbox gen o1) = firstn (o_taken o) (outbox gen o)).
    { rewrite EX, firstn_app. replace (o_taken o - length (outbox gen o)) with 0 by lia. cbn. apply app_nil_r. }
    assert (F1 : firstn (S (o_taken o)) (outbox gen o1) = firstn (o_taken o) (outbox gen o) ++ [MPoints a]).
    { rewrite (firstn_S_snoc _ _ (MPoints a)); [now rewrite F0|]. now rewrite <- ET. }
    assert (L1 : S (o_taken o) <= length (outbox gen o1)).
    { rewrite <- ET. apply nth_error_Some. now rewrite E. }
    assert (SK : skipn (o_taken o) (firstn (S (o_taken o)) (outbox gen o1)) = [MPoints a]).
    { rewrite F1, skipn_app, skipn_all2 by (rewrite firstn_length; lia).
      rewrite firstn_length. replace (o_taken o - Nat.min (o_taken o) (length (outbox gen o))) with 0 by lia. reflexivity. }
    assert (FP : forall l, filter (fun r => negb (is_min r)) l = filter plain l)
      by (intros; apply filter_ext; intros x; unfold plain; now rewrite minimum_is).
    assert (FM : forall l, filter is_min l = filter minimum l) by (intros; apply filter_ext; intros x; apply minimum_is).
    assert (P1 : filter plain (rows_of (firstn (S (o_taken o)) (outbox gen o1))) = G ++ filter plain (a_rows a)).
    { rewrite F1, rows_of_app, filter_app, IP, H0, app_nil_r. f_equal. cbn. now rewrite app_nil_r. }
    assert (P2 : filter minimum (rows_of (firstn (S (o_taken o)) (outbox gen o1))) = (M ++ flat_map a_rows (o_minima o)) ++ filter minimum (a_rows a)).
    { rewrite F1, rows_of_app, filter_app, IM. f_equal. cbn. now rewrite app_nil_r. }
    assert (MD : o_made o1 = true) by apply start_made.
    assert (SN : sane o1) by apply start_sane.
    assert (K : forall o4, sane o4 -> o_taken o4 = S (o_taken o) -> outbox gen o4 = outbox gen o1 -> held o4 = filter plain (a_rows a) ->
                flat_map a_rows (o_minima o4) = flat_map a_rows (o_minima o) ++ filter minimum (a_rows a) -> inv o4 G M).
    { intros o4 S4 T4 B4 H4 M4. split; auto.
      - rewrite T4, B4. exact L1.
      - rewrite T4, B4, H4. exact P1.
      - rewrite T4, B4, M4, app_assoc. exact P2.
      - intros _. exists (o_taken o), []. split; [exact T4|]. rewrite T4, B4, SK, H4. cbn. now rewrite app_nil_r. }
    destruct (existsb is_min (a_rows a)) eqn:EE.
    + split; [split; [discriminate|split; [exact EI|split; [|split; [exact MD|cbn; lia]]]]|cbn; now rewrite <- ET].
      apply K.
      * exact SN.
      * cbn. now rewrite ET.
      * reflexivity.
      * unfold held. cbn [o_last o_idx set_sugg set_proc a_rows]. rewrite EI. apply FP.
      * cbn [o_minima set_sugg set_proc]. rewrite EM, flat_map_app. cbn [flat_map a_rows]. now rewrite app_nil_r, FM.
    + assert (NM : filter minimum (a_rows a) = []).
      { rewrite <- FM. apply filter_none. intros x Hx. destruct (is_min x) eqn:Ex; auto.
        assert (existsb is_min (a_rows a) = true) by (apply existsb_exists; eauto). congruence. }
      assert (NP : filter plain (a_rows a) = a_rows a).
      { apply filter_id. intros x Hx. unfold plain. rewrite <- minimum_is. destruct (is_min x) eqn:Ex; auto.
        assert (existsb is_min (a_rows a) = true) by (apply existsb_exists; eauto). congruence. }
      split; [split; [discriminate|split; [exact EI|split; [|split; [exact MD|cbn; lia]]]]|cbn; now rewrite <- ET].
      apply K.
      * exact SN.
      * cbn. now rewrite ET.
      * reflexivity.
      * unfold held. cbn [o_last o_idx set_sugg set_proc a_rows]. rewrite EI. now rewrite NP.
      * cbn [o_minima set_sugg set_proc]. now rewrite EM, NM, app_nil_r.
Qed.

Lemma hand_out_some n o o' a G M : inv o G M -> 0 < n -> hand_out n o = (o', Ret a) ->
  inv o' (G ++ a_rows a) M /\ length (a_rows a) <= n.
Proof.
  intros [IS IT IP IM IH] P H. unfold hand_out in H. destruct (o_last o) as [l|] eqn:EL; [|discriminate].
  apply Nat.ltb_lt in P. rewrite P in H. injection H as <- <-.
  set (o' := set_call _ _ _).
  assert (HE : held o = firstn n (skipn (o_idx o) (a_rows l)) ++ held o').
  { unfold held, o'. cbn. rewrite EL. rewrite <- (firstn_skipn n (skipn (o_idx o) (a_rows l))) at 1. f_equal.
    now rewrite skipn_skipn. }
  split.
  - split; auto.
    + cbn [a_rows]. rewrite <- app_assoc, <- HE. exact IP.
    + intros NE. destruct IH as (k&b&A&B); [rewrite HE; intros Q; apply app_eq_nil in Q as [_ Q]; now apply NE|].
      exists k, (b ++ firstn n (skipn (o_idx o) (a_rows l))). split; [exact A|].
      rewrite <- app_assoc, <- HE. exact B.
  - cbn. rewrite firstn_length. lia.
Qed.

Lemma ready_held o : ready o = Ok true -> held o = [].
Proof.
  unfold ready, held. destruct (o_last o) as [l|]; auto.
  destruct (if o_told o then Ok true else _) as [c|e]; [|discriminate]. cbn. intros H. injection H as H.
  apply andb_true_iff in H as [_ H]. apply Nat.leb_le in H. now apply skipn_all2.
Qed.

Lemma suggest_some n o o' a G M : inv o G M -> 0 < n -> suggest gen pi n o = (o', Ret a) ->
  inv o' (G ++ a_rows a) M /\ length (a_rows a) <= n.
Proof.
  intros I P H. unfold suggest in H. assert (I0 : inv (set_first MSuggest o) G M).
  { eapply inv_grown; [exact I|apply grown_first|apply first_sane; apply I]. }
  set (o0 := set_first MSuggest o) in *. destruct (ready o0) as [b|e] eqn:E; [|discriminate]. cbn [lift] in H. destruct b.
  - destruct (fetch gen pi n o0) as [o1 [l|e|]] eqn:EF; try discriminate.
    apply fetch_inv with (G := G) (M := M) in EF as [(A&B&C&_) _]; auto; [|now apply ready_held].
    exact (hand_out_some _ _ _ _ _ _ C P H).
  - exact (hand_out_some _ _ _ _ _ _ I0 P H).
Qed.
Lemma suggest_all o o' a G M : inv o G M -> o_last o = None -> suggest gen pi 0 o = (o', Ret a) ->
  inv o' (G ++ a_rows a) M /\ o_last o' = None.
Proof.
  intros I L H. unfold suggest in H. assert (I0 : inv (set_first MSuggest o) G M).
  { eapply inv_grown; [exact I|apply grown_first|apply first_sane; apply I]. }
  assert (L0 : o_last (set_first MSuggest o) = None) by (unfold set_first; destruct (o_first o); exact L).
  set (o0 := set_first MSuggest o) in *.
  assert (E : ready o0 = Ok true) by (unfold ready; now rewrite L0). rewrite E in H. cbn [lift] in H.
  destruct (fetch gen pi 0 o0) as [o1 [l|e|]] eqn:EF; try discriminate.
  apply fetch_inv with (G := G) (M := M) in EF as [(A&B&C&_) _]; auto; [|unfold held; now rewrite L0].
  unfold hand_out in H. destruct (o_last o1) as [l1|] eqn:E1; [|congruence]. cbn [Nat.ltb Nat.leb] in H. injection H as <- <-.
  split; [|reflexivity]. destruct C as [IS IT IP IM IH]. split; auto.
  - unfold held in IP. rewrite E1, B in IP. cbn [skipn] in IP. unfold held. cbn. rewrite app_nil_r. exact IP.
  - intros NE. exfalso. apply NE. reflexivity.
Qed.

Lemma updates_inv o G M : inv o G M -> inv (fst (updates o)) G (M ++ flat_map a_rows (o_minima o)).
Proof. intros [IS IT IP IM IH]. split; auto. cbn. rewrite app_nil_r. exact IM. Qed.
Lemma setup_inv o o' r G M : inv o G M -> setup o = (o', r) -> inv o' G M /\ o_last o' = o_last o.
Proof.
  intros I H. unfold setup in H. destruct (o_made o) eqn:E; injection H as <- <-; [auto|].
  split; [|reflexivity]. destruct I. split; auto. discriminate.
Qed.
End P.

Section R.
Variable gen : gfun.
Variable N : nat.
Variable pi : list name.
Hypothesis ST : steady gen.
Notation run := (run gen N pi).
Notation inv := (inv gen).

Lemma handed_app a b : handed (a ++ b) = handed a ++ handed b.
Proof. apply flat_map_app. Qed.
Lemma reported_app a b : reported (a ++ b) = reported a ++ reported b.
Proof. apply flat_map_app. Qed.

Lemma run_app a b o o1 r1 : run a o = (o1, r1) -> Forall points_fine r1 ->
  run (a ++ b) o = (fst (run b o1), r1 ++ snd (run b o1)).
Proof.
  revert o o1 r1. induction a as [|c a IH]; intros o o1 r1 H F; cbn [ProcGenModel.run app] in *.
  - injection H as <- <-. cbn. now destruct (run b o).
  - destruct (step _ _ _ c o) as [o2 r]. destruct (hangs r) eqn:HH.
    + injection H as <- <-. inversion F; subst. destruct r as [[]| |[]]; try discriminate; contradiction.
    + destruct (run a o2) as [o3 rs] eqn:E. injection H as <- <-. inversion F; subst.
      now rewrite (IH _ _ _ E).
Qed.

Lemma step_inv c o o' r G M : inv o G M -> step gen N pi c o = (o', r) -> points_fine r -> ~ ends c ->
  (asks_all c -> o_last o = None) ->
  inv o' (G ++ handed [r]) (M ++ reported [r]) /\ (~ asks_some c -> o_last o = None -> o_last o' = None) /\
  (forall n a, c = Suggest (S n) -> r = Points (Ret a) -> length (a_rows a) <= S n).
Proof.
  intros I H F NF AA. destruct c as [n|a| | |]; cbn [step] in H.
  - destruct (suggest _ _ n o) as [o1 x] eqn:E. injection H as <- <-. destruct x as [a|e|]; try contradiction.
    cbn [handed reported flat_map]. rewrite !app_nil_r. destruct n as [|n].
    + apply suggest_all with (G := G) (M := M) in E as [A B]; auto; [|now apply AA].
      split; auto. split; auto. intros m b K _. discriminate K.
    + apply suggest_some with (G := G) (M := M) in E as [A B]; auto; [|lia]. split; auto.
      split; [intros NS; exfalso; apply NS; now exists n|]. intros m b K1 K2. injection K1 as <-. injection K2 as <-. exact B.
  - destruct (ingest _ _ _ _ o) as [o1 x] eqn:E. injection H as <- <-. apply ingest_grown in E as (Gr&S1&_); [|apply I].
    cbn. rewrite !app_nil_r. split; [eapply inv_grown; eauto|]. split; [|discriminate].
    intros _ L. now rewrite (gr_last _ _ Gr).
  - injection H as <- <-. cbn. rewrite !app_nil_r. split; [now apply updates_inv|]. split; [auto|discriminate].
  - exfalso. apply NF. reflexivity.
  - destruct (setup o) as [o1 x] eqn:E. injection H as <- <-. apply setup_inv with (gen := gen) (G := G) (M := M) in E as [A B]; auto.
    cbn. rewrite !app_nil_r. split; auto. split; [|discriminate]. congruence.
Qed.

(** Calls that all ask for everything, or all for some points. *)
Lemma run_inv cs : forall o o' rs G M, inv o G M -> run cs o = (o', rs) -> Forall points_fine rs -> (forall c, In c cs -> ~ ends c) ->
  (o_last o = None /\ (forall c, In c cs -> ~ asks_some c) \/ (forall c, In c cs -> ~ asks_all c)) ->
  inv o' (G ++ handed rs) (M ++ reported rs) /\ ((forall c, In c cs -> ~ asks_some c) -> o_last o = None -> o_last o' = None).
Proof.
  induction cs as [|c cs IH]; intros o o' rs G M I H F NE C; cbn [ProcGenModel.run] in H.
  - injection H as <- <-. cbn. rewrite !app_nil_r. auto.
  - destruct (step _ _ _ c o) as [o1 r] eqn:E. destruct (hangs r) eqn:HH.
    + injection H as <- <-. inversion F; subst. destruct r as [[]| |[]]; try discriminate; contradiction.
    + destruct (run cs o1) as [o2 rs'] eqn:E2. injection H as <- <-. inversion F as [|? ? F1 F2]; subst.
      apply step_inv with (G := G) (M := M) in E as (A&B&_); auto.
      * eapply IH in E2 as [A2 B2]; eauto.
        -- split.
           ++ change (r :: rs') with ([r] ++ rs'). rewrite handed_app, reported_app, !app_assoc. exact A2.
           ++ intros Q L. apply B2; [intros; apply Q; now right|]. apply B; auto. apply Q. now left.
        -- intros. apply NE. now right.
        -- destruct C as [[L C]|C]; [left; split; [apply B; auto; apply C; now left|intros; apply C; now right]|right; intros; apply C; now right].
      * apply NE. now left.
      * intros AA. destruct C as [[L C]|C]; auto. exfalso. apply (C c); auto. now left.
Qed.

Lemma new_inv : inv new_obj [] [].
Proof.
  split; [intros _; reflexivity|apply le_n|reflexivity|reflexivity|intros H; now destruct H].
Qed.
End R.
