(** Loops of the remaining allocation functions. *)
From Coq Require Import Permutation.
From Verif Require Import Base BaseLemmas HistoryModel HistoryProofs WorkModel RsetModel RsetSpec SchedModel SchedSpec SchedServe AllocModel AllocSpec AllocProofs AllocLoops AllocFacts AllocFast AllocPersis AllocModel2.

(** ** Setting an entry of a Work dictionary *)
Lemma dict_set_get d w k : In (w, k) (dict_set d w k).
Proof. induction d as [|[v x] d IH]; cbn; auto. destruct (Nat.eqb_spec v w) as [E|E]; cbn; subst; auto. Qed.
Lemma dict_set_keep d w k v x : In (v, x) d -> v <> w -> In (v, x) (dict_set d w k).
Proof.
  induction d as [|[v0 x0] d IH]; cbn; auto. intros [E|Hin] Hne.
  - injection E as -> ->. destruct (Nat.eqb_spec v w); [congruence|now left].
  - destruct (v0 =? w); cbn; auto.
Qed.
Definition sim_part (k : work) : list nat := if k_tag k =? EVAL_SIM then k_rows k else [].
Lemma dict_set_rows d w k : exists rest, Permutation (sim_rows d ++ sim_part k) (sim_rows (dict_set d w k) ++ rest).
Proof.
  unfold sim_part, sim_rows, sims. induction d as [|[v x] d [rest IH]]; cbn.
  - exists []. destruct (k_tag k =? EVAL_SIM); cbn; rewrite ?app_nil_r; apply Permutation_refl.
  - destruct (v =? w); cbn.
    + set (D := concat (map _ (filter _ d))) in *. exists (if k_tag x =? EVAL_SIM then k_rows x else []).
      destruct (k_tag x =? EVAL_SIM), (k_tag k =? EVAL_SIM); cbn; fold D; rewrite ?app_nil_r.
      * apply Permutation_trans with (l' := k_rows k ++ k_rows x ++ D); [apply Permutation_app_comm|]. rewrite <- app_assoc. apply Permutation_app_head, Permutation_app_comm.
      * apply Permutation_app_comm.
      * apply Permutation_app_comm.
      * apply Permutation_refl.
    + destruct (k_tag x =? EVAL_SIM); cbn; exists rest; auto. rewrite <- !app_assoc. now apply Permutation_app_head.
Qed.

(** ** What holds of a Work dictionary while it is filled *)
Section Acc.
Variables (c : actx) (E : nat -> Prop) (U : nat * work -> Prop).
Hypothesis Hres : resources_ok c.

Record acc (wk : wdict) (s : ast) : Prop := mkAcc {
  acc_keys : NoDup (map fst wk);
  acc_units : forall q, In q wk -> U q;
  acc_nodup : NoDup (sim_rows wk);
  acc_points : forall i, In i (sim_rows wk) -> E i;
  acc_sets : exists handed rest, sinv c handed s /\ Permutation handed (sets_given wk ++ rest) }.

Lemma acc_nil g : acc [] (support_init c g).
Proof.
  split; cbn; try constructor; try (intros ? []).
  exists [], []. split; [now apply support_init_sinv|constructor].
Qed.

Lemma acc_same wk s s' : acc wk s -> (forall handed, sinv c handed s -> sinv c handed s') -> acc wk s'.
Proof. intros [A1 A2 A3 A4 (h & r & A5 & A6)] Hs. split; auto. exists h, r. auto. Qed.

Lemma acc_set wk s s' w k : acc wk s -> U (w, k) -> (forall handed, sinv c handed s -> sinv c (handed ++ team_of k) s') ->
  NoDup (sim_part k) -> (forall i, In i (sim_part k) -> E i /\ ~ In i (sim_rows wk)) -> acc (dict_set wk w k) s'.
Proof.
  intros [A1 A2 A3 A4 (h & r & A5 & A6)] Hu Hs Hn Hp. destruct (dict_set_rows wk w k) as [r2 P2].
  assert (N : NoDup (sim_rows wk ++ sim_part k)).
  { apply NoDup_app_intro; auto. intros i Hi Hk. now apply (proj2 (Hp i Hk)). }
  destruct (nodup_perm_l _ _ _ N P2) as [N1 N2]. split; auto.
  - now apply dict_set_nodup.
  - intros q Hq. destruct (dict_set_In _ _ _ _ Hq) as [->|Hq']; auto.
  - intros i Hi. apply N2, in_app_or in Hi. destruct Hi as [Hi|Hi]; auto. now apply Hp.
  - destruct (dict_set_sets wk w k) as [r3 P3]. exists (h ++ team_of k), (r3 ++ r). split; auto.
    rewrite app_assoc. apply Permutation_trans with (l' := (sets_given wk ++ r) ++ team_of k); [now apply Permutation_app_tail|].
    rewrite <- app_assoc. apply Permutation_trans with (l' := sets_given wk ++ team_of k ++ r); [apply Permutation_app_head, Permutation_app_comm|].
    rewrite app_assoc. now apply Permutation_app_tail.
Qed.

(** one generator order *)
Lemma acc_gen wk s w fields rows pers recv a s' : acc wk s -> gen_work c w fields rows pers recv s = (a, s') ->
  match a with
  | Err _ => acc wk s'
  | Ok k => k_tag k = EVAL_GEN /\ k_rows k = rows /\ k_persistent k = pers /\ k_recv k = recv /\ k_fields k = nodup_fields fields /\
            (U (w, k) -> acc (dict_set wk w k) s')
  end.
Proof.
  intros A Eg. pose proof A as [_ _ _ _ (h & r & A5 & A6)]. pose proof (gen_work_spec _ _ _ _ _ _ _ _ _ _ Hres A5 Eg) as X. destruct a as [k|e].
  - destruct X as (_ & X2 & X3 & X4 & X5 & X6 & _). repeat (split; [solve [auto]|]). intros Hu. eapply acc_set; eauto.
    + intros handed Hs. pose proof (gen_work_spec _ _ _ _ _ _ _ _ _ _ Hres Hs Eg) as Y. apply Y.
    + unfold sim_part. rewrite X2. constructor.
    + unfold sim_part. rewrite X2. intros i [].
  - eapply acc_same; eauto. intros handed Hs. pose proof (gen_work_spec _ _ _ _ _ _ _ _ _ _ Hres Hs Eg) as Y. apply Y.
Qed.

(** one simulation order *)
Lemma acc_sim wk s d H w rows pers a s' : acc wk s -> sim_work c d H w rows pers s = (a, s') -> NoDup rows ->
  (forall i, In i rows -> E i /\ ~ In i (sim_rows wk)) ->
  match a with
  | Err _ => acc wk s' /\ ac_manage c = true
  | Ok k => k_rows k = rows /\ sim_unit c d H pers (w, k) /\ (U (w, k) -> acc (dict_set wk w k) s')
  end.
Proof.
  intros A Eg Hn Hp. pose proof A as [_ _ _ _ (h & r & A5 & A6)]. destruct (sim_work_spec _ _ _ _ _ _ _ _ _ _ Hres A5 Eg) as [G X]. destruct a as [k|e].
  - destruct X as (_ & X2 & X3 & X4 & X5 & X6 & X7). split; auto. split; [repeat split; auto|]. intros Hu. eapply acc_set; eauto.
    + intros handed Hs. destruct (sim_work_spec _ _ _ _ _ _ _ _ _ _ Hres Hs Eg) as [_ Y]. apply Y.
    + unfold sim_part. rewrite X2, X3. auto.
    + unfold sim_part. rewrite X2, X3. auto.
  - split; [|apply X]. eapply acc_same; eauto. intros handed Hs. destruct (sim_work_spec _ _ _ _ _ _ _ _ _ _ Hres Hs Eg) as [_ Y]. apply Y.
Qed.

(** ** Results back *)
Lemma back_each_spec fields f (J : list row -> Prop) : forall ws H wk s H' wk' s' e,
  (forall w G x G', In w ws -> J G -> f w G = Ok (x, G') -> J G') ->
  (forall w k G ids G', In w ws -> J G -> f w G = Ok (Some ids, G') ->
     k_tag k = EVAL_GEN -> k_rows k = ids -> k_persistent k = true -> k_recv k = None -> k_fields k = nodup_fields fields -> U (w, k)) ->
  J H -> acc wk s -> back_each c fields f ws H wk s = (H', wk', s', e) ->
  J H' /\ acc wk' s' /\ (forall q, In q wk' -> In q wk \/ In (fst q) ws /\ k_tag (snd q) = EVAL_GEN) /\
  (forall i, In i (sim_rows wk') -> In i (sim_rows wk)).
Proof.
  induction ws as [|w ws IH]; intros H wk s H' wk' s' e HJ HU J0 A; cbn [back_each].
  - intros [= <- <- <- <-]. split; [exact J0|]. split; [exact A|]. auto.
  - destruct (f w H) as [[x H1]|e1] eqn:Ef; [|intros [= <- <- <- <-]; split; [exact J0|]; split; [exact A|]; auto].
    assert (J1 : J H1) by (eapply HJ; eauto; now left).
    assert (HJ' : forall v G x G', In v ws -> J G -> f v G = Ok (x, G') -> J G') by (intros; eapply HJ; eauto; now right).
    assert (HU' : forall v k G ids G', In v ws -> J G -> f v G = Ok (Some ids, G') ->
     k_tag k = EVAL_GEN -> k_rows k = ids -> k_persistent k = true -> k_recv k = None -> k_fields k = nodup_fields fields -> U (v, k)) by (intros; eapply HU; eauto; now right).
    destruct x as [ids|].
    + destruct (gen_work c w fields ids true None s) as [a s1] eqn:Eg. pose proof (acc_gen _ _ _ _ _ _ _ _ _ A Eg) as X. destruct a as [k|e1].
      * destruct X as (X1 & X2 & X3 & X4 & X5 & X6). assert (A1 : acc (dict_set wk w k) s1) by (apply X6, (HU w k H ids H1); auto; now left).
        intros EE. destruct (IH _ _ _ _ _ _ _ HJ' HU' J1 A1 EE) as (Y1 & Y2 & Y3 & Y4). split; auto. split; auto. split.
        -- intros q Hq. destruct (Y3 q Hq) as [Hq'|[Hq1 Hq2]]; [|right; split; auto; now right]. destruct (dict_set_In _ _ _ _ Hq') as [->|Hq'']; auto. right. cbn. auto.
        -- intros i Hi. apply Y4 in Hi. destruct (dict_set_rows wk w k) as [r P]. unfold sim_part in P. rewrite X1 in P. cbn in P. rewrite app_nil_r in P.
           eapply Permutation_in; [exact (Permutation_sym P)|]. apply in_or_app. now left.
      * intros [= <- <- <- <-]. split; [exact J1|]. split; [exact X|]. auto.
    + intros EE. destruct (IH _ _ _ _ _ _ _ HJ' HU' J1 A EE) as (Y1 & Y2 & Y3 & Y4). split; auto. split; auto. split; auto.
      intros q Hq. destruct (Y3 q Hq) as [Hq'|[Hq1 Hq2]]; auto. right; split; auto; now right.
Qed.

(** ** Points to workers *)
Lemma pick_sims_spec d H pick (Q : list nat -> Prop) :
  (forall pts, NoDup pts -> pts <> [] -> Q pts -> NoDup (pick pts) /\ incl (pick pts) pts /\ Q (filter (fun i => negb (memb i (pick pts))) pts)) ->
  forall ws pts wk s wk' s' pts' e,
  NoDup ws -> NoDup pts -> Q pts -> (forall i, In i pts -> E i /\ ~ In i (sim_rows wk)) ->
  (forall w k pts0, In w ws -> sim_unit c d H false (w, k) -> Q pts0 -> incl pts0 pts -> pts0 <> [] -> k_rows k = pick pts0 -> U (w, k)) ->
  acc wk s -> pick_sims c d H pick ws pts wk s = (wk', s', pts', e) ->
  exists new rest, ws = map fst new ++ rest /\ acc wk' s' /\ Permutation pts (rows_of new ++ pts') /\
    (forall q, In q new -> In q wk' /\ k_tag (snd q) = EVAL_SIM) /\
    (forall q, In q wk' -> In q wk \/ In q new) /\ (forall q, In q wk -> ~ In (fst q) (map fst new) -> In q wk') /\
    Q pts' /\ (ac_manage c = false -> e = None /\ (rest = [] \/ pts' = [])).
Proof.
  intros Hpick. induction ws as [|w ws IH]; intros pts wk s wk' s' pts' e Hw Hp HQ Hd HU A; cbn [pick_sims].
  - intros [= <- <- <- <-]. exists [], []. cbn. split; auto. split; [exact A|]. split; auto. split; [intros q []|]. auto 8.
  - assert (Stop : forall s1 (e1 : option err), acc wk s1 -> (ac_manage c = false -> e1 = None /\ pts = []) ->
      exists new rest, w :: ws = map fst new ++ rest /\ acc wk s1 /\ Permutation pts (rows_of new ++ pts) /\
        (forall q, In q new -> In q wk /\ k_tag (snd q) = EVAL_SIM) /\
        (forall q, In q wk -> In q wk \/ In q new) /\ (forall q, In q wk -> ~ In (fst q) (map fst new) -> In q wk) /\
        Q pts /\ (ac_manage c = false -> e1 = None /\ (rest = [] \/ pts = []))).
    { intros s1 e1 A1 Hm. exists [], (w :: ws). cbn. split; auto. split; [exact A1|]. split; auto. split; [intros q []|]. split; auto. split; auto. split; auto. intros Hf. destruct (Hm Hf); auto. }
    destruct pts as [|i0 pts0] eqn:Epts; [intros [= <- <- <- <-]; apply Stop; auto|].
    rewrite <- Epts in *. assert (Hne : pts <> []) by congruence. clear i0 pts0 Epts.
    destruct (Hpick pts Hp Hne HQ) as (K1 & K2 & K3). set (rows := pick pts) in *.
    destruct (sim_work c d H w rows false s) as [a s1] eqn:Ea.
    pose proof (acc_sim _ _ _ _ _ _ _ _ _ A Ea K1 (fun i Hi => Hd i (K2 i Hi))) as X. destruct a as [k|er].
    + destruct X as (X1 & X2 & X3). assert (A1 : acc (dict_set wk w k) s1).
      { apply X3. apply (HU w k pts); auto; [now left|apply incl_refl]. }
      inversion Hw as [|? ? Hw1 Hw2]; subst x l. set (pts1 := filter (fun i => negb (memb i rows)) pts) in *.
      assert (Hs1 : incl pts1 pts) by (intros i Hi; apply filter_In in Hi; apply Hi).
      intros EE. destruct (IH pts1 (dict_set wk w k) s1 wk' s' pts' e Hw2 (NoDup_filter _ Hp) K3) as (new & rest & E1 & E2 & E3 & E4 & E5 & E6 & E7 & E8); auto.
      { intros i Hi. apply filter_In in Hi. destruct Hi as [Hi1 Hi2]. split; [now apply Hd|]. intros Hin.
        destruct (dict_set_rows wk w k) as [r P]. assert (Hx : In i (sim_rows wk ++ sim_part k)) by (eapply Permutation_in; [exact (Permutation_sym P)|]; apply in_or_app; now left).
        apply in_app_or in Hx. destruct Hx as [Hx|Hx]; [now apply (Hd i Hi1)|]. unfold sim_part in Hx. destruct X2 as (T & _). cbn [snd] in T. rewrite T, X1 in Hx. cbn in Hx.
        apply memb_In in Hx. now rewrite Hx in Hi2. }
      { intros v k0 pts0 Hv Hu Hq Hi Hn0 Hr. apply (HU v k0 pts0); auto; [now right|]. intros x Hx. auto. }
      exists ((w, k) :: new), rest. split; [cbn; now rewrite E1|]. split; auto.
      split. { cbn. unfold rows_of. cbn. rewrite X1, <- app_assoc. eapply Permutation_trans; [exact (perm_split rows pts K1 Hp K2)|]. now apply Permutation_app_head. }
      assert (Hwn : ~ In w (map fst new)) by (intros Hin; apply Hw1; rewrite E1; apply in_or_app; now left).
      split. { intros q [<-|Hq]; [|now apply E4]. split; [|apply X2]. apply E6; [apply dict_set_get|exact Hwn]. }
      split. { intros q Hq. destruct (E5 q Hq) as [Hq'|Hq']; [|right; now right]. destruct (dict_set_In _ _ _ _ Hq') as [->|Hq'']; auto. right. now left. }
      split. { intros [v x] Hq Hn0. cbn in Hn0. apply E6; [|cbn; tauto]. apply dict_set_keep; [exact Hq|]. intros ->. apply Hn0. now left. }
      split; auto.
    + destruct X as [X1 X2]. destruct er; intros [= <- <- <- <-]; apply Stop; auto; intros; congruence.
Qed.

(** ** The first available worker gets the generator *)
Lemma start_first_spec ws pers wk s wk' s' e : (forall w k, hd_error ws = Some w -> k_tag k = EVAL_GEN -> k_rows k = [] -> k_persistent k = pers ->
    k_recv k = None -> k_fields k = nodup_fields (ac_gen_in c) -> U (w, k)) ->
  acc wk s -> start_first c ws pers wk s = (wk', s', e) ->
  acc wk' s' /\ (wk' = wk /\ e <> None \/ exists w k, hd_error ws = Some w /\ wk' = dict_set wk w k /\ k_tag k = EVAL_GEN /\ k_rows k = [] /\ k_persistent k = pers /\ e = None) /\
  (ws <> [] -> ac_manage c = false -> (forall w, In w ws -> wget (ac_gom c) (ac_W c) w <> None) -> e = None).
Proof.
  intros HU A. unfold start_first. destruct ws as [|w ws].
  - intros [= <- <- <-]. split; auto. split; [left; split; [auto|discriminate]|congruence].
  - destruct (gen_work c w (ac_gen_in c) [] pers None s) as [a s1] eqn:Eg. pose proof (acc_gen _ _ _ _ _ _ _ _ _ A Eg) as X. destruct a as [k|e1].
    + destruct X as (X1 & X2 & X3 & X4 & X5 & X6). intros [= <- <- <-]. split; [apply X6, HU; auto|]. split; [right; exists w, k; cbn; auto 10|auto].
    + intros [= <- <- <-]. split; auto. split; [left; split; [auto|discriminate]|]. intros _ Hm Hw. exfalso. specialize (Hw w (or_introl eq_refl)).
      unfold gen_work, update_team in Eg. rewrite Hm in Eg. destruct (wget _ _ w); [|congruence]. cbn in Eg. discriminate.
Qed.
End Acc.
