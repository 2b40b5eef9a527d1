(** What the checks before a run give. *)
From Coq Require Import String.
From Verif Require Import Base BaseLemmas HistoryModel HistorySpec HistoryProofs HistoryInv HistoryInv2 HistoryRun HistoryRun2 HistoryFacts RsetModel WorkModel ManagerModel ManagerSpec ManagerProofs ManagerMsg ManagerRun ManagerInv ManagerRes DrivenModel DrivenSpec DrivenOrders SpecsModel SpecsSpec.
Local Notation length := List.length.

Lemma start_column c sim gen al H0 safe f :
  In f (names libE_fields) \/ In f (names (sp_out sim)) \/ In f (names (sp_out gen)) \/ In f (names al) \/ (a_rows H0 <> [] /\ In f (names (a_dtype H0))) ->
  column (start_history c sim gen al H0 safe) f.
Proof.
  intros H. unfold start_history, fresh_history. set (M := match c_sim_max c with Some n => n | None => 100 end). set (outs := sp_out sim ++ sp_out gen ++ al).
  unfold column. rewrite init_dtype_eq. unfold init_dtype.
  assert (HI : In f (names (libE_fields ++ outs)) \/ (a_rows H0 <> [] /\ In f (names (a_dtype H0)))).
  { unfold outs. rewrite !names_app, !in_app_iff. tauto. }
  destruct (Nat.eqb_spec (length (a_rows H0)) 0) as [E|E].
  { destruct HI as [HI|[HI _]]; auto. destruct (a_rows H0); [congruence|discriminate]. }
  rewrite names_app. apply in_or_app. destruct (has f (names (a_dtype H0))) eqn:Eh; [left; now apply has_In|right].
  destruct HI as [HI|[_ HI]]; [|apply has_In in HI; congruence].
  unfold names in HI |- *. apply in_map_iff in HI as ((g & sh) & Hg & Hin). cbn in Hg. subst g.
  apply in_map_iff. exists (f, sh). split; auto. apply filter_In. split; auto. cbn [fst]. fold (names (a_dtype H0)). now rewrite Eh.
Qed.

(** ** Columns stay *)
Definition keepsc (c : mcfg) (f : field) (m : mgr) : Prop := table_ok c m /\ column (m_h m) f.
Lemma keep_main c f its m m' s : keepsc c f m -> main_loop c its m = (m', s) -> keepsc c f m'.
Proof.
  intros HJ E. eapply (main_ind c (keepsc c f) (keepsc c f) (fun _ _ => True) (fun _ _ => True)) in E as [E _]; eauto.
  - intros m0 m1 e [T C] EK. assert (keepsc c f m1); [|auto]. assert (HT : table_ok c m1) by (unfold table_ok in *; now rewrite (kill_table _ _ _ _ EK)). apply kill_cancelled_spec in EK as (_ & _ & Eh & _).
    split; [exact HT|]. destruct Eh as [-> | ->]; auto. exact (hstep_column HKill (m_h m0) f C).
  - intros w i t m0 m1 e [T C] _ EP. assert (keepsc c f m1); [|auto]. apply poll_spec in EP as [(_ & -> & _)|(r0 & _ & _ & T1 & _ & Hh & _)]; auto; [now split|].
    split; auto. destruct i as [d| | |]; [eapply hist_msg_column; eauto|now rewrite Hh..].
  - intros t w k m0 m1 e [T C] _ _ EG. assert (keepsc c f m1); [|auto]. apply give_order_spec in EG as (_ & _ & _ & T1 & _ & _ & Hh & _); auto.
    split; auto. destruct Hh as [-> | ->]; auto. now apply hist_given_frame.
  - now intros ? ? ? ? ? ?.
  - now intros ? ? ? ? ? ? ? ?.
Qed.

Lemma accepted_stop stop sim gen key v : check_exit_criteria stop sim gen = None -> stop = Some (key, v) -> In key (names (sp_out sim)) \/ In key (names (sp_out gen)).
Proof.
  intros H ->. cbn in H. destruct (has key (names (sp_out sim) ++ names (sp_out gen))) eqn:E; [|discriminate]. apply has_In in E. now apply in_app_iff.
Qed.
Lemma term_Ok c el m : (forall key v, c_stop c = Some (key, v) -> column (m_h m) key) -> forall e, term_test c el m <> Err e.
Proof.
  intros H e. unfold term_test. destruct (match c_wall c with Some _ => _ | None => _ end); [discriminate|]. destruct (match c_sim_max c with Some _ => _ | None => _ end); [discriminate|].
  destruct (match c_gen_max c with Some _ => _ | None => _ end); [discriminate|]. destruct (c_stop c) as [[key v]|]; [|discriminate].
  unfold stop_val_hit. pose proof (H key v eq_refl) as HC. apply has_In in HC. rewrite HC. discriminate.
Qed.

(** ** H0 *)
Lemma accepted_H0 sim gen H0 : a_rows H0 <> [] -> check_H0 sim gen H0 = None ->
  (forall f, In f (sp_in sim ++ sp_persis_in sim ++ sp_in gen ++ sp_persis_in gen) -> In f (names (a_dtype H0)) \/ In f (names libE_fields) \/ In f (names (sp_out sim)) \/ In f (names (sp_out gen))) /\
  (In F_sim_ended (names (a_dtype H0)) -> In F_sim_started (names (a_dtype H0)) /\ forall r, In r (a_rows H0) -> truthy (r F_sim_started) = truthy (r F_sim_ended)).
Proof.
  intros Hn. unfold check_H0. destruct (Nat.eqb_spec (length (a_rows H0)) 0) as [E|_]; [destruct (a_rows H0); [congruence|discriminate]|].
  destruct (two_types _); [discriminate|]. destruct (forallb _ (sp_in sim ++ _)) eqn:EF; cbn [negb]; [|discriminate]. intros H. split.
  - intros f Hf. rewrite forallb_forall in EF. specialize (EF f Hf). apply has_In in EF. rewrite !names_app, !in_app_iff in EF. tauto.
  - intros HE. apply has_In in HE. rewrite HE in H. cbn [negb] in H. destruct (has F_sim_started (names (a_dtype H0))) eqn:ES; cbn [negb] in H; [|discriminate].
    split; [now apply has_In|]. match type of H with (if ?b then _ else _) = _ => destruct b eqn:ER; [|discriminate] end. intros r Hr. rewrite forallb_forall in ER. now apply Bool.eqb_prop, ER.
Qed.

(** ** VOCS *)
Lemma unset_same {A} (l y : list A) : if_unset (if_unset l y) y = if_unset l y.
Proof. unfold if_unset. destruct l as [|x l]; cbn [empty]; [destruct y|]; reflexivity. Qed.
Lemma set_kept {A} (l y : list A) : l <> [] -> if_unset l y = l.
Proof. unfold if_unset. destruct l; [congruence|reflexivity]. Qed.
Lemma attr_kept {A} (l : list A) a : l <> [] -> from_attr l a = l.
Proof. intros H. destruct a; cbn; [now apply set_kept|auto]. Qed.
Lemma attr_same {A} (l : list A) a : from_attr (from_attr l a) a = from_attr l a.
Proof. destruct a; cbn; [apply unset_same|auto]. Qed.

Lemma stays {A} (x y : list A) a : from_attr (if_unset (from_attr (if_unset x y) a) y) a = from_attr (if_unset x y) a.
Proof.
  assert (HE : forall l : list A, l = [] \/ l <> []) by (intros [|]; [now left|right; discriminate]).
  destruct (HE (from_attr (if_unset x y) a)) as [E|E].
  - assert (E0 : if_unset x y = []) by (destruct (HE (if_unset x y)) as [H|H]; auto; rewrite attr_kept in E by auto; auto).
    assert (Ey : y = []) by (destruct x; cbn in E0; [exact E0|discriminate]). subst y. rewrite E. cbn [if_unset empty]. now rewrite E0 in E.
  - rewrite (set_kept _ y E). now apply attr_kept.
Qed.

Lemma sim_stable v a s : validate_sim v a (validate_sim v a s) = validate_sim v a s.
Proof.
  unfold validate_sim, from_attrs, sim_from_vocs. destruct v as [v|]; cbn [sp_in sp_persis_in sp_out].
  - now rewrite !stays, attr_same.
  - now rewrite !attr_same.
Qed.

Lemma ne_dec {A} (l : list A) : l = [] \/ l <> [].
Proof. destruct l; [now left|right; discriminate]. Qed.
Lemma unset_ne {A} (l y : list A) : y <> [] -> if_unset l y <> [].
Proof. intros H. destruct l; cbn; [exact H|discriminate]. Qed.
Lemma attr_ne {A} (l : list A) a : l <> [] -> from_attr l a <> [].
Proof. intros H. now rewrite attr_kept. Qed.
Lemma names_ne d : d <> [] -> names d <> [].
Proof. destruct d; [congruence|discriminate]. Qed.
Lemma app_ne {A} (l y : list A) : l <> [] -> (l ++ y)%list <> [].
Proof. destruct l; [congruence|discriminate]. Qed.
Lemma uid_added p : has F_uid p = false -> has F_uid (p ++ [F_uid])%list = true.
Proof. intros _. apply has_In. apply in_or_app. right. now left. Qed.

(** the lists after set_fields_from_vocs are not empty, and applying it again changes nothing *)
Lemma gen_vocs_stable v gen s : v_variables v <> [] -> forall s1, s1 = gen_from_vocs (Some v) gen s ->
  sp_persis_in s1 <> [] /\ sp_out s1 <> [] /\ (gen <> None -> sp_in s1 <> []) /\
  forall i, (gen <> None -> i = sp_in s1) -> gen_from_vocs (Some v) gen (mkSp i (sp_persis_in s1) (sp_out s1)) = mkSp i (sp_persis_in s1) (sp_out s1).
Proof.
  intros Hv s1 ->. unfold gen_from_vocs.
  set (P := (names (v_variables v) ++ names (v_constants v) ++ names (v_objectives v) ++ names (v_observables v) ++ names (v_constraints v))%list).
  set (O := (v_variables v ++ v_constants v)%list).
  assert (HP : P <> []) by (apply app_ne, names_ne; auto). assert (HO : O <> []) by (now apply app_ne).
  assert (H1 : if_unset (sp_persis_in s) P <> []) by (now apply unset_ne). assert (H2 : if_unset (sp_out s) O <> []) by (now apply unset_ne).
  set (p := if_unset (sp_persis_in s) P) in *. set (o := if_unset (sp_out s) O) in *.
  assert (H3 : (if has F_uid p then p else (p ++ [F_uid])%list) <> []) by (destruct (has F_uid p); [auto|now apply app_ne]).
  assert (H4 : (if has F_uid (names o) then o else (o ++ [(F_uid, ShS)])%list) <> []) by (destruct (has F_uid (names o)); [auto|now apply app_ne]).
  destruct gen as [[|]|]; cbn [sp_in sp_persis_in sp_out]; (split; [auto|split; [auto|split; [intros Hg; try (now apply unset_ne); congruence|]]]); intros i Hi;
    rewrite ?(set_kept _ P), ?(set_kept _ O) by auto.
  - rewrite Hi by discriminate. rewrite (set_kept (if_unset (sp_in s) p)) by (now apply unset_ne). f_equal.
    + destruct (has F_uid p) eqn:E; [now rewrite E|now rewrite uid_added].
    + destruct (has F_uid (names o)) eqn:E; [now rewrite E|]. rewrite names_app. cbn [names map fst]. now rewrite (uid_added (names o) E).
  - rewrite Hi by discriminate. now rewrite (set_kept (if_unset (sp_in s) p)) by (now apply unset_ne).
  - reflexivity.
Qed.

Lemma gen_stable v gen gs a s s' : (forall V, v = Some V -> v_variables V <> []) -> validate_gen v gen gs a s = Ok s' -> validate_gen v gen gs a s' = Ok s'.
Proof.
  intros HV. unfold validate_gen. destruct v as [v|].
  - specialize (HV v eq_refl). destruct (gen_vocs_stable v gen s HV _ eq_refl) as (A1 & A2 & A3 & A4). set (s1 := gen_from_vocs (Some v) gen s) in *.
    assert (F : forall x, sp_out x <> [] -> from_generator gen gs x = Ok x) by (intros x Hx; unfold from_generator; destruct (sp_out x); [congruence|reflexivity]).
    rewrite F by auto. cbn [bindr]. intros [= <-]. unfold from_attrs. rewrite (attr_kept (sp_persis_in s1)), (attr_kept (sp_out s1)) by auto.
    rewrite A4 by (intros Hg; apply attr_kept; auto). rewrite F by auto. cbn [bindr sp_in sp_persis_in sp_out].
    rewrite attr_same, (attr_kept (sp_persis_in s1)), (attr_kept (sp_out s1)) by auto. reflexivity.
  - cbn [gen_from_vocs]. unfold from_generator. destruct (ne_dec (sp_out s)) as [E|E].
    + rewrite E. cbn [empty]. destruct gen as [g|]; [destruct gs as [d|]; [|discriminate]|]; cbn [bindr]; intros [= <-]; unfold from_attrs; cbn [sp_in sp_persis_in sp_out].
      * destruct (ne_dec (from_attr (if_unset d []) (at_out a))) as [E1|E1].
        { rewrite E1. cbn [empty bindr]. cbn [sp_in sp_persis_in sp_out]. rewrite !attr_same. now rewrite E1. }
        destruct (from_attr (if_unset d []) (at_out a)) as [|x l] eqn:E2; [congruence|]. cbn [empty bindr sp_in sp_persis_in sp_out]. rewrite !attr_same.
        rewrite (attr_kept (x :: l)) by discriminate. reflexivity.
      * rewrite E. destruct (from_attr [] (at_out a)) as [|x l] eqn:E2; cbn [empty bindr sp_in sp_persis_in sp_out]; rewrite !attr_same; [now rewrite E2|]. rewrite (attr_kept (x :: l)) by discriminate. reflexivity.
    + assert (Em : empty (sp_out s) = false) by (destruct (sp_out s); [congruence|reflexivity]). rewrite Em. cbn [bindr]. intros [= <-]. unfold from_attrs. cbn [sp_in sp_persis_in sp_out].
      rewrite (attr_kept (sp_out s)) by auto. rewrite Em. cbn [bindr sp_in sp_persis_in sp_out]. now rewrite !attr_same, (attr_kept (sp_out s)).
Qed.
