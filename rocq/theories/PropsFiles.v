(** C64: files put into output directories and copied back. *)
From Coq Require Import Ascii String.
From Verif Require Import Base BaseLemmas TextModel TextProofs LabelModel FileModel FileSpec FileProofs FileOps FileCalc FileBack FileReturn FileReturn2 FileReturn3.
Local Notation length := List.length.
Local Open Scope list_scope.
Local Open Scope nat_scope.

(** Before a user function runs, what was asked for is in its directory: each copy
    has exactly the content of the original and each link leads to the original. *)
Theorem C64_inputs_delivered : forall c ord w is_sim rows iter s,
  let m := s_fs s in let d := own_dir c w is_sim rows iter in
  walk ord -> proper m -> lists_once c is_sim -> input_there c is_sim m -> room_for m d ->
  (forall f g, asked_copy c is_sim m f \/ asked_link c is_sim m f -> asked_copy c is_sim m g \/ asked_link c is_sim m g -> base f = base g -> f = g) ->
  (forall f, asked_copy c is_sim m f \/ asked_link c is_sim m f -> entry_at m (d ++ [base f]) = None) ->
  (forall f, asked_copy c is_sim m f -> entry_at m f <> None /\ no_links m f /\ apart f d) ->
  exists s' k, make_calc_dir c ord w is_sim rows iter s = ((s', None), Some k) /\
    (forall f, asked_copy c is_sim m f -> same_tree m f (s_fs s') (d ++ [base f])) /\
    (forall f, asked_link c is_sim m f -> entry_at (s_fs s') (d ++ [base f]) = Some (IsLink f)).
Proof. intros c ord w is_sim rows iter s m d H1 H2 H3 H4 H5 H6 H7 H8. apply calc_arrives; auto. Qed.
Print Assumptions C64_inputs_delivered.

(** Whatever the settings, and also when it ends with an exception, preparing a
    directory changes only the inputs' names in it and makes missing directories on
    the way. (The names to be copied must not be links already.) *)
Theorem C64_only_inputs_change : forall c ord w is_sim rows iter s s' e k,
  let m := s_fs s in let d := own_dir c w is_sim rows iter in
  walk ord -> plain_input c is_sim m -> (forall f, asked_copy c is_sim m f -> no_links m (d ++ [base f])) ->
  make_calc_dir c ord w is_sim rows iter s = ((s', e), k) ->
  forall p, ~ (exists f, (asked_copy c is_sim m f \/ asked_link c is_sim m f) /\ under (d ++ [base f]) p) ->
            ~ (under p d /\ entry_at m p = None) -> entry_at (s_fs s') p = entry_at m p.
Proof. intros c ord w is_sim rows iter s s' e k m d HW HP HL E p H1 H2. eapply calc_only in E; eauto. apply E. intros [H|H]; auto. Qed.
Print Assumptions C64_only_inputs_change.

(** So no user's file and no other directory changes when a new directory is prepared. *)
Theorem C64_new_directory_changes_nothing_else : forall c ord w is_sim rows iter s s' e k,
  let m := s_fs s in let d := own_dir c w is_sim rows iter in
  walk ord -> plain_input c is_sim m -> entry_at m d = None -> make_calc_dir c ord w is_sim rows iter s = ((s', e), k) ->
  forall p, entry_at m p <> None -> entry_at (s_fs s') p = entry_at m p.
Proof.
  intros c ord w is_sim rows iter s s' e k m d HW HP HN E p Hp. eapply C64_only_inputs_change; eauto.
  - intros f _ q t. rewrite <- app_assoc. fold m d. rewrite entry_below_none; [discriminate|exact HN].
  - intros (f & _ & q & ->). apply Hp. rewrite <- app_assoc. now apply entry_below_none.
  - intros [_ H]. auto.
Qed.
Print Assumptions C64_new_directory_changes_nothing_else.

(** An ensemble directory or copyback directory that is already there is refused,
    unless it may be reused; nothing else changes. *)
Theorem C64_directories_not_reused : forall c m m' e,
  (forall t, entry_at m (f_ens c) <> Some (IsLink t)) -> make_copyback c m = (m', e) ->
  (f_overwrite c = false -> entry_at m (f_ens c) <> None \/ (f_copy_back c = true /\ entry_at m (f_back c) <> None) -> e <> None) /\
  (e <> None -> m' = m) /\ differ_only (under (f_back c)) m m' /\
  (e = None -> f_copy_back c = true -> (forall t, entry_at m (f_back c) <> Some (IsLink t)) -> f_back c <> [] -> entry_at m' (f_back c) = Some IsDir).
Proof.
  intros c m m' e HL. unfold make_copyback. assert (X : exists_ m (f_ens c) = match entry_at m (f_ens c) with Some _ => true | None => false end).
  { unfold exists_. rewrite stat_plain by auto. unfold entry_at. destruct (look _ m) as [[x|t|l]|]; auto. }
  rewrite X. clear X. destruct (match entry_at m (f_ens c) with Some _ => true | None => false end && negb (f_overwrite c)) eqn:E1.
  { intros [= <- <-]. split; [discriminate|]. split; [auto|]. split; [apply differ_refl|discriminate]. }
  assert (N1 : f_overwrite c = false -> entry_at m (f_ens c) = None) by (intros HO; rewrite HO, andb_true_r in E1; destruct (entry_at m (f_ens c)); congruence).
  destruct (f_copy_back c); [|intros [= <- <-]; split; [intros HO [H|[H _]]; [now rewrite N1 in H|discriminate]|split; [auto|split; [apply differ_refl|discriminate]]]].
  destruct (look (f_back c) m) as [n|] eqn:EL.
  - destruct (f_overwrite c && is_dir m (f_back c)) eqn:E2; intros [= <- <-].
    + apply andb_true_iff in E2 as [E2 E3]. split; [congruence|]. split; [auto|]. split; [apply differ_refl|]. intros _ _ HLb _. now apply is_dir_plain.
    + split; [discriminate|]. split; [auto|]. split; [apply differ_refl|discriminate].
  - destruct (parent_ok m (f_back c)) eqn:EP; intros [= <- <-].
    + split; [intros HO [H|[_ H]]; [now rewrite N1 in H|rewrite entry_none in H; congruence]|]. split; [congruence|]. split.
      * intros p Hp. destruct (f_back c) as [|a q] eqn:EB; [destruct Hp; apply under_nil|]. rewrite <- EB in *. apply put_only; auto. congruence.
      * intros _ _ _ _. apply entry_dir. exists []. rewrite <- (app_nil_r (f_back c)) at 1. now rewrite look_put.
    + split; [discriminate|]. split; [auto|]. split; [apply differ_refl|discriminate].
Qed.
Print Assumptions C64_directories_not_reused.

(** After copying back, each directory in which a user function ran is in the
    copyback directory, with everything in it. *)
Theorem C64_directories_copied_back : forall c w s l m',
  let m := s_fs s in
  worker_run c w s l -> f_copy_back c = true -> 0 < d_pad (f_names c) -> proper m -> entry_at m (f_back c) = Some IsDir -> apart (f_back c) (f_ens c) -> back_clean c m ->
  (forall a q, In (f_ens c ++ a :: q) l -> free_name c m a) -> copy_back c s = (m', None) ->
  forall names, In (f_ens c ++ names) l -> names <> [] -> entry_at m (f_ens c ++ names) = Some IsDir -> same_tree m (f_ens c ++ names) m' (f_back c ++ names).
Proof. intros c w s l m' m HR H1 H2 H3 H4 H5 H6 H7 H8. apply (back_kept c w s l m'); auto. Qed.
Print Assumptions C64_directories_copied_back.

(** When not every call has its own directory, what else is in the ensemble
    directory comes back too. *)
Theorem C64_other_files_copied_back : forall c w s l m',
  let m := s_fs s in
  worker_run c w s l -> f_copy_back c = true -> 0 < d_pad (f_names c) -> proper m -> entry_at m (f_back c) = Some IsDir -> apart (f_back c) (f_ens c) -> back_clean c m ->
  d_worker_dirs (f_names c) = false -> d_sim_make (f_names c) && d_gen_make (f_names c) = false -> l <> [] -> copy_back c s = (m', None) ->
  (forall a x, ~ calc_like a -> entry_at m (f_ens c ++ [a]) = Some (IsFile x) ->
     free_name c m a \/ (exists y, entry_at m (f_back c ++ [a]) = Some (IsFile y)) -> entry_at m' (f_back c ++ [a]) = Some (IsFile x)) /\
  (forall a, ~ calc_like a -> entry_at m (f_ens c ++ [a]) = Some IsDir -> free_name c m a -> same_tree m (f_ens c ++ [a]) m' (f_back c ++ [a])).
Proof. intros c w s l m' m HR H1 H2 H3 H4 H5 H6 H7 H8 H9 H10. apply (back_others c w s l m'); auto. Qed.
Print Assumptions C64_other_files_copied_back.

(** Copying back, also when it fails, changes nothing outside the copyback directory. *)
Theorem C64_copying_back_changes_nothing_else : forall c w s l m' e,
  let m := s_fs s in
  worker_run c w s l -> 0 < d_pad (f_names c) -> proper m -> apart (f_back c) (f_ens c) -> back_clean c m ->
  (forall t, entry_at m (f_ens c) <> Some (IsLink t)) -> copy_back c s = (m', e) -> differ_only (under (f_back c)) m m'.
Proof. intros c w s l m' e m HR H1 H2 H3 H4 H5 H6. eapply back_frame; eauto. Qed.
Print Assumptions C64_copying_back_changes_nothing_else.

(** Into an empty copyback directory it does not fail. *)
Theorem C64_copying_back_succeeds : forall c w s l,
  let m := s_fs s in
  worker_run c w s l -> 0 < d_pad (f_names c) -> proper m -> entry_at m (f_back c) = Some IsDir -> apart (f_back c) (f_ens c) ->
  (forall a, entry_at m (f_back c ++ [a]) = None) -> (forall k d, In (k, d) (s_dirs s) -> entry_at m d = Some IsDir) ->
  (forall t, entry_at m (f_ens c) <> Some (IsLink t)) -> exists m', copy_back c s = (m', None).
Proof. intros c w s l m HR H1 H2 H3 H4 H5 H6 H7. eapply back_ok; eauto. Qed.
Print Assumptions C64_copying_back_succeeds.

(** ** Concrete cases *)
(** /data has a file x, a directory in and a file also called x in it; /run is where the ensemble runs. *)
Definition fs0 : node :=
  Dir [(T "data", Dir [(T "x", File 7); (T "in", Dir [(T "y", File 8); (T "sub", Dir [(T "z", File 9)])]); (T "in2", Dir [(T "x", File 5)])]);
       (T "run", Dir [])].
Definition px : path := [T "data"; T "x"].
Definition pin : path := [T "data"; T "in"].
Definition pin2 : path := [T "data"; T "in2"].
Definition ens : path := [T "run"; T "ens"].
Definition bk : path := [T "run"; T "back"].
(** each simulation in its own directory: x is linked, the contents of in are copied *)
Definition c_sims : dspecs := mkDS ens bk true false (mkDirs false true false 4) [] [px] (Some pin) [] [] None.
(** worker directories around the directories of simulations *)
Definition c_workers : dspecs := mkDS ens bk true false (mkDirs true true false 4) [] [px] (Some pin) [] [] None.
Definition st (m : node) : store := mkStore m [] false.
(** the order of the list, without repetitions *)
Fixpoint once (l : list path) : list path := match l with [] => [] | p :: l' => p :: filter (fun q => negb (peqb p q)) (once l') end.
Lemma once_walk : walk once.
Proof.
  intros l. assert (I : forall x, In x (once l) <-> In x l).
  { induction l as [|p l IH]; intros x; [tauto|]. cbn. rewrite filter_In, IH, negb_true_iff. destruct (peqb_spec p x); split; intros [H|H]; auto; intuition congruence. }
  split; auto. clear I. induction l as [|p l IH]; [constructor|]. cbn. constructor; [|now apply NoDup_filter]. rewrite filter_In, negb_true_iff, peqb_refl. intros [_ H]. discriminate.
Qed.
Lemma fs0_proper : proper fs0.
Proof.
  assert (A : forall l, (forall a k, assoc a l = Some k -> sane k) -> NoDup (map fst l) -> sane (Dir l)) by (intros; now apply sane_dir).
  assert (F : forall x, sane (File x)) by (intros x [|a q] l; cbn; discriminate).
  assert (E : forall (l : list (text * node)), Forall (fun p => sane (snd p)) l -> forall a k, assoc a l = Some k -> sane k).
  { intros l HF a k H. apply assoc_In in H. rewrite Forall_forall in HF. exact (HF _ H). }
  unfold fs0. repeat (apply A; [apply E; repeat (constructor; cbn [snd]; auto)|cbn [map fst]; repeat (constructor; [cbn; intuition discriminate|]); constructor]).
Qed.

(** What a simulation on row 3 finds, first in its own directory, then also below a
    worker's directory. *)
Example sims_example :
  let '((s1, e), _) := make_calc_dir c_sims once 1 true [3] 0 (st fs0) in
  e = None /\ own_dir c_sims 1 true [3] 0 = ens ++ [T "sim0003"] /\
  entry_at (s_fs s1) (ens ++ [T "sim0003"; T "x"]) = Some (IsLink px) /\ entry_at (s_fs s1) (ens ++ [T "sim0003"; T "y"]) = Some (IsFile 8) /\
  entry_at (s_fs s1) (ens ++ [T "sim0003"; T "sub"; T "z"]) = Some (IsFile 9) /\ entry_at (s_fs s1) px = Some (IsFile 7).
Proof. vm_compute. repeat split. Qed.
Example workers_example :
  let '((s1, e), _) := make_calc_dir c_workers once 2 true [0; 1; 2] 0 (st fs0) in
  e = None /\ own_dir c_workers 2 true [0; 1; 2] 0 = ens ++ [T "worker2"; T "sim00-2"] /\
  entry_at (s_fs s1) (ens ++ [T "worker2"; T "sim00-2"; T "sub"; T "z"]) = Some (IsFile 9).
Proof. vm_compute. repeat split. Qed.
(** The theorem on inputs applies to the first of them. *)
Lemma asked_c_sims f : (asked_copy c_sims true fs0 f <-> f = pin ++ [T "y"] \/ f = pin ++ [T "sub"]) /\ (asked_link c_sims true fs0 f <-> f = px).
Proof.
  assert (X : asked_copy c_sims true fs0 f <-> f = pin ++ [T "y"] \/ f = pin ++ [T "sub"]).
  { unfold asked_copy. cbn [c_sims f_sim_copy f_sim_input]. split.
    - intros [[]|(D & a & [= <-] & -> & H)]. apply (entry_listed fs0 pin [(T "y", File 8); (T "sub", Dir [(T "z", File 9)])] a eq_refl) in H. cbn in H. destruct H as [<-|[<-|[]]]; auto.
    - intros [-> | ->]; right; eexists pin, _; (split; [reflexivity|split; [reflexivity|discriminate]]). }
  split; [exact X|]. unfold asked_link. rewrite X. cbn [c_sims f_sim_link]. split; [intros [[<-|[]] _]; auto|]. intros ->. split; [now left|]. intros [H|H]; discriminate.
Qed.
Lemma ens_room q : room_for fs0 (ens ++ q).
Proof.
  intros a (r & E). destruct a as [|a1 [|a2 a]]; [right; reflexivity| |].
  - injection E as <- E. right. reflexivity.
  - injection E as <- <- E. left. apply (entry_below_none fs0 ens a). reflexivity.
Qed.
Lemma ens_fresh q : entry_at fs0 (ens ++ q) = None.
Proof. apply entry_below_none. reflexivity. Qed.
Example inputs_delivered_example : exists s' k, make_calc_dir c_sims once 1 true [3] 0 (st fs0) = ((s', None), Some k) /\
  (forall f, f = pin ++ [T "y"] \/ f = pin ++ [T "sub"] -> same_tree fs0 f (s_fs s') (ens ++ [T "sim0003"] ++ [base f])) /\
  entry_at (s_fs s') (ens ++ [T "sim0003"; T "x"]) = Some (IsLink px).
Proof.
  assert (OD : own_dir c_sims 1 true [3] 0 = ens ++ [T "sim0003"]) by (vm_compute; reflexivity).
  destruct (C64_inputs_delivered c_sims once 1 true [3] 0 (st fs0)) as (s' & k & E1 & E2 & E3); cbn [st s_fs]; try rewrite OD.
  - apply once_walk.
  - apply fs0_proper.
  - split; cbn; repeat (constructor; [intros []|]); constructor.
  - intros D [= <-]. reflexivity.
  - apply ens_room.
  - intros f g. destruct (asked_c_sims f) as [-> ->], (asked_c_sims g) as [-> ->]. intros [[-> | ->]| ->] [[-> | ->]| ->]; auto; discriminate.
  - intros f _. rewrite <- app_assoc. apply ens_fresh.
  - intros f Hf. apply asked_c_sims in Hf as [-> | ->]; (split; [discriminate|split; [|split; intros (q & E); discriminate]]).
    + intros [|a q] t; cbn; [discriminate|]. unfold entry_at. cbn. discriminate.
    + intros [|a [|b q]] t; [discriminate| |]; rewrite entry_link; intros E; cbn in E; repeat match type of E with context [if ?x then _ else _] => destruct x end; discriminate.
  - exists s', k. split; [exact E1|]. cbn [st s_fs] in *. rewrite OD in *. split.
    + intros f Hf. rewrite app_assoc. apply E2. now apply asked_c_sims.
    + apply (E3 px). now apply asked_c_sims.
Qed.

(** Two simulations on worker 1, then copying back; the second wrote a file. *)
Definition one : store := fst (fst (make_calc_dir c_sims once 1 true [3] 0 (st (put bk (Dir []) fs0)))).
Definition two : store := fst (fst (make_calc_dir c_sims once 1 true [4] 0 one)).
Definition two_done : store := set_fs two (put (ens ++ [T "sim0004"; T "out"]) (File 77) (s_fs two)).
Lemma two_run : worker_run c_sims 1 two_done [ens ++ [T "sim0004"]; ens ++ [T "sim0003"]].
Proof.
  apply run_other. change (ens ++ [T "sim0004"]) with (own_dir c_sims 1 true [4] 0). change (ens ++ [T "sim0003"]) with (own_dir c_sims 1 true [3] 0).
  apply (run_calc c_sims 1 one _ once true [4] 0 two (Some (KName (T "sim0004")))); [|vm_compute; reflexivity].
  apply (run_calc c_sims 1 (st (put bk (Dir []) fs0)) _ once true [3] 0 one (Some (KName (T "sim0003")))); [apply run_start|vm_compute; reflexivity].
Qed.
Lemma two_hyps : proper (s_fs two_done) /\ entry_at (s_fs two_done) bk = Some IsDir /\ apart bk ens /\ back_clean c_sims (s_fs two_done) /\ (forall a, entry_at (s_fs two_done) (bk ++ [a]) = None) /\
  (forall k d, In (k, d) (s_dirs two_done) -> entry_at (s_fs two_done) d = Some IsDir) /\ forall t, entry_at (s_fs two_done) ens <> Some (IsLink t).
Proof.
  assert (FR : forall a, entry_at (s_fs two_done) (bk ++ [a]) = None) by (intros a; reflexivity). split.
  { assert (A : forall l, (forall a k, assoc a l = Some k -> sane k) -> NoDup (map fst l) -> sane (Dir l)) by (intros; now apply sane_dir).
    assert (F : forall x, sane (File x)) by (intros x [|a q] l; cbn; discriminate). assert (G : forall x, sane (Link x)) by (intros x [|a q] l; cbn; discriminate).
    assert (E : forall (l : list (text * node)), Forall (fun p => sane (snd p)) l -> forall a k, assoc a l = Some k -> sane k).
    { intros l HF a k H. apply assoc_In in H. rewrite Forall_forall in HF. exact (HF _ H). }
    apply proper_sane. let v := eval vm_compute in (s_fs two_done) in change (sane v).
    repeat (apply A; [apply E; repeat (constructor; cbn [snd]; auto)|cbn [map fst]; repeat (constructor; [cbn; intuition discriminate|]); constructor]). }
  split; [reflexivity|]. split; [split; intros (q & E); discriminate|]. split.
  { intros a. left. intros q t. rewrite entry_below_none; [discriminate|apply FR]. }
  split; [exact FR|]. split; [|intros t; vm_compute; discriminate].
  intros k d Hi. assert (D : d = ens ++ [T "sim0003"] \/ d = ens ++ [T "sim0004"]) by (vm_compute in Hi; destruct Hi as [[= _ <-]|[[= _ <-]|[]]]; auto). destruct D as [-> | ->]; vm_compute; reflexivity.
Qed.
Example copied_back_example : exists m', copy_back c_sims two_done = (m', None) /\ same_tree (s_fs two_done) (ens ++ [T "sim0004"]) m' (bk ++ [T "sim0004"]) /\
  entry_at m' (bk ++ [T "sim0004"; T "out"]) = Some (IsFile 77) /\ differ_only (under bk) (s_fs two_done) m'.
Proof.
  destruct two_hyps as (H1 & H2 & H3 & H4 & H5 & H6 & H7). destruct (C64_copying_back_succeeds c_sims 1 two_done _ two_run) as (m' & E); auto; [cbn; lia|].
  assert (S4 : same_tree (s_fs two_done) (ens ++ [T "sim0004"]) m' (bk ++ [T "sim0004"])).
  { apply (C64_directories_copied_back c_sims 1 two_done _ m' two_run); auto; [cbn; lia|intros a q _; left; apply H5|left; reflexivity|discriminate]. }
  exists m'. split; auto. split; auto. split.
  - specialize (S4 [T "out"]). rewrite <- !app_assoc in S4. cbn [app] in S4. rewrite S4. vm_compute. reflexivity.
  - apply (C64_copying_back_changes_nothing_else c_sims 1 two_done _ m' None two_run); auto. cbn. lia.
Qed.
(** Everything runs in the ensemble directory; a file and a directory are left there. *)
Definition c_flat : dspecs := mkDS ens bk true false (mkDirs false false false 4) [px] [] None [] [] None.
Definition flat_done : store := let s := fst (fst (make_calc_dir c_flat once 1 true [3] 0 (st (put bk (Dir []) fs0)))) in set_fs s (put (ens ++ [T "log"]) (File 50) (s_fs s)).
Example others_example : let '(m', e) := copy_back c_flat flat_done in e = None /\ entry_at m' (bk ++ [T "log"]) = Some (IsFile 50) /\ entry_at m' (bk ++ [T "x"]) = Some (IsFile 7).
Proof. vm_compute. repeat split. Qed.
Example not_reused_example : snd (make_copyback c_flat (put ens (Dir []) fs0)) <> None /\ make_copyback c_flat fs0 = (put bk (Dir []) fs0, None).
Proof. split; vm_compute; [discriminate|reflexivity]. Qed.

(** ** What does not hold *)
(** When the names to be copied may already be links, a user's own file can be
    overwritten: simulations link /data/x, the generator copies /data/in2/x into
    the same directory. *)
Definition c_mixed : dspecs := mkDS ens bk false false (mkDirs false false false 4) [] [px] None [pin2 ++ [T "x"]] [] None.
Theorem C64_links_written_through_refuted :
  ~ (forall c ord w rows iter s s1 s2 k1 k2 f, walk ord -> make_calc_dir c ord w true rows iter s = ((s1, None), k1) -> make_calc_dir c ord w false rows iter s1 = ((s2, None), k2) ->
       asked_link c true (s_fs s) f -> ~ under (f_ens c) f -> entry_at (s_fs s2) f = entry_at (s_fs s) f).
Proof.
  intros H. set (s1 := fst (fst (make_calc_dir c_mixed once 1 true [3] 0 (st fs0)))). set (s2 := fst (fst (make_calc_dir c_mixed once 1 false [] 1 s1))).
  specialize (H c_mixed once 1 [3] 1 (st fs0) s1 s2 (Some (KPath ens)) (Some (KPath ens)) px once_walk). cut (entry_at (s_fs s2) px = entry_at (s_fs (st fs0)) px); [vm_compute; discriminate|].
  apply H; try (vm_compute; reflexivity).
  - split; [left; reflexivity|]. intros [[]|(D & a & E & _)]. discriminate.
  - intros (q & E). discriminate.
Qed.
Print Assumptions C64_links_written_through_refuted.
(** Two workers that both run generators use the same directory; if a directory is
    to be copied there, the second worker's call fails. *)
Definition c_gens : dspecs := mkDS ens bk false false (mkDirs false false true 4) [] [] None [pin] [] None.
Theorem C64_shared_generator_directory_refuted :
  ~ (forall c ord w1 w2 s s1 k1 r, walk ord -> w1 <> w2 -> make_calc_dir c ord w1 false [] 1 s = ((s1, None), k1) -> make_calc_dir c ord w2 false [] 1 (st (s_fs s1)) = r -> snd (fst r) = None).
Proof.
  intros H. set (s1 := fst (fst (make_calc_dir c_gens once 1 false [] 1 (st fs0)))).
  specialize (H c_gens once 1 2 (st fs0) s1 (Some (KName (T "gen0001"))) _ once_walk ltac:(discriminate) ltac:(vm_compute; reflexivity) eq_refl). vm_compute in H. discriminate.
Qed.
Print Assumptions C64_shared_generator_directory_refuted.
(** A user's file whose name begins like that of a simulation's directory is not copied back. *)
Theorem C64_files_named_like_directories_refuted :
  ~ (forall c w s l m' a x, worker_run c w s l -> f_copy_back c = true -> d_worker_dirs (f_names c) = false -> d_sim_make (f_names c) && d_gen_make (f_names c) = false -> l <> [] ->
       copy_back c s = (m', None) -> entry_at (s_fs s) (f_ens c ++ [a]) = Some (IsFile x) -> entry_at m' (f_back c ++ [a]) = Some (IsFile x)).
Proof.
  intros H. set (s0 := fst (fst (make_calc_dir c_flat once 1 true [3] 0 (st (put bk (Dir []) fs0))))). set (s := set_fs s0 (put (ens ++ [T "sim1.log"]) (File 50) (s_fs s0))).
  specialize (H c_flat 1 s [own_dir c_flat 1 true [3] 0] (fst (copy_back c_flat s)) (T "sim1.log") 50). cut (entry_at (fst (copy_back c_flat s)) (bk ++ [T "sim1.log"]) = Some (IsFile 50)); [vm_compute; discriminate|].
  apply H; try (vm_compute; reflexivity); [|discriminate]. apply run_other.
  apply (run_calc c_flat 1 (st (put bk (Dir []) fs0)) [] once true [3] 0 s0 (Some (KPath ens))); [apply run_start|vm_compute; reflexivity].
Qed.
Print Assumptions C64_files_named_like_directories_refuted.
(** A directory of the ensemble directory that is already in the copyback directory,
    because another worker has copied it, is not brought up to date. *)
Definition c_sub : dspecs := mkDS ens bk true false (mkDirs false false false 4) [pin] [] None [] [] None.
Theorem C64_copied_directories_stale_refuted :
  ~ (forall c w1 w2 s1 s2 l1 l2 m1 m2 a, worker_run c w1 s1 l1 -> worker_run c w2 s2 l2 -> f_copy_back c = true -> d_worker_dirs (f_names c) = false -> d_sim_make (f_names c) && d_gen_make (f_names c) = false -> l2 <> [] ->
       copy_back c s1 = (m1, None) -> copy_back c s2 = (m2, None) -> (forall p, under (f_back c) p -> entry_at (s_fs s2) p = entry_at m1 p) ->
       ~ calc_like a -> entry_at (s_fs s2) (f_ens c ++ [a]) = Some IsDir -> same_tree (s_fs s2) (f_ens c ++ [a]) m2 (f_back c ++ [a])).
Proof.
  intros H. set (s1 := fst (fst (make_calc_dir c_sub once 1 true [3] 0 (st (put bk (Dir []) fs0))))). set (m1 := fst (copy_back c_sub s1)).
  set (s2 := set_fs (fst (fst (make_calc_dir c_sub once 2 true [4] 0 (st (s_fs s1))))) (put (ens ++ [T "in"; T "result"]) (File 66) m1)).
  specialize (H c_sub 1 2 s1 s2 [own_dir c_sub 1 true [3] 0] [own_dir c_sub 2 true [4] 0] m1 (fst (copy_back c_sub s2)) (T "in")).
  cut (same_tree (s_fs s2) (ens ++ [T "in"]) (fst (copy_back c_sub s2)) (bk ++ [T "in"])); [intros X; specialize (X [T "result"]); vm_compute in X; discriminate|].
  apply H; try (vm_compute; reflexivity).
  - apply (run_calc c_sub 1 (st (put bk (Dir []) fs0)) [] once true [3] 0 s1 (Some (KPath ens))); [apply run_start|vm_compute; reflexivity].
  - apply run_other. apply (run_calc c_sub 2 (st (s_fs s1)) [] once true [4] 0 (fst (fst (make_calc_dir c_sub once 2 true [4] 0 (st (s_fs s1))))) (Some (KPath ens))); [apply run_start|vm_compute; reflexivity].
  - discriminate.
  - intros p (q & ->). apply entry_look, look_below. vm_compute. reflexivity.
  - intros X. apply calc_like_iff in X. vm_compute in X. discriminate.
Qed.
Print Assumptions C64_copied_directories_stale_refuted.
(** With two inputs of one name, what a simulation finds depends on the order in
    which a set is walked. *)
Definition c_same : dspecs := mkDS ens bk false false (mkDirs false true false 4) [px] [] (Some pin2) [] [] None.
Theorem C64_inputs_of_one_name_refuted :
  ~ (forall c o1 o2 w rows s s1 s2 k1 k2 p, walk o1 -> walk o2 -> make_calc_dir c o1 w true rows 0 s = ((s1, None), k1) -> make_calc_dir c o2 w true rows 0 s = ((s2, None), k2) ->
       entry_at (s_fs s1) p = entry_at (s_fs s2) p).
Proof.
  intros H. set (o2 := fun l => rev (once l)). assert (W2 : walk o2).
  { intros l. destruct (once_walk l) as [W1 W2]. split; [now apply NoDup_rev|]. intros x. unfold o2. rewrite <- in_rev. apply W2. }
  specialize (H c_same once o2 1 [3] (st fs0) _ _ (Some (KName (T "sim0003"))) (Some (KName (T "sim0003"))) (ens ++ [T "sim0003"; T "x"]) once_walk W2 ltac:(vm_compute; reflexivity) ltac:(vm_compute; reflexivity)).
  vm_compute in H. discriminate.
Qed.
Print Assumptions C64_inputs_of_one_name_refuted.
