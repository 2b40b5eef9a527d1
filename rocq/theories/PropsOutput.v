(** Property theorems C87: results that are saved can be read back, and saves of
    runs that differ do not overwrite each other. *)
From Coq Require Import Ascii String.
From Verif Require Import Base BaseLemmas TextModel TextProofs OutputModel.
Local Notation length := List.length.
Local Open Scope nat_scope.

(** ** Lemmas *)
Lemma put_same p c fs : put p c fs p = Some c.
Proof. unfold put. now rewrite teqb_refl. Qed.
Lemma put_other p q c fs : p <> q -> put p c fs q = fs q.
Proof. intros H. unfold put. destruct (teqb_spec p q); [contradiction|auto]. Qed.

Lemma path_join_app d s x : path_join d (s ++ x) = path_join d s ++ x.
Proof.
  unfold path_join. destruct d; [reflexivity|]. destruct (ceqb _ _); rewrite <- app_assoc; reflexivity.
Qed.
Lemma path_join_inj d a b : path_join d a = path_join d b -> a = b.
Proof.
  unfold path_join. destruct d; [auto|]. destruct (ceqb _ _); intros H; apply app_inv_head in H; [auto|now injection H].
Qed.
(** the joined path is the name after nothing or after a slash *)
Lemma path_join_form d s : path_join d s = s \/ exists u, path_join d s = u ++ slash :: s.
Proof.
  unfold path_join. destruct d as [|c d]; [auto|]. right. destruct (ceqb_spec (last (c :: d) dot) slash) as [E|E]; [|eauto].
  exists (removelast (c :: d)). rewrite <- E. rewrite (app_removelast_last dot (l := c :: d)) at 1 by discriminate.
  now rewrite <- app_assoc.
Qed.

Lemma snoc_inj {A} (a b : list A) x y : a ++ [x] = b ++ [y] -> a = b /\ x = y.
Proof. apply app_inj_tail. Qed.

Lemma mark_inj c (a b d e : text) : ~ In c d -> ~ In c e -> a ++ c :: d = b ++ c :: e -> a = b /\ d = e.
Proof.
  revert b. induction a as [|x a IH]; intros [|y b] Hd He H; cbn in H.
  - injection H as H. auto.
  - injection H as -> H. exfalso. apply Hd. rewrite H. apply in_app_iff. right. now left.
  - injection H as <- H. exfalso. apply He. rewrite <- H. apply in_app_iff. right. now left.
  - injection H as -> H. destruct (IH b Hd He H) as [-> ->]. auto.
Qed.

Definition eq_sign : ascii := "="%char.
Lemma dec_no_eq n : ~ In eq_sign (dec n).
Proof. apply digits_not; [reflexivity|apply dec_digits]. Qed.

(** the text of a name with its three numbers determines all of them *)
Lemma named_inj s n e w s' n' e' w' : s ++ prob_str n e w = s' ++ prob_str n' e' w' -> s = s' /\ n = n' /\ e = e' /\ w = w'.
Proof.
  assert (R : forall s n e w, s ++ prob_str n e w =
    (((s ++ T "length") ++ eq_sign :: dec n) ++ T "_evals" ++ eq_sign :: dec e) ++ T "_workers" ++ eq_sign :: dec w).
  { intros. unfold prob_str. rewrite <- !app_assoc. reflexivity. }
  rewrite !R. intros H. rewrite !app_assoc in H.
  apply mark_inj in H as [H Ew]; [|apply dec_no_eq|apply dec_no_eq]. apply app_inv_tail in H.
  apply mark_inj in H as [H Ee]; [|apply dec_no_eq|apply dec_no_eq]. apply app_inv_tail in H.
  apply mark_inj in H as [H En]; [|apply dec_no_eq|apply dec_no_eq]. apply app_inv_tail in H.
  apply dec_inj in Ew, Ee, En. auto.
Qed.

Lemma ends_digit n e w s : exists u c, s ++ prob_str n e w = u ++ [c] /\ is_digit c = true.
Proof.
  pose proof (dec_digits w) as D. destruct (dec w) as [|x r] eqn:E; [now apply dec_nonempty in E|].
  destruct (exists_last (l := x :: r) ltac:(discriminate)) as (v & c & Ev).
  exists (s ++ T "length=" ++ dec n ++ T "_evals=" ++ dec e ++ T "_workers=" ++ v), c. split.
  - unfold prob_str. rewrite E, Ev. now rewrite <- !app_assoc.
  - rewrite Ev, forallb_app in D. cbn in D. destruct (is_digit c); auto. now rewrite andb_false_r in D.
Qed.

Lemma suffix_last p x u c : suffixb (p ++ [x]) (u ++ [c]) = true -> x = c.
Proof.
  unfold suffixb. rewrite !rev_app_distr. cbn. intros H. apply andb_true_iff in H as [H _].
  now destruct (ceqb_spec x c).
Qed.

Lemma suffix_app p u : suffixb p (u ++ p) = true.
Proof.
  unfold suffixb. rewrite rev_app_distr. induction (rev p) as [|c l IH]; cbn; [now destruct (rev u)|].
  rewrite ceqb_refl. exact IH.
Qed.

Lemma prefix_before p a c b : ~ In c p -> prefixb p (a ++ c :: b) = true -> prefixb p a = true.
Proof.
  revert a. induction p as [|x p IH]; intros [|y a] Hc H; cbn in *; auto.
  - apply andb_true_iff in H as [H _]. destruct (ceqb_spec x c); [subst; tauto|discriminate].
  - apply andb_true_iff in H as [H1 H2]. rewrite H1. cbn. apply IH; auto.
Qed.

Lemma npy_plain t u c : t = u ++ [c] -> is_digit c = true -> npy_name t = t ++ T ".npy".
Proof.
  intros -> D. unfold npy_name. destruct (suffixb (T ".npy") (u ++ [c])) eqn:E; [|auto].
  change (T ".npy") with (T ".np" ++ ["y"%char]) in E. apply suffix_last in E. subst c. discriminate.
Qed.

Definition plain (a : save_args) : Prop := a_attrs a = true \/ suffixb (T ".npy") (short_name (a_base a)) = false.

Lemma h_name_npy a : plain a -> npy_name (h_filename a) = h_filename a ++ T ".npy".
Proof.
  intros [E|E]; unfold h_filename.
  - rewrite E. rewrite path_join_app, app_assoc.
    destruct (ends_digit (a_len a) (a_evals a) (a_workers a) (path_join (a_dest a) (short_name (a_base a)) ++ T "_history_")) as (u & c & Eu & D).
    exact (npy_plain _ u c Eu D).
  - destruct (a_attrs a) eqn:Ea.
    + rewrite path_join_app, app_assoc.
      destruct (ends_digit (a_len a) (a_evals a) (a_workers a) (path_join (a_dest a) (short_name (a_base a)) ++ T "_history_")) as (u & c & Eu & D).
      exact (npy_plain _ u c Eu D).
    + rewrite app_nil_r. unfold npy_name. destruct (suffixb (T ".npy") (path_join _ _)) eqn:S1; [|auto].
      exfalso. destruct (path_join_form (a_dest a) (short_name (a_base a))) as [F|(u & F)]; rewrite F in S1; [congruence|].
      unfold suffixb in *. rewrite rev_app_distr in S1. cbn [rev] in S1. rewrite <- app_assoc in S1. cbn [app] in S1.
      apply prefix_before in S1; [congruence|]. cbn. intuition discriminate.
Qed.

Lemma npy_pickle u v : u ++ T ".npy" <> v ++ T ".pickle".
Proof.
  change (T ".npy") with (T ".np" ++ ["y"%char]). change (T ".pickle") with (T ".pickl" ++ ["e"%char]).
  rewrite !app_assoc. intros H. apply snoc_inj in H as [_ H]. discriminate.
Qed.

(** ** C87 *)

(** The file that is returned holds the array and the file beside it the
    persis_info; every other file stays as it was. The name is as announced,
    unless append_attrs is off and the user's name ends in ".npy" itself. *)
Theorem C87_saved_results_can_be_read_back :
  forall a fs, a_attrs a = true \/ suffixb (T ".npy") (short_name (a_base a)) = false ->
  let (fs', name) := save_libE_output a fs in
  fs' name = Some (CHist (a_H a)) /\
  exists pname, pname <> name /\ fs' pname = Some (CPersis (a_persis a)) /\
    forall q, q <> name -> q <> pname -> fs' q = fs q.
Proof.
  intros a fs Hp. unfold save_libE_output. rewrite (h_name_npy a Hp).
  assert (N : p_filename a ++ T ".pickle" <> h_filename a ++ T ".npy") by (intros E; symmetry in E; now apply npy_pickle in E).
  split; [rewrite put_other, put_same; auto|].
  exists (p_filename a ++ T ".pickle"). split; [auto|]. split; [apply put_same|].
  intros q H1 H2. rewrite !put_other; auto.
Qed.
Print Assumptions C87_saved_results_can_be_read_back.

(** The name carries the attributes: two calls for one directory name the same
    history file only if script name, length, number of ended simulations and
    number of workers agree. *)
Theorem C87_names_tell_runs_apart :
  forall a b fs gs, a_attrs a = true -> a_attrs b = true -> a_dest a = a_dest b ->
  (snd (save_libE_output a fs) = snd (save_libE_output b gs) <->
   short_name (a_base a) = short_name (a_base b) /\ a_len a = a_len b /\ a_evals a = a_evals b /\ a_workers a = a_workers b).
Proof.
  intros a b fs gs Ha Hb Hd. cbn [snd save_libE_output]. unfold h_filename. rewrite Ha, Hb, Hd. split.
  - intros H. apply app_inv_tail, path_join_inj in H. rewrite !app_assoc in H.
    apply named_inj in H as (H & E1 & E2 & E3). apply app_inv_tail in H. auto.
  - intros (-> & -> & -> & ->). reflexivity.
Qed.
Print Assumptions C87_names_tell_runs_apart.

(** Both files of a run survive any later saves, into the same directory, of
    runs that differ in one of the attributes. *)
Definition differs (a b : save_args) : Prop :=
  short_name (a_base a) <> short_name (a_base b) \/ a_len a <> a_len b \/ a_evals a <> a_evals b \/ a_workers a <> a_workers b.
Definition save_all (l : list save_args) (fs : files) : files := fold_left (fun fs b => fst (save_libE_output b fs)) l fs.

Theorem C87_later_saves_of_other_runs_keep_the_files :
  forall a later fs, a_attrs a = true ->
  (forall b, In b later -> a_attrs b = true /\ a_dest b = a_dest a /\ differs a b) ->
  let (fs1, name) := save_libE_output a fs in
  save_all later fs1 name = Some (CHist (a_H a)) /\
  exists pname, pname <> name /\ save_all later fs1 pname = Some (CPersis (a_persis a)).
Proof.
  intros a later fs Ha Hl. pose proof (C87_saved_results_can_be_read_back a fs (or_introl Ha)) as R.
  destruct (save_libE_output a fs) as [fs1 name] eqn:E. destruct R as (R1 & _).
  assert (En : name = h_filename a ++ T ".npy") by (symmetry; exact (f_equal snd E)).
  assert (Ef : fs1 = fst (save_libE_output a fs)) by (now rewrite E). clear E.
  assert (K : forall b gs, a_attrs b = true -> a_dest b = a_dest a -> differs a b ->
    fst (save_libE_output b gs) (h_filename a ++ T ".npy") = gs (h_filename a ++ T ".npy") /\
    fst (save_libE_output b gs) (p_filename a ++ T ".pickle") = gs (p_filename a ++ T ".pickle")).
  { intros b gs Hb Hd Df. unfold save_libE_output. cbn [fst]. rewrite (h_name_npy b (or_introl Hb)).
    assert (N1 : h_filename b <> h_filename a).
    { unfold h_filename. rewrite Ha, Hb, Hd. intros H. apply path_join_inj in H. rewrite !app_assoc in H.
      apply named_inj in H as (H & E1 & E2 & E3). apply app_inv_tail in H. unfold differs in Df. intuition congruence. }
    assert (N2 : p_filename b <> p_filename a).
    { unfold p_filename. rewrite Ha, Hb, Hd. intros H. apply path_join_inj in H. rewrite !app_assoc in H.
      apply named_inj in H as (H & E1 & E2 & E3). apply app_inv_tail in H. unfold differs in Df. intuition congruence. }
    split.
    - rewrite !put_other; auto; [intros H; apply app_inv_tail in H; auto|intros H; symmetry in H; now apply npy_pickle in H].
    - rewrite !put_other; auto; [intros H; now apply npy_pickle in H|intros H; apply app_inv_tail in H; auto]. }
  assert (P0 : fs1 (p_filename a ++ T ".pickle") = Some (CPersis (a_persis a))) by (rewrite Ef; apply put_same).
  subst name. clear Ef.
  assert (G : forall later gs, (forall b, In b later -> a_attrs b = true /\ a_dest b = a_dest a /\ differs a b) ->
    save_all later gs (h_filename a ++ T ".npy") = gs (h_filename a ++ T ".npy") /\
    save_all later gs (p_filename a ++ T ".pickle") = gs (p_filename a ++ T ".pickle")).
  { clear - K. induction later as [|b later IH]; intros gs Hl; [auto|]. unfold save_all. cbn [fold_left].
    destruct (IH (fst (save_libE_output b gs)) ltac:(intros; apply Hl; now right)) as [I1 I2]. unfold save_all in I1, I2. rewrite I1, I2.
    destruct (Hl b (or_introl eq_refl)) as (B1 & B2 & B3). now apply K. }
  destruct (G later fs1 Hl) as [G1 G2]. split; [now rewrite G1|].
  exists (p_filename a ++ T ".pickle"). split; [|now rewrite G2].
  intros H. symmetry in H. now apply npy_pickle in H.
Qed.
Print Assumptions C87_later_saves_of_other_runs_keep_the_files.

(** The check that a run's results were saved finds them: if the file appears
    in the current directory by one of the times it looks, it says so. *)
Theorem C87_saved_results_are_found :
  forall a fs looks names, a_attrs a = true -> a_dest a = [] ->
  In names looks -> In (snd (save_libE_output a fs)) names ->
  check_npy_file_exists (a_base a) true looks = true.
Proof.
  intros a fs looks names Ha Hd Hn Hi. unfold check_npy_file_exists. apply existsb_exists. exists names. split; [auto|].
  apply existsb_exists. eexists. split; [exact Hi|]. cbn [snd save_libE_output]. rewrite suffix_app, andb_true_r.
  unfold h_filename. rewrite Hd. cbn [path_join]. rewrite <- app_assoc.
  generalize (short_name (a_base a)). intros l. induction l as [|c l IH]; cbn; [reflexivity|now rewrite ceqb_refl].
Qed.
Print Assumptions C87_saved_results_are_found.

(** and when it says so for a name, there was a file of a history array that begins with it *)
Theorem C87_what_is_found_begins_with_the_name :
  forall base looks, check_npy_file_exists base true looks = true ->
  exists names f r u, In names looks /\ In f names /\ f = short_name base ++ r /\ f = u ++ T ".npy".
Proof.
  intros base looks H. unfold check_npy_file_exists in H. apply existsb_exists in H as (names & Hn & H).
  apply existsb_exists in H as (f & Hf & H). apply andb_true_iff in H as [H Hs]. exists names, f.
  assert (G : forall p t, prefixb p t = true -> exists r, t = p ++ r).
  { induction p as [|c p IH]; intros t E; [now exists t|]. destruct t as [|d t]; [discriminate|]. cbn in E.
    apply andb_true_iff in E as [E1 E2]. destruct (ceqb_spec c d) as [->|]; [|discriminate]. destruct (IH t E2) as [r ->]. now exists r. }
  destruct (G _ _ H) as [r Er]. destruct (G _ _ Hs) as [v Ev]. exists r, (rev v). split; [auto|]. split; [auto|]. split; [auto|].
  apply (f_equal (@rev _)) in Ev. rewrite rev_involutive, rev_app_distr, rev_involutive in Ev. exact Ev.
Qed.
Print Assumptions C87_what_is_found_begins_with_the_name.

(** ** Examples *)
Definition no_files : files := fun _ => None.
Definition run_a : save_args := mkSave 1 200 150 2 (T "/home/u/test_chwirut.py") 4 (T "/home/u/out") true.
Definition run_b : save_args := mkSave 3 200 151 4 (T "/home/u/test_chwirut.py") 4 (T "/home/u/out") true.
Example C87_names : h_filename run_a = T "/home/u/out/chwirut_history_length=200_evals=150_workers=4".
Proof. vm_compute. reflexivity. Qed.
Example C87_hypotheses_met :
  differs run_a run_b /\ a_dest run_a = a_dest run_b /\
  snd (save_libE_output run_a no_files) <> snd (save_libE_output run_b no_files) /\
  suffixb (T ".npy") (short_name (T "my.run.py")) = false /\ short_name (T "my.run.py") = T "my.run".
Proof.
  split; [right; right; left; cbn; lia|]. split; [reflexivity|].
  split; [vm_compute; discriminate|]. split; vm_compute; reflexivity.
Qed.
Example C87_found :
  check_npy_file_exists (T "test_r.py") true [[T "x.py"]; [T "x.py"; T "r_history_length=3_evals=2_workers=4.npy"]] = true /\
  check_npy_file_exists (T "test_r.py") true [[T "x.py"]] = false.
Proof. split; vm_compute; reflexivity. Qed.

(** Scripts whose names differ before "test_" have the same short name, so the
    second one's results replace the first one's. *)
Theorem C87_two_scripts_share_a_name_refuted :
  exists a b, a_base a <> a_base b /\ a_attrs a = true /\ a_attrs b = true /\ a_H a <> a_H b /\
    fst (save_libE_output b (fst (save_libE_output a no_files))) (snd (save_libE_output a no_files)) = Some (CHist (a_H b)).
Proof.
  exists (mkSave 1 9 9 1 (T "old_test_x.py") 4 [] true), (mkSave 2 9 9 1 (T "new_test_x.py") 4 [] true).
  split; [discriminate|]. split; [auto|]. split; [auto|]. split; [cbn; lia|]. vm_compute. reflexivity.
Qed.

(** Without the attributes, a name ending in ".npy" is returned with the
    extension repeated: no such file exists. *)
Theorem C87_returned_name_does_not_exist_refuted :
  exists a, fst (save_libE_output a no_files) (snd (save_libE_output a no_files)) = None.
Proof. exists (mkSave 1 9 9 1 (T "res.npy.x") 4 [] false). vm_compute. reflexivity. Qed.

(** The check is satisfied by the results of another script whose name begins
    with this one's, and, with max_wait 0, by nothing. *)
Theorem C87_check_finds_results_of_another_script_refuted :
  exists mine other fs, short_name mine <> short_name (a_base other) /\ a_attrs other = true /\
    check_npy_file_exists mine true [[snd (save_libE_output other fs)]] = true /\
    check_npy_file_exists mine true [] = false.
Proof.
  exists (T "run.py"), (mkSave 1 9 9 1 (T "run2.py") 4 [] true), no_files.
  split; [vm_compute; discriminate|]. split; [auto|]. split; vm_compute; reflexivity.
Qed.
