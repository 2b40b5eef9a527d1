(** Property theorem C97: the options read back from a run line. *)
From Coq Require Import Ascii String.
From Verif Require Import Base BaseLemmas TextModel TextProofs EnvModel EnvProofs CommandModel PropsCommand RunCheckModel.
Local Open Scope list_scope.
Local Notation length := List.length.

(** Vocabulary: an option whose value is the next word, and one whose value follows an
    equals sign. *)
Definition eq_char : ascii := "="%char.
Definition spaced (opt : text) : Prop := forall a, opt <> a ++ [eq_char].
Definition joined (opt : text) : Prop := exists a, opt = a ++ [eq_char] /\ ~ In eq_char a.
Definition begins_with (opt w : text) : Prop := exists v, w = opt ++ v.

Lemma ends_eq opt : endswith (T "=") opt = true <-> exists a, opt = a ++ [eq_char].
Proof.
  unfold endswith. rewrite prefixb_spec. change (rev (T "=")) with [eq_char]. split.
  - intros (v & E). exists (rev v). rewrite <- (rev_involutive opt), E. reflexivity.
  - intros (a & ->). exists (rev a). rewrite rev_app_distr. reflexivity.
Qed.
Lemma spaced_ends opt : spaced opt -> endswith (T "=") opt = false.
Proof. intros H. destruct (endswith (T "=") opt) eqn:E; [|reflexivity]. apply ends_eq in E as (a & ->). exfalso. now apply (H a). Qed.

(** ** C97 *)

(** An option followed by its value: the value found is that after the last occurrence of
    the option, or none if the option does not occur; an option at the end raises. *)
Theorem C97_value_after_the_last_occurrence :
  forall opt, spaced opt ->
  (forall ws, ~ In opt ws -> get_value opt ws None = Ok None) /\
  (forall before v after, ~ In opt (v :: after) -> get_value opt (before ++ opt :: v :: after) None = Ok (Some v)) /\
  (forall before, get_value opt (before ++ [opt]) None = Err EIndex).
Proof.
  intros opt Ho. apply spaced_ends in Ho.
  assert (N : forall ws val, ~ In opt ws -> get_value opt ws val = Ok val).
  { induction ws as [|w ws IH]; intros val H; cbn [get_value]; [reflexivity|]. destruct (teqb_spec w opt) as [->|]; [exfalso; apply H; left; reflexivity|].
    rewrite Ho, andb_false_r. apply IH. intros h. apply H. right. exact h. }
  split; [intros ws; apply N|]. split.
  - intros before v after H. generalize (@None text) as val. induction before as [|w before IH]; intros val; cbn [app].
    + cbn [get_value]. rewrite teqb_refl. exact (N (v :: after) (Some v) H).
    + cbn [get_value]. rewrite Ho, andb_false_r. destruct (teqb w opt); [|apply IH]. destruct before; cbn [app]; apply IH.
  - intros before. generalize (@None text) as val. induction before as [|w before IH]; intros val; cbn [app].
    + cbn [get_value]. rewrite teqb_refl. reflexivity.
    + cbn [get_value]. rewrite Ho, andb_false_r. destruct (teqb w opt); [|apply IH]. destruct before; cbn [app]; apply IH.
Qed.
Print Assumptions C97_value_after_the_last_occurrence.

(** The same for the option with its value, which is then what is expected for it. *)
Theorem C97_option_is_the_expected_one :
  forall opt, spaced opt ->
  (forall ws, ~ In opt ws -> get_opt_value opt ws None = Ok None) /\
  (forall before v after, ~ In opt (v :: after) -> get_opt_value opt (before ++ opt :: v :: after) None = Ok (Some (get_expected_output opt v))) /\
  (forall v, get_expected_output opt v = opt ++ T " " ++ v).
Proof.
  intros opt Ho. apply spaced_ends in Ho.
  assert (X : forall v, get_expected_output opt v = opt ++ T " " ++ v) by (intros v; unfold get_expected_output; rewrite Ho; reflexivity).
  assert (N : forall ws val, ~ In opt ws -> get_opt_value opt ws val = Ok val).
  { induction ws as [|w ws IH]; intros val H; cbn [get_opt_value]; [reflexivity|]. destruct (teqb_spec w opt) as [->|]; [exfalso; apply H; left; reflexivity|].
    rewrite Ho, andb_false_r. apply IH. intros h. apply H. right. exact h. }
  split; [intros ws; apply N|]. split; [|exact X]. intros before v after H. rewrite X. generalize (@None text) as val. induction before as [|w before IH]; intros val; cbn [app].
  - transitivity (get_opt_value opt (v :: after) (Some (opt ++ T " " ++ v))); [|apply N; exact H]. cbn [get_opt_value]. rewrite teqb_refl. reflexivity.
  - cbn [get_opt_value]. rewrite Ho, andb_false_r. destruct (teqb w opt); [|apply IH]. destruct before; cbn [app]; apply IH.
Qed.
Print Assumptions C97_option_is_the_expected_one.

(** An option with an equals sign: the value found is what follows the sign in the last
    word that begins with the option, if that has no other equals sign, and the option
    with its value is that word, which is what is expected for it. *)
Theorem C97_value_after_the_sign :
  forall opt, joined opt ->
  (forall ws, (forall w, In w ws -> ~ begins_with opt w) -> get_value opt ws None = Ok None) /\
  (forall before v after, v <> [] -> ~ In eq_char v -> ~ In opt before -> (forall w, In w after -> ~ begins_with opt w) ->
     get_value opt (before ++ (opt ++ v) :: after) None = Ok (Some v) /\
     get_opt_value opt (before ++ (opt ++ v) :: after) None = Ok (Some (opt ++ v)) /\ get_expected_output opt v = opt ++ v).
Proof.
  intros opt (a & Ea & Ha). assert (Ho : endswith (T "=") opt = true) by (apply ends_eq; eauto).
  assert (P : forall w, ~ begins_with opt w -> teqb w opt = false /\ prefixb opt w = false).
  { intros w H. split.
    - destruct (teqb_spec w opt) as [->|]; [|reflexivity]. exfalso. apply H. exists []. symmetry. apply app_nil_r.
    - destruct (prefixb opt w) eqn:E; [|reflexivity]. apply prefixb_spec in E. contradiction. }
  assert (N : forall ws val, (forall w, In w ws -> ~ begins_with opt w) -> get_value opt ws val = Ok val /\ get_opt_value opt ws val = Ok val).
  { induction ws as [|w ws IH]; intros val H; cbn [get_value get_opt_value]; [auto|]. destruct (P w (H w (or_introl eq_refl))) as [-> ->]. cbn [andb].
    apply IH. intros x Hx. apply H. right. exact Hx. }
  split; [intros ws H; apply N; exact H|]. intros before v after Hv Hn Hb Hf.
  assert (S : forall q, split "=" (opt ++ q) = a :: split "=" q).
  { intros q. rewrite Ea, <- app_assoc. cbn [app]. apply (split_app "=" a q Ha). }
  assert (S1 : forall q, exists h r, split "=" q = h :: r).
  { intros q. destruct (split "=" q) eqn:E; [|eauto]. exfalso. destruct q as [|c q]; cbn in E; [discriminate|]. destruct (ceqb c "="); [discriminate|]. destruct (split "=" q); discriminate. }
  assert (W : teqb (opt ++ v) opt = false).
  { destruct (teqb_spec (opt ++ v) opt) as [E|]; [|reflexivity]. apply (f_equal (@List.length _)) in E. rewrite app_length in E. destruct v; [contradiction|]. cbn in E. lia. }
  split; [|split].
  - generalize (@None text) as val. induction before as [|w before IH]; intros val; cbn [app get_value].
    + rewrite W, Ho, prefixb_self. cbn [andb]. rewrite S, (split_none "=" v Hn). apply N. exact Hf.
    + destruct (teqb_spec w opt) as [->|]; [exfalso; apply Hb; left; reflexivity|]. assert (Hb' : ~ In opt before) by (intros h; apply Hb; right; exact h).
      destruct (prefixb opt w) eqn:E; cbn [andb]; [|apply IH; exact Hb']. rewrite Ho. apply prefixb_spec in E as (q & ->). rewrite S. destruct (S1 q) as (h & r & ->). apply IH. exact Hb'.
  - generalize (@None text) as val. induction before as [|w before IH]; intros val; cbn [app get_opt_value].
    + rewrite W, Ho, prefixb_self. cbn [andb]. apply N. exact Hf.
    + destruct (teqb_spec w opt) as [->|]; [exfalso; apply Hb; left; reflexivity|]. assert (Hb' : ~ In opt before) by (intros h; apply Hb; right; exact h).
      rewrite Ho, andb_true_r. destruct (prefixb opt w); apply IH; exact Hb'.
  - unfold get_expected_output. rewrite Ho. reflexivity.
Qed.
Print Assumptions C97_value_after_the_sign.

(** The number of processes that a task was given is the one read back from its run line,
    if no other argument has the name of the option. *)
Definition procs_option (k : kind) : option text :=
  match k with Mpich | OpenMpi => Some (T "-np") | Srun => Some (T "--ntasks") | Jsrun | Aprun => Some (T "-n") | _ => None end.

Lemma dec_no_percent n : contains placeholder (dec n) = false.
Proof.
  pose proof (dec_digits n) as D. induction (dec n) as [|c t IH]; [reflexivity|]. cbn [forallb] in D. apply andb_true_iff in D as [D1 D2].
  cbn [contains]. rewrite (IH D2), orb_false_r. change placeholder with ("%"%char :: tl placeholder). cbn [prefixb].
  replace (ceqb "%" c) with false; [reflexivity|]. symmetry. apply Ascii.eqb_neq. intros <-. discriminate.
Qed.
Lemma dec_not_flag n (t : text) : T "-n" = firstn 2 t \/ T "--" = firstn 2 t -> dec n <> t.
Proof.
  intros H E. pose proof (dec_digits n) as D. rewrite E in D. destruct t as [|c t]; [destruct H; discriminate|].
  cbn [forallb] in D. apply andb_true_iff in D as [D _]. destruct H as [H|H]; cbn in H; injection H as <- _; discriminate.
Qed.
Theorem C97_processes_read_back :
  forall k opt run s cmd args sim_dir n ws, procs_option k = Some opt -> s_procs s = Some n ->
  plain run -> all_opt plain_word (s_machinefile s) -> all_opt plain_word (s_hostlist s) -> all_opt plain (s_extra s) ->
  ~ In opt (map (in_dir sim_dir) (words_of (s_extra s) ++ words cmd [] ++ words_of args)) ->
  runline k run s cmd args sim_dir = Ok ws -> get_value opt ws None = Ok (Some (dec n)).
Proof.
  intros k opt run s cmd args d n ws Hk Hn HR HM HH HX Hin E. rewrite C80_command_line in E by assumption. injection E as <-.
  assert (Dn : forall m, in_dir d (dec m) = dec m) by (intros m; apply C80_directory, dec_no_percent).
  assert (K : forall A B, spaced opt -> in_dir d opt = opt -> (forall m, dec m <> opt) -> ~ In opt (map (in_dir d) B) ->
     get_value opt (map (in_dir d) (words run [] ++ (A ++ [opt; dec n] ++ B) ++ words_of (s_extra s) ++ words cmd [] ++ words_of args)) None = Ok (Some (dec n))).
  { intros A B So Do Dm HB. destruct (C97_value_after_the_last_occurrence opt So) as (_ & V & _).
    specialize (V (map (in_dir d) (words run [] ++ A)) (dec n) (map (in_dir d) (B ++ words_of (s_extra s) ++ words cmd [] ++ words_of args))).
    rewrite <- V; [|intros [h|h]; [now apply (Dm n)|]; rewrite map_app in h; apply in_app_iff in h as [h|h]; contradiction].
    f_equal. rewrite !map_app. cbn [map]. rewrite Do, Dn, <- !app_assoc. reflexivity. }
  assert (Z : forall (flag : string) o, in_dir d (T flag) = T flag -> T flag <> opt -> (forall m, dec m <> opt) -> ~ In opt (map (in_dir d) (number_of flag o))).
  { intros flag [m|] Df Hf Dm; cbn [number_of map]; [|intros []]. rewrite Df, Dn. intros [h|[h|[]]]; [contradiction|now apply (Dm m)]. }
  assert (Sp : forall a : text, endswith (T "=") a = false -> spaced a).
  { intros a H b ->. assert (X : endswith (T "=") (b ++ [eq_char]) = true) by (apply ends_eq; eauto). congruence. }
  destruct k; try discriminate; cbn [procs_option] in Hk; assert (opt = match Some opt with Some o => o | None => [] end) as Hopt by reflexivity; rewrite <- Hk in Hopt; clear Hk; subst opt;
    cbn [options]; rewrite Hn; change (number_of ?f (Some n)) with [T f; dec n].
  - rewrite (app_assoc (option_of _ _) (option_of _ _)). apply K; [apply Sp; reflexivity|reflexivity|intros m; apply dec_not_flag; auto|].
    apply Z; [reflexivity|discriminate|intros m; apply dec_not_flag; auto].
  - rewrite (app_assoc (option_of _ _) (option_of _ _)). apply K; [apply Sp; reflexivity|reflexivity|intros m; apply dec_not_flag; auto|].
    apply Z; [reflexivity|discriminate|intros m; apply dec_not_flag; auto].
  - apply K; [apply Sp; reflexivity|reflexivity|intros m; apply dec_not_flag; auto|].
    apply Z; [reflexivity|discriminate|intros m; apply dec_not_flag; auto].
  - apply K; [apply Sp; reflexivity|reflexivity|intros m; apply dec_not_flag; auto|]. rewrite map_app. intros h. apply in_app_iff in h as [h|h]; revert h;
    (apply Z; [reflexivity|discriminate|intros m; apply dec_not_flag; auto]).
  - apply (K []); [apply Sp; reflexivity|reflexivity|intros m; apply dec_not_flag; auto|].
    apply Z; [reflexivity|discriminate|intros m; apply dec_not_flag; auto].
Qed.
Print Assumptions C97_processes_read_back.

Example C97_examples :
  let ws := [T "mpirun"; T "-np"; T "8"; T "--gpus=2"; T "--ppn"; T "4"; T "app"] in
  get_value (T "-np") ws None = Ok (Some (T "8")) /\ get_value (T "--ppn") ws None = Ok (Some (T "4")) /\ get_value (T "-n") ws None = Ok None /\
  get_value (T "--gpus=") ws None = Ok (Some (T "2")) /\ get_opt_value (T "--gpus=") ws None = Ok (Some (T "--gpus=2")) /\
  get_opt_value (T "-np") ws None = Ok (Some (T "-np 8")) /\ spaced (T "-np") /\ joined (T "--gpus=").
Proof.
  cbn zeta. do 6 (split; [vm_compute; reflexivity|]). split.
  - intros a H. assert (E : endswith (T "=") (T "-np") = true) by (apply ends_eq; eauto). discriminate.
  - exists (T "--gpus"). split; [reflexivity|]. cbn. intuition discriminate.
Qed.

(** The application's arguments are read too: for a task run with 8 processes whose
    application has an option of the same name, the number found is the application's. *)
Theorem C97_arguments_are_taken_for_options_refuted :
  exists ws, runline Mpich (T "mpirun") (mkSpecs (Some 8) None None None None None) (T "/bin/app") (Some (T "-np 3")) (T "d") = Ok ws /\
    get_value (T "-np") ws None = Ok (Some (T "3")).
Proof. eexists. split; vm_compute; reflexivity. Qed.
Print Assumptions C97_arguments_are_taken_for_options_refuted.
Example C97_processes_example :
  exists ws, runline Srun (T "srun") (mkSpecs (Some 8) (Some 2) (Some 4) None None (Some (T "n1,n2"))) (T "/bin/app") (Some (T "in.txt")) (T "d") = Ok ws /\
    get_value (T "--ntasks") ws None = Ok (Some (T "8")) /\ get_value (T "--ntasks-per-node") ws None = Ok (Some (T "4")) /\
    ~ In (T "--ntasks") (map (in_dir (T "d")) (words (T "/bin/app") [] ++ words (T "in.txt") [])).
Proof. eexists. split; [vm_compute; reflexivity|]. split; [vm_compute; reflexivity|]. split; [vm_compute; reflexivity|]. intros H. apply (in_map (teqb (T "--ntasks"))) in H. vm_compute in H. intuition discriminate. Qed.

(** ** The check of the runner *)

(** It passes exactly for lines that begin with the expected runner and have the expected
    option for the processes per node, with a value; and for openmpi, where mpich's option
    is looked for first, only if that is not in the line. *)
Definition option_given (o : text) (ws : list text) : Prop := In o ws /\ forall before, ws <> before ++ [o].

Lemma opt_value_cases o ws : spaced o ->
  (~ In o ws /\ get_opt_value o ws None = Ok None) \/ (option_given o ws /\ exists v, get_opt_value o ws None = Ok (Some v)) \/
  (exists before, ws = before ++ [o]) /\ get_opt_value o ws None = Err EIndex.
Proof.
  intros Ho. destruct (C97_option_is_the_expected_one o Ho) as (N & V & _).
  assert (D : forall ws, ~ In o ws \/ exists before after, ws = before ++ o :: after /\ ~ In o after).
  { clear. induction ws as [|w ws IH]; [left; intros []|]. destruct IH as [H|(b & a & -> & H)].
    - destruct (teqb_spec w o) as [->|Hw]; [right; exists [], ws; auto|left; intros [h|h]; auto].
    - right. exists (w :: b), a. auto. }
  destruct (D ws) as [H|(before & after & -> & H)]; [left; auto|right].
  destruct after as [|v after].
  - right. split; [eauto|]. apply spaced_ends in Ho. generalize (@None text) as val. clear - Ho. induction before as [|w before IH]; intros val; cbn [app].
    + cbn [get_opt_value]. rewrite teqb_refl. reflexivity.
    + cbn [get_opt_value]. rewrite Ho, andb_false_r. destruct (teqb w o); [|apply IH]. destruct before; cbn [app]; apply IH.
  - left. split; [|eauto]. split; [apply in_app_iff; right; left; reflexivity|]. intros b E.
    assert (L : last (before ++ o :: v :: after) [] = o) by (rewrite E; apply last_last).
    apply H. rewrite <- L. replace (before ++ o :: v :: after) with ((before ++ [o]) ++ v :: after) by (rewrite <- app_assoc; reflexivity).
    clear. induction (before ++ [o]) as [|x l IH]; [|cbn [app]; destruct (l ++ v :: after) eqn:El; [destruct l; discriminate|exact IH]].
    cbn [app]. revert v. induction after as [|y after IH]; intros v; [left; reflexivity|]. right. exact (IH y).
Qed.

Lemma flag_spaced (f : text) : endswith (T "=") f = false -> spaced f.
Proof. intros H a ->. assert (X : endswith (T "=") (a ++ [eq_char]) = true) by (apply ends_eq; eauto). congruence. Qed.

Theorem C97_runner_check :
  forall ws,
  (check_mpi_runner (T "mpich") ws = Ok tt <-> (exists l, ws = T "mpirun" :: l) /\ option_given (T "--ppn") ws) /\
  (check_mpi_runner (T "openmpi") ws = Ok tt <-> (exists l, ws = T "mpirun" :: l) /\ ~ In (T "--ppn") ws /\ option_given (T "-npernode") ws) /\
  (check_mpi_runner (T "srun") ws = Ok tt <-> (exists l, ws = T "srun" :: l) /\ option_given (T "--ntasks-per-node") ws) /\
  (check_mpi_runner (T "special_mpi") ws = Ok tt <-> (exists l, ws = T "special_mpi" :: l) /\ option_given (T "-npernode") ws).
Proof.
  intros ws.
  assert (G : forall o before, ws = before ++ [o] -> ~ option_given o ws) by (intros o b E [_ H]; now apply (H b)).
  assert (H0 : forall r : text, (exists w l, ws = w :: l /\ teqb w r = false) \/ ws = [] \/ exists l, ws = r :: l).
  { intros r. destruct ws as [|w l]; [auto|]. destruct (teqb_spec w r) as [->|]; [eauto|]. left. exists w, l. split; [reflexivity|]. destruct (teqb_spec w r); congruence. }
  assert (One : forall exp r o, expected_runner exp = Some (r, o) -> ppn_setting r = Some [o] -> endswith (T "=") o = false ->
    (check_mpi_runner exp ws = Ok tt <-> (exists l, ws = r :: l) /\ option_given o ws)).
  { intros exp r o He Hp Ho. unfold check_mpi_runner. rewrite He. destruct (H0 r) as [(w & l & E & Hw)|[E|(l & E)]].
    - rewrite E, Hw. cbn [negb]. split; [discriminate|]. intros [(l' & E') _]. injection E' as -> ->. rewrite teqb_refl in Hw. discriminate.
    - rewrite E. split; [discriminate|]. intros [(l' & E') _]. discriminate.
    - rewrite E at 1. rewrite teqb_refl. cbn [negb]. rewrite Hp. cbn [find_setting].
      destruct (opt_value_cases o ws (flag_spaced o Ho)) as [(A & ->)|[(A & v & ->)|((b & B) & ->)]]; cbn [bindr].
      + split; [discriminate|]. intros [_ [h _]]. contradiction.
      + rewrite teqb_refl. split; [intros _; split; [eauto|exact A]|reflexivity].
      + split; [discriminate|]. intros [_ h]. exfalso. exact (G o b B h). }
  assert (Two : forall exp o, expected_runner exp = Some (T "mpirun", o) -> 
    (check_mpi_runner exp ws = Ok tt <-> (exists l, ws = T "mpirun" :: l) /\ exists q, find_setting [T "--ppn"; T "-npernode"] ws = Ok (Some q) /\ q = o)).
  { intros exp o He. unfold check_mpi_runner. rewrite He. destruct (H0 (T "mpirun")) as [(w & l & E & Hw)|[E|(l & E)]].
    - rewrite E, Hw. cbn [negb]. split; [discriminate|]. intros [(l' & E') _]. injection E' as -> ->. rewrite teqb_refl in Hw. discriminate.
    - rewrite E. split; [discriminate|]. intros [(l' & E') _]. discriminate.
    - rewrite E at 1. rewrite teqb_refl. cbn [negb]. change (ppn_setting (T "mpirun")) with (Some [T "--ppn"; T "-npernode"]). cbv iota.
      destruct (find_setting [T "--ppn"; T "-npernode"] ws) as [[q|]|e]; cbn [bindr].
      + destruct (teqb_spec q o) as [->|Hq]; split; intros H; try discriminate; eauto 6. destruct H as (_ & q' & E1 & E2). congruence.
      + split; [discriminate|]. intros (_ & q & h & _). discriminate.
      + split; [discriminate|]. intros (_ & q & h & _). discriminate. }
  assert (F : (find_setting [T "--ppn"; T "-npernode"] ws = Ok (Some (T "--ppn")) <-> option_given (T "--ppn") ws) /\
              (find_setting [T "--ppn"; T "-npernode"] ws = Ok (Some (T "-npernode")) <-> ~ In (T "--ppn") ws /\ option_given (T "-npernode") ws)).
  { cbn [find_setting].
    destruct (opt_value_cases (T "--ppn") ws (flag_spaced (T "--ppn") eq_refl)) as [(A & ->)|[(A & v & ->)|((b & B) & ->)]]; cbn [bindr].
    - destruct (opt_value_cases (T "-npernode") ws (flag_spaced (T "-npernode") eq_refl)) as [(A' & ->)|[(A' & v & ->)|((b & B) & ->)]]; cbn [bindr].
      + split; (split; [discriminate|]); [intros [h _]; contradiction|intros [_ [h _]]; contradiction].
      + split; (split; [|]); try discriminate; auto. intros [h _]. contradiction.
      + split; (split; [discriminate|]); [intros [h _]; contradiction|intros [_ h]; exfalso; exact (G _ _ B h)].
    - split; (split; [|]); try discriminate; auto. intros [h _]. destruct A. contradiction.
    - split; (split; [discriminate|]); [intros h; exfalso; exact (G _ _ B h)|]. intros [h _]. exfalso. apply h. rewrite B. apply in_app_iff. right. left. reflexivity. }
  destruct F as [F1 F2]. split; [|split; [|split]].
  - rewrite (Two (T "mpich") (T "--ppn") eq_refl). split; intros (A & B); split; auto; [destruct B as (q & B & ->); apply F1; exact B|exists (T "--ppn"); split; [apply F1; exact B|reflexivity]].
  - rewrite (Two (T "openmpi") (T "-npernode") eq_refl). split; intros (A & B); split; auto; [destruct B as (q & B & ->); apply F2; exact B|exists (T "-npernode"); split; [apply F2; exact B|reflexivity]].
  - apply One; reflexivity.
  - apply One; reflexivity.
Qed.
Print Assumptions C97_runner_check.
Example C97_runner_check_cases :
  let mpich := [T "mpirun"; T "-np"; T "8"; T "--ppn"; T "4"; T "app"] in let openmpi := [T "mpirun"; T "-np"; T "8"; T "-npernode"; T "4"; T "app"] in
  map (fun p => check_mpi_runner (fst p) (snd p)) [(T "mpich", mpich); (T "openmpi", mpich); (T "openmpi", openmpi); (T "srun", openmpi); (T "mpich", [T "mpirun"; T "app"]); (T "jsrun", mpich)] =
  [Ok tt; Err EAssert; Ok tt; Err EAssert; Err (EOther 3); Err EKey].
Proof. vm_compute. reflexivity. Qed.
