(** C80: a task is launched with the command line and the environment it was given. *)
From Coq Require Import Ascii String.
From Verif Require Import Base BaseLemmas TextModel TextProofs EnvModel EnvProofs CommandModel.
Local Open Scope nat_scope.
Local Notation length := List.length.

(** ** Specification *)

(** text without quotation marks, braces and unusual blanks *)
Definition plain (t : text) : Prop := forall c, In c t -> is_quote c = false /\ c <> "{"%char /\ c <> "}"%char /\ (is_space c = true -> sh_space c = true).
(** one plain word *)
Definition plain_word (w : text) : Prop := w <> [] /\ plain w /\ forall c, In c w -> is_space c = false.
(** an option with its value, if there is one *)
Definition option_of (flag : string) (v : option text) : list text := match v with Some x => [T flag; x] | None => [] end.
Definition number_of (flag : string) (v : option nat) : list text := match v with Some n => [T flag; dec n] | None => [] end.
(** the options that each runner gets *)
Definition options (k : kind) (s : specs) : list text :=
  match k with
  | Mpich => option_of "-machinefile" (s_machinefile s) ++ option_of "-hosts" (s_hostlist s) ++ number_of "-np" (s_procs s) ++ number_of "--ppn" (s_ppn s)
  | OpenMpi => option_of "-machinefile" (s_machinefile s) ++ option_of "-host" (s_hostlist s) ++ number_of "-np" (s_procs s) ++ number_of "-npernode" (s_ppn s)
  | Aprun => option_of "-L" (s_hostlist s) ++ number_of "-n" (s_procs s) ++ number_of "-N" (s_ppn s)
  | MsMpi => number_of "-n" (s_procs s) ++ number_of "-cores" (s_ppn s)
  | Srun => option_of "-w" (s_hostlist s) ++ number_of "--ntasks" (s_procs s) ++ number_of "--nodes" (s_nodes s) ++ number_of "--ntasks-per-node" (s_ppn s)
  | Jsrun => number_of "-n" (s_procs s) ++ number_of "-r" (s_ppn s)
  | Custom => []
  end.
Definition words_of (o : option text) : list text := match o with Some t => words t [] | None => [] end.
Definition all_opt (P : text -> Prop) (o : option text) : Prop := match o with Some t => P t | None => True end.

(** ** Lemmas *)

Lemma sh_sub c : sh_space c = true -> is_space c = true.
Proof. unfold sh_space, is_space. cbn zeta. intros H. lia. Qed.
Lemma plain_space c t : plain t -> In c t -> is_space c = sh_space c.
Proof. intros P H. destruct (P c H) as (_ & _ & _ & P'). destruct (is_space c) eqn:E; [symmetry; auto|]. destruct (sh_space c) eqn:F; auto. apply sh_sub in F. congruence. Qed.
Lemma plain_tail c t : plain (c :: t) -> plain t. Proof. intros P d D. apply P. now right. Qed.
Lemma plain_app a b : plain a -> plain b -> plain (a ++ b).
Proof. intros A B c H. apply in_app_or in H as [H|H]; auto. Qed.
Lemma sh_plain t : forall cur, plain t -> sh_split t cur None = Ok (words t cur).
Proof.
  induction t as [|c t IH]; intros cur P; cbn [sh_split words]; auto. rewrite (plain_space c (c :: t) P (or_introl eq_refl)). pose proof (plain_tail _ _ P) as P'.
  destruct (sh_space c); [now rewrite IH|]. destruct cur as [|d cur]; [|now apply IH]. destruct (P c (or_introl eq_refl)) as (Q & _). rewrite Q. now apply IH.
Qed.
Lemma format_plain lk a : forall t, plain a -> format lk (a ++ t) None = bindr (format lk t None) (fun r => Ok (a ++ r)).
Proof.
  induction a as [|c a IH]; intros t P; cbn [app format]; [now destruct (format lk t None)|]. destruct (P c (or_introl eq_refl)) as (_ & N1 & N2 & _).
  unfold ceqb. rewrite (proj2 (Ascii.eqb_neq c "{"%char) N1), (proj2 (Ascii.eqb_neq c "}"%char) N2). rewrite IH by exact (plain_tail _ _ P). now destruct (format lk t None).
Qed.
Lemma format_name lk a : forall t n, plain a -> format lk (a ++ t) (Some n) = format lk t (Some (n ++ a)).
Proof.
  induction a as [|c a IH]; intros t n P; cbn [app format]; [now rewrite app_nil_r|]. destruct (P c (or_introl eq_refl)) as (_ & N1 & N2 & _).
  unfold ceqb. rewrite (proj2 (Ascii.eqb_neq c "{"%char) N1), (proj2 (Ascii.eqb_neq c "}"%char) N2). rewrite IH by exact (plain_tail _ _ P). now rewrite <- app_assoc.
Qed.
Lemma format_field lk key : key <> [] -> plain key -> format lk (T "{" ++ key ++ T "}") None = match lk key with Some v => Ok (v ++ []) | None => Err EKey end.
Proof.
  intros N P. destruct key as [|c key]; [now destruct N|]. destruct (P c (or_introl eq_refl)) as (_ & N1 & _).
  change (format lk (T "{" ++ (c :: key) ++ T "}") None) with
    (if ceqb c "{" then bindr (format lk (key ++ T "}") None) (fun r => Ok ("{"%char :: r)) else format lk ((c :: key) ++ T "}") (Some [])).
  unfold ceqb. rewrite (proj2 (Ascii.eqb_neq c "{"%char) N1). rewrite format_name by exact P.
  change (format lk (T "}") (Some ([] ++ c :: key))) with (match lk (c :: key) with Some v => bindr (Ok []) (fun r => Ok (v ++ r)) | None => Err EKey end).
  destruct (lk (c :: key)); reflexivity.
Qed.
Definition plainb (t : text) : bool := forallb (fun c => negb (is_quote c) && negb (ceqb c "{") && negb (ceqb c "}") && (negb (is_space c) || sh_space c)) t.
Lemma plainb_ok t : plainb t = true -> plain t.
Proof.
  unfold plainb. rewrite forallb_forall. intros H c Hc. apply H in Hc. repeat (apply andb_prop in Hc as [Hc ?]).
  repeat split; [now apply negb_true_iff|intros ->; discriminate|intros ->; discriminate|]. intros S. rewrite S in *. cbn in *. auto.
Qed.
Lemma words_word v cur : (forall c, In c v -> is_space c = false) -> words v cur = flush (cur ++ v).
Proof. intros H. rewrite <- (app_nil_r v) at 1. now rewrite words_app. Qed.
Lemma fill_option lk flag key : flag <> [] -> plain flag -> (forall c, In c flag -> is_space c = false) -> key <> [] -> plain key ->
  match lk key with Some v => plain_word v | None => True end ->
  fill lk (flag ++ T " {" ++ key ++ T "}") = Ok match lk key with Some v => [flag; v] | None => [] end.
Proof.
  intros F1 F2 F3 K1 K2 V. unfold fill. rewrite format_plain by exact F2. change (T " {") with (T " " ++ T "{"). rewrite <- app_assoc.
  rewrite format_plain by (now apply plainb_ok). rewrite format_field by auto. destruct (lk key) as [v|]; [|reflexivity]. cbn [bindr]. destruct V as (V1 & V2 & V3).
  rewrite app_nil_r. rewrite sh_plain; [|apply plain_app; [exact F2|apply plain_app; [now apply plainb_ok|exact V2]]]. f_equal.
  rewrite words_app by exact F3. cbn [T list_ascii_of_string app words]. change (is_space " ") with true. cbn match. rewrite words_word by exact V3. cbn [app].
  destruct flag; [now destruct F1|]. destruct v; [now destruct V1|]. reflexivity.
Qed.
Lemma digit_plain c : is_digit c = true -> is_quote c = false /\ c <> "{"%char /\ c <> "}"%char /\ is_space c = false.
Proof.
  unfold is_digit, is_quote, is_space, ceqb. cbn zeta. intros H. assert (N : forall d, nat_of_ascii d < 48 \/ 57 < nat_of_ascii d -> c <> d) by (intros d D ->; lia).
  repeat split; try (apply N; cbn; lia); [|lia]. apply orb_false_intro; apply Ascii.eqb_neq, N; cbn; lia.
Qed.
Lemma dec_word n : plain_word (dec n).
Proof.
  pose proof (dec_digits n) as D. rewrite forallb_forall in D. split; [apply dec_nonempty|]. split; intros c H; apply D, digit_plain in H as (H1 & H2 & H3 & H4); auto.
  repeat split; auto. congruence.
Qed.

(** ** Theorems *)

(** The run line: the runner's command, its options for the specifications that are
    set, each once and in this order, the extra arguments, the application, and its
    arguments. In each argument the name of the simulation directory takes its
    place. *)
Theorem C80_command_line : forall k run s cmd args sim_dir, plain run -> all_opt plain_word (s_machinefile s) -> all_opt plain_word (s_hostlist s) -> all_opt plain (s_extra s) ->
  runline k run s cmd args sim_dir = Ok (map (in_dir sim_dir) (words run [] ++ options k s ++ words_of (s_extra s) ++ words cmd [] ++ words_of args)).
Proof.
  intros k run s cmd args sim_dir HR HM HH HX. unfold runline, form_command.
  assert (FR : fill (look s) run = Ok (words run [])).
  { unfold fill. rewrite <- (app_nil_r run) at 1. rewrite format_plain by exact HR. cbn [format bindr]. rewrite app_nil_r. now apply sh_plain. }
  assert (FX : fill (look s) (T "{extra_args}") = Ok (words_of (s_extra s))).
  { unfold fill. change (T "{extra_args}") with (T "{" ++ T "extra_args" ++ T "}"). rewrite format_field; [|discriminate|now apply plainb_ok].
    change (look s (T "extra_args")) with (s_extra s). destruct (s_extra s) as [x|]; [|reflexivity]. cbn. rewrite app_nil_r. now apply sh_plain. }
  assert (FN : forall (flag key : string) o, T flag <> [] -> plainb (T flag) = true -> forallb (fun c => negb (is_space c)) (T flag) = true -> T key <> [] -> plainb (T key) = true ->
     look s (T key) = txt o -> fill (look s) (T flag ++ T " {" ++ T key ++ T "}") = Ok (number_of flag o)).
  { intros flag key o F1 F2 F3 K1 K2 E. rewrite fill_option; auto using plainb_ok; rewrite ?E.
    - destruct o; reflexivity.
    - intros c Hc. rewrite forallb_forall in F3. apply F3 in Hc. now apply negb_true_iff.
    - destruct o; cbn; auto. apply dec_word. }
  assert (FO : forall (flag key : string) o, T flag <> [] -> plainb (T flag) = true -> forallb (fun c => negb (is_space c)) (T flag) = true -> T key <> [] -> plainb (T key) = true ->
     look s (T key) = o -> all_opt plain_word o -> fill (look s) (T flag ++ T " {" ++ T key ++ T "}") = Ok (option_of flag o)).
  { intros flag key o F1 F2 F3 K1 K2 E W. rewrite fill_option; auto using plainb_ok; rewrite ?E; [now destruct o| |exact W].
    intros c Hc. rewrite forallb_forall in F3. apply F3 in Hc. now apply negb_true_iff. }
  assert (FE : forall flag, plainb (T flag) = true -> fill (look s) (T flag ++ T " {" ++ T "env" ++ T "}") = Ok []).
  { intros flag F2. unfold fill. rewrite format_plain by (now apply plainb_ok). change (T " {") with (T " " ++ T "{"). rewrite <- app_assoc.
    rewrite format_plain by (now apply plainb_ok). rewrite format_field; [reflexivity|discriminate|now apply plainb_ok]. }
  assert (M : mapr (fill (look s)) (mpi_command k run) = Ok (words run [] :: match k with
     | Mpich => [[]; option_of "-machinefile" (s_machinefile s); option_of "-hosts" (s_hostlist s); number_of "-np" (s_procs s); number_of "--ppn" (s_ppn s); words_of (s_extra s)]
     | OpenMpi => [[]; option_of "-machinefile" (s_machinefile s); option_of "-host" (s_hostlist s); number_of "-np" (s_procs s); number_of "-npernode" (s_ppn s); words_of (s_extra s)]
     | Aprun => [[]; option_of "-L" (s_hostlist s); number_of "-n" (s_procs s); number_of "-N" (s_ppn s); words_of (s_extra s)]
     | MsMpi => [[]; number_of "-n" (s_procs s); number_of "-cores" (s_ppn s); words_of (s_extra s)]
     | Srun => [option_of "-w" (s_hostlist s); number_of "--ntasks" (s_procs s); number_of "--nodes" (s_nodes s); number_of "--ntasks-per-node" (s_ppn s); words_of (s_extra s)]
     | Jsrun => [number_of "-n" (s_procs s); number_of "-r" (s_ppn s); words_of (s_extra s)]
     | Custom => [words_of (s_extra s)]
     end)).
  { unfold mpi_command. cbn [mapr]. rewrite FR. cbn [bindr].
    destruct k; cbn [mapr];
    change (T "--env {env}") with (T "--env" ++ T " {" ++ T "env" ++ T "}"); change (T "-x {env}") with (T "-x" ++ T " {" ++ T "env" ++ T "}");
    change (T "-e {env}") with (T "-e" ++ T " {" ++ T "env" ++ T "}"); change (T "-env {env}") with (T "-env" ++ T " {" ++ T "env" ++ T "}");
    repeat (rewrite FE by reflexivity); cbn [bindr].
    - rewrite (FO "-machinefile"%string "machinefile"%string (s_machinefile s) ltac:(discriminate) eq_refl eq_refl ltac:(discriminate) eq_refl eq_refl HM : fill _ (T "-machinefile {machinefile}") = _).
      rewrite (FO "-hosts"%string "hostlist"%string (s_hostlist s) ltac:(discriminate) eq_refl eq_refl ltac:(discriminate) eq_refl eq_refl HH : fill _ (T "-hosts {hostlist}") = _).
      rewrite (FN "-np"%string "num_procs"%string (s_procs s) ltac:(discriminate) eq_refl eq_refl ltac:(discriminate) eq_refl eq_refl : fill _ (T "-np {num_procs}") = _).
      rewrite (FN "--ppn"%string "procs_per_node"%string (s_ppn s) ltac:(discriminate) eq_refl eq_refl ltac:(discriminate) eq_refl eq_refl : fill _ (T "--ppn {procs_per_node}") = _).
      now rewrite FX.
    - rewrite (FO "-machinefile"%string "machinefile"%string (s_machinefile s) ltac:(discriminate) eq_refl eq_refl ltac:(discriminate) eq_refl eq_refl HM : fill _ (T "-machinefile {machinefile}") = _).
      rewrite (FO "-host"%string "hostlist"%string (s_hostlist s) ltac:(discriminate) eq_refl eq_refl ltac:(discriminate) eq_refl eq_refl HH : fill _ (T "-host {hostlist}") = _).
      rewrite (FN "-np"%string "num_procs"%string (s_procs s) ltac:(discriminate) eq_refl eq_refl ltac:(discriminate) eq_refl eq_refl : fill _ (T "-np {num_procs}") = _).
      rewrite (FN "-npernode"%string "procs_per_node"%string (s_ppn s) ltac:(discriminate) eq_refl eq_refl ltac:(discriminate) eq_refl eq_refl : fill _ (T "-npernode {procs_per_node}") = _).
      now rewrite FX.
    - rewrite (FO "-L"%string "hostlist"%string (s_hostlist s) ltac:(discriminate) eq_refl eq_refl ltac:(discriminate) eq_refl eq_refl HH : fill _ (T "-L {hostlist}") = _).
      rewrite (FN "-n"%string "num_procs"%string (s_procs s) ltac:(discriminate) eq_refl eq_refl ltac:(discriminate) eq_refl eq_refl : fill _ (T "-n {num_procs}") = _).
      rewrite (FN "-N"%string "procs_per_node"%string (s_ppn s) ltac:(discriminate) eq_refl eq_refl ltac:(discriminate) eq_refl eq_refl : fill _ (T "-N {procs_per_node}") = _).
      now rewrite FX.
    - rewrite (FN "-n"%string "num_procs"%string (s_procs s) ltac:(discriminate) eq_refl eq_refl ltac:(discriminate) eq_refl eq_refl : fill _ (T "-n {num_procs}") = _).
      rewrite (FN "-cores"%string "procs_per_node"%string (s_ppn s) ltac:(discriminate) eq_refl eq_refl ltac:(discriminate) eq_refl eq_refl : fill _ (T "-cores {procs_per_node}") = _).
      now rewrite FX.
    - rewrite (FO "-w"%string "hostlist"%string (s_hostlist s) ltac:(discriminate) eq_refl eq_refl ltac:(discriminate) eq_refl eq_refl HH : fill _ (T "-w {hostlist}") = _).
      rewrite (FN "--ntasks"%string "num_procs"%string (s_procs s) ltac:(discriminate) eq_refl eq_refl ltac:(discriminate) eq_refl eq_refl : fill _ (T "--ntasks {num_procs}") = _).
      rewrite (FN "--nodes"%string "num_nodes"%string (s_nodes s) ltac:(discriminate) eq_refl eq_refl ltac:(discriminate) eq_refl eq_refl : fill _ (T "--nodes {num_nodes}") = _).
      rewrite (FN "--ntasks-per-node"%string "procs_per_node"%string (s_ppn s) ltac:(discriminate) eq_refl eq_refl ltac:(discriminate) eq_refl eq_refl : fill _ (T "--ntasks-per-node {procs_per_node}") = _).
      now rewrite FX.
    - rewrite (FN "-n"%string "num_procs"%string (s_procs s) ltac:(discriminate) eq_refl eq_refl ltac:(discriminate) eq_refl eq_refl : fill _ (T "-n {num_procs}") = _).
      rewrite (FN "-r"%string "procs_per_node"%string (s_ppn s) ltac:(discriminate) eq_refl eq_refl ltac:(discriminate) eq_refl eq_refl : fill _ (T "-r {procs_per_node}") = _).
      now rewrite FX.
    - now rewrite FX. }
  rewrite M. cbn [bindr]. f_equal. f_equal. change (match args with Some a => words a [] | None => [] end) with (words_of args).
  destruct k; cbn [concat options app]; rewrite ?app_nil_r, <- ?app_assoc; reflexivity.
Qed.
Print Assumptions C80_command_line.
Definition s_ex : specs := mkSpecs (Some 8) (Some 2) (Some 4) (Some (T "--exact --gpus-per-task 1")) None (Some (T "n1,n2")).
Example C80_command_line_applies : plain (T "srun") /\ all_opt plain_word (s_hostlist s_ex) /\ all_opt plain (s_extra s_ex) /\
  runline Srun (T "srun") s_ex (T "/apps/warpx") (Some (T "in.txt %LIBENSEMBLE_SIM_DIR%/out")) (T "ens/sim3") =
  Ok (map T ["srun"; "-w"; "n1,n2"; "--ntasks"; "8"; "--nodes"; "2"; "--ntasks-per-node"; "4"; "--exact"; "--gpus-per-task"; "1"; "/apps/warpx"; "in.txt"; "ens/sim3/out"])%string.
Proof.
  split; [now apply plainb_ok|]. split; [|split; [now apply plainb_ok|reflexivity]]. split; [discriminate|]. split; [now apply plainb_ok|].
  intros c H. assert (F : forallb (fun c => negb (is_space c)) (T "n1,n2") = true) by reflexivity. rewrite forallb_forall in F. apply F in H. now apply negb_true_iff.
Qed.

(** Only the placeholder is replaced, wherever it stands. *)
Lemma prefixb_self p t : prefixb p (p ++ t) = true.
Proof. induction p as [|c p IH]; cbn; auto. unfold ceqb. now rewrite Ascii.eqb_refl. Qed.
Lemma replace_skip old new a : forall t k, k = length a -> replace old new (a ++ t) k = replace old new t 0.
Proof. induction a as [|c a IH]; intros t k ->; cbn [app length replace]; auto. Qed.
Lemma replace_at c u new b : replace (c :: u) new ((c :: u) ++ b) 0 = new ++ replace (c :: u) new b 0.
Proof.
  pose proof (prefixb_self (c :: u) b) as P. cbn [app] in P |- *. cbn [replace]. rewrite P. f_equal. apply replace_skip. cbn [length]. lia.
Qed.
Theorem C80_directory : forall sim_dir,
  (forall arg, contains placeholder arg = false -> in_dir sim_dir arg = arg) /\
  (forall a b, ~ In "%"%char a -> in_dir sim_dir (a ++ placeholder ++ b) = a ++ sim_dir ++ in_dir sim_dir b).
Proof.
  intros d. unfold in_dir. split.
  - induction arg as [|c t IH]; cbn [contains replace]; auto. intros H. apply orb_false_iff in H as [-> H]. now rewrite IH.
  - induction a as [|c a IH]; intros b H; cbn [app].
    + apply (replace_at "%"%char (tl placeholder)).
    + cbn [replace]. replace (prefixb placeholder (c :: a ++ placeholder ++ b)) with false; [rewrite IH; auto; intros X; apply H; now right|].
      symmetry. change placeholder with ("%"%char :: tl placeholder) at 1. cbn [prefixb]. replace (ceqb "%" c) with false; auto. symmetry. apply Ascii.eqb_neq. intros <-. apply H. now left.
Qed.
Print Assumptions C80_directory.
Example C80_directory_applies : in_dir (T "d1") (T "-w=%LIBENSEMBLE_SIM_DIR%:%LIBENSEMBLE_SIM_DIR%/x") = T "-w=d1:d1/x". Proof. reflexivity. Qed.

(** The application's words: what goes before it, which is the Python interpreter for
    a path that ends in .py and nothing given, then its path. *)
Lemma words_two a b : words (a ++ " "%char :: b) [] = words a [] ++ words b [].
Proof.
  assert (G : forall t cur, words (t ++ " "%char :: b) cur = words t cur ++ words b []); [|apply G].
  induction t as [|c t IH]; intros cur; cbn [app words]; [change (is_space " ") with true; reflexivity|]. destruct (is_space c); [now rewrite IH, app_assoc|apply IH].
Qed.
Theorem C80_application : forall python full_path precedent, full_path <> [] -> python <> [] ->
  (precedent <> [] -> words (app_cmd python full_path precedent) [] = words precedent [] ++ words full_path []) /\
  (precedent = [] -> endswith (T ".py") full_path = true -> words (app_cmd python full_path precedent) [] = words python [] ++ words full_path []) /\
  (precedent = [] -> endswith (T ".py") full_path = false -> words (app_cmd python full_path precedent) [] = words full_path []).
Proof.
  intros py path pre NP NY. unfold app_cmd. repeat split.
  - intros N. destruct pre as [|c pre]; [now destruct N|]. destruct path as [|d path]; [now destruct NP|]. cbn [filter join]. now apply words_two.
  - intros -> ->. destruct py as [|c py]; [now destruct NY|]. destruct path as [|d path]; [now destruct NP|]. cbn [filter join]. now apply words_two.
  - intros -> ->. destruct path as [|d path]; [now destruct NP|]. reflexivity.
Qed.
Print Assumptions C80_application.
Example C80_application_applies : words (app_cmd (T "/usr/bin/python") (T "my_sim.py") []) [] = [T "/usr/bin/python"; T "my_sim.py"]. Proof. reflexivity. Qed.

(** Quotation marks do not keep a text together in app_args, and a path with a blank
    is taken apart. In extra_args they keep the text together but are handed on with
    it; one that is not closed makes the submit fail. *)
Definition s_none : specs := mkSpecs None None None None None None.
Theorem C80_quotes_refuted :
  runline Custom (T "mpiexec") s_none (T "app") (Some (T "--title 'a b'")) [] = Ok [T "mpiexec"; T "app"; T "--title"; T "'a"; T "b'"] /\
  runline Custom (T "mpiexec") s_none (app_cmd (T "python") (T "/my apps/sim.x") []) None [] = Ok [T "mpiexec"; T "/my"; T "apps/sim.x"] /\
  runline Custom (T "mpiexec") (mkSpecs None None None (Some (T "--title 'a b'")) None None) (T "app") None [] = Ok [T "mpiexec"; T "--title"; T "'a b'"; T "app"] /\
  runline Custom (T "mpiexec") (mkSpecs None None None (Some (T "--title 'a b")) None None) (T "app") None [] = Err EValue.
Proof. repeat split. Qed.
Print Assumptions C80_quotes_refuted.
(** MS-MPI is never told the hosts: the line is the same whatever they are. *)
Theorem C80_msmpi_hosts_refuted : forall s h cmd args d,
  runline MsMpi (T "mpiexec") (mkSpecs (s_procs s) (s_nodes s) (s_ppn s) (s_extra s) (s_machinefile s) h) cmd args d = runline MsMpi (T "mpiexec") s cmd args d.
Proof. reflexivity. Qed.
Print Assumptions C80_msmpi_hosts_refuted.

(** ** The script for the environment *)

Definition newline : ascii := ascii_of_nat 10.
Lemma split_more c a : forall b, split c (a ++ c :: b) = split c a ++ split c b.
Proof.
  induction a as [|d a IH]; intros b; cbn [app split].
  - unfold ceqb. now rewrite Ascii.eqb_refl.
  - destruct (ceqb d c); [now rewrite IH|]. rewrite IH. destruct (split c a) as [|p ps] eqn:E; [|reflexivity]. destruct a as [|e a]; cbn in E; [discriminate|]. destruct (ceqb e c); [discriminate|]. destruct (split c a); discriminate.
Qed.
(** If the script ends with the end of a line, then the file that is run has the
    script's lines and, on a line of its own, the run line. *)
Theorem C80_env_script : forall script line, (forall a, In a line -> ~ In newline a) ->
  split newline (env_script_file (script ++ [newline]) line) = split newline script ++ [join " " line].
Proof.
  intros script line H. unfold env_script_file. rewrite <- app_assoc. cbn [app]. rewrite split_more. f_equal. apply split_none.
  induction line as [|a line IH]; cbn [join]; [intros []|]. destruct line as [|b line]; [apply H; now left|].
  rewrite in_app_iff. intros [X|[X|X]]; [exact (H a (or_introl eq_refl) X)|discriminate|]. revert X. apply IH. intros x Hx. apply H. now right.
Qed.
Print Assumptions C80_env_script.
Example C80_env_script_applies : split newline (env_script_file (T "#!/bin/bash" ++ [newline] ++ T "module load x" ++ [newline]) [T "srun"; T "app"]) = [T "#!/bin/bash"; T "module load x"; T "srun app"].
Proof. reflexivity. Qed.
(** Otherwise the run line becomes part of the script's last line. *)
Theorem C80_script_end_refuted : split newline (env_script_file (T "#!/bin/bash" ++ [newline] ++ T "export A=1") [T "srun"; T "app"]) = [T "#!/bin/bash"; T "export A=1srun app"].
Proof. reflexivity. Qed.
Print Assumptions C80_script_end_refuted.

(** ** The environment *)

Definition worker_of (x : estep) : nat := match x with SetEnv w _ => w | Start w => w end.
(** how many programs are started *)
Definition starts (l : list estep) : nat := countb (fun x => match x with Start _ => true | _ => false end) l.
Fixpoint final (shared : bool) (l : list estep) (e : nat -> environ) : nat -> environ :=
  match l with
  | [] => e
  | SetEnv w task :: l => let i := env_of shared w in final shared l (fun j => if j =? i then implement_env (e i) task else e j)
  | Start w :: l => final shared l e
  end.
Lemma runs_app sh a : forall b e, runs sh (a ++ b) e = runs sh a e ++ runs sh b (final sh a e).
Proof. induction a as [|[w t|w] a IH]; intros b e; cbn [app runs final]; auto. now rewrite IH. Qed.
Lemma runs_length sh a : forall e, length (runs sh a e) = starts a.
Proof. induction a as [|[w t|w] a IH]; intros e; cbn [runs]; unfold starts, countb in *; cbn [filter]; auto. cbn [length]. now rewrite IH. Qed.
Lemma final_other b w : forall e, (forall x, In x b -> worker_of x <> w) -> final false b e w = e w.
Proof.
  induction b as [|[v t|v] b IH]; intros e H; cbn [final]; auto.
  - rewrite IH by (intros x Hx; apply H; now right). cbn [env_of]. destruct (Nat.eqb_spec w v) as [<-|]; auto. now destruct (H _ (or_introl eq_refl)).
  - apply IH. intros x Hx. apply H. now right.
Qed.
Lemma implement_keeps task : forall e k, ~ In k (map fst task) -> implement_env e task k = e k.
Proof.
  induction task as [|[k' v] task IH]; intros e k H; cbn; auto. cbn in H. unfold implement_env in IH. rewrite IH by tauto. unfold set_var. cbn [fst snd]. destruct (teqb_spec k k') as [->|]; auto. now destruct H; left.
Qed.
Lemma implement_sets task : forall e k v, NoDup (map fst task) -> In (k, v) task -> implement_env e task k = Some v.
Proof.
  induction task as [|[k' v'] task IH]; intros e k v ND H; [destruct H|]. cbn in ND. inversion_clear ND as [|? ? N1 N2]. destruct H as [H|H].
  - injection H as -> ->. change (implement_env e ((k, v) :: task)) with (implement_env (set_var e (k, v)) task). rewrite implement_keeps by exact N1. unfold set_var. cbn. now rewrite teqb_refl.
  - change (implement_env e ((k', v') :: task)) with (implement_env (set_var e (k', v')) task). now apply IH.
Qed.
Lemma final_unset sh b w k : forall e, (forall v t, In (SetEnv v t) b -> env_of sh v = env_of sh w -> ~ In k (map fst t)) -> final sh b e (env_of sh w) k = e (env_of sh w) k.
Proof.
  induction b as [|[v t|v] b IH]; intros e H; cbn [final]; auto.
  - rewrite IH by (intros v' t' Ht; apply H; now right). destruct (Nat.eqb_spec (env_of sh w) (env_of sh v)) as [E|]; auto. rewrite E. apply implement_keeps. apply (H v t); [now left|now symmetry].
  - apply IH. intros v' t' Ht. apply H. now right.
Qed.

(** If workers are processes of their own: whatever the other workers do in between,
    the program that a task starts has every variable of the task, with its value.
    A variable that neither this task nor an earlier one of the same worker sets is as
    in the worker's environment at the beginning. *)
Theorem C80_environment : forall before w task between after e, NoDup (map fst task) -> (forall x, In x between -> worker_of x <> w) ->
  exists env, nth_error (runs false (before ++ SetEnv w task :: between ++ Start w :: after) e) (starts before + starts between) = Some (w, env) /\
    (forall k v, In (k, v) task -> env k = Some v) /\
    (forall k, ~ In k (map fst task) -> (forall t, In (SetEnv w t) before -> ~ In k (map fst t)) -> env k = e w k).
Proof.
  intros before w task between after e ND HB. set (e1 := final false before e). set (e2 := fun j => if j =? w then implement_env (e1 w) task else e1 j).
  exists (final false between e2 w). split; [|].
  - rewrite runs_app. cbn [runs env_of]. fold e1. fold e2. rewrite runs_app. cbn [runs env_of].
    rewrite nth_error_app2; [|rewrite runs_length; lia]. rewrite runs_length. rewrite nth_error_app2; [|rewrite runs_length; lia]. rewrite runs_length.
    replace (starts before + starts between - starts before - starts between) with 0 by lia. reflexivity.
  - rewrite (final_other between w e2 HB). unfold e2. rewrite Nat.eqb_refl. split.
    + intros k v H. now apply implement_sets.
    + intros k N H. rewrite implement_keeps by exact N. apply (final_unset false before w k e). cbn [env_of]. intros v t Ht ->. exact (H t Ht).
Qed.
Print Assumptions C80_environment.
Definition cuda : text := T "CUDA_VISIBLE_DEVICES".
Definition no_env : nat -> environ := fun _ _ => None.
Example C80_environment_applies : map (fun r => (fst r, snd r cuda)) (runs false [SetEnv 1 [(cuda, T "0,1")]; SetEnv 2 [(cuda, T "2,3")]; Start 1; Start 2] no_env) = [(1, Some (T "0,1")); (2, Some (T "2,3"))].
Proof. reflexivity. Qed.

(** A variable is not taken back: a task that asks for no GPUs sees those of the
    worker's earlier task. *)
Theorem C80_leftover_refuted : map (fun r => snd r cuda) (runs false [SetEnv 1 [(cuda, T "0,1")]; Start 1; SetEnv 1 []; Start 1] no_env) = [Some (T "0,1"); Some (T "0,1")].
Proof. reflexivity. Qed.
Print Assumptions C80_leftover_refuted.
(** Worker threads share their environment: a task may start with the GPUs of another
    worker's task. *)
Theorem C80_threads_refuted : map (fun r => (fst r, snd r cuda)) (runs true [SetEnv 1 [(cuda, T "0,1")]; SetEnv 2 [(cuda, T "2,3")]; Start 1; Start 2] no_env) = [(1, Some (T "2,3")); (2, Some (T "2,3"))].
Proof. reflexivity. Qed.
Print Assumptions C80_threads_refuted.
