(** C35: node lists; C41: the nodes left to tasks in dedicated mode. *)
From Coq Require Import Ascii String Sorted Permutation.
From Verif Require Import Base TextModel TextProofs EnvModel EnvSpec EnvProofs.
Local Notation length := List.length.
Local Open Scope nat_scope.

(** * C35: node lists are parsed completely *)

(** Slurm: every well-formed list gives exactly the nodes it denotes, as often as
    it denotes them, in sorted order. *)
Theorem C35_slurm l : (forall h, In h l -> good_host h) ->
  exists r, slurm_nodelist (show l) = Ok r /\ Permutation r (flat_map names l) /\ Sorted text_le r.
Proof.
  intros H. exists (sort tleb (flat_map names l)). split; [now apply slurm_ok|]. split; [apply sort_perm|].
  assert (S := sort_sorted tleb tleb_total (flat_map names l)). induction S as [|x r S IH Hx]; constructor; [exact IH|]. destruct Hx; constructor. now apply tleb_le.
Qed.
Print Assumptions C35_slurm.
Definition frontier := [Plain (T "login1"); Group (T "nid") [Range (T "098") (T "101"); One (T "007")] (T "-ib")].
Example C35_slurm_example : show frontier = T "login1,nid[098-101,007]-ib" /\ (forall h, In h frontier -> good_host h)
  /\ slurm_nodelist (show frontier) = Ok [T "login1"; T "nid007-ib"; T "nid098-ib"; T "nid099-ib"; T "nid100-ib"; T "nid101-ib"].
Proof.
  split; [reflexivity|]. split; [|reflexivity].
  assert (P : forall t, forallb (fun c => negb (ceqb c comma || ceqb c lbr || ceqb c rbr)) t = true -> plain t).
  { intros t Ht. rewrite forallb_forall in Ht. repeat split; intros Hi; apply Ht in Hi; discriminate. }
  intros h [<-|[<-|[]]]; cbn [good_host].
  - split; [apply P; reflexivity|discriminate].
  - split; [apply P; reflexivity|]. split; [apply P; reflexivity|]. split; [discriminate|]. intros r [<-|[<-|[]]]; cbn; repeat split; discriminate.
Qed.

(** The members of a range "a-b": every number between the two ends, in decimal,
    with leading zeros exactly to fill the width of "a". *)
Theorem C35_range_members a b x : numeral a -> In x (written (Range a b)) <->
  numeral x /\ Nat.min (number a) (number b) <= number x <= Nat.max (number a) (number b) /\
  length a <= length x /\ (length a < length x -> hd_error x <> Some (digit 0)).
Proof. intros (Ha & _). apply written_iff. destruct a; [congruence|cbn; lia]. Qed.
Print Assumptions C35_range_members.
(** ... each once *)
Theorem C35_range_once a b : NoDup (written (Range a b)).
Proof.
  cbn [written]. apply FinFun.Injective_map_NoDup; [|apply seq_NoDup]. intros m n E. rewrite <- (number_zfill (length a) m), <- (number_zfill (length a) n). now rewrite E.
Qed.
Print Assumptions C35_range_once.
Example C35_range_example : written (Range (T "08") (T "11")) = [T "08"; T "09"; T "10"; T "11"] /\ written (Range (T "9") (T "10")) = [T "9"; T "10"].
Proof. split; reflexivity. Qed.

(** Cobalt: the numbers denoted, in increasing order. *)
Theorem C35_cobalt ids : ids <> [] -> (forall r, In r ids -> good_range r) ->
  exists ns, cobalt_nodelist (show_ids ids) = Ok (map dec ns) /\ Permutation ns (flat_map values ids) /\ Sorted le ns.
Proof.
  intros Hne H. rewrite (cobalt_ok ids Hne H). set (vs := flat_map values ids). exists (map number (sort (fun x y => number x <=? number y) (map dec vs))).
  assert (P := sort_perm (fun x y => number x <=? number y) (map dec vs)). set (r := sort _ _) in *.
  assert (Hr : forall x, In x r -> dec (number x) = x). { intros x Hx. apply (Permutation_in _ P) in Hx. apply in_map_iff in Hx as (n & <- & _). now rewrite number_dec. }
  split; [|split].
  - f_equal. rewrite map_map. symmetry. rewrite <- (map_id r) at 2. apply map_ext_in. exact Hr.
  - rewrite P, map_map. erewrite map_ext; [|intros n; apply number_dec]. now rewrite map_id.
  - assert (S := sort_sorted (fun x y => number x <=? number y) (fun a b => match Nat.le_ge_cases (number a) (number b) with or_introl h => or_introl (proj2 (Nat.leb_le _ _) h) | or_intror h => or_intror (proj2 (Nat.leb_le _ _) h) end) (map dec vs)). fold r in S. clear -S.
    induction S as [|x r S IH Hx]; cbn; constructor; [exact IH|]. destruct Hx; cbn; constructor. now apply Nat.leb_le.
Qed.
Print Assumptions C35_cobalt.
Example C35_cobalt_example : cobalt_nodelist (show_ids [Range (T "12") (T "9"); One (T "3")]) = Ok [T "3"; T "9"; T "10"; T "11"; T "12"].
Proof. reflexivity. Qed.

(** PBS: each line's short name, in the order of first appearance of the lines. *)
Theorem C35_pbs lines : exists r, first_appearance lines r /\ Forall2 short_of r (pbs_nodelist lines).
Proof.
  exists (unique lines). split; [apply unique_first|]. unfold pbs_nodelist, abbrev. induction (unique lines) as [|x r IH]; constructor; [apply split1_short|exact IH].
Qed.
Print Assumptions C35_pbs.
(** No node twice, if different lines have different short names. *)
Theorem C35_pbs_once lines : (forall x y s, In x lines -> In y lines -> short_of x s -> short_of y s -> x = y) -> NoDup (pbs_nodelist lines).
Proof.
  intros H. unfold pbs_nodelist, abbrev, unique. assert (Hi : forall x, In x (nubs [] lines) -> In x lines) by (intros x Hx; now apply nubs_In in Hx). assert (Hn := nubs_NoDup [] lines).
  induction Hn as [|x r Hx Hn IH]; cbn; constructor.
  - intros Hm. apply in_map_iff in Hm as (y & E & Hy). apply Hx. assert (x = y); [|congruence]. apply (H x y (fst (split1 dot x))); [apply Hi; now left|apply Hi; now right|apply split1_short|]. rewrite <- E. apply split1_short.
  - apply IH. intros y Hy. apply Hi. now right.
Qed.
Print Assumptions C35_pbs_once.
Example C35_pbs_example : pbs_nodelist [T "a.x"; T "b.x"; T "a.x"; T "c"] = [T "a"; T "b"; T "c"].
Proof. reflexivity. Qed.
(** Two nodes that differ after the first dot are listed as one node twice. *)
Theorem C35_pbs_once_refuted : exists lines, ~ NoDup (pbs_nodelist lines).
Proof. exists [T "a.x"; T "a.y"]. intros H. apply NoDup_cons_iff in H as (H & _). apply H. now left. Qed.
Print Assumptions C35_pbs_once_refuted.

(** LSF: the hosts in the order of first appearance, each once, without the
    batch nodes. *)
Theorem C35_lsf l : (forall w, In w l -> word w) ->
  exists r, first_appearance l r /\ kept (fun x => ~ mentions (T "batch") x) r (lsf_nodelist (join " " l)).
Proof.
  intros H. exists (unique l). split; [apply unique_first|]. unfold lsf_nodelist. rewrite words_join by exact H. apply kept_filter.
  intros x _. rewrite negb_true_iff. rewrite <- contains_spec. destruct (contains (T "batch") x); split; congruence.
Qed.
Print Assumptions C35_lsf.
Example C35_lsf_example : lsf_nodelist (T "batch5 h1 h1 a02 h1") = [T "h1"; T "a02"] /\ (forall w, In w [T "batch5"; T "h1"; T "h1"; T "a02"; T "h1"] -> word w)
  /\ join " " [T "batch5"; T "h1"; T "h1"; T "a02"; T "h1"] = T "batch5 h1 h1 a02 h1".
Proof.
  split; [reflexivity|]. split; [|reflexivity].
  assert (P : forall t, t <> [] -> forallb (fun c => negb (is_space c)) t = true -> word t). { intros t H1 H2. split; [exact H1|]. intros c Hc. rewrite forallb_forall in H2. apply H2 in Hc. now apply negb_true_iff. }
  intros w Hw. cbn [In] in Hw. repeat (destruct Hw as [<-|Hw]; [apply P; [discriminate|reflexivity]|]). destruct Hw.
Qed.

(** LSF short form: host and count alternate; the hosts in order, without the
    batch nodes. *)
Theorem C35_lsf_short (l : list (text * text)) : (forall h c, In (h, c) l -> word h /\ word c) ->
  kept (fun x => ~ mentions (T "batch") x) (map fst l) (lsf_short_nodelist (join " " (flat_map (fun p => [fst p; snd p]) l))).
Proof.
  intros H. unfold lsf_short_nodelist. rewrite words_join.
  - assert (E : pairs (flat_map (fun p => [fst p; snd p]) l) = l). { clear H. induction l as [|[a b] l IH]; [reflexivity|]. cbn. now rewrite IH. }
    rewrite E. clear. induction l as [|[a b] l IH]; [constructor|]. cbn [map filter fst]. destruct (contains (T "batch") a) eqn:Ec; cbn [negb].
    + apply kept_out; [intros Hm; apply Hm; now apply contains_spec|exact IH].
    + cbn [map fst]. apply kept_in; [intros Hm; apply contains_spec in Hm; congruence|exact IH].
  - intros w Hw. apply in_flat_map in Hw as ([h c] & Hp & Hw). destruct (H h c Hp). destruct Hw as [<-|[<-|[]]]; assumption.
Qed.
Print Assumptions C35_lsf_short.
Example C35_lsf_short_example : lsf_short_nodelist (T "batch5 1 h1 42 a02 42") = [T "h1"; T "a02"].
Proof. reflexivity. Qed.

(** A node file replaces the scheduler's list; its lines are the nodes. Without
    both, this host is the only node. *)
Theorem C35_node_file lines env host : lines <> [] -> (forall x, In x lines -> word x) -> global_nodelist (Some lines) env host = Ok lines.
Proof.
  intros Hne H. unfold global_nodelist. assert (E : map rstrip lines = lines).
  { rewrite <- (map_id lines) at 2. apply map_ext_in. intros x Hx. destruct (H x Hx) as (_ & Hs). clear -Hs. induction x as [|c x IH]; [reflexivity|]. cbn. rewrite IH by (intros d Hd; apply Hs; now right).
    destruct x; [|reflexivity]. now rewrite (Hs c) by now left. }
  rewrite E. destruct lines; [congruence|reflexivity].
Qed.
Print Assumptions C35_node_file.
Theorem C35_no_file env host : exists l, global_nodelist None env host = Ok l /\ (env = [] -> l = [host]) /\ (env <> [] -> l = env).
Proof. destruct env as [|x env]; cbn; eexists; repeat split; congruence. Qed.
Print Assumptions C35_no_file.

(** A name with two bracketed groups is a legal Slurm list, but only the first
    group is expanded. *)
Theorem C35_two_groups_refuted : slurm_nodelist (T "rack[1-2]node[1-4]") = Ok [T "rack1node[1-4]"; T "rack2node[1-4]"].
Proof. reflexivity. Qed.
Print Assumptions C35_two_groups_refuted.
(** A truncated list is not an error: "n[1-3" gives the nodes "1-3" and "n". *)
Theorem C35_truncated_refuted : slurm_nodelist (T "n[1-3") = Ok [T "1-3"; T "n"].
Proof. reflexivity. Qed.
Print Assumptions C35_truncated_refuted.
(** A blank line of a node file is a node without a name. *)
Theorem C35_blank_line_refuted : global_nodelist (Some [T "a"; []; T "b"]) [] (T "h") = Ok [T "a"; []; T "b"].
Proof. reflexivity. Qed.
Print Assumptions C35_blank_line_refuted.

(** * C41: dedicated mode *)

(** Full names in the node list: exactly the nodes running libEnsemble go. *)
Theorem C41_dedicated_full sched l libe : 1 < length l -> (exists x, In x l /\ In dot x) -> kept (fun x => ~ In x libe) l (add_comm_info sched true l libe).
Proof.
  intros Hl (x & Hx & Hd). assert (K := dedicated_spec sched l libe Hl). destruct (is_short l) eqn:E; [|exact K]. exfalso. exact (proj1 (is_short_spec l) E x Hx Hd).
Qed.
Print Assumptions C41_dedicated_full.
(** Short names in the node list of a scheduler (other than Cobalt): a node goes
    exactly if it is the short name of a libEnsemble node. *)
Theorem C41_dedicated_short l libe : 1 < length l -> (forall x, In x l -> ~ In dot x) ->
  kept (fun x => forall n, In n libe -> ~ short_of n x) l (add_comm_info OtherScheduler true l libe).
Proof.
  intros Hl Hs. assert (K := dedicated_spec OtherScheduler l libe Hl). rewrite (proj2 (is_short_spec l) Hs) in K. cbn [shortnames] in K. unfold abbrev in K. clear Hs Hl.
  assert (X : forall x, ~ In x (map (fun s => fst (split1 dot s)) libe) <-> forall n, In n libe -> ~ short_of n x).
  { intros x. split; [intros H n Hn Hx; apply H; apply in_map_iff; exists n; split; [now apply short_unique|exact Hn]|]. intros H Hi. apply in_map_iff in Hi as (n & E & Hn). apply (H n Hn). rewrite <- E. apply split1_short. }
  induction K; [constructor|apply kept_in|apply kept_out]; auto; now rewrite <- X.
Qed.
Print Assumptions C41_dedicated_short.
(** Cobalt lists node numbers; host nid00017 is node 17. *)
Theorem C41_dedicated_cobalt l (libe : list (nat * nat)) : 1 < length l -> (forall n k, In (n, k) libe -> n <> 0) ->
  kept (fun x => forall n k, In (n, k) libe -> x <> dec n) (map dec l) (add_comm_info Cobalt true (map dec l) (map (fun p => T "nid" ++ repeat (digit 0) (snd p) ++ dec (fst p)) libe)).
Proof.
  intros Hl Hz. assert (K := dedicated_spec Cobalt (map dec l) (map (fun p => T "nid" ++ repeat (digit 0) (snd p) ++ dec (fst p)) libe) ltac:(rewrite map_length; exact Hl)).
  replace (is_short (map dec l)) with true in K. 2:{ symmetry. apply is_short_spec. intros x Hx. apply in_map_iff in Hx as (n & <- & _). apply digits_not; [reflexivity|apply dec_digits]. }
  cbn [shortnames] in K. assert (E : cobalt_abbrev (map (fun p => T "nid" ++ repeat (digit 0) (snd p) ++ dec (fst p)) libe) = map (fun p => dec (fst p)) libe).
  { clear -Hz. induction libe as [|[n k] libe IH]; [reflexivity|]. cbn [map fst snd]. change (cobalt_abbrev (?x :: ?y)) with (cobalt_abbrev [x] ++ cobalt_abbrev y). rewrite cobalt_host by (apply (Hz n k); now left). rewrite IH; [reflexivity|]. intros m j Hm. apply (Hz m j). now right. }
  rewrite E in K. clear -K. revert K. generalize (map dec l). intros L. generalize (add_comm_info Cobalt true L (map (fun p => T "nid" ++ repeat (digit 0) (snd p) ++ dec (fst p)) libe)). intros R K.
  assert (X : forall x, ~ In x (map (fun p => dec (fst p)) libe) <-> forall n k, In (n, k) libe -> x <> dec n).
  { intros x. split; [intros H n k Hn ->; apply H; apply in_map_iff; exists (n, k); auto|]. intros H Hi. apply in_map_iff in Hi as ([n k] & <- & Hn). exact (H n k Hn eq_refl). }
  induction K; [constructor|apply kept_in|apply kept_out]; auto; now rewrite <- X.
Qed.
Print Assumptions C41_dedicated_cobalt.
(** Otherwise nothing goes. *)
Theorem C41_shared sched l libe : add_comm_info sched false l libe = l.
Proof. unfold add_comm_info. destruct (filter _ l); reflexivity. Qed.
Print Assumptions C41_shared.
(** A single node is never removed, also in dedicated mode. *)
Theorem C41_single sched x libe : add_comm_info sched true [x] libe = [x].
Proof. unfold add_comm_info. destruct (filter _ [x]); reflexivity. Qed.
Print Assumptions C41_single.
Example C41_dedicated_example : add_comm_info OtherScheduler true [T "a"; T "b"; T "a"; T "c"] [T "a.x"] = [T "b"; T "c"]
  /\ add_comm_info Cobalt true [T "17"; T "18"] [T "nid00017"] = [T "18"] /\ add_comm_info NoScheduler true [T "a.x"; T "b.x"] [T "b.x"; T "c.x"] = [T "a.x"].
Proof. repeat split. Qed.

(** Without a scheduler, short names of a node file do not match the host's full
    name; full names never match a short host name; node 0 of Cobalt abbreviates
    to the empty name. In each case the libEnsemble node stays. *)
Theorem C41_node_file_refuted : add_comm_info NoScheduler true [T "a"; T "b"] [T "a.x"] = [T "a"; T "b"].
Proof. reflexivity. Qed.
Print Assumptions C41_node_file_refuted.
Theorem C41_full_names_refuted : add_comm_info OtherScheduler true [T "a.x"; T "b.x"] [T "a"] = [T "a.x"; T "b.x"].
Proof. reflexivity. Qed.
Print Assumptions C41_full_names_refuted.
Theorem C41_node_zero_refuted : add_comm_info Cobalt true [T "0"; T "1"] [T "nid00000"] = [T "0"; T "1"].
Proof. reflexivity. Qed.
Print Assumptions C41_node_zero_refuted.
