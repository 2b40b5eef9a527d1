(** C33: row labels and the directories named after them. *)
From Coq Require Import Ascii String.
From Verif Require Import Base TextModel TextProofs LabelModel LabelSpec LabelProofs.
Local Notation length := List.length.
Local Open Scope nat_scope.

(** Reading a label, padded to any width, gives the rows in the order given. *)
Theorem C33_reads_back pad rows : rows <> [] -> read_label (rjust pad (digit 0) (extract_H_ranges rows)) = rows.
Proof. intros H. unfold rjust. now apply reads_back. Qed.
Print Assumptions C33_reads_back.
Example C33_reads_back_example : rjust 4 (digit 0) (extract_H_ranges [3; 4; 5; 9]) = T "3-5_9" /\ rjust 4 (digit 0) (extract_H_ranges [7]) = T "0007"
  /\ rjust 4 (digit 0) (extract_H_ranges [1; 2]) = T "01-2" /\ extract_H_ranges [5; 4; 4; 0; 1] = T "5_4_4_0-1" /\ read_label (T "01-2") = [1; 2].
Proof. vm_compute. repeat split. Qed.

(** Different rows have different labels, whatever the widths. *)
Theorem C33_labels_differ pad pad' rows rows' : rows <> [] -> rows' <> [] -> rows <> rows' ->
  rjust pad (digit 0) (extract_H_ranges rows) <> rjust pad' (digit 0) (extract_H_ranges rows').
Proof. intros H H' Hd E. apply Hd. rewrite <- (C33_reads_back pad rows H), <- (C33_reads_back pad' rows' H'). now rewrite E. Qed.
Print Assumptions C33_labels_differ.

(** A single row is written as its number, without separators. *)
Theorem C33_single_row r : extract_H_ranges [r] = dec r /\ forallb is_digit (extract_H_ranges [r]) = true /\ number (extract_H_ranges [r]) = r.
Proof. split; [reflexivity|]. split; [apply dec_digits|apply number_dec]. Qed.
Print Assumptions C33_single_row.

Lemma last_name (p q : path) x y : p ++ [x] = q ++ [y] -> x = y.
Proof. intros E. apply app_inj_tail in E. tauto. Qed.

(** Simulations of different rows run in different directories, whichever workers
    run them, if sim_dirs_make is set. *)
Theorem C33_sim_dirs_differ d w w' rows rows' i i' : d_sim_make d = true -> rows <> [] -> rows' <> [] -> rows <> rows' ->
  calc_dir d w true rows i <> calc_dir d w' true rows' i'.
Proof.
  intros Hs H H' Hd E. unfold calc_dir in E. rewrite Hs in E. cbn [negb] in E. rewrite andb_false_r in E. cbn [andb] in E.
  apply last_name in E. apply app_inv_head in E. exact (C33_labels_differ _ _ _ _ H H' Hd E).
Qed.
Print Assumptions C33_sim_dirs_differ.
Example C33_sim_dirs_example : calc_dir (mkDirs true true false 4) 2 true [3; 4] 7 = [T "worker2"; T "sim03-4"] /\ calc_dir (mkDirs false true true 4) 2 true [12] 1 = [T "sim0012"]
  /\ calc_dir (mkDirs false true true 4) 2 false [] 1 = [T "gen0001"] /\ calc_dir (mkDirs true false false 4) 3 true [1] 1 = [T "worker3"].
Proof. vm_compute. repeat split. Qed.

(** A simulation and a generator never run in one directory of their own. *)
Theorem C33_sim_gen_differ d w w' rows rows' i i' : d_sim_make d = true -> d_gen_make d = true -> calc_dir d w true rows i <> calc_dir d w' false rows' i'.
Proof.
  intros Hs Hg E. unfold calc_dir in E. rewrite Hs, Hg in E. cbn [negb] in E. rewrite andb_false_r in E. apply last_name in E. discriminate.
Qed.
Print Assumptions C33_sim_gen_differ.

(** With use_worker_dirs the directories of different workers differ: neither is
    the other or inside it. *)
Theorem C33_worker_dirs_differ d w w' s s' rows rows' i i' : d_worker_dirs d = true -> w <> w' ->
  forall p q, calc_dir d w s rows i ++ p <> calc_dir d w' s' rows' i' ++ q.
Proof.
  intros Hw Hd p q E. assert (X : forall w s rows i p, exists r, calc_dir d w s rows i ++ p = worker_name w :: r).
  { clear -Hw. intros w s rows i p. unfold calc_dir. rewrite Hw. cbn [andb]. destruct s; cbn; destruct (negb _ && negb _); try destruct (d_sim_make d); try destruct (d_gen_make d); cbn; eauto. }
  destruct (X w s rows i p) as (r & E1). destruct (X w' s' rows' i' q) as (r' & E2). rewrite E1, E2 in E. injection E as E _. apply Hd, dec_inj. exact E.
Qed.
Print Assumptions C33_worker_dirs_differ.

(** A worker's generator calls run in different directories ... *)
Theorem C33_gen_dirs_differ d w rows rows' i i' : d_gen_make d = true -> i <> i' -> calc_dir d w false rows i <> calc_dir d w false rows' i'.
Proof.
  intros Hg Hd E. unfold calc_dir in E. rewrite Hg in E. cbn [negb] in E. rewrite andb_false_r in E. apply last_name in E. apply app_inv_head in E. apply Hd.
  rewrite <- (number_dec i), <- (number_dec i'). unfold rjust in E. rewrite <- (number_zeros (d_pad d - length (dec i))), <- (number_zeros (d_pad d - length (dec i')) (dec i')). now rewrite E.
Qed.
Print Assumptions C33_gen_dirs_differ.

(** ... but without use_worker_dirs the generators of two workers share theirs,
    because each worker counts its own calls. *)
Theorem C33_gen_dirs_shared_refuted : exists d w w' i, d_gen_make d = true /\ w <> w' /\ calc_dir d w false [] i = calc_dir d w' false [] i.
Proof. exists (mkDirs false true true 4), 1, 2, 1. split; [reflexivity|]. split; [discriminate|reflexivity]. Qed.
Print Assumptions C33_gen_dirs_shared_refuted.
