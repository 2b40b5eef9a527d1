From Coq Require Import Ascii String.
From Verif Require Import Base BaseLemmas TextModel TextProofs LabelModel LabelSpec.
Local Notation length := List.length.
Local Open Scope nat_scope.

Definition dash : ascii := "-"%char.
Definition under : ascii := "_"%char.
Lemma no_dash t : forallb is_digit t = true -> ~ In dash t.
Proof. apply digits_not. reflexivity. Qed.
Lemma no_under t : forallb is_digit t = true -> ~ In under t.
Proof. apply digits_not. reflexivity. Qed.

(** A run of consecutive numbers. *)
Definition run (g : list nat) : Prop := exists a n, g = seq a (S n).

Lemma range_reads k g : run g -> read_part (repeat (digit 0) k ++ range_text g) = g.
Proof.
  intros (a & n & ->). unfold range_text, read_part. rewrite seq_length. cbn [seq hd]. destruct n as [|n].
  - cbn [Nat.ltb Nat.leb]. rewrite split_none; [now rewrite number_zeros, number_dec|]. apply no_dash. rewrite zeros_digits. apply dec_digits.
  - replace (1 <? S (S n)) with true by (symmetry; apply Nat.ltb_lt; lia). change (T "-") with [dash]. rewrite app_assoc. cbn [app].
    replace (last (a :: seq (S a) (S n)) 0) with (a + S n).
    2:{ change (a :: seq (S a) (S n)) with (seq a (S (S n))). rewrite seq_S, last_last. reflexivity. }
    rewrite split_app by (apply no_dash; rewrite zeros_digits; apply dec_digits). rewrite split_none by (apply no_dash, dec_digits).
    rewrite number_zeros, !number_dec. replace (a + S n + 1 - a) with (S (S n)) by lia. reflexivity.
Qed.

Lemma range_no_under g : ~ In under (range_text g).
Proof.
  unfold range_text. destruct (1 <? length g); [|apply no_under, dec_digits]. rewrite !in_app_iff. intros [H|[H|H]].
  - exact (no_under _ (dec_digits _) H).
  - destruct H as [H|[]]. discriminate.
  - exact (no_under _ (dec_digits _) H).
Qed.

(** groupby on index minus value gives runs. *)
Definition key (x : nat * nat) : Z := (Z.of_nat (fst x) - Z.of_nat (snd x))%Z.
Definition label_key := key.

Lemma groupby_concat {A} (k : A -> Z) l : concat (groupby k l) = l /\ forall g, In g (groupby k l) -> g <> [].
Proof.
  induction l as [|x l [IH1 IH2]]; cbn; [split; [reflexivity|intros g []]|]. destruct (groupby k l) as [|[|y g] gs] eqn:E.
  - cbn in IH1. subst l. split; [reflexivity|]. intros g [<-|[]]. discriminate.
  - exfalso. apply (IH2 []); [now left|reflexivity].
  - destruct (Z.eqb (k x) (k y)).
    + split; [cbn in *; now rewrite IH1|]. intros h [<-|H]; [discriminate|]. apply IH2. now right.
    + split; [cbn in *; now rewrite IH1|]. intros h [<-|H]; [discriminate|]. now apply IH2.
Qed.

Lemma groupby_runs l : forall i, forall g, In g (groupby key (combine (seq i (length l)) l)) -> exists j, exists n, map fst g = seq j (S n) /\ map snd g = seq (hd 0 (map snd g)) (S n).
Proof.
  assert (Hd : forall l i x g gs, groupby key (combine (seq i (length l)) l) = (x :: g) :: gs -> exists a l', l = a :: l' /\ x = (i, a)).
  { intros l0 i x g gs E. destruct (groupby_concat key (combine (seq i (length l0)) l0)) as (C & _). rewrite E in C. destruct l0 as [|a l0]; cbn in C; [discriminate|]. injection C as -> _. eauto. }
  induction l as [|a l IH]; intros i g Hg; [destruct Hg|]. cbn [length seq combine groupby] in Hg.
  destruct (groupby key (combine (seq (S i) (length l)) l)) as [|[|y g'] gs] eqn:E.
  - destruct Hg as [<-|[]]. exists i, 0. split; reflexivity.
  - exfalso. destruct (groupby_concat key (combine (seq (S i) (length l)) l)) as (_ & H). rewrite E in H. apply (H []); [now left|reflexivity].
  - destruct (Hd _ _ _ _ _ E) as (b & l' & -> & ->). destruct (Z.eqb_spec (key (i, a)) (key (S i, b))) as [Ek|Ek].
    + destruct Hg as [<-|Hg]; [|apply (IH (S i)); rewrite E; now right]. destruct (IH (S i) ((S i, b) :: g')) as (j & n & H1 & H2); [rewrite E; now left|].
      cbn [map fst snd hd] in *. assert (j = S i) by (cbn in H1; congruence). subst j. unfold key in Ek. cbn [fst snd] in Ek. assert (b = S a) by lia. subst b.
      exists i, (S n). split; [rewrite H1; reflexivity|rewrite H2; reflexivity].
    + destruct Hg as [<-|Hg]; [exists i, 0; split; reflexivity|]. apply (IH (S i)). rewrite E. exact Hg.
Qed.

Lemma snd_concat {A B} (gs : list (list (A * B))) : concat (map (map snd) gs) = map snd (concat gs).
Proof. induction gs as [|g gs IH]; [reflexivity|]. cbn. now rewrite map_app, IH. Qed.
Lemma combine_snd {A} i (l : list A) : map snd (combine (seq i (length l)) l) = l.
Proof. revert i. induction l as [|x l IH]; intros i; [reflexivity|]. cbn. now rewrite IH. Qed.

Definition row_groups (rows : list nat) : list (list nat) := map (map snd) (groupby key (enumerate rows)).
Lemma row_groups_concat rows : concat (row_groups rows) = rows.
Proof. unfold row_groups. rewrite snd_concat. destruct (groupby_concat key (enumerate rows)) as (-> & _). apply combine_snd. Qed.
Lemma row_groups_run rows g : In g (row_groups rows) -> run g.
Proof.
  intros H. apply in_map_iff in H as (h & <- & Hh). destruct (groupby_runs rows 0 h Hh) as (j & n & _ & H2). exists (hd 0 (map snd h)), n. exact H2.
Qed.
Lemma label_join rows : rows <> [] -> extract_H_ranges rows = join under (map range_text (row_groups rows)) /\ row_groups rows <> [].
Proof.
  intros Hne. split.
  - unfold extract_H_ranges, row_groups. destruct rows as [|r [|r' rows]]; [congruence|reflexivity|]. rewrite map_map. reflexivity.
  - intros E. apply Hne. rewrite <- (row_groups_concat rows), E. reflexivity.
Qed.

Lemma reads_back k rows : rows <> [] -> read_label (repeat (digit 0) k ++ extract_H_ranges rows) = rows.
Proof.
  intros Hne. destruct (label_join rows Hne) as (E & Hg). rewrite E. rewrite <- (row_groups_concat rows) at 2.
  assert (Hr : forall g, In g (row_groups rows) -> run g) by apply row_groups_run. revert Hg Hr. generalize (row_groups rows). intros gs Hg Hr.
  assert (Ej : exists h, repeat (digit 0) k ++ join under (map range_text gs) = join under ((repeat (digit 0) k ++ range_text h) :: map range_text (tl gs)) /\ gs = h :: tl gs).
  { destruct gs as [|h gs]; [congruence|]. exists h. split; [|reflexivity]. cbn [map tl]. destruct gs as [|h' gs]; [reflexivity|]. cbn [map join]. now rewrite app_assoc. }
  destruct Ej as (h & Ej & Eh). rewrite Ej. unfold read_label. change "_"%char with under. rewrite split_join.
  - rewrite Eh. cbn [flat_map concat tl]. f_equal; [apply range_reads, Hr; rewrite Eh; now left|].
    assert (Hr' : forall g, In g (tl gs) -> run g) by (intros g Hx; apply Hr; rewrite Eh; now right). clear - Hr'. induction (tl gs) as [|g l IH]; [reflexivity|]. cbn [map flat_map concat].
    rewrite IH by (intros; apply Hr'; now right). f_equal. apply (range_reads 0). apply Hr'. now left.
  - discriminate.
  - intros p [<-|Hp].
    + intros Hi. apply in_app_or in Hi as [Hi|Hi]; [apply repeat_spec in Hi; discriminate|exact (range_no_under _ Hi)].
    + apply in_map_iff in Hp as (g & <- & _). apply range_no_under.
Qed.
