From Coq Require Import Ascii String Sorted Permutation Decimal DecimalNat DecimalFacts.
From Verif Require Import Base BaseLemmas TextModel TextProofs EnvModel EnvSpec.
Local Notation length := List.length.
Local Open Scope nat_scope.

(** ** Decimal writing *)
Fixpoint to_uint (t : text) : Decimal.uint :=
  match t with
  | [] => Nil
  | c :: t' => match digit_of c with
               | 0 => D0 (to_uint t') | 1 => D1 (to_uint t') | 2 => D2 (to_uint t') | 3 => D3 (to_uint t') | 4 => D4 (to_uint t')
               | 5 => D5 (to_uint t') | 6 => D6 (to_uint t') | 7 => D7 (to_uint t') | 8 => D8 (to_uint t') | _ => D9 (to_uint t')
               end
  end.
Lemma is_digit_inv c : is_digit c = true -> exists d, d < 10 /\ c = digit d.
Proof.
  unfold is_digit. intros H. apply andb_true_iff in H as (H1 & H2). apply Nat.leb_le in H1, H2. exists (nat_of_ascii c - 48). split; [lia|].
  unfold digit. replace (48 + (nat_of_ascii c - 48)) with (nat_of_ascii c) by lia. symmetry. apply ascii_nat_embedding.
Qed.
Lemma chars_to_uint t : forallb is_digit t = true -> chars (to_uint t) = t.
Proof.
  induction t as [|c t IH]; intros H; [reflexivity|]. cbn [forallb] in H. apply andb_true_iff in H as (Hc & Ht). apply is_digit_inv in Hc as (d & Hd & ->).
  cbn [to_uint]. rewrite digit_val by exact Hd. do 10 (destruct d as [|d]; [cbn [chars]; now rewrite IH|]). lia.
Qed.
Lemma nzhead_chars u : exists k, chars u = repeat (digit 0) k ++ chars (nzhead u).
Proof. induction u; try (exists 0; reflexivity). destruct IHu as (k & E). exists (S k). cbn [chars nzhead repeat app]. now rewrite E at 1. Qed.
Lemma unorm_chars u : u <> Nil -> exists k, chars u = repeat (digit 0) k ++ chars (unorm u).
Proof.
  intros H. destruct (nzhead_chars u) as (k & E). unfold unorm. destruct (nzhead u) eqn:En; try (exists k; exact E).
  destruct k as [|k]; [cbn in E; destruct u; cbn in E; congruence|]. exists k. rewrite E. cbn [chars]. rewrite app_nil_r. cbn [repeat]. now rewrite repeat_cons.
Qed.
Lemma number_uint u : number (chars u) = Nat.of_uint u.
Proof. unfold number. rewrite number_chars. reflexivity. Qed.

(** A numeral is its value with leading zeros. *)
Lemma numeral_zfill t : numeral t -> zfill (length t) (dec (number t)) = t.
Proof.
  intros (Hne & Ht). assert (E := chars_to_uint t Ht). rewrite <- E at 2. rewrite number_uint. unfold dec. rewrite Unsigned.to_of.
  destruct (unorm_chars (to_uint t)) as (k & Ek); [intros En; rewrite En in E; cbn in E; congruence|].
  assert (Et : t = repeat (digit 0) k ++ chars (unorm (to_uint t))) by (rewrite <- Ek; congruence).
  assert (El : length t = k + length (chars (unorm (to_uint t)))) by (rewrite Et at 1; rewrite app_length, repeat_length; reflexivity).
  unfold zfill, rjust. rewrite El. replace (k + length (chars (unorm (to_uint t))) - length (chars (unorm (to_uint t)))) with k by lia. symmetry. exact Et.
Qed.

(** ** Ranges *)
Lemma int_numeral t : numeral t -> int_of t = Ok (number t).
Proof. intros (Hn & Hd). unfold int_of. destruct t; [congruence|]. now rewrite Hd. Qed.
Lemma numeral_no c t : is_digit c = false -> numeral t -> ~ In c t.
Proof. intros Hc (_ & Ht). now apply digits_not. Qed.

Definition bounds (r : idrange) : nat * nat * nat :=
  match r with
  | One t => (number t, number t + 1, length t)
  | Range a b => (Nat.min (number a) (number b), Nat.max (number a) (number b) + 1, length a)
  end.
Lemma range_split_ok r : good_range r -> range_split (show_range r) = Ok (bounds r).
Proof.
  destruct r as [t|a b]; cbn [good_range show_range bounds]; unfold range_split.
  - intros H. rewrite split1_none by (now apply numeral_no). rewrite int_numeral by exact H. cbn [bindr]. rewrite Nat.ltb_irrefl. reflexivity.
  - intros (Ha & Hb). rewrite split1_app by (now apply numeral_no). rewrite !int_numeral by assumption. cbn [bindr].
    destruct (Nat.ltb_spec (number b) (number a)); [rewrite Nat.min_r, Nat.max_l by lia|rewrite Nat.min_l, Nat.max_r by lia]; reflexivity.
Qed.
Lemma written_bounds r : good_range r -> written r = (let '(a, b, w) := bounds r in map (fun n => zfill w (dec n)) (seq a (b - a))).
Proof.
  destruct r as [t|a b]; cbn [good_range bounds written]; intros H; [|reflexivity].
  replace (number t + 1 - number t) with 1 by lia. cbn [seq map]. now rewrite numeral_zfill.
Qed.
Lemma values_bounds r : values r = (let '(a, b, w) := bounds r in seq a (b - a)).
Proof. destruct r as [t|a b]; cbn [bounds values]; [|reflexivity]. replace (number t + 1 - number t) with 1 by lia. reflexivity. Qed.

Lemma show_range_chars r c : good_range r -> is_digit c = false -> c <> minus -> ~ In c (show_range r).
Proof.
  destruct r as [t|a b]; cbn [good_range show_range]; intros H Hc Hm; [now apply numeral_no|]. destruct H as (Ha & Hb). rewrite in_app_iff. cbn. intros [H|[H|H]].
  - exact (numeral_no _ _ Hc Ha H).
  - congruence.
  - exact (numeral_no _ _ Hc Hb H).
Qed.
Lemma show_ids_split ids : ids <> [] -> (forall r, In r ids -> good_range r) -> split comma (show_ids ids) = map show_range ids.
Proof.
  intros Hne H. unfold show_ids. apply split_join; [destruct ids; [congruence|discriminate]|]. intros p Hp. apply in_map_iff in Hp as (r & <- & Hr). apply show_range_chars; [auto|reflexivity|discriminate].
Qed.
Lemma join_chars c d l : c <> d -> (forall p, In p l -> ~ In c p) -> ~ In c (join d l).
Proof.
  intros Hcd. induction l as [|p l IH]; intros H; [intros []|]. destruct l as [|q l]; [apply H; now left|].
  change (join d (p :: q :: l)) with (p ++ d :: join d (q :: l)). rewrite in_app_iff. cbn [In]. intros [Hp|[Hp|Hp]]; [apply (H p); [now left|exact Hp]|congruence|].
  revert Hp. apply IH. intros r Hr. apply H. now right.
Qed.

Lemma mapr_ok {A B} (f : A -> res B) (g : A -> B) l : (forall x, In x l -> f x = Ok (g x)) -> mapr f l = Ok (map g l).
Proof. induction l as [|x l IH]; intros H; [reflexivity|]. cbn. rewrite H by (now left). cbn. rewrite IH; [reflexivity|]. intros y Hy. apply H. now right. Qed.
Lemma mapr_map {A B C} (f : B -> res C) (h : A -> B) l : mapr f (map h l) = mapr (fun x => f (h x)) l.
Proof. induction l as [|x l IH]; [reflexivity|]. cbn. now rewrite IH. Qed.

Lemma noderange_ok p ids s : ids <> [] -> (forall r, In r ids -> good_range r) -> noderange p (show_ids ids) s = Ok (names (Group p ids s)).
Proof.
  intros Hne H. unfold noderange. rewrite show_ids_split by assumption. rewrite mapr_map.
  rewrite (mapr_ok _ (fun r => map (fun x => p ++ x ++ s) (written r))).
  - cbn [bindr]. f_equal. cbn [names]. clear. induction ids as [|r l IH]; [reflexivity|]. cbn [map concat flat_map]. now rewrite map_app, IH.
  - intros r Hr. rewrite range_split_ok by auto. cbn [bindr]. rewrite written_bounds by auto. destruct (bounds r) as [[a b] w]. now rewrite map_map.
Qed.

(** ** Slurm *)
Lemma parts_plain t t' cur : plain t -> slurm_parts (t ++ t') cur false = slurm_parts t' (cur ++ t) false.
Proof.
  revert cur. induction t as [|c t IH]; intros cur (H1 & H2 & H3); cbn [app]; [now rewrite app_nil_r|]. cbn [slurm_parts].
  destruct (ceqb_spec c comma) as [->|]; [exfalso; apply H1; now left|]. destruct (ceqb_spec c lbr) as [->|]; [exfalso; apply H2; now left|].
  rewrite IH; [now rewrite <- app_assoc|]. repeat split; intros Hi; [apply H1|apply H2|apply H3]; now right.
Qed.
Lemma parts_inside t t' cur : ~ In rbr t -> slurm_parts (t ++ rbr :: t') cur true = slurm_parts t' (cur ++ t ++ [rbr]) false.
Proof.
  revert cur. induction t as [|c t IH]; intros cur H; cbn [app slurm_parts]; [reflexivity|].
  destruct (ceqb_spec c rbr) as [->|]; [exfalso; apply H; now left|]. cbn [negb]. rewrite IH; [now rewrite <- app_assoc|]. intros Hi. apply H. now right.
Qed.
Lemma show_ids_no ids c : (forall r, In r ids -> good_range r) -> is_digit c = false -> c <> minus -> c <> comma -> ~ In c (show_ids ids).
Proof. intros H H1 H2 H3. apply join_chars; [exact H3|]. intros p Hp. apply in_map_iff in Hp as (r & <- & Hr). apply show_range_chars; auto. Qed.

Lemma parts_host h t cur : good_host h -> slurm_parts (show_host h ++ t) cur false = slurm_parts t (cur ++ show_host h) false.
Proof.
  destruct h as [n|p ids s]; cbn [good_host show_host].
  - intros (H & _). now apply parts_plain.
  - intros (Hp & Hs & Hne & Hr). rewrite <- !app_assoc. rewrite parts_plain by exact Hp. cbn [app slurm_parts].
    change (ceqb lbr comma) with false. rewrite ceqb_refl. cbn match.
    assert (Hi : ~ In rbr (show_ids ids)) by (apply show_ids_no; [exact Hr|reflexivity|discriminate|discriminate]).
    assert (Ex : existsb (ceqb rbr) ((show_ids ids ++ rbr :: s) ++ t) = true).
    { apply existsb_exists. exists rbr. split; [|apply ceqb_refl]. apply in_or_app. left. apply in_or_app. right. now left. }
    rewrite Ex. rewrite <- app_assoc. cbn [app]. rewrite parts_inside by exact Hi. rewrite parts_plain by exact Hs. f_equal. repeat (rewrite <- !app_assoc; cbn [app]). reflexivity.
Qed.
Lemma show_host_nonempty h : good_host h -> show_host h <> [].
Proof. destruct h as [n|p ids s]; cbn; [now intros (_ & H)|]. intros _ E. apply app_eq_nil in E as (_ & E). discriminate. Qed.
Lemma flush_host h : good_host h -> flush (show_host h) = [show_host h].
Proof. intros H. apply show_host_nonempty in H. unfold flush. destruct (show_host h); [congruence|reflexivity]. Qed.

Lemma parts_show l : (forall h, In h l -> good_host h) -> slurm_parts (show l) [] false = map show_host l.
Proof.
  unfold show. induction l as [|h l IH]; intros H; [reflexivity|]. destruct l as [|h' l].
  - cbn [map join]. rewrite <- (app_nil_r (show_host h)) at 1. rewrite parts_host by (apply H; now left). cbn [app slurm_parts]. apply flush_host. apply H. now left.
  - cbn [map]. change (join comma (show_host h :: show_host h' :: map show_host l)) with (show_host h ++ comma :: join comma (map show_host (h' :: l))).
    rewrite parts_host by (apply H; now left). cbn [app slurm_parts]. rewrite ceqb_refl. rewrite flush_host by (apply H; now left). cbn [app]. f_equal. apply IH. intros g Hg. apply H. now right.
Qed.

Lemma slurm_part_ok h : good_host h -> slurm_part (show_host h) = Ok (names h).
Proof.
  destruct h as [n|p ids s]; cbn [good_host show_host]; unfold slurm_part.
  - intros ((_ & H & _) & _). now rewrite split1_none.
  - intros ((_ & Hp & _) & _ & Hne & Hr). rewrite split1_app by exact Hp. rewrite split1_app; [now apply noderange_ok|]. apply show_ids_no; [exact Hr|reflexivity|discriminate|discriminate].
Qed.

Lemma show_nil l : (forall h, In h l -> good_host h) -> show l = [] -> l = [].
Proof.
  intros H E. destruct l as [|h l]; [reflexivity|]. exfalso. apply (show_host_nonempty h); [apply H; now left|]. unfold show in E. destruct l; cbn in E; [exact E|]. now apply app_eq_nil in E as (E & _).
Qed.
Lemma slurm_ok l : (forall h, In h l -> good_host h) -> slurm_nodelist (show l) = Ok (sort tleb (flat_map names l)).
Proof.
  intros H. unfold slurm_nodelist. destruct (show l) as [|c t] eqn:E; [rewrite (show_nil l H E); reflexivity|]. rewrite <- E. rewrite parts_show by exact H. rewrite mapr_map.
  rewrite (mapr_ok _ names) by (intros; apply slurm_part_ok; auto). cbn [bindr]. now rewrite flat_map_concat_map.
Qed.

(** ** Cobalt *)
Lemma cobalt_ok ids : ids <> [] -> (forall r, In r ids -> good_range r) ->
  cobalt_nodelist (show_ids ids) = Ok (sort (fun x y => number x <=? number y) (map dec (flat_map values ids))).
Proof.
  intros Hne H. unfold cobalt_nodelist. destruct (show_ids ids) as [|c t] eqn:E.
  - exfalso. assert (Es := show_ids_split ids Hne H). rewrite E in Es. cbn in Es. destruct ids as [|r [|r' ids]]; cbn in Es; [discriminate| |discriminate].
    injection Es as Es. specialize (H r (or_introl eq_refl)). destruct r as [x|a b]; cbn in *; [destruct H; congruence|]. symmetry in Es. apply app_eq_nil in Es as (_ & Es). discriminate.
  - rewrite <- E, show_ids_split, mapr_map by assumption. rewrite (mapr_ok _ (fun r => map dec (values r))).
    + cbn [bindr]. f_equal. f_equal. clear. induction ids as [|r l IH]; [reflexivity|]. cbn [map concat flat_map]. now rewrite map_app, IH.
    + intros r Hr. rewrite range_split_ok by auto. cbn [bindr]. rewrite values_bounds. destruct (bounds r) as [[a b] w]. reflexivity.
Qed.

(** ** Words *)
Lemma words_app a t cur : (forall c, In c a -> is_space c = false) -> words (a ++ t) cur = words t (cur ++ a).
Proof.
  revert cur. induction a as [|c a IH]; intros cur H; cbn [app]; [now rewrite app_nil_r|]. cbn [words]. rewrite H by (now left). rewrite IH; [now rewrite <- app_assoc|]. intros d Hd. apply H. now right.
Qed.
Lemma words_join l : (forall w, In w l -> w <> [] /\ forall c, In c w -> is_space c = false) -> words (join " " l) [] = l.
Proof.
  assert (Fl : forall w : text, w <> [] -> flush w = [w]) by (intros [|? ?]; [congruence|reflexivity]).
  induction l as [|w l IH]; intros H; [reflexivity|]. destruct (H w (or_introl eq_refl)) as (H1 & H2). destruct l as [|w' l].
  - cbn [join]. rewrite <- (app_nil_r w) at 1. rewrite words_app by exact H2. cbn. now apply Fl.
  - change (join " " (w :: w' :: l)) with (w ++ " "%char :: join " " (w' :: l)). rewrite words_app by exact H2. cbn [app words]. change (is_space " ") with true. cbn match. rewrite Fl by exact H1. cbn [app]. f_equal. apply IH. intros v Hv. apply H. now right.
Qed.

(** ** Order of first appearance *)
Lemma unique_first l : first_appearance l (unique l).
Proof.
  split; [apply nubs_NoDup|]. intros l1 l2 ->. destruct (nubs_app [] l1 l2) as (r & E). exists (unique l1), r. split; [exact E|]. intros x. unfold unique. rewrite nubs_In. cbn. tauto.
Qed.
Lemma filter_first p l r : first_appearance l r -> first_appearance (filter p l) (filter p r).
Proof.
  intros (Hn & H). split; [now apply NoDup_filter|]. intros l1 l2 E.
  assert (Hs : exists m1 m2, l = m1 ++ m2 /\ filter p m1 = l1).
  { clear - E. revert l1 E. induction l as [|x l IH]; intros l1 E; cbn in E.
    - destruct l1; [|discriminate]. exists [], []. auto.
    - destruct (p x) eqn:Ep.
      + destruct l1 as [|y l1]; [exists [], (x :: l); auto|]. injection E as <- E. destruct (IH _ E) as (m1 & m2 & -> & <-). exists (x :: m1), m2. cbn. rewrite Ep. auto.
      + destruct (IH _ E) as (m1 & m2 & -> & <-). exists (x :: m1), m2. cbn. rewrite Ep. auto. }
  destruct Hs as (m1 & m2 & -> & <-). destruct (H m1 m2 eq_refl) as (r1 & r2 & -> & Hx). exists (filter p r1), (filter p r2). split; [apply filter_app|]. intros x. rewrite !filter_In. now rewrite Hx.
Qed.

Lemma tleb_le a b : tleb a b = true -> text_le a b.
Proof.
  revert b. induction a as [|c a IH]; intros [|d b] H; cbn [tleb] in H; [constructor|constructor|discriminate|].
  destruct (Nat.ltb_spec (nat_of_ascii c) (nat_of_ascii d)); [now constructor|]. destruct (Nat.ltb_spec (nat_of_ascii d) (nat_of_ascii c)); [discriminate|].
  assert (c = d). { rewrite <- (ascii_nat_embedding c), <- (ascii_nat_embedding d). f_equal. lia. } subst d. apply le_eq. auto.
Qed.

(** The members of a range, as they are written. *)
Lemma dec_no_zero n : n <> 0 -> hd_error (dec n) <> Some (digit 0).
Proof.
  intros Hn E. assert (Hu : Nat.to_uint n <> D0 Nil). { intros H. apply Hn. rewrite <- (Unsigned.of_to n), H. reflexivity. }
  assert (Hm : unorm (Nat.to_uint n) = Nat.to_uint n). { rewrite <- Unsigned.to_of. now rewrite Unsigned.of_to. }
  unfold dec in E. destruct (Nat.to_uint n) as [|u|u|u|u|u|u|u|u|u|u] eqn:Eu; cbn in E; try discriminate E. unfold unorm in Hm. cbn [nzhead] in Hm.
  assert (X : forall v w, nzhead v <> D0 w). { clear. induction v; cbn; intros w; try discriminate; apply IHv. }
  destruct (nzhead u) eqn:En; try discriminate Hm; [congruence|]. exact (X u _ En).
Qed.
Lemma zfill_numeral k n : numeral (zfill k (dec n)).
Proof.
  split; [|unfold zfill, rjust; rewrite zeros_digits; apply dec_digits]. intros E. apply (f_equal (@length _)) in E. rewrite zfill_length in E. cbn in E. assert (H := dec_nonempty n). destruct (dec n); [congruence|cbn in E; lia].
Qed.
Lemma number_zfill k n : number (zfill k (dec n)) = n.
Proof. unfold zfill. rewrite number_rjust. apply number_dec. Qed.
Lemma zfill_short k t : length t <= k -> length (zfill k t) = k.
Proof. rewrite zfill_length. lia. Qed.
Lemma zfill_long k t : k <= length t -> zfill k t = t.
Proof. intros H. unfold zfill, rjust. replace (k - length t) with 0 by lia. reflexivity. Qed.

Lemma written_iff a b x : 0 < length a -> In x (written (Range a b)) <->
  numeral x /\ Nat.min (number a) (number b) <= number x <= Nat.max (number a) (number b) /\ length a <= length x /\ (length a < length x -> hd_error x <> Some (digit 0)).
Proof.
  intros Ha. cbn [written]. rewrite in_map_iff. unfold between. split.
  - intros (n & <- & Hn). apply in_seq in Hn. rewrite number_zfill. split; [apply zfill_numeral|]. split; [lia|]. rewrite zfill_length. split; [lia|]. intros Hl.
    rewrite zfill_long by lia. destruct n as [|n]; [cbn in Hl; lia|]. now apply dec_no_zero.
  - intros (Hx & Hn & Hl & Hz). exists (number x). split; [|apply in_seq; lia]. destruct (Nat.eq_dec (length a) (length x)) as [->|Hne]; [now apply numeral_zfill|].
    assert (E := numeral_zfill x Hx). destruct (Nat.le_gt_cases (length x) (length (dec (number x)))) as [Hd|Hd].
    + rewrite zfill_long in E by lia. rewrite E. apply zfill_long. lia.
    + exfalso. apply (Hz ltac:(lia)). rewrite <- E. unfold zfill, rjust. destruct (length x - length (dec (number x))) eqn:Es; [lia|]. reflexivity.
Qed.

Lemma split1_short s : short_of s (fst (split1 dot s)).
Proof.
  unfold short_of. induction s as [|c s (IH1 & IH2)]; cbn [split1]; [split; [intros []|now left]|]. destruct (ceqb_spec c dot) as [->|Hc].
  - cbn. split; [intros []|]. right. exists s. reflexivity.
  - destruct (split1 dot s) as [a r]. cbn [fst] in *. split; [intros [H|H]; [congruence|now apply IH1]|]. destruct IH2 as [->|(rest & ->)]; [now left|right; exists rest; reflexivity].
Qed.
Lemma short_unique s x : short_of s x -> fst (split1 dot s) = x.
Proof.
  intros (H & [->|(rest & ->)]); [now rewrite split1_none|now rewrite split1_app].
Qed.
Lemma prefixb_spec p t : prefixb p t = true <-> exists v, t = p ++ v.
Proof.
  revert t. induction p as [|c p IH]; intros t; cbn [prefixb app]; [split; eauto|]. destruct t as [|d t]; [split; [discriminate|intros (v & E); discriminate]|].
  rewrite andb_true_iff, IH. split; [intros (H & v & ->); destruct (ceqb_spec c d); [subst; eauto|discriminate]|]. intros (v & E). injection E as -> ->. split; [apply ceqb_refl|eauto].
Qed.
Lemma contains_spec p t : contains p t = true <-> mentions p t.
Proof.
  unfold mentions. induction t as [|c t IH]; cbn [contains]; rewrite orb_true_iff, prefixb_spec.
  - split; [intros [(v & E)|]; [exists [], v; exact E|discriminate]|]. intros (u & v & E). left. destruct u; [eauto|discriminate].
  - rewrite IH. split.
    + intros [(v & E)|(u & v & ->)]; [exists [], v; exact E|exists (c :: u), v; reflexivity].
    + intros ([|d u] & v & E); [left; eauto|right]. injection E as -> ->. eauto.
Qed.
Lemma kept_filter (P : text -> Prop) f l : (forall x, In x l -> f x = true <-> P x) -> kept P l (filter f l).
Proof.
  induction l as [|x l IH]; intros H; cbn; [constructor|]. destruct (f x) eqn:E.
  - apply kept_in; [apply H; [now left|exact E]|]. apply IH. intros y Hy. apply H. now right.
  - apply kept_out; [intros Hp; apply H in Hp; [congruence|now left]|]. apply IH. intros y Hy. apply H. now right.
Qed.
Lemma mem_text x l : existsb (teqb x) l = true <-> In x l.
Proof. rewrite existsb_exists. split; [intros (y & Hy & E); destruct (teqb_spec x y); [now subst|discriminate]|]. intros H. exists x. split; [exact H|apply teqb_refl]. Qed.
Lemma is_short_spec l : is_short l = true <-> forall x, In x l -> ~ In dot x.
Proof.
  unfold is_short. rewrite negb_true_iff. split.
  - intros H x Hx Hd. assert (E : existsb (fun x => existsb (ceqb dot) x) l = true); [|congruence]. apply existsb_exists. exists x. split; [exact Hx|]. apply existsb_exists. exists dot. split; [exact Hd|apply ceqb_refl].
  - intros H. destruct (existsb (fun x => existsb (ceqb dot) x) l) eqn:E; [|reflexivity]. exfalso. apply existsb_exists in E as (x & Hx & E). apply existsb_exists in E as (c & Hc & E). destruct (ceqb_spec dot c); [|discriminate]. subst. exact (H x Hx Hc).
Qed.

(** What dedicated mode removes. *)
Lemma dedicated_spec sched l libe : 1 < length l ->
  kept (fun x => ~ In x (if is_short l then shortnames sched libe else libe)) l (add_comm_info sched true l libe).
Proof.
  intros Hl. unfold add_comm_info. set (mine := if is_short l then shortnames sched libe else libe). destruct (Nat.ltb_spec 1 (length l)); [|lia]. cbn [andb].
  destruct (filter (fun x => existsb (teqb x) mine) l) as [|y f] eqn:Ef.
  - assert (Hn : forall x, In x l -> ~ In x mine). { intros x Hx Hm. assert (X : In x (filter (fun x => existsb (teqb x) mine) l)) by (apply filter_In; split; [exact Hx|now apply mem_text]). rewrite Ef in X. destruct X. }
    assert (E : filter (fun _ => true) l = l) by (clear; induction l; cbn; congruence). rewrite <- E at 2. apply kept_filter. intros x Hx. split; [auto|reflexivity].
  - unfold remove_nodes. apply kept_filter. intros x Hx. rewrite negb_true_iff. rewrite <- mem_text. destruct (existsb (teqb x) mine); split; congruence.
Qed.

Lemma lstrip_cons cs c t : In c cs -> lstrip cs (c :: t) = lstrip cs t.
Proof. intros H. cbn. replace (existsb (ceqb c) cs) with true; [reflexivity|]. symmetry. apply existsb_exists. exists c. split; [exact H|apply ceqb_refl]. Qed.
Lemma lstrip_stop cs t : (forall c, hd_error t = Some c -> ~ In c cs) -> lstrip cs t = t.
Proof.
  intros H. destruct t as [|c t]; [reflexivity|]. cbn. destruct (existsb (ceqb c) cs) eqn:E; [|reflexivity]. exfalso. apply existsb_exists in E as (d & Hd & E). destruct (ceqb_spec c d); [subst|discriminate]. exact (H d eq_refl Hd).
Qed.
Lemma cobalt_host n k : n <> 0 -> cobalt_abbrev [T "nid" ++ repeat (digit 0) k ++ dec n] = [dec n].
Proof.
  intros Hn. unfold cobalt_abbrev. cbn [map]. f_equal. assert (Hd : forall c, In c (repeat (digit 0) k ++ dec n) -> is_digit c = true).
  { intros c Hc. apply in_app_iff in Hc as [Hc|Hc]; [apply repeat_spec in Hc as ->; reflexivity|]. assert (X := dec_digits n). rewrite forallb_forall in X. auto. }
  assert (E : lstrip (T "nid") (T "nid" ++ repeat (digit 0) k ++ dec n) = repeat (digit 0) k ++ dec n).
  { cbn [T list_ascii_of_string app]. rewrite !lstrip_cons by (cbn; auto). apply lstrip_stop. intros c Hc Hi.
    assert (X : is_digit c = true). { apply Hd. destruct (repeat (digit 0) k ++ dec n); [discriminate|]. injection Hc as ->. now left. }
    cbn in Hi. destruct Hi as [<-|[<-|[<-|[]]]]; discriminate X. }
  rewrite E. clear -Hn. revert Hn. induction k as [|k IH]; intros Hn; cbn [repeat app].
  - apply lstrip_stop. intros c Hc. cbn. intros [<-|[]]. exact (dec_no_zero n Hn Hc).
  - rewrite lstrip_cons by (now left). now apply IH.
Qed.
