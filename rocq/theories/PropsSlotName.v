(** Property theorem C98: the names of GPUs and tiles that applications are given. *)
From Coq Require Import Ascii String.
From Verif Require Import Base BaseLemmas TextModel TextProofs MpiLayout MpiGpu SlotNameModel.
Local Open Scope list_scope.
Local Open Scope nat_scope.
Local Notation length := List.length.

Lemma dec_plain n c : is_digit c = false -> ~ In c (dec n).
Proof. intros H h. pose proof (dec_digits n) as D. rewrite forallb_forall in D. apply D in h. congruence. Qed.
Lemma name_no_comma t i : ~ In ","%char (slot_name t i).
Proof.
  unfold slot_name. destruct (1 <? t); [|apply dec_plain; reflexivity]. intros h. apply in_app_iff in h as [h|h]; [revert h; apply dec_plain; reflexivity|].
  destruct h as [h|h]; [discriminate|]. revert h. apply dec_plain. reflexivity.
Qed.
Lemma name_tile t i : 1 < t -> split "."%char (slot_name t i) = [dec (i / t); dec (i mod t)].
Proof.
  intros H. unfold slot_name. replace (1 <? t) with true by (symmetry; apply Nat.ltb_lt; exact H).
  change (T "." ++ dec (i mod t)) with ("."%char :: dec (i mod t)). rewrite split_app by (apply dec_plain; reflexivity).
  rewrite split_none by (apply dec_plain; reflexivity). reflexivity.
Qed.
Lemma name_inj t i j : slot_name t i = slot_name t j -> i = j.
Proof.
  intros E. destruct (1 <? t) eqn:Et.
  - apply Nat.ltb_lt in Et. pose proof (name_tile t i Et) as A. rewrite E, (name_tile t j Et) in A. injection A as A B.
    apply dec_inj in A, B. rewrite (Nat.div_mod i t), (Nat.div_mod j t) by lia. congruence.
  - unfold slot_name in E. rewrite Et in E. now apply dec_inj.
Qed.

(** Vocabulary: unit [z] is one of the [mult] units of slot [i]. *)
Definition in_slot (mult i z : nat) : Prop := i * mult <= z < (i + 1) * mult.
Lemma in_units on mult z : In z (flat_map (fun i => seq (i * mult) mult) on) <-> exists i, In i on /\ in_slot mult i z.
Proof.
  rewrite in_flat_map. unfold in_slot. split; intros (i & Hi & H); exists i; split; auto; [apply in_seq in H; nia|apply in_seq; nia].
Qed.

(** ** C98 *)

(** The text, read at its commas, has the names of the units of the worker's slots, all of
    them if there is no limit, each once if the slots are distinct, and else as many as the
    limit says. With tiles, a name read at its dot has the number of the GPU and that of the
    tile on it. *)
Theorem C98_text_names_the_units :
  forall tiles mult limit on t, get_slots_as_string tiles mult limit (Some on) = Some t ->
  slot_list on mult limit <> [] ->
  exists ids, split ","%char t = map (slot_name tiles) ids /\
    (forall z, In z ids -> exists i, In i on /\ in_slot mult i z) /\
    length ids = match limit with Some n => Nat.min n (length on * mult) | None => length on * mult end /\
    (limit = None -> forall i z, In i on -> in_slot mult i z -> In z ids) /\
    (NoDup on -> NoDup (split ","%char t)) /\
    (1 < tiles -> forall z, In z ids -> split "."%char (slot_name tiles z) = [dec (z / tiles); dec (z mod tiles)]) /\
    (tiles <= 1 -> forall z, In z ids -> slot_name tiles z = dec z).
Proof.
  intros tiles mult limit on t E Hne. cbn [get_slots_as_string] in E. injection E as <-.
  assert (S : split ","%char (join ","%char (map (slot_name tiles) (slot_list on mult limit))) = map (slot_name tiles) (slot_list on mult limit)).
  { apply split_join; [intros h; apply map_eq_nil in h; contradiction|]. intros p Hp. apply in_map_iff in Hp as (i & <- & _). apply name_no_comma. }
  assert (L : length (flat_map (fun i => seq (i * mult) mult) on) = length on * mult).
  { clear. induction on as [|i on IH]; [reflexivity|]. cbn [flat_map]. rewrite app_length, seq_length, IH. cbn. lia. }
  exists (slot_list on mult limit). split; [exact S|]. rewrite S. split; [|split; [|split; [|split; [|split]]]].
  - intros z Hz. apply in_units. unfold slot_list in Hz. destruct limit as [n|]; [|exact Hz]. rewrite <- (firstn_skipn n). apply in_app_iff. left. exact Hz.
  - unfold slot_list. destruct limit; [rewrite firstn_length|]; rewrite L; reflexivity.
  - intros -> i z Hi Hz. apply in_units. eauto.
  - intros Hn. apply FinFun.Injective_map_NoDup; [intros x y; apply name_inj|].
    assert (N : NoDup (flat_map (fun i => seq (i * mult) mult) on)).
    { clear - Hn. induction Hn as [|i on Hi Hn IH]; [constructor|]. cbn [flat_map]. apply NoDup_app_intro; [apply seq_NoDup|exact IH|].
      intros z Hz Hz'. apply in_seq in Hz. apply in_units in Hz' as (j & Hj & A & B). assert (i = j) by nia. congruence. }
    unfold slot_list. destruct limit as [n|]; [|exact N]. rewrite <- (firstn_skipn n) in N. exact (NoDup_app_l _ _ N).
  - intros H z _. apply name_tile. exact H.
  - intros H z _. unfold slot_name. replace (1 <? tiles) with false by (symmetry; apply Nat.ltb_ge; exact H). reflexivity.
Qed.
Print Assumptions C98_text_names_the_units.

(** Workers with no common slot on a node have no common name in their texts. *)
Theorem C98_no_common_name :
  forall tiles mult l1 l2 on1 on2 t1 t2, (forall i, In i on1 -> ~ In i on2) ->
  get_slots_as_string tiles mult l1 (Some on1) = Some t1 -> get_slots_as_string tiles mult l2 (Some on2) = Some t2 ->
  slot_list on1 mult l1 <> [] -> slot_list on2 mult l2 <> [] ->
  forall w, In w (split ","%char t1) -> ~ In w (split ","%char t2).
Proof.
  intros tiles mult l1 l2 on1 on2 t1 t2 Hd E1 E2 N1 N2 w W1 W2.
  destruct (C98_text_names_the_units _ _ _ _ _ E1 N1) as (ids1 & S1 & A1 & _). destruct (C98_text_names_the_units _ _ _ _ _ E2 N2) as (ids2 & S2 & A2 & _).
  rewrite S1 in W1. rewrite S2 in W2. apply in_map_iff in W1 as (z & <- & Z1). apply in_map_iff in W2 as (z' & Ez & Z2). apply name_inj in Ez. subst z'.
  destruct (A1 z Z1) as (i & Hi & B1 & B2). destruct (A2 z Z2) as (j & Hj & B3 & B4). assert (i = j) by nia. subst j. exact (Hd i Hi Hj).
Qed.
Print Assumptions C98_no_common_name.

(** If the slots of a node share out its GPUs' tiles, the GPU and the tile named exist. *)
Theorem C98_named_tiles_exist :
  forall tiles mult slots gpus on i z, 0 < tiles -> slots * mult <= gpus * tiles -> (forall i, In i on -> i < slots) ->
  In i on -> in_slot mult i z -> z / tiles < gpus /\ z mod tiles < tiles.
Proof.
  intros tiles mult slots gpus on i z Ht Hs Ho Hi [_ Hz]. apply Ho in Hi. split; [|apply Nat.mod_upper_bound; lia].
  apply Nat.div_lt_upper_bound; [lia|]. nia.
Qed.
Print Assumptions C98_named_tiles_exist.

Example C98_texts :
  get_slots_as_string 1 2 None (Some [1; 3]) = Some (T "2,3,6,7") /\ get_slots_as_string 2 2 None (Some [1; 3]) = Some (T "1.0,1.1,3.0,3.1") /\
  get_slots_as_string 2 3 (Some 4) (Some [0; 1]) = Some (T "0.0,0.1,1.0,1.1") /\ set_env_to_slots 1 1 (Some [0; 2]) = Ok (T "0,2") /\ set_env_to_slots 1 1 None = Err EType.
Proof. vm_compute. auto 6. Qed.

Example C98_hypotheses_met :
  (forall i, In i [0; 2] -> ~ In i [1; 3]) /\ slot_list [0; 2] 2 None <> [] /\ slot_list [1; 3] 2 (Some 3) <> [] /\ NoDup [1; 3] /\
  4 * 2 <= 4 * 2 /\ (forall i, In i [1; 3] -> i < 4) /\ in_slot 2 3 7.
Proof.
  unfold in_slot. repeat split; try (vm_compute; discriminate); try lia.
  - cbn. intros i. lia.
  - repeat constructor; cbn; lia.
  - cbn. lia.
Qed.

(** The text is empty just when there is no unit to name: the variable is then set, to nothing. *)
Theorem C98_empty_text : forall tiles mult limit on, slot_list on mult limit = [] <-> get_slots_as_string tiles mult limit (Some on) = Some [].
Proof.
  intros tiles mult limit on. cbn [get_slots_as_string]. split; [intros ->; reflexivity|]. intros E. destruct (slot_list on mult limit) as [|i l]; [reflexivity|]. exfalso.
  assert (N : slot_name tiles i <> []).
  { unfold slot_name. pose proof (dec_nonempty i). destruct (1 <? tiles); [|assumption]. destruct (dec (i / tiles)); discriminate. }
  assert (E' : join ","%char (map (slot_name tiles) (i :: l)) = []) by congruence. cbn [map join] in E'. destruct (slot_name tiles i) as [|c u]; [contradiction|]. destruct (map (slot_name tiles) l); discriminate.
Qed.
Print Assumptions C98_empty_text.
