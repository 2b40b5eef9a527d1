(** C34: points as dictionaries and as arrays. *)
From Verif Require Import Base MapModel MapSpec MapProofs.
Local Open Scope nat_scope.

(** Example names: sim_id is 0 and _id is 1. *)
Definition x0 : name := 10.  Definition x1 : name := 11.  Definition X : name := 12.
Definition obj : name := 13.  Definition F : name := 14.  Definition tagn : name := 15.
Definition mp1 : mapping := [(X, [x0; x1]); (F, [obj])].
Definition mp_id : mapping := [(X, [x0; x1]); (SIM_ID, [ID])].

(** Points to an array and back: the same points in the same order, except that an
    "_id" of -1 is left out. *)
Theorem C34_dicts_round_trip mp l :
  proper mp -> convertible mp l -> (forall d v, In d l -> get ID d = Some v -> integer v) ->
  exists a l', to_np l [] mp = Ok a /\ to_dicts a mp = Ok l' /\ Forall2 (fun d e => same_point (cleaned d) e) l l'.
Proof.
  intros HP HC HI. destruct l as [|first l0]; [exists (mkArr [] []), []; cbn; auto|].
  exact (round_trip mp first l0 HP HC HI).
Qed.
Print Assumptions C34_dicts_round_trip.

Definition pts : list dict :=
  [[(x0, Sc (SF 1500)); (x1, Sc (SI 2)); (tagn, Sc (SS [7; 8])); (ID, Sc (SI 3))];
   [(x0, Sc (SI 0)); (x1, Sc (SF (-250))); (tagn, Sc (SS [9])); (ID, Sc (SI (-1)))]].
Ltac in_cases := repeat match goal with
  | H : In _ (_ :: _) |- _ => destruct H as [<- | H]
  | H : In _ [] |- _ => destruct H
  end.
Lemma mp_id_proper : proper mp_id.
Proof.
  split; cbn.
  - repeat constructor; cbn; intuition discriminate.
  - repeat constructor; cbn; intuition discriminate.
  - intros n H1 H2. cbn in H1, H2. unfold X, SIM_ID, x0, x1, ID in *. intuition congruence.
  - intros p [<- | [<- | []]]; discriminate.
Qed.
Lemma mp1_proper : proper mp1.
Proof.
  split; cbn.
  - repeat constructor; cbn; intuition discriminate.
  - repeat constructor; cbn; intuition discriminate.
  - intros n H1 H2. cbn in H1, H2. unfold X, F, x0, x1, obj in *. intuition congruence.
  - intros p [<- | [<- | []]]; discriminate.
Qed.
Lemma get_cases n d v : get n d = Some v -> In (n, v) d.
Proof. apply get_In. Qed.
Ltac get_cases H := apply get_cases in H; cbn [In] in H; repeat (destruct H as [H|H]; [injection H as <- <-|]); try destruct H.
Example C34_dicts_used : proper mp_id /\ convertible mp_id pts /\ (forall d v, In d pts -> get ID d = Some v -> integer v) /\
  exists a, to_np pts [] mp_id = Ok a /\ map f_name (a_dt a) = [tagn; X; SIM_ID] /\
    map (get X) (a_rows a) = [Some (Vec [SF 1500; SF 2000]); Some (Vec [SF 0; SF (-250)])].
Proof.
  split; [exact mp_id_proper|]. split; [|split].
  - split.
    + intros d Hd. unfold pts in Hd. in_cases; cbn; repeat constructor; cbn; intuition discriminate.
    + intros d e n Hd He. unfold pts in Hd, He. in_cases; cbn; tauto.
    + intros d n Hd. unfold pts in Hd. in_cases; cbn; intros H1 H2; unfold X, SIM_ID, x0, x1, ID, tagn in *; intuition congruence.
    + intros d p m n Hd. unfold pts in Hd. in_cases; intros Hp; cbn in Hp; destruct Hp as [<- | [<- | []]]; cbn; intros; tauto.
    + intros d p n v Hd Hp Hn G. unfold pts in Hd. in_cases; get_cases G; cbn; try easy;
        exfalso; cbn in Hp; destruct Hp as [<- | [<- | []]]; cbn in Hn; unfold tagn, x0, x1, ID in *; intuition discriminate.
    + intros d e n v w Hd He Hn G1 G2. cbn in He. injection He as <-. unfold pts in Hd.
      get_cases G1; in_cases; cbn in G2; injection G2 as <-; cbn; auto; destruct Hn; cbn; tauto.
    + intros d v Hd G. unfold pts in Hd. in_cases; discriminate G.
    + intros d p n v Hd Hp En Hn G. cbn in Hp. destruct Hp as [<- | [<- | []]]; [discriminate|]. cbn in Hn. destruct Hn as [<- | []].
      unfold pts in Hd. in_cases; injection G as <-; exact I.
  - intros d v Hd G. unfold pts in Hd. in_cases; injection G as <-; exact I.
  - eexists. split; [vm_compute; reflexivity|]. split; reflexivity.
Qed.

(** An array to points and back: the same rows in the same order, with the same
    values under the same names (the fields may come in another order). *)
Theorem C34_array_round_trip mp a :
  proper mp -> array_ok a -> covers mp (a_dt a) -> keepable mp a ->
  exists l a', to_dicts a mp = Ok l /\ to_np l [] mp = Ok a' /\ Forall2 same_point (a_rows a) (a_rows a').
Proof. intros. now apply arr_round_trip. Qed.
Print Assumptions C34_array_round_trip.

Definition arr1 : arr := mkArr [mkF SIM_ID TInt None; mkF X TFloat (Some 2); mkF F TFloat None]
  [[(SIM_ID, Sc (SI 0)); (X, Vec [SF 100; SF 200]); (F, Sc (SF 5))];
   [(SIM_ID, Sc (SI 1)); (X, Vec [SF 300; SF (-400)]); (F, Sc (SF 6))]].
Lemma arr1_ok : array_ok arr1.
Proof.
  split; cbn.
  - repeat constructor; cbn; intuition discriminate.
  - intros row [<- | [<- | []]]; (split; [reflexivity|]); intros f [<- | [<- | [<- | []]]]; eexists; (split; [reflexivity|]); cbn; repeat constructor.
Qed.
Lemma arr1_covers : covers mp1 (a_dt arr1).
Proof.
  split; cbn.
  - intros f ns [<- | [<- | [<- | []]]] [E | [E | []]]; try discriminate E; injection E as <-; cbn; auto.
  - intros f [<- | [<- | [<- | []]]]; cbn; unfold SIM_ID, X, F, x0, x1, obj; intuition discriminate.
Qed.
Example C34_array_used : proper mp1 /\ array_ok arr1 /\ covers mp1 (a_dt arr1) /\ keepable mp1 arr1.
Proof.
  split; [exact mp1_proper|]. split; [exact arr1_ok|]. split; [exact arr1_covers|]. split; cbn.
  - intros f [<- | [<- | [<- | []]]] H; discriminate.
  - intros n row0 row s t E. injection E as <-. intros _ G. apply get_In in G. cbn in G. intuition discriminate.
  - intros f [<- | [<- | [<- | []]]]; cbn; unfold SIM_ID, ID, X, F; intuition discriminate.
  - split; [unfold SIM_ID, x0, x1, obj; intuition discriminate|]. intros p [<- | [<- | []]]; cbn; unfold ID, x0, x1, obj; intuition discriminate.
  - intros row v [<- | [<- | []]] [G | G]; cbn in G; try discriminate; injection G as <-; discriminate.
Qed.

(** Without a mapping an array's rows become points as they are. *)
Theorem C34_plain_dicts a :
  array_ok a -> (forall row, In row (a_rows a) -> get ID row = None) ->
  to_dicts a [] = Ok (a_rows a).
Proof.
  intros HA HI. unfold to_dicts.
  assert (K : mapr (row_dict (a_dt a) []) (a_rows a) = Ok (a_rows a)).
  { rewrite (mapr_map _ (fun r => r)); [now rewrite map_id|]. intros row Hr. destruct (ar_rows _ HA row Hr) as [Ek Gk].
    destruct (row_dict_ok (a_dt a) [] row) as [E K].
    - intros f Hf. destruct (Gk f Hf) as (v & G & _). exists v. split; [easy|]. exact I.
    - assert (Ew : flat_map (written []) (a_dt a) = map f_name (a_dt a)) by (clear; induction (a_dt a); cbn; congruence).
      rewrite Ew. apply (ar_names _ HA).
    - rewrite E. f_equal. pose proof (ar_names _ HA) as ND. rewrite <- Ek in ND.
      assert (Ew : flat_map (writes [] row) (a_dt a) = flat_map (fun n => match get n row with Some v => [(n, v)] | None => [] end) (map f_name (a_dt a))).
      { clear. induction (a_dt a) as [|f d IH]; [easy|]. cbn. rewrite IH. reflexivity. }
      rewrite Ew, <- Ek. clear -ND.
      assert (Y : forall k, (forall n v, In (n, v) k -> get n row = Some v) ->
        flat_map (fun n => match get n row with Some v => [(n, v)] | None => [] end) (map fst k) = k).
      { induction k as [|[n v] k IH]; [easy|]. intros H. cbn. rewrite (H n v) by now left. cbn. f_equal. apply IH. intros; apply H; now right. }
      apply Y. intros n v Hi. now apply In_get. }
  rewrite K. cbn [bindr]. rewrite (mapr_map _ (fun r => r)); [now rewrite map_id|].
  intros row Hr. unfold drop_id. now rewrite (HI row Hr).
Qed.
Print Assumptions C34_plain_dicts.
Example C34_plain_used : array_ok arr1 /\ (forall row, In row (a_rows arr1) -> get ID row = None).
Proof. split; [exact arr1_ok|]. intros row [<- | [<- | []]]; reflexivity. Qed.

(** Splitting an array's vectors into variables and packing them again gives the
    same fields and the same rows, if every field is mapped. *)
Theorem C34_unmap_map mp a :
  proper mp -> mp <> [] -> array_ok a -> covers mp (a_dt a) -> (forall n, In n (map f_name (a_dt a)) <-> In n (map fst mp)) ->
  exists b a', unmap_np a mp = Ok b /\ map_np b mp = Ok a' /\ (forall f, In f (a_dt a) <-> In f (a_dt a')) /\
    Forall2 (fun row row' => forall n, get n row = get n row') (a_rows a) (a_rows a').
Proof.
  intros HP Hne HA HV HN. apply unmap_map; auto.
  - intros f Hf. apply HN. now apply in_map.
  - intros n Hn. now apply HN.
Qed.
Print Assumptions C34_unmap_map.
Definition arr2 : arr := mkArr [mkF X TFloat (Some 2); mkF F TFloat None]
  [[(X, Vec [SF 100; SF 200]); (F, Sc (SF 5))]; [(X, Vec [SF 300; SF (-400)]); (F, Sc (SF 6))]].
Example C34_unmap_used : proper mp1 /\ mp1 <> [] /\ array_ok arr2 /\ covers mp1 (a_dt arr2) /\ (forall n, In n (map f_name (a_dt arr2)) <-> In n (map fst mp1)).
Proof.
  split; [exact mp1_proper|]. split; [discriminate|]. split; [|split].
  - split; cbn.
    + repeat constructor; cbn; intuition discriminate.
    + intros row [<- | [<- | []]]; (split; [reflexivity|]); intros f [<- | [<- | []]]; eexists; (split; [reflexivity|]); cbn; repeat constructor.
  - split; cbn.
    + intros f ns [<- | [<- | []]] [E | [E | []]]; try discriminate E; injection E as <-; cbn; auto.
    + intros f [<- | [<- | []]]; cbn; unfold X, F, x0, x1, obj; intuition discriminate.
  - reflexivity.
Qed.

(** Splitting: each variable holds its component, other fields are untouched. *)
Theorem C34_unmap mp a :
  proper mp -> mp <> [] -> array_ok a -> covers mp (a_dt a) ->
  exists b, unmap_np a mp = Ok b /\
    Forall2 (fun row row' =>
      (forall f, In f (a_dt a) -> ~ In (f_name f) (map fst mp) -> get (f_name f) row' = get (f_name f) row) /\
      (forall f ns i n, In f (a_dt a) -> In (f_name f, ns) mp -> nth_error ns i = Some n ->
         exists x, get n row' = Some (Sc x) /\
           (get (f_name f) row = Some (Sc x) /\ i = 0 \/ exists l, get (f_name f) row = Some (Vec l) /\ nth_error l i = Some x)))
      (a_rows a) (a_rows b).
Proof.
  intros HP Hne HA HV. destruct (unmap_ok mp a HP HA HV Hne) as (rows & E & HF). eexists. split; [exact E|]. cbn [a_rows].
  apply Forall2_In_l in HF. eapply Forall2_weaken; [|exact HF]. cbv beta. intros row row' (Hr & _ & A & B). split.
  - intros f Hf Hn. destruct (row_shaped mp a HA HV row f Hr Hf) as (v & G & _). rewrite G. now apply A.
  - intros f ns i n Hf Hm Hi. destruct (ent_mapped mp a HP HA HV row f ns Hr Hf (In_lookup _ _ _ (pr_targets _ HP) Hm)) as (v & G & _ & L & _).
    assert (Hlt : i < length (comps v)) by (rewrite <- L; apply nth_error_Some; congruence).
    destruct (nth_error (comps v) i) as [w|] eqn:Ew; [|apply nth_error_None in Ew; lia].
    specialize (B f ns v i n w Hf Hm G Hi Ew). rewrite B, G. destruct v as [x|l]; cbn [comps] in *.
    + destruct i as [|i]; [|cbn in Hlt; lia]. injection Ew as <-. exists x. auto.
    + rewrite nth_error_map in Ew. destruct (nth_error l i) as [x|] eqn:El; [|discriminate]. injection Ew as <-. exists x. split; [easy|]. right. eauto.
Qed.
Print Assumptions C34_unmap.

(** But packing raises for every array that also has a field outside the mapping,
    such as sim_id, so the round trip fails for it. *)
Theorem C34_unmap_map_refuted :
  (forall a mp f, mp <> [] -> In f (a_dt a) -> ~ In (f_name f) (map fst mp) -> ~ In (f_name f) (concat (map snd mp)) ->
     exists e, map_np a mp = Err e) /\
  exists mp a b, proper mp /\ array_ok a /\ covers mp (a_dt a) /\ unmap_np a mp = Ok b /\ map_np b mp = Err EKey.
Proof.
  split; [exact map_np_extra|]. exists mp1, arr1. eexists.
  split; [exact mp1_proper|]. split; [exact arr1_ok|]. split; [exact arr1_covers|]. split; vm_compute; reflexivity.
Qed.
Print Assumptions C34_unmap_map_refuted.

(** A generator's points with the field list of gen_specs["out"] and no mapping:
    every value arrives under its name, fields not given are zero, and the list
    is left as it was. *)
Theorem C34_given_fields l out :
  out <> [] -> NoDup (map f_name out) -> (forall d, In d l -> NoDup (map fst d)) ->
  (forall d e n, In d l -> In e l -> In n (map fst d) -> In n (map fst e)) ->
  (forall d n v, In d l -> get n d = Some v -> exists f, In f out /\ f_name f = n /\ kept_in f v) ->
  exists a, to_np l out [] = Ok a /\ a_dt a = out /\
    Forall2 (fun d row =>
      map fst row = map f_name out /\
      (forall n v, get n d = Some v -> exists w, get n row = Some w /\ same_value v w) /\
      (forall f, In f out -> get (f_name f) d = None -> get (f_name f) row = Some (zero_value f))) l (a_rows a).
Proof.
  intros. destruct (given_ok l out) as (rows & E & HF); auto. exists (mkArr out rows). auto.
Qed.
Print Assumptions C34_given_fields.
Definition out1 : list field := [mkF x0 TFloat None; mkF x1 TFloat None; mkF F TFloat (Some 2)].
Definition pts1 : list dict := [[(x0, Sc (SF 1)); (x1, Sc (SI 2))]; [(x1, Sc (SF 4)); (x0, Sc (SI 3))]].
Example C34_given_used : out1 <> [] /\ NoDup (map f_name out1) /\ (forall d, In d pts1 -> NoDup (map fst d)) /\
  (forall d e n, In d pts1 -> In e pts1 -> In n (map fst d) -> In n (map fst e)) /\
  (forall d n v, In d pts1 -> get n d = Some v -> exists f, In f out1 /\ f_name f = n /\ kept_in f v).
Proof.
  split; [discriminate|]. split; [repeat constructor; cbn; intuition discriminate|]. split; [|split].
  - intros d Hd. unfold pts1 in Hd. in_cases; repeat constructor; cbn; intuition discriminate.
  - intros d e n Hd He. unfold pts1 in Hd, He. in_cases; cbn; tauto.
  - intros d n v Hd G. unfold pts1 in Hd.
    in_cases; get_cases G; [exists (mkF x0 TFloat None)|exists (mkF x1 TFloat None)|exists (mkF x1 TFloat None)|exists (mkF x0 TFloat None)]; cbn; auto.
Qed.

(** With a mapping and a field list that names the mapped field, that field is
    never filled: all its values are zero. *)
Theorem C34_mapped_refuted :
  (forall l out mp a f ns, out <> [] -> to_np l out mp = Ok a -> In f out -> In (f_name f, ns) mp ->
     (forall d, In d l -> get (f_name f) d = None) -> forall row, In row (a_rows a) -> get (f_name f) row = Some (zero_value f)) /\
  (* the first batch is packed and changes the caller's list, the second is lost *)
  exists mp out batch a1 a2, proper mp /\ to_np batch out mp = Ok a1 /\ to_np batch (a_dt a1) mp = Ok a2 /\
    map (get X) (a_rows a1) = [Some (Vec [SF 1; SF 2])] /\ map (get X) (a_rows a2) = [Some (Vec [SF 0; SF 0])].
Proof.
  split; [exact given_zeros|].
  exists mp1, [mkF tagn TInt None], [[(x0, Sc (SF 1)); (x1, Sc (SF 2)); (tagn, Sc (SI 5))]]. eexists. eexists.
  split; [exact mp1_proper|]. split; [vm_compute; reflexivity|]. split; [vm_compute; reflexivity|]. split; reflexivity.
Qed.
Print Assumptions C34_mapped_refuted.

(** The first point decides the columns: later fractions are cut off, later text
    is cut, later names and incomplete variables are dropped, all without an
    exception. *)
Theorem C34_first_decides_refuted :
  (exists a, to_np [[(x0, Sc (SI 1))]; [(x0, Sc (SF 1500))]] [] [] = Ok a /\ map (get x0) (a_rows a) = [Some (Sc (SI 1)); Some (Sc (SI 1))]) /\
  (exists a, to_np [[(tagn, Sc (SS [1]))]; [(tagn, Sc (SS [1; 2; 3]))]] [] [] = Ok a /\
     map (get tagn) (a_rows a) = [Some (Sc (SS [1])); Some (Sc (SS [1; 2]))]) /\
  (exists a, to_np [[(x0, Sc (SF 1))]; [(x0, Sc (SF 2)); (x1, Sc (SF 3))]] [] [] = Ok a /\ map (get x1) (a_rows a) = [None; None]) /\
  (exists a, to_np [[(x0, Sc (SF 1)); (obj, Sc (SF 2))]] [] mp1 = Ok a /\ map (get x0) (a_rows a) = [None] /\ map (get X) (a_rows a) = [None]).
Proof.
  repeat split; eexists; repeat split; vm_compute; reflexivity.
Qed.
Print Assumptions C34_first_decides_refuted.

(** A field whose width is not the number of variables it is mapped to is never
    left out silently: the conversion raises. *)
Theorem C34_wrong_width mp a f ns :
  NoDup (map fst mp) -> In f (a_dt a) -> In (f_name f, ns) mp -> a_rows a <> [] ->
  match f_dim f with Some n => n | None => 1 end <> length ns ->
  exists e, to_dicts a mp = Err e.
Proof.
  intros ND Hf Hm HR HW. destruct (a_rows a) as [|row rows] eqn:ER; [easy|]. unfold to_dicts. rewrite ER.
  destruct (mapr_err (row_dict (a_dt a) mp) (row :: rows) row) as [e ->]; [now left| |cbn; eauto].
  unfold row_dict.
  destruct (mapr_err (fun g => match get (f_name g) row with Some v => entries g v mp | None => Err EValue end) (a_dt a) f Hf) as [e ->]; [|cbn; eauto].
  destruct (get (f_name f) row); [|eauto].
  unfold entries. rewrite (In_lookup _ _ _ ND Hm).
  apply Nat.eqb_neq in HW. rewrite HW. eauto.
Qed.
Print Assumptions C34_wrong_width.
Example C34_wrong_width_used :
  to_dicts (mkArr [mkF X TFloat (Some 3)] [[(X, Vec [SF 1; SF 2; SF 3])]]) mp1 = Err EAssert.
Proof. reflexivity. Qed.
