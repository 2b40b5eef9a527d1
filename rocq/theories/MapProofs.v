(** Proofs about the conversions between points and arrays. *)
From Verif Require Import Base MapModel MapSpec.
Local Open Scope nat_scope.

Lemma memb_In x l : memb x l = true <-> In x l.
Proof.
  unfold memb. rewrite existsb_exists. split.
  - intros (y & Hy & E). apply Nat.eqb_eq in E. now subst.
  - intros H. exists x. split; [easy | apply Nat.eqb_refl].
Qed.
Lemma memb_not x l : memb x l = false <-> ~ In x l.
Proof. rewrite <- memb_In. destruct (memb x l); split; congruence. Qed.

Lemma get_In n d v : get n d = Some v -> In (n, v) d.
Proof.
  induction d as [|[m w] d IH]; cbn; [discriminate|].
  destruct (Nat.eqb_spec n m) as [->|]; [intros [= ->]; now left | right; auto].
Qed.
Lemma In_get n d v : NoDup (map fst d) -> In (n, v) d -> get n d = Some v.
Proof.
  induction d as [|[m w] d IH]; cbn; [easy|]. intros ND [E | H].
  - injection E as -> ->. now rewrite Nat.eqb_refl.
  - inversion ND as [|? ? Hn ND']; subst.
    destruct (Nat.eqb_spec n m) as [->|]; [|now apply IH].
    destruct Hn. change m with (fst (m, v)). now apply in_map.
Qed.
Lemma get_keys n d : In n (map fst d) <-> exists v, get n d = Some v.
Proof.
  split.
  - induction d as [|[m w] d IH]; cbn; [easy|].
    intros [-> | H]; [rewrite Nat.eqb_refl; eauto|].
    destruct (n =? m); eauto.
  - intros [v H]. apply get_In in H. change n with (fst (n, v)). now apply in_map.
Qed.
Lemma get_None n d : get n d = None <-> ~ In n (map fst d).
Proof.
  rewrite get_keys. destruct (get n d); split; try congruence; intros H.
  - exfalso. apply H. eauto.
  - intros [v Hv]. congruence.
Qed.
Lemma get_put_same n v d : get n (put n v d) = Some v.
Proof.
  induction d as [|[m w] d IH]; cbn; [now rewrite Nat.eqb_refl|].
  destruct (Nat.eqb_spec n m); cbn; [subst; now rewrite Nat.eqb_refl|].
  destruct (Nat.eqb_spec n m); [contradiction|auto].
Qed.
Lemma get_put_other n m v d : n <> m -> get n (put m v d) = get n d.
Proof.
  intros H. induction d as [|[k w] d IH]; cbn.
  - destruct (Nat.eqb_spec n m); [contradiction|easy].
  - destruct (Nat.eqb_spec m k); cbn; [subst; destruct (Nat.eqb_spec n k); [contradiction|easy]|].
    now rewrite IH.
Qed.
Lemma put_keys n v d : In n (map fst d) -> map fst (put n v d) = map fst d.
Proof.
  induction d as [|[k w] d IH]; cbn; [easy|]. intros [-> | H].
  - now rewrite Nat.eqb_refl.
  - destruct (Nat.eqb_spec n k); cbn; [easy|]. now rewrite IH.
Qed.
Lemma put_new n v d : ~ In n (map fst d) -> put n v d = d ++ [(n, v)].
Proof.
  induction d as [|[k w] d IH]; cbn; [easy|]. intros H.
  destruct (Nat.eqb_spec n k); [subst; tauto|]. now rewrite IH by tauto.
Qed.
Lemma puts_fresh ws d : NoDup (map fst ws) -> (forall n, In n (map fst ws) -> ~ In n (map fst d)) -> puts ws d = d ++ ws.
Proof.
  unfold puts. revert d. induction ws as [|[n v] ws IH]; cbn; intros d ND H; [now rewrite app_nil_r|].
  inversion ND as [|? ? Hn ND']; subst.
  rewrite put_new by (apply H; now left). rewrite IH; [now rewrite <- app_assoc | easy |].
  intros m Hm. rewrite map_app, in_app_iff. cbn. intros [Hd | [-> | []]]; [|contradiction].
  apply (H m); [now right | easy].
Qed.

Lemma mapr_ok {A B} (f : A -> res B) (P : A -> B -> Prop) l :
  (forall a, In a l -> exists b, f a = Ok b /\ P a b) ->
  exists bs, mapr f l = Ok bs /\ Forall2 P l bs.
Proof.
  induction l as [|a l IH]; cbn; intros H; [eauto|].
  destruct (H a (or_introl eq_refl)) as (b & E & HP).
  destruct IH as (bs & Es & HPs); [auto|].
  exists (b :: bs). rewrite E. cbn. rewrite Es. cbn. auto.
Qed.
Lemma mapr_map {A B} (f : A -> res B) (g : A -> B) l : (forall a, In a l -> f a = Ok (g a)) -> mapr f l = Ok (map g l).
Proof.
  induction l as [|a l IH]; cbn; intros H; [easy|]. rewrite H by now left. cbn. now rewrite IH by auto.
Qed.
Lemma mapr_Forall2 {A B} (f : A -> res B) l bs : mapr f l = Ok bs -> Forall2 (fun a b => f a = Ok b) l bs.
Proof.
  revert bs. induction l as [|a l IH]; cbn; intros bs H; [injection H as <-; constructor|].
  destruct (f a) as [b|] eqn:E; [|discriminate]. cbn in H.
  destruct (mapr f l) as [bs'|]; [|discriminate]. injection H as <-. auto.
Qed.

Lemma Forall2_length {A B} (P : A -> B -> Prop) l m : Forall2 P l m -> length l = length m.
Proof. induction 1; cbn; auto. Qed.
Lemma NoDup_app_iff {A} (a b : list A) : NoDup (a ++ b) <-> NoDup a /\ NoDup b /\ forall x, In x a -> ~ In x b.
Proof.
  induction a as [|x a IH]; cbn.
  - split; [intros H; repeat split; auto; constructor | tauto].
  - rewrite !NoDup_cons_iff, IH, in_app_iff. split.
    + intros (N & H1 & H2 & H3). repeat split; auto. intros y [<- | Hy]; auto.
    + intros ((N & H1) & H2 & H3). split; [|auto 6]. intros [H | H]; [easy|]. eapply H3; eauto.
Qed.
Lemma filter_id {A} (p : A -> bool) l : (forall a, In a l -> p a = true) -> filter p l = l.
Proof. induction l as [|a l IH]; cbn; intros H; [easy|]. rewrite H by now left. f_equal. auto. Qed.
Lemma unique_id l : NoDup l -> unique l = l.
Proof.
  induction 1 as [|x l Hx ND IH]; cbn; [easy|]. rewrite IH, filter_id; [easy|].
  intros y Hy. destruct (Nat.eqb_spec y x); [now subst|easy].
Qed.
Lemma nodupb_iff l : nodupb l = true <-> NoDup l.
Proof.
  induction l as [|x l IH]; cbn; [split; [constructor|easy]|].
  rewrite Bool.andb_true_iff, Bool.negb_true_iff, memb_not, IH, NoDup_cons_iff. tauto.
Qed.

Lemma lookup_In n mp l : lookup n mp = Some l -> In (n, l) mp.
Proof.
  induction mp as [|[m k] mp IH]; cbn; [discriminate|].
  destruct (Nat.eqb_spec n m) as [->|]; [intros [= ->]; now left | right; auto].
Qed.
Lemma lookup_None n mp : lookup n mp = None <-> ~ In n (map fst mp).
Proof.
  induction mp as [|[m k] mp IH]; cbn; [tauto|].
  destruct (Nat.eqb_spec n m) as [->|]; [split; [discriminate|tauto]|].
  rewrite IH. split; [intros H [-> | H']; tauto | tauto].
Qed.
Lemma In_lookup n l mp : NoDup (map fst mp) -> In (n, l) mp -> lookup n mp = Some l.
Proof.
  induction mp as [|[m k] mp IH]; cbn; [easy|]. intros ND [E | H].
  - injection E as -> ->. now rewrite Nat.eqb_refl.
  - inversion ND as [|? ? Hn ND']; subst.
    destruct (Nat.eqb_spec n m) as [->|]; [|now apply IH].
    destruct Hn. change m with (fst (m, l)). now apply in_map.
Qed.

Lemma field_of_In n dt f : NoDup (map f_name dt) -> In f dt -> f_name f = n -> field_of n dt = Some f.
Proof.
  intros ND H <-. unfold field_of. induction dt as [|g dt IH]; cbn; [easy|].
  inversion ND as [|? ? Hn ND']; subst. destruct H as [-> | H]; [now rewrite Nat.eqb_refl|].
  destruct (Nat.eqb_spec (f_name f) (f_name g)) as [E|]; [|auto].
  destruct Hn. rewrite <- E. now apply in_map.
Qed.
Lemma field_of_Some n dt f : field_of n dt = Some f -> In f dt /\ f_name f = n.
Proof. unfold field_of. intros H. apply find_some in H. destruct H as [H E]. apply Nat.eqb_eq in E. auto. Qed.

(** ** Filling one row *)
Lemma fill_ok dt ps d row :
  NoDup (map fst ps) ->
  (forall n ns, In (n, ns) ps -> exists f v w, field_of n dt = Some f /\ pack d ns = Ok v /\ assign f v = Ok w) ->
  (forall n, In n (map fst ps) -> In n (map fst row)) ->
  exists row', fill dt ps d row = Ok row' /\ map fst row' = map fst row /\
    (forall n ns, In (n, ns) ps -> exists f v w, field_of n dt = Some f /\ pack d ns = Ok v /\ assign f v = Ok w /\ get n row' = Some w) /\
    (forall n, ~ In n (map fst ps) -> get n row' = get n row).
Proof.
  revert row. induction ps as [|[n ns] ps IH]; cbn; intros row ND H Hk.
  - exists row. repeat split; auto. intros ? ? [].
  - inversion ND as [|? ? Hn ND']; subst.
    destruct (H n ns (or_introl eq_refl)) as (f & v & w & Ef & Ev & Ew).
    rewrite Ev. cbn. rewrite Ef, Ew. cbn.
    destruct (IH (put n w row)) as (row' & E & K & A & B); auto.
    { intros m Hm. rewrite put_keys by auto. auto. }
    exists row'. split; [easy|]. split; [rewrite K; now apply put_keys; auto|]. split.
    + intros m ms [X | Hm]; [|now apply A]. injection X as <- <-.
      exists f, v, w. repeat split; auto. rewrite B by auto. now rewrite get_put_same.
    + intros m Hm. rewrite B by tauto. apply get_put_other. intros ->. tauto.
Qed.

Lemma zero_row_keys dt : map fst (zero_row dt) = map f_name dt.
Proof. unfold zero_row. rewrite map_map. now apply map_ext. Qed.
Lemma get_zero_row dt f : NoDup (map f_name dt) -> In f dt -> get (f_name f) (zero_row dt) = Some (zero_value f).
Proof.
  intros ND H. apply In_get; [now rewrite zero_row_keys|]. unfold zero_row.
  change (f_name f, zero_value f) with ((fun f => (f_name f, zero_value f)) f). now apply in_map.
Qed.

Lemma start_names first ns mp :
  (forall n, In n ns -> In n (map fst first) /\ ~ In n (map fst mp)) ->
  map f_name (start_dtype first ns mp) = ns /\
  forall n, In n ns -> exists v, get n first = Some v /\ In (decide n v) (start_dtype first ns mp).
Proof.
  unfold start_dtype. induction ns as [|n ns IH]; cbn; intros H; [easy|].
  destruct (H n (or_introl eq_refl)) as [Hk Hm]. apply get_keys in Hk. destruct Hk as [v Hv].
  destruct IH as [A B]; [auto|].
  rewrite (proj2 (lookup_None n mp) Hm), Hv. cbn. rewrite A. split; [easy|].
  intros m [-> | Hm']; [exists v; rewrite Hv; auto|].
  destruct (B m Hm') as (w & E & I). eauto.
Qed.

Lemma assign_scalar n t x y : cast t x = Ok y -> assign (mkF n t None) (Sc x) = Ok (Sc y).
Proof. intros H. unfold assign. cbn [f_ty f_dim]. destruct t; rewrite ?H; try reflexivity. cbn in H. congruence. Qed.

Lemma same_refl x : same x x.
Proof. destruct x; cbn; auto. Qed.
Lemma same_refl_v v : same_value v v.
Proof. destruct v as [x|l]; cbn; [apply same_refl|]. induction l; constructor; auto using same_refl. Qed.
Lemma same_point_refl d : same_point d d.
Proof. intros n. destruct (get n d); auto using same_refl_v. Qed.

Lemma assign_decide n v0 v :
  (n = SIM_ID -> integer v) -> (n <> SIM_ID -> fits v0 v) ->
  exists w, assign (decide n v0) v = Ok w /\ same_value v w.
Proof.
  intros HS HF. unfold decide.
  destruct (Nat.eqb_spec n SIM_ID) as [E|E].
  - specialize (HS E). destruct v as [[z|z|t]|l]; try easy. exists (Sc (SI z)). now split.
  - specialize (HF E). destruct v0 as [[z0|z0|t0]|l0]; destruct v as [[z|z|t]|l]; cbn in HF; try easy;
      try (eexists; split; [reflexivity|]; cbn; auto; fail).
    + eexists; split; [reflexivity|]. cbn. rewrite firstn_all2; auto.
    + eexists; split; [reflexivity|]. apply same_refl_v.
Qed.

Lemma NoDup_map_filter {A B} (g : A -> B) (q : A -> bool) l : NoDup (map g l) -> NoDup (map g (filter q l)).
Proof.
  induction l as [|a l IH]; cbn; intros H; [constructor|]. inversion H as [|? ? Hn ND]; subst.
  destruct (q a); [|auto]. cbn. constructor; [|auto].
  intros Hi. apply Hn. apply in_map_iff in Hi. destruct Hi as (x & <- & Hx). apply filter_In in Hx. apply in_map. tauto.
Qed.

(** ** From points to an array *)
Section ToNp.
  Variables (mp : mapping) (first : dict) (l0 : list dict).
  Let l := first :: l0.
  Hypothesis HP : proper mp.
  Hypothesis HC : convertible mp l.
  Let ns := new_names first mp.
  Let dt1 := start_dtype first ns mp.
  Let md := mapped_in first dt1 mp.
  Let dt := dt1 ++ map mapped_field md.

  Lemma in_ns n : In n ns <-> In n (map fst first) /\ ~ In n (concat (map snd mp)).
  Proof.
    subst ns. unfold new_names. rewrite filter_In, unique_id by (apply (cv_dict _ _ HC); now left).
    rewrite Bool.negb_true_iff, memb_not. reflexivity.
  Qed.
  Lemma ns_nodup : NoDup ns.
  Proof.
    subst ns. unfold new_names. apply NoDup_filter. rewrite unique_id; apply (cv_dict _ _ HC); now left.
  Qed.
  Lemma ns_facts n : In n ns -> In n (map fst first) /\ ~ In n (map fst mp).
  Proof. intros H. apply in_ns in H. split; [tauto|]. apply (cv_apart _ _ HC first); [now left|tauto]. Qed.
  Lemma dt1_names : map f_name dt1 = ns.
  Proof. subst dt1. apply start_names. apply ns_facts. Qed.
  Lemma in_md p : In p md <-> In p mp /\ forall s, In s (snd p) -> In s (map fst first).
  Proof.
    subst md. unfold mapped_in. rewrite filter_In, Bool.andb_true_iff, Bool.negb_true_iff, memb_not, forallb_forall.
    fold dt1. rewrite dt1_names. split.
    - intros (H & _ & A). split; [easy|]. intros s Hs. apply memb_In. auto.
    - intros (H & A). split; [easy|]. split.
      + intros Hn. apply ns_facts in Hn. destruct Hn as [_ Hn]. apply Hn. now apply in_map.
      + intros s Hs. apply memb_In. auto.
  Qed.
  Lemma md_nodup : NoDup (map fst md).
  Proof.
    subst md. unfold mapped_in. apply NoDup_map_filter. apply (pr_targets _ HP).
  Qed.
  Lemma dt_names : map f_name dt = ns ++ map fst md.
  Proof.
    subst dt. rewrite map_app, dt1_names, map_map. f_equal. 
  Qed.
  Lemma dt_nodup : NoDup (map f_name dt).
  Proof.
    rewrite dt_names. pose proof ns_nodup as A. pose proof md_nodup as B.
    assert (D : forall n, In n ns -> ~ In n (map fst md)).
    { intros n Hn Hm. apply ns_facts in Hn. destruct Hn as [_ Hn]. apply Hn.
      apply in_map_iff in Hm. destruct Hm as (p & <- & Hp). apply in_md in Hp. apply in_map. tauto. }
    apply NoDup_app_iff. auto.
  Qed.
  Lemma plan_eq : plan first dt1 mp = map (fun n => (n, [n])) ns ++ md.
  Proof.
    unfold plan. fold ns md. f_equal. apply map_ext_in. intros n Hn.
    destruct (lookup n mp) eqn:E; [|easy]. exfalso.
    apply ns_facts in Hn. destruct Hn as [_ Hn]. apply Hn. apply lookup_In in E.
    change n with (fst (n, l1)). now apply in_map.
  Qed.
  Lemma plan_fst : map fst (plan first dt1 mp) = map f_name dt.
  Proof. rewrite plan_eq, dt_names, map_app, map_map. cbn. now rewrite map_id. Qed.
  Lemma same_keys d n : In d l -> In n (map fst d) <-> In n (map fst first).
  Proof. intros H. split; apply (cv_names _ _ HC); auto; now left. Qed.

  (** packing a mapped field: numbers, in the order of the mapping *)
  Lemma mapped_value d p : In d l -> In p md ->
    exists v w, pack d (snd p) = Ok v /\ assign (mapped_field p) v = Ok w /\
      match snd p with
      | [s] => exists x y, v = Sc x /\ w = Sc y /\ get s d = Some (Sc x) /\ same x y
      | ss => exists xs ys, v = Vec xs /\ w = Vec ys /\ Forall2 (fun s x => get s d = Some (Sc x)) ss xs /\ Forall2 same xs ys
      end.
  Proof.
    intros Hd Hp. pose proof Hp as Hp'. apply in_md in Hp'. destruct Hp' as [Hm Hs].
    pose proof (pr_some _ HP p Hm) as Hne.
    assert (G : forall s, In s (snd p) -> exists x, get s d = Some (Sc x) /\
              exists y, cast (if fst p =? SIM_ID then TInt else TFloat) x = Ok y /\ same x y).
    { intros s Hi. assert (K : In s (map fst d)) by (apply same_keys; auto).
      apply get_keys in K. destruct K as [v Hv].
      pose proof (cv_number _ _ HC d p s v Hd Hm Hi Hv) as N.
      destruct (Nat.eqb_spec (fst p) SIM_ID) as [E|E].
      - pose proof (cv_id _ _ HC d p s v Hd Hm E Hi Hv) as I. destruct v as [[z|z|t]|k]; try easy.
        exists (SI z). split; [easy|]. exists (SI z). split; cbn; auto.
      - destruct v as [[z|z|t]|k]; try easy.
        + exists (SI z). split; [easy|]. exists (SF (1000 * z)). split; cbn; auto.
        + exists (SF z). split; [easy|]. exists (SF z). split; cbn; auto. }
    destruct p as [n ss]. cbn [fst snd] in *. unfold mapped_field. cbn [fst snd].
    destruct ss as [|s [|s2 ss]]; [congruence| |].
    - destruct (G s (or_introl eq_refl)) as (x & E & y & C & S).
      exists (Sc x), (Sc y). cbn [pack]. rewrite E. split; [easy|]. split; [|now exists x, y].
      cbn [length Nat.ltb Nat.leb]. now apply assign_scalar.
    - remember (s :: s2 :: ss) as t eqn:Et.
      assert (Lt : 2 <= length t) by (subst t; cbn; lia).
      assert (X : exists xs ys, mapr (scalar_of d) t = Ok xs /\ Forall2 (fun s x => get s d = Some (Sc x)) t xs /\
                  mapr (cast (if n =? SIM_ID then TInt else TFloat)) xs = Ok ys /\ Forall2 same xs ys).
      { clear Et Lt Hs Hp Hm Hne s s2 ss. induction t as [|s t IH]; cbn; [exists [], []; auto|].
        destruct (G s (or_introl eq_refl)) as (x & E & y & C & S).
        specialize (IH (fun s H => G s (or_intror H))). destruct IH as (xs & ys & A & B & C' & D).
        exists (x :: xs), (y :: ys). unfold scalar_of at 1. rewrite E. cbn. rewrite A. cbn. rewrite C. cbn. rewrite C'. cbn. auto. }
      destruct X as (xs & ys & A & B & C & D). exists (Vec xs), (Vec ys).
      assert (Lx : length xs = length t) by (now rewrite (Forall2_length _ _ _ B)).
      split.
      { unfold pack. rewrite Et in A |- *. now rewrite A. }
      split.
      { destruct (Nat.ltb_spec 1 (length t)); [|lia]. unfold assign. cbn [f_ty f_dim].
        rewrite Lx. destruct xs as [|x1 [|x2 xs]]; cbn in Lx; try lia.
        rewrite <- Lx. destruct (n =? SIM_ID); rewrite Nat.eqb_refl, C; reflexivity. }
      subst t. now exists xs, ys.
  Qed.

  Lemma to_np_ok : exists rows, to_np l [] mp = Ok (mkArr dt rows) /\
    Forall2 (fun d row => map fst row = map f_name dt /\
      (forall n, In n ns -> exists v w, get n d = Some v /\ get n row = Some w /\ same_value v w) /\
      (forall p, In p md -> exists v w, pack d (snd p) = Ok v /\ get (fst p) row = Some w /\
         match snd p with
         | [s] => exists x y, v = Sc x /\ w = Sc y /\ get s d = Some (Sc x) /\ same x y
         | ss => exists xs ys, v = Vec xs /\ w = Vec ys /\ Forall2 (fun s x => get s d = Some (Sc x)) ss xs /\ Forall2 same xs ys
         end)) l rows.
  Proof.
    unfold to_np, l. cbv zeta. fold ns. fold dt1. fold md. fold dt.
    unfold check_dt. rewrite (proj2 (nodupb_iff _) dt_nodup). cbn [bindr].
    match goal with |- context [mapr ?f (first :: l0)] =>
      destruct (mapr_ok f (fun d row => map fst row = map f_name dt /\
      (forall n, In n ns -> exists v w, get n d = Some v /\ get n row = Some w /\ same_value v w) /\
      (forall p, In p md -> exists v w, pack d (snd p) = Ok v /\ get (fst p) row = Some w /\
         match snd p with
         | [s] => exists x y, v = Sc x /\ w = Sc y /\ get s d = Some (Sc x) /\ same x y
         | ss => exists xs ys, v = Vec xs /\ w = Vec ys /\ Forall2 (fun s x => get s d = Some (Sc x)) ss xs /\ Forall2 same xs ys
         end)) (first :: l0)) as (rows & E & F) end.
    2: { rewrite E. cbn [bindr]. eauto. }
    intros d Hd.
    assert (U : forall n, In n ns -> exists v v0 w, get n d = Some v /\ get n first = Some v0 /\
                field_of n dt = Some (decide n v0) /\ assign (decide n v0) v = Ok w /\ same_value v w).
    { intros n Hn. pose proof (proj1 (in_ns n) Hn) as [Hk Hs].
      destruct (proj2 (start_names first ns mp ns_facts) n Hn) as (v0 & E0 & I0).
      assert (K : In n (map fst d)) by (apply same_keys; auto).
      apply get_keys in K. destruct K as [v Hv].
      destruct (assign_decide n v0 v) as (w & Ew & Sw).
      { intros ->. eapply (cv_sim_id _ _ HC d); eauto. }
      { intros _. eapply (cv_fits _ _ HC d first n); eauto. }
      exists v, v0, w. repeat split; auto.
      apply field_of_In; [apply dt_nodup | subst dt; apply in_or_app; now left | reflexivity]. }
    assert (M : forall p, In p md -> field_of (fst p) dt = Some (mapped_field p)).
    { intros p Hp. apply field_of_In; [apply dt_nodup | subst dt; apply in_or_app; right; now apply in_map | reflexivity]. }
    destruct (fill_ok dt (plan first dt1 mp) d (zero_row dt)) as (row & Er & Kr & A & B).
    { rewrite plan_fst. apply dt_nodup. }
    { rewrite plan_eq. intros n k H. apply in_app_iff in H. destruct H as [H | H].
      - apply in_map_iff in H. destruct H as (m & X & Hm). injection X as <- <-.
        destruct (U m Hm) as (v & v0 & w & Ev & _ & Ef & Ew & _).
        exists (decide m v0), v, w. cbn [pack]. rewrite Ev. auto.
      - destruct (mapped_value d (n, k) Hd H) as (v & w & Ev & Ew & _).
        exists (mapped_field (n, k)), v, w. split; [apply (M (n, k) H)|]. auto. }
    { intros n. now rewrite plan_fst, zero_row_keys. }
    exists row. split; [exact Er|]. split; [now rewrite Kr, zero_row_keys|]. split.
    - intros n Hn. destruct (U n Hn) as (v & v0 & w & Ev & _ & Ef & Ew & Sw).
      destruct (A n [n]) as (f & v' & w' & Ef' & Ev' & Ew' & G).
      { rewrite plan_eq. apply in_or_app. left. now apply (in_map (fun n => (n, [n]))). }
      cbn [pack] in Ev'. rewrite Ev in Ev'. injection Ev' as <-. rewrite Ef in Ef'. injection Ef' as <-.
      rewrite Ew in Ew'. injection Ew' as <-. eauto.
    - intros p Hp. destruct (mapped_value d p Hd Hp) as (v & w & Ev & Ew & Sw).
      destruct (A (fst p) (snd p)) as (f & v' & w' & Ef' & Ev' & Ew' & G).
      { rewrite plan_eq. apply in_or_app. right. now rewrite <- surjective_pairing. }
      rewrite (M p Hp) in Ef'. injection Ef' as <-. rewrite Ev in Ev'. injection Ev' as <-.
      rewrite Ew in Ew'. injection Ew' as <-. eauto.
  Qed.
End ToNp.

(** ** From an array to points *)
Definition comps (v : value) : list value := match v with Sc x => [Sc x] | Vec l => map Sc l end.
Definition written (mp : mapping) (f : field) : list name := match lookup (f_name f) mp with None => [f_name f] | Some ns => ns end.
Definition writes (mp : mapping) (row : dict) (f : field) : list (name * value) :=
  match get (f_name f) row with
  | None => []
  | Some v => match lookup (f_name f) mp with None => [(f_name f, v)] | Some ns => combine ns (comps v) end
  end.
(** the value has the shape the mapping needs *)
Definition shaped (mp : mapping) (f : field) (v : value) : Prop :=
  match lookup (f_name f) mp with
  | None => True
  | Some ns => match v with
               | Sc _ => f_ty f <> TObj /\ f_dim f = None /\ length ns = 1
               | Vec l => length l = length ns /\ 2 <= length ns /\ f_dim f = Some (length ns)
               end
  end.

Lemma combine_nth (l : list sc) (ns : list name) k :
  length l = length ns ->
  mapr (fun p => match nth_error (repeat (SI 0) k ++ l) (fst p) with Some x => Ok (snd p, Sc x) | None => Err EIndex end)
       (combine (seq k (length ns)) ns) = Ok (combine ns (map Sc l)).
Proof.
  revert l k. induction ns as [|n ns IH]; intros l k H; [easy|].
  destruct l as [|x l]; [discriminate|]. cbn [length seq combine mapr map fst snd].
  rewrite nth_error_app2 by (rewrite repeat_length; lia). rewrite repeat_length, Nat.sub_diag. cbn [nth_error bindr].
  assert (E : repeat (SI 0) k ++ x :: l = repeat (SI 0) k ++ [x] ++ l) by easy.
  specialize (IH l (S k)). cbn in H.
  assert (X : forall p, In p (combine (seq (S k) (length ns)) ns) ->
     nth_error (repeat (SI 0) k ++ x :: l) (fst p) = nth_error (repeat (SI 0) (S k) ++ l) (fst p)).
  { intros [i m] Hi. apply in_combine_l in Hi. apply in_seq in Hi. cbn [fst].
    rewrite !nth_error_app2 by (rewrite repeat_length; lia). rewrite !repeat_length.
    replace (i - k) with (S (i - S k)) by lia. reflexivity. }
  assert (Y : forall q, (forall p, In p q -> nth_error (repeat (SI 0) k ++ x :: l) (fst p) = nth_error (repeat (SI 0) (S k) ++ l) (fst p)) ->
     mapr (fun p : nat * name => match nth_error (repeat (SI 0) k ++ x :: l) (fst p) with Some x => Ok (snd p, Sc x) | None => Err EIndex end) q =
     mapr (fun p : nat * name => match nth_error (repeat (SI 0) (S k) ++ l) (fst p) with Some x => Ok (snd p, Sc x) | None => Err EIndex end) q).
  { induction q as [|p q IHq]; intros Hq; [easy|]. cbn [mapr]. rewrite Hq by now left. rewrite IHq by (intros; apply Hq; now right). easy. }
  rewrite (Y _ X). rewrite IH by lia. reflexivity.
Qed.
Lemma combine_nth0 (l : list sc) (ns : list name) :
  length l = length ns ->
  mapr (fun p => match nth_error l (fst p) with Some x => Ok (snd p, Sc x) | None => Err EIndex end)
       (combine (seq 0 (length ns)) ns) = Ok (combine ns (map Sc l)).
Proof. intros H. apply (combine_nth l ns 0 H). Qed.

Lemma entries_ok mp f v row : get (f_name f) row = Some v -> shaped mp f v -> entries f v mp = Ok (writes mp row f).
Proof.
  intros G S. unfold entries, writes, shaped in *. rewrite G.
  destruct (lookup (f_name f) mp) as [ns|]; [|easy].
  destruct v as [x|l].
  - destruct S as (T & D & L). rewrite D, L. cbn [Nat.eqb].
    destruct ns as [|n [|? ?]]; try discriminate. destruct (f_ty f); try easy.
  - destruct S as (L & L2 & D). rewrite D, Nat.eqb_refl.
    destruct l as [|x [|y l]]; cbn in L; try lia.
    cbn [comps]. rewrite <- combine_nth0 by easy. destruct (f_ty f); reflexivity.
Qed.
Lemma writes_fst mp row f v : get (f_name f) row = Some v -> shaped mp f v -> map fst (writes mp row f) = written mp f.
Proof.
  intros G S. unfold writes, written, shaped in *. rewrite G.
  destruct (lookup (f_name f) mp) as [ns|]; [|easy].
  assert (L : length ns = length (comps v)).
  { destruct v as [x|l]; cbn; [tauto|]. rewrite map_length. destruct S; easy. }
  revert L. generalize (comps v). clear. induction ns as [|n ns IH]; intros [|w ws]; cbn; try easy. intros [= L]. now rewrite IH.
Qed.
Lemma row_dict_ok dt mp row :
  (forall f, In f dt -> exists v, get (f_name f) row = Some v /\ shaped mp f v) ->
  NoDup (flat_map (written mp) dt) ->
  row_dict dt mp row = Ok (flat_map (writes mp row) dt) /\ map fst (flat_map (writes mp row) dt) = flat_map (written mp) dt.
Proof.
  intros H ND.
  assert (K : map fst (flat_map (writes mp row) dt) = flat_map (written mp) dt).
  { clear ND. induction dt as [|f dt IH]; [easy|]. cbn. rewrite map_app, (IH (fun g Hg => H g (or_intror Hg))).
    destruct (H f (or_introl eq_refl)) as (v & G & S). now rewrite (writes_fst mp row f v G S). }
  split; [|easy]. unfold row_dict. rewrite mapr_map with (g := writes mp row).
  - cbn [bindr]. rewrite <- flat_map_concat_map, puts_fresh; [easy | now rewrite K | easy].
  - intros f Hf. destruct (H f Hf) as (v & G & S). rewrite G. now apply entries_ok.
Qed.

Lemma minus_one_same x y : same x y -> minus_one x = minus_one y.
Proof.
  destruct x as [a|a|s], y as [b|b|t]; cbn [same minus_one]; intros H; try easy; subst; auto.
  - destruct (Z.eqb_spec a (-1)), (Z.eqb_spec (1000 * a) (-1000)); try reflexivity; lia.
  - destruct (Z.eqb_spec b (-1)), (Z.eqb_spec (1000 * b) (-1000)); try reflexivity; lia.
Qed.

Lemma get_filter_id d n : get n (filter (fun p => negb (fst p =? ID)) d) = if n =? ID then None else get n d.
Proof.
  induction d as [|[m w] d IH]; cbn [filter get fst]; [now destruct (n =? ID)|].
  destruct (Nat.eqb_spec m ID) as [->|Hm]; cbn [negb get]; rewrite IH.
  - destruct (Nat.eqb_spec n ID); [easy|]. easy.
  - destruct (Nat.eqb_spec n ID) as [E|]; [|easy]. destruct (Nat.eqb_spec n m); [congruence|easy].
Qed.
Lemma get_cleaned d n : NoDup (map fst d) -> (forall v, get ID d = Some v -> integer v) ->
  get n (cleaned d) = match get ID d with
                      | Some (Sc x) => if minus_one x && (n =? ID) then None else get n d
                      | _ => get n d end.
Proof.
  intros ND HI. destruct (get ID d) as [v|] eqn:E.
  - specialize (HI v eq_refl). destruct v as [[z|z|t]|l]; try easy. cbn [minus_one].
    assert (A : forall m w, In (m, w) d -> m = ID -> w = Sc (SI z)).
    { intros m w Hi ->. apply In_get in Hi; [congruence|easy]. }
    clear ND E HI. unfold cleaned. induction d as [|[m w] d IH]; [cbn; now destruct ((z =? -1)%Z && (n =? ID))|].
    cbn [filter fst snd]. specialize (IH (fun m w H => A m w (or_intror H))).
    specialize (A m w (or_introl eq_refl)).
    destruct (Nat.eqb_spec m ID) as [->|Hm]; cbn [andb negb get].
    + rewrite (A eq_refl). destruct (z =? -1)%Z; cbn [negb andb get] in *.
      * rewrite IH. destruct (n =? ID); easy.
      * rewrite IH. easy.
    + rewrite IH. destruct (Nat.eqb_spec n m); [|easy]. subst n.
      destruct (Nat.eqb_spec m ID); [congruence|]. now rewrite Bool.andb_false_r.
  - unfold cleaned. rewrite filter_id; [easy|]. intros [m w] Hi. cbn [fst snd].
    destruct (Nat.eqb_spec m ID) as [->|]; [|easy]. exfalso.
    apply In_get in Hi; [congruence|easy].
Qed.

(** Removing the unset id keeps points the same. *)
Lemma drop_id_same d e : NoDup (map fst d) -> (forall v, get ID d = Some v -> integer v) -> same_point d e ->
  exists e', drop_id e = Ok e' /\ same_point (cleaned d) e'.
Proof.
  intros ND HI S. pose proof (S ID) as SI0. unfold drop_id.
  destruct (get ID d) as [v|] eqn:E.
  - pose proof (HI v eq_refl) as I. destruct v as [[z|z|t]|l]; try easy.
    destruct (get ID e) as [[y|l]|] eqn:E'; try easy. cbn in SI0.
    rewrite <- (minus_one_same (SI z) y SI0).
    destruct (minus_one (SI z)) eqn:Em.
    + eexists. split; [reflexivity|]. intros n. rewrite get_cleaned, get_filter_id, E, Em by (auto; now rewrite E). cbn [andb].
      specialize (S n). destruct (n =? ID); easy.
    + eexists. split; [reflexivity|]. intros n. rewrite get_cleaned, E, Em by (auto; now rewrite E). cbn [andb]. apply S.
  - destruct (get ID e) as [w|] eqn:E'; [easy|]. eexists. split; [reflexivity|].
    intros n. rewrite get_cleaned, E by (auto; now rewrite E). apply S.
Qed.

(** ** Points to an array and back *)
Section RoundTrip.
  Variables (mp : mapping) (first : dict) (l0 : list dict).
  Let l := first :: l0.
  Hypothesis HP : proper mp.
  Hypothesis HC : convertible mp l.
  Let ns := new_names first mp.
  Let dt1 := start_dtype first ns mp.
  Let md := mapped_in first dt1 mp.
  Let dt := dt1 ++ map mapped_field md.

  Lemma flat_map_map {A B C} (g : A -> B) (h : B -> list C) k : flat_map h (map g k) = flat_map (fun a => h (g a)) k.
  Proof. induction k; cbn; congruence. Qed.
  Lemma flat_map_ext_in {A B} (g h : A -> list B) k : (forall a, In a k -> g a = h a) -> flat_map g k = flat_map h k.
  Proof. induction k as [|a k IH]; cbn; intros H; [easy|]. rewrite H by now left. f_equal. auto. Qed.
  Lemma written_dt : flat_map (written mp) dt = ns ++ flat_map snd md.
  Proof.
    unfold dt. rewrite flat_map_app. f_equal.
    - pose proof (dt1_names mp first l0 HC) as E. fold ns in E. fold dt1 in E.
      assert (H : forall f, In f dt1 -> ~ In (f_name f) (map fst mp)).
      { intros f Hf. eapply ns_facts; eauto. fold ns. rewrite <- E. now apply in_map. }
      rewrite <- E. clear E. induction dt1 as [|f d IH]; [easy|]. cbn. rewrite IH by (intros; apply H; now right).
      unfold written. rewrite (proj2 (lookup_None _ _) (H f (or_introl eq_refl))). easy.
    - rewrite flat_map_map. apply flat_map_ext_in. intros p Hp. unfold written. cbn [mapped_field f_name].
      rewrite (In_lookup (fst p) (snd p)); [easy | apply (pr_targets _ HP) |].
      rewrite <- surjective_pairing. eapply in_md; eauto.
  Qed.
  Lemma NoDup_concat_filter (q : name * list name -> bool) m : NoDup (concat (map snd m)) -> NoDup (flat_map snd (filter q m)).
  Proof.
    induction m as [|p m IH]; cbn; intros H; [constructor|].
    apply NoDup_app_iff in H. destruct H as (A & B & C). destruct (q p); [|auto]. cbn.
    apply NoDup_app_iff. split; [easy|]. split; [auto|].
    intros x Hx Hf. apply in_flat_map in Hf. destruct Hf as (r & Hr & Hx'). apply filter_In in Hr.
    apply (C x Hx). apply in_concat. exists (snd r). split; [apply in_map; tauto|easy].
  Qed.
  Lemma written_nodup : NoDup (flat_map (written mp) dt).
  Proof.
    rewrite written_dt. pose proof (ns_nodup mp first l0 HC) as A. fold ns in A.
    assert (B : NoDup (flat_map snd md)) by (apply NoDup_concat_filter; apply (pr_sources _ HP)).
    assert (D : forall x, In x ns -> ~ In x (flat_map snd md)).
    { intros x Hx Hf. eapply in_ns in Hx; eauto. destruct Hx as [_ Hx]. apply Hx.
      apply in_flat_map in Hf. destruct Hf as (p & Hp & Hs). eapply in_md in Hp; eauto. destruct Hp as [Hp _].
      apply in_concat. exists (snd p). split; [now apply in_map|easy]. }
    apply NoDup_app_iff. auto.
  Qed.
  Lemma keys_split d n : In d l -> (In n (map fst d) <-> In n (ns ++ flat_map snd md)).
  Proof.
    intros Hd. rewrite (same_keys mp first l0 HC d n Hd). rewrite in_app_iff. split.
    - intros Hk. destruct (in_dec Nat.eq_dec n (concat (map snd mp))) as [Hi|Hi].
      + right. apply in_concat in Hi. destruct Hi as (ss & Hs & Hn). apply in_map_iff in Hs. destruct Hs as (p & <- & Hp).
        apply in_flat_map. exists p. split; [|easy]. eapply in_md; eauto. split; [easy|].
        intros s Hs. eapply (cv_whole _ _ HC first p n s); eauto. now left.
      + left. eapply in_ns; eauto.
    - intros [H | H]; [eapply in_ns in H; eauto; tauto|].
      apply in_flat_map in H. destruct H as (p & Hp & Hs). eapply in_md in Hp; eauto. destruct Hp as [_ Hp]. auto.
  Qed.

  Lemma combine_In_nth {A B} (a : list A) (b : list B) i x y : nth_error a i = Some x -> nth_error b i = Some y -> In (x, y) (combine a b).
  Proof.
    revert b i. induction a as [|z a IH]; intros b i Ha Hb; [destruct i; discriminate|].
    destruct b as [|w b]; [destruct i; discriminate|]. destruct i as [|i]; cbn in *.
    - left. congruence.
    - right. eauto.
  Qed.
  Lemma Forall2_nth {A B} (P : A -> B -> Prop) a b i x : Forall2 P a b -> nth_error a i = Some x -> exists y, nth_error b i = Some y /\ P x y.
  Proof.
    intros H. revert i. induction H; intros [|i] E; cbn in *; try discriminate.
    - injection E as <-. eauto.
    - eauto.
  Qed.

  Lemma Forall2_In_l {A B} (P : A -> B -> Prop) a b : Forall2 P a b -> Forall2 (fun x y => In x a /\ P x y) a b.
  Proof.
    intros H. assert (G : forall k, (forall x, In x a -> In x k) -> Forall2 (fun x y => In x k /\ P x y) a b).
    { induction H as [|x y a b Hxy H IH]; intros k Hk; constructor.
      - split; [apply Hk; now left | easy].
      - apply IH. intros z Hz. apply Hk. now right. }
    apply G. auto.
  Qed.
  Lemma Forall2_mapr {A B C} (P : A -> B -> Prop) (Q : A -> C -> Prop) (f : B -> res C) a b :
    Forall2 P a b -> (forall x y, P x y -> exists z, f y = Ok z /\ Q x z) -> exists c, mapr f b = Ok c /\ Forall2 Q a c.
  Proof.
    intros H K. induction H as [|x y a b Hxy H IH]; [exists []; auto|].
    destruct IH as (c & Ec & Qc). destruct (K x y Hxy) as (z & Ez & Qz).
    exists (z :: c). cbn. rewrite Ez. cbn. rewrite Ec. cbn. auto.
  Qed.

  Lemma row_back d row : In d l ->
    (forall n, In n ns -> exists v w, get n d = Some v /\ get n row = Some w /\ same_value v w) ->
    (forall p, In p md -> exists v w, pack d (snd p) = Ok v /\ get (fst p) row = Some w /\
         match snd p with
         | [s] => exists x y, v = Sc x /\ w = Sc y /\ get s d = Some (Sc x) /\ same x y
         | ss => exists xs ys, v = Vec xs /\ w = Vec ys /\ Forall2 (fun s x => get s d = Some (Sc x)) ss xs /\ Forall2 same xs ys
         end) ->
    exists e, row_dict dt mp row = Ok e /\ same_point d e.
  Proof.
    intros Hd A B.
    pose proof (dt1_names mp first l0 HC) as E1. fold ns in E1. fold dt1 in E1.
    assert (L1 : forall f, In f dt1 -> In (f_name f) ns /\ lookup (f_name f) mp = None).
    { intros f Hf. assert (X : In (f_name f) ns) by (rewrite <- E1; now apply in_map).
      split; [easy|]. apply lookup_None. eapply ns_facts; eauto. }
    assert (L2 : forall p, In p md -> lookup (fst p) mp = Some (snd p)).
    { intros p Hp. apply In_lookup; [apply (pr_targets _ HP)|]. rewrite <- surjective_pairing. eapply in_md; eauto. }
    destruct (row_dict_ok dt mp row) as [R K].
    { intros f Hf. unfold dt in Hf. apply in_app_iff in Hf. destruct Hf as [Hf | Hf].
      - destruct (L1 f Hf) as [Hn Hl]. destruct (A _ Hn) as (v & w & _ & G & _). exists w. split; [easy|].
        unfold shaped. now rewrite Hl.
      - apply in_map_iff in Hf. destruct Hf as (p & <- & Hp). destruct (B p Hp) as (v & w & _ & G & S).
        exists w. split; [exact G|]. unfold shaped. cbn [mapped_field f_name f_ty f_dim]. rewrite (L2 p Hp).
        eapply in_md in Hp; eauto. destruct Hp as [Hp _]. pose proof (pr_some _ HP p Hp) as Hne.
        destruct (snd p) as [|s [|s2 ss]]; [congruence| |].
        + destruct S as (x & y & _ & -> & _). cbn. split; [destruct (fst p =? SIM_ID); discriminate | auto].
        + destruct S as (xs & ys & _ & -> & F1 & F2). cbn [length] in *.
          rewrite <- (Forall2_length _ _ _ F2), <- (Forall2_length _ _ _ F1). cbn. split; [easy|]. split; [lia|]. easy. }
    { apply written_nodup. }
    exists (flat_map (writes mp row) dt). split; [exact R|].
    pose proof written_nodup as ND. rewrite <- K in ND. rewrite written_dt in K.
    intros n. destruct (in_dec Nat.eq_dec n (ns ++ flat_map snd md)) as [Hi|Hi].
    2: { rewrite (proj2 (get_None n d)) by (rewrite (keys_split d n Hd); easy).
         rewrite (proj2 (get_None n _)); [easy|]. now rewrite K. }
    apply in_app_iff in Hi. destruct Hi as [Hi|Hi].
    - destruct (A n Hi) as (v & w & G1 & G2 & S). rewrite G1.
      rewrite (In_get n _ w ND); [exact S|]. apply in_flat_map.
      rewrite <- E1 in Hi. apply in_map_iff in Hi. destruct Hi as (f & <- & Hf). exists f.
      split; [unfold dt; apply in_or_app; now left|]. unfold writes. rewrite G2, (proj2 (L1 f Hf)). now left.
    - apply in_flat_map in Hi. destruct Hi as (p & Hp & Hs). destruct (B p Hp) as (v & w & _ & G2 & S).
      assert (W : writes mp row (mapped_field p) = combine (snd p) (comps w)).
      { unfold writes. cbn [mapped_field f_name]. now rewrite G2, (L2 p Hp). }
      assert (I : forall y, In (n, y) (combine (snd p) (comps w)) -> get n (flat_map (writes mp row) dt) = Some y).
      { intros y Hy. apply In_get; [easy|]. apply in_flat_map. exists (mapped_field p). split.
        - unfold dt. apply in_or_app. right. now apply in_map.
        - now rewrite W. }
      destruct (snd p) as [|s [|s2 ss]]; [easy| |].
      + destruct S as (x & y & _ & -> & G & S). destruct Hs as [<- | []]. rewrite G, (I (Sc y)); [exact S|]. now left.
      + destruct S as (xs & ys & _ & -> & F1 & F2). apply In_nth_error in Hs. destruct Hs as [i Hs].
        destruct (Forall2_nth _ _ _ _ _ F1 Hs) as (x & Hx & Gx).
        destruct (Forall2_nth _ _ _ _ _ F2 Hx) as (y & Hy & Sy).
        rewrite Gx, (I (Sc y)); [exact Sy|]. eapply combine_In_nth; eauto. cbn. rewrite nth_error_map, Hy. easy.
  Qed.

  Lemma round_trip : (forall d v, In d l -> get ID d = Some v -> integer v) ->
    exists a l', to_np l [] mp = Ok a /\ to_dicts a mp = Ok l' /\ Forall2 (fun d e => same_point (cleaned d) e) l l'.
  Proof.
    intros HID. destruct (to_np_ok mp first l0 HP HC) as (rows & E & F). fold l ns dt1 md dt in E, F.
    exists (mkArr dt rows).
    destruct (Forall2_mapr _ (fun d e => In d l /\ same_point d e) (row_dict dt mp) _ _ (Forall2_In_l _ _ _ F)) as (l1 & E1 & F1).
    { intros d row (Hd & _ & A & B). destruct (row_back d row Hd A B) as (e & X & Y). eauto. }
    destruct (Forall2_mapr _ (fun d e => same_point (cleaned d) e) drop_id _ _ F1) as (l2 & E2 & F2).
    { intros d e (Hd & S). apply drop_id_same; [apply (cv_dict _ _ HC d Hd) | intros v; now apply HID | easy]. }
    exists l2. split; [exact E|]. split; [|exact F2].
    unfold to_dicts. cbn [a_dt a_rows]. rewrite E1. exact E2.
  Qed.
End RoundTrip.

(** ** An array to points and back *)
Lemma sources_disjoint (mp : mapping) n k m k' x : NoDup (concat (map snd mp)) -> In (n, k) mp -> In (m, k') mp -> n <> m -> In x k -> ~ In x k'.
Proof.
  induction mp as [|[q r] mp IH]; cbn; [easy|]. intros ND H1 H2 Hnm Hx.
  apply NoDup_app_iff in ND. destruct ND as (A & B & C).
  destruct H1 as [E1 | H1], H2 as [E2 | H2].
  - congruence.
  - injection E1 as -> ->. intros Hx'. apply (C x Hx). apply in_concat. exists k'. split; [|easy].
    change k' with (snd (m, k')). now apply in_map.
  - injection E2 as -> ->. intros Hx'. apply (C x Hx'). apply in_concat. exists k. split; [|easy].
    change k with (snd (n, k)). now apply in_map.
  - eauto.
Qed.
Lemma in_sources (mp : mapping) n k x : In (n, k) mp -> In x k -> In x (concat (map snd mp)).
Proof. intros H Hx. apply in_concat. exists k. split; [|easy]. change k with (snd (n, k)). now apply in_map. Qed.

Lemma Forall2_map_l {A B C} (P : B -> C -> Prop) (g : A -> B) a c : Forall2 P (map g a) c -> Forall2 (fun x y => P (g x) y) a c.
Proof.
  revert c. induction a as [|x a IH]; cbn; intros c H; inversion H; subst; constructor; auto.
Qed.

Lemma Forall2_weaken {A B} (P Q : A -> B -> Prop) a b : (forall x y, P x y -> Q x y) -> Forall2 P a b -> Forall2 Q a b.
Proof. intros H. induction 1; constructor; auto. Qed.

Section ArrTrip.
  Variables (mp : mapping) (a : arr).
  Hypothesis HP : proper mp.
  Hypothesis HA : array_ok a.
  Hypothesis HV : covers mp (a_dt a).
  Hypothesis HK : keepable mp a.
  Let dt := a_dt a.
  Let W := flat_map (written mp) dt.
  Let ent (row : dict) := flat_map (writes mp row) dt.

  Lemma written_in f n : In f dt -> In n (written mp f) ->
    (n = f_name f /\ ~ In n (map fst mp) /\ ~ In n (concat (map snd mp))) \/
    (exists ns, In (f_name f, ns) mp /\ lookup (f_name f) mp = Some ns /\ In n ns).
  Proof.
    intros Hf H. unfold written in H. destruct (lookup (f_name f) mp) as [ns|] eqn:E.
    - right. exists ns. split; [now apply lookup_In|]. auto.
    - left. destruct H as [<- | []]. split; [easy|]. split; [now apply lookup_None|]. now apply (co_apart _ _ HV).
  Qed.
  Lemma W_nodup : NoDup W.
  Proof.
    unfold W. pose proof (ar_names _ HA) as ND. fold dt in ND.
    assert (Hin : forall f, In f dt -> In f dt) by auto. revert Hin ND. generalize dt at 1 3 4 as k.
    induction k as [|f k IH]; cbn; intros Hin ND; [constructor|]. inversion ND as [|? ? Hf ND']; subst.
    apply NoDup_app_iff. split; [|split].
    - unfold written. destruct (lookup (f_name f) mp) as [ns|] eqn:E; [|constructor; [easy|constructor]].
      apply lookup_In in E. pose proof (pr_sources _ HP) as S. revert S E. clear.
      induction mp as [|qr m IH]; cbn; [easy|]. intros S [E | H]; apply NoDup_app_iff in S; [|apply IH; tauto].
      subst qr. tauto.
    - apply IH; auto.
    - intros x Hx Hx'. apply in_flat_map in Hx'. destruct Hx' as (g & Hg & Hx').
      assert (Ne : f_name f <> f_name g) by (intros E; apply Hf; rewrite E; now apply in_map).
      apply written_in in Hx; [|auto]. apply written_in in Hx'; [|auto].
      destruct Hx as [(-> & _ & S1) | (k1 & I1 & _ & S1)], Hx' as [(E2 & _ & S2) | (k2 & I2 & _ & S2)].
      + contradiction.
      + apply S1. eapply in_sources; eauto.
      + subst x. apply S2. eapply in_sources; eauto.
      + eapply (sources_disjoint mp _ _ _ _ x); [apply (pr_sources _ HP) | exact I1 | exact I2 | exact Ne | |]; easy.
  Qed.
  Lemma row_shaped row f : In row (a_rows a) -> In f dt -> exists v, get (f_name f) row = Some v /\ in_field f v /\ shaped mp f v.
  Proof.
    intros Hr Hf. destruct (ar_rows _ HA row Hr) as [_ R]. destruct (R f Hf) as (v & G & I).
    exists v. split; [easy|]. split; [easy|]. unfold shaped. destruct (lookup (f_name f) mp) as [ns|] eqn:E; [|easy].
    apply lookup_In in E. destruct (co_fields _ _ HV f ns Hf E) as [T D].
    unfold in_field in I. destruct D as [(D & L) | (D & L)]; rewrite D in I; destruct v as [x|l].
    - split; [destruct T as [-> | ->]; discriminate | auto].
    - destruct T as [T | T]; rewrite T in I; discriminate.
    - easy.
    - tauto.
  Qed.
  Lemma ent_ok row : In row (a_rows a) -> row_dict dt mp row = Ok (ent row) /\ map fst (ent row) = W.
  Proof.
    intros Hr. apply row_dict_ok; [|apply W_nodup]. intros f Hf.
    destruct (row_shaped row f Hr Hf) as (v & G & _ & S). eauto.
  Qed.
  Lemma ent_plain row f : In row (a_rows a) -> In f dt -> ~ In (f_name f) (map fst mp) -> get (f_name f) (ent row) = get (f_name f) row.
  Proof.
    intros Hr Hf Hn. destruct (row_shaped row f Hr Hf) as (v & G & _ & S). rewrite G.
    apply In_get; [rewrite (proj2 (ent_ok row Hr)); apply W_nodup|]. apply in_flat_map. exists f. split; [easy|].
    unfold writes. rewrite G, (proj2 (lookup_None _ _) Hn). now left.
  Qed.
  Lemma ent_mapped row f ns : In row (a_rows a) -> In f dt -> lookup (f_name f) mp = Some ns ->
    exists v, get (f_name f) row = Some v /\ in_field f v /\ length ns = length (comps v) /\
      forall i n w, nth_error ns i = Some n -> nth_error (comps v) i = Some w -> get n (ent row) = Some w.
  Proof.
    intros Hr Hf Hl. destruct (row_shaped row f Hr Hf) as (v & G & I & S). exists v. split; [easy|]. split; [easy|].
    unfold shaped in S. rewrite Hl in S. split.
    { destruct v as [x|l]; cbn; [tauto|]. rewrite map_length. lia. }
    intros i n w Hi Hw. apply In_get; [rewrite (proj2 (ent_ok row Hr)); apply W_nodup|]. apply in_flat_map. exists f. split; [easy|].
    unfold writes. rewrite G, Hl. eapply combine_In_nth; eauto.
  Qed.
  (** every name of a point is an unmapped field or one of the variables *)
  Lemma ent_get row n v : In row (a_rows a) -> get n (ent row) = Some v ->
    (exists f, In f dt /\ f_name f = n /\ ~ In n (map fst mp) /\ ~ In n (concat (map snd mp)) /\ get n row = Some v /\ in_field f v) \/
    (exists f ns x, In f dt /\ In (f_name f, ns) mp /\ In n ns /\ v = Sc x /\ in_type (f_ty f) x /\
       (f_dim f = None -> get (f_name f) row = Some v)).
  Proof.
    intros Hr G. assert (K : In n W). { rewrite <- (proj2 (ent_ok row Hr)). apply get_keys. eauto. }
    apply in_flat_map in K. destruct K as (f & Hf & Hn). apply written_in in Hn; [|easy].
    destruct Hn as [(-> & N1 & N2) | (ns & Hm & Hl & Hn)].
    - left. exists f. rewrite ent_plain in G by auto. destruct (row_shaped row f Hr Hf) as (v' & G' & I & _).
      assert (v' = v) by congruence. subst. auto 8.
    - right. destruct (ent_mapped row f ns Hr Hf Hl) as (v' & G' & I & L & B).
      apply In_nth_error in Hn. destruct Hn as [i Hi].
      assert (X : exists w, nth_error (comps v') i = Some w).
      { destruct (nth_error (comps v') i) eqn:E; [eauto|]. apply nth_error_None in E.
        assert (i < length ns) by (apply nth_error_Some; congruence). lia. }
      destruct X as [w Hw]. pose proof (B i n w Hi Hw) as G2. assert (w = v) by congruence. subst w.
      assert (Y : exists x, v = Sc x /\ in_type (f_ty f) x /\ (f_dim f = None -> v' = v)).
      { unfold in_field in I. destruct v' as [x|l]; cbn in Hw.
        - destruct i as [|i]; [|destruct i; discriminate]. injection Hw as <-. destruct (f_dim f); [easy|]. eauto.
        - rewrite nth_error_map in Hw. destruct (nth_error l i) as [x|] eqn:E; [|discriminate]. injection Hw as <-.
          exists x. split; [easy|]. destruct (f_dim f) as [k|].
          + split; [|discriminate]. destruct I as [_ I]. rewrite Forall_forall in I. apply I. eapply nth_error_In; eauto.
          + destruct (co_fields _ _ HV f ns Hf Hm) as [[T | T] _]; congruence. }
      destruct Y as (x & -> & T & D). exists f, ns, x. repeat split; auto.
      + eapply nth_error_In; eauto.
      + intros E. rewrite G'. f_equal. auto.
  Qed.

  Lemma ent_id row : In row (a_rows a) -> get ID (ent row) <> Some (Sc (SI (-1))) /\ forall v, get ID (ent row) = Some v -> integer v.
  Proof.
    intros Hr.
    assert (K : forall v, get ID (ent row) = Some v -> integer v /\ ~ unset v).
    { intros v G. destruct (ent_get row ID v Hr G) as [(f & Hf & En & _ & _ & Gr & I) | (f & ns & x & Hf & Hm & Hn & -> & T & D)].
      - destruct (kp_int _ _ HK f Hf (or_intror En)) as [T D]. unfold in_field in I. rewrite T, D in I. split.
        + destruct v as [[z|z|t]|l]; easy.
        + apply (kp_set _ _ HK row v Hr). now right.
      - pose proof (proj2 (kp_ids _ _ HK) _ Hm Hn) as E. cbn in E.
        destruct (kp_int _ _ HK f Hf (or_introl E)) as [Tf Df]. rewrite Tf in T. split; [destruct x; easy|].
        apply (kp_set _ _ HK row _ Hr). left. rewrite <- E. auto. }
    split; [|apply K]. intros E. apply K in E. destruct E as [_ E]. now apply E.
  Qed.

  Lemma arr_convertible : convertible mp (map ent (a_rows a)).
  Proof.
    assert (X : forall d, In d (map ent (a_rows a)) -> exists row, d = ent row /\ In row (a_rows a)).
    { intros d Hd. apply in_map_iff in Hd. destruct Hd as (r & <- & Hr). eauto. }
    split.
    - intros d Hd. destruct (X d Hd) as (r & -> & Hr). rewrite (proj2 (ent_ok r Hr)). apply W_nodup.
    - intros d e n Hd He. destruct (X d Hd) as (r & -> & Hr), (X e He) as (r' & -> & Hr').
      now rewrite (proj2 (ent_ok r Hr)), (proj2 (ent_ok r' Hr')).
    - intros d n Hd. destruct (X d Hd) as (r & -> & Hr). intros Hn. apply get_keys in Hn. destruct Hn as [v Hv].
      destruct (ent_get r n v Hr Hv) as [(f & _ & _ & N & _) | (f & ns & x & _ & Hm & Hn & _)]; [easy|].
      intros Ht. apply (pr_apart _ HP n Ht). eapply in_sources; eauto.
    - intros d [t ss] m n Hd Hp Hm Hn Hk. destruct (X d Hd) as (r & -> & Hr). rewrite (proj2 (ent_ok r Hr)) in *. cbn [snd] in *.
      unfold W in *. apply in_flat_map in Hk. destruct Hk as (f & Hf & Hw). apply written_in in Hw; [|easy].
      destruct Hw as [(_ & _ & N) | (ns & I & L & J)]; [destruct N; eapply in_sources; eauto|].
      assert (E : f_name f = t).
      { destruct (Nat.eq_dec (f_name f) t) as [|Ne]; [easy|]. exfalso.
        eapply (sources_disjoint mp _ _ _ _ m); [apply (pr_sources _ HP) | exact I | exact Hp | | |]; auto. }
      subst t. apply (In_lookup _ _ _ (pr_targets _ HP)) in Hp. rewrite L in Hp. injection Hp as <-.
      apply in_flat_map. exists f. split; [easy|]. unfold written. now rewrite L.
    - intros d p n v Hd Hp Hn G. destruct (X d Hd) as (r & -> & Hr).
      destruct (ent_get r n v Hr G) as [(f & _ & _ & _ & N & _) | (f & ns & x & Hf & Hm & _ & -> & T & _)].
      + destruct N. destruct p. eapply in_sources; eauto.
      + destruct (co_fields _ _ HV f ns Hf Hm) as [[E | E] _]; rewrite E in T; destruct x; easy.
    - intros d e n v w Hd He Hn Gv Gw. destruct (X d Hd) as (r & -> & Hr).
      destruct (a_rows a) as [|r0 rs] eqn:Ers; [easy|]. cbn in He. injection He as <-.
      assert (H0 : In r0 (a_rows a)) by (rewrite Ers; now left). rewrite <- Ers in Hr.
      destruct (ent_get r0 n v H0 Gv) as [(f & Hf & En & N & _ & G0 & I0) | (f & ns & x & _ & Hm & Hn' & _)];
        [|destruct Hn; eapply in_sources; eauto].
      rewrite <- En in Gw, N. rewrite ent_plain in Gw by auto. destruct (ar_rows _ HA r Hr) as [_ R].
      destruct (R f Hf) as (w' & G1 & I1). assert (w' = w) by congruence. subst w'.
      unfold in_field in I0, I1. destruct (f_dim f) as [k|]; [destruct v; easy|].
      pose proof (kp_plain _ _ HK f Hf N) as P. destruct v as [x|], w as [y|]; try congruence.
      destruct (f_ty f) as [| |wd|]; try easy; destruct x, y; try easy. cbn.
      rewrite <- En in G0. eapply (kp_text _ _ HK (f_name f) r0 r); eauto. now rewrite Ers.
    - intros d v Hd G. destruct (X d Hd) as (r & -> & Hr).
      destruct (ent_get r SIM_ID v Hr G) as [(f & Hf & En & _ & _ & _ & I) | (f & ns & x & _ & Hm & Hn & _)].
      + destruct (kp_int _ _ HK f Hf (or_introl En)) as [T D]. unfold in_field in I. rewrite T, D in I. destruct v as [[]|]; easy.
      + destruct (proj1 (kp_ids _ _ HK)). eapply in_sources; eauto.
    - intros d [t ss] n v Hd Hp Et Hn G. cbn [fst snd] in *. subst t. destruct (X d Hd) as (r & -> & Hr).
      destruct (ent_get r n v Hr G) as [(f & _ & _ & _ & N & _) | (f & ns & x & Hf & Hm & Hn' & -> & T & _)].
      + destruct N. eapply in_sources; eauto.
      + assert (E : f_name f = SIM_ID).
        { destruct (Nat.eq_dec (f_name f) SIM_ID) as [|Ne]; [easy|]. exfalso.
          eapply (sources_disjoint mp _ _ _ _ n); [apply (pr_sources _ HP) | exact Hm | exact Hp | | |]; auto. }
        destruct (kp_int _ _ HK f Hf (or_introl E)) as [Tf _]. rewrite Tf in T. destruct x; easy.
  Qed.

  Lemma arr_to_dicts : to_dicts a mp = Ok (map ent (a_rows a)).
  Proof.
    unfold to_dicts. rewrite (mapr_map _ ent).
    - cbn [bindr]. rewrite (mapr_map _ (fun d => d)); [now rewrite map_id|].
      intros d Hd. apply in_map_iff in Hd. destruct Hd as (r & <- & Hr). destruct (ent_id r Hr) as [A B].
      unfold drop_id. destruct (get ID (ent r)) as [v|]; [|easy]. specialize (B v eq_refl).
      destruct v as [[z|z|t]|l]; try easy. cbn. destruct (Z.eqb_spec z (-1)); [congruence|easy].
    - intros r Hr. apply (ent_ok r Hr).
  Qed.

  Lemma arr_round_trip : exists l a', to_dicts a mp = Ok l /\ to_np l [] mp = Ok a' /\ Forall2 same_point (a_rows a) (a_rows a').
  Proof.
    exists (map ent (a_rows a)). pose proof arr_convertible as HC. rewrite arr_to_dicts.
    destruct (a_rows a) as [|r0 rs] eqn:Ers; [exists (mkArr [] []); cbn; auto|]. rewrite <- Ers in HC.
    rewrite Ers in HC. cbn [map] in HC |- *.
    destruct (to_np_ok mp _ _ HP HC) as (rows & E & F). eexists. split; [easy|]. split; [exact E|]. cbn [a_rows].
    pose proof (in_ns mp _ _ HC) as NS. pose proof (in_md mp _ _ HC) as MD. pose proof (dt_names mp _ _ HC) as DN.
    revert F NS MD DN. cbv zeta.
    set (ns := new_names (ent r0) mp). set (dt1 := start_dtype (ent r0) ns mp).
    set (md := mapped_in (ent r0) dt1 mp). set (dt2 := dt1 ++ map mapped_field md). intros F NS MD DN.
    assert (H0 : In r0 (a_rows a)) by (rewrite Ers; now left).
    assert (KW : map fst (ent r0) = W) by apply (ent_ok r0 H0).
    change (ent r0 :: map ent rs) with (map ent (r0 :: rs)) in F.
    pose proof (Forall2_In_l _ _ _ (Forall2_map_l _ _ _ _ F)) as F'. cbv beta in F'.
    rewrite <- Ers in F'.
    rewrite <- Ers. eapply Forall2_weaken; [|exact F']. clear F F'. intros r row' (Hr & K & A & B) n.
    destruct (in_dec Nat.eq_dec n (map f_name dt)) as [Hi|Hi].
    - apply in_map_iff in Hi. destruct Hi as (f & <- & Hf).
      destruct (lookup (f_name f) mp) as [ss|] eqn:L.
      + pose proof (lookup_In _ _ _ L) as Hm. destruct (ent_mapped r f ss Hr Hf L) as (v & G & I & Len & Q). rewrite G.
        assert (Hp : In (f_name f, ss) md).
        { apply MD. split; [easy|]. intros s Hs. cbn [snd] in Hs. rewrite KW. unfold W. apply in_flat_map. exists f.
          split; [easy|]. unfold written. now rewrite L. }
        destruct (B _ Hp) as (v' & w & _ & G' & S). cbn [fst snd] in *. rewrite G'.
        destruct ss as [|s [|s2 ss]]; [destruct (pr_some _ HP _ Hm); easy| |].
        * destruct S as (x & y & _ & -> & Gs & S). destruct (co_fields _ _ HV f _ Hf Hm) as [T [(D & _) | (D & L2)]]; [|cbn in L2; lia].
          unfold in_field in I. rewrite D in I. destruct v as [x'|l]; [|destruct T as [T|T]; congruence].
          specialize (Q 0 s (Sc x') eq_refl eq_refl). assert (x' = x) by congruence. now subst.
        * destruct S as (xs & ys & _ & -> & F1 & F2). destruct (co_fields _ _ HV f _ Hf Hm) as [T [(D & L1) | (D & L2)]]; [cbn in L1; lia|].
          unfold in_field in I. rewrite D in I. destruct v as [x'|l]; [easy|]. cbn [comps] in *. rewrite map_length in Len.
          assert (E2 : l = xs).
          { revert Len Q F1. generalize (s :: s2 :: ss). clear. intros t Len Q F1. revert l Len Q.
            induction F1 as [|u x t xs Gx F1 IH]; intros l Len Q; [now destruct l|].
            destruct l as [|y l]; [discriminate|]. f_equal.
            - specialize (Q 0 u (Sc y) eq_refl eq_refl). congruence.
            - apply IH; [now injection Len|]. intros i n w H1 H2. apply (Q (S i)); easy. }
          subst l. exact F2.
      + assert (N : ~ In (f_name f) (map fst mp)) by (now apply lookup_None).
        assert (Hn : In (f_name f) ns).
        { apply NS. split; [|now apply (co_apart _ _ HV)]. rewrite KW. unfold W. apply in_flat_map. exists f. split; [easy|].
          unfold written. rewrite L. now left. }
        destruct (A _ Hn) as (v & w & G1 & G2 & S). rewrite ent_plain in G1 by auto. now rewrite G1, G2.
    - rewrite (proj2 (get_None n r)) by (rewrite (proj1 (ar_rows _ HA r Hr)); easy).
      rewrite (proj2 (get_None n row')); [easy|]. rewrite K. rewrite DN. rewrite in_app_iff. intros [H | H].
      + apply NS in H. destruct H as [H1 H2]. rewrite KW in H1. unfold W in H1. apply in_flat_map in H1. destruct H1 as (f & Hf & Hw).
        apply written_in in Hw; [|easy]. destruct Hw as [(-> & _) | (ss & Hm & _ & Hs)].
        * apply Hi. now apply in_map.
        * apply H2. eapply in_sources; eauto.
      + apply in_map_iff in H. destruct H as ([t ss] & <- & Hp). apply MD in Hp. destruct Hp as [Hp Hs]. cbn [fst snd] in *.
        destruct ss as [|s ss]; [destruct (pr_some _ HP _ Hp); easy|]. specialize (Hs s (or_introl eq_refl)).
        rewrite KW in Hs. unfold W in Hs. apply in_flat_map in Hs. destruct Hs as (f & Hf & Hw). apply written_in in Hw; [|easy].
        destruct Hw as [(_ & _ & N) | (k & Hm & _ & Hk)]; [apply N; eapply in_sources; eauto; now left|].
        destruct (Nat.eq_dec (f_name f) t) as [<-|Ne]; [apply Hi; now apply in_map|].
        eapply (sources_disjoint mp _ _ _ _ s); [apply (pr_sources _ HP) | exact Hm | exact Hp | | | now left]; auto.
  Qed.
End ArrTrip.

(** ** Unmapping and mapping arrays *)
Lemma get_puts ws d n v : NoDup (map fst ws) -> In (n, v) ws -> get n (puts ws d) = Some v.
Proof.
  unfold puts. revert d. induction ws as [|[m w] ws IH]; cbn; intros d ND H; [easy|].
  inversion ND as [|? ? Hm ND']; subst. destruct H as [E | H]; [|now apply IH]. injection E as -> ->.
  assert (X : forall d, ~ In n (map fst ws) -> get n (fold_left (fun d p => put (fst p) (snd p) d) ws d) = get n d).
  { clear. induction ws as [|[m w] ws IH]; cbn; intros d H; [easy|]. rewrite IH by tauto. apply get_put_other. intros ->. tauto. }
  rewrite X by easy. apply get_put_same.
Qed.
Lemma puts_keys ws d : (forall n, In n (map fst ws) -> In n (map fst d)) -> map fst (puts ws d) = map fst d.
Proof.
  unfold puts. revert d. induction ws as [|[m w] ws IH]; cbn; intros d H; [easy|].
  rewrite IH; [apply put_keys; auto|]. intros n Hn. rewrite put_keys by auto. auto.
Qed.

Lemma unmap_unfold a mp : mp <> [] -> unmap_np a mp =
  bindr (check_dt (flat_map (unmap_field mp) (a_dt a))) (fun _ =>
  bindr (mapr (unmap_row (a_dt a) mp (zero_row (flat_map (unmap_field mp) (a_dt a)))) (a_rows a))
        (fun rows => Ok (mkArr (flat_map (unmap_field mp) (a_dt a)) rows))).
Proof. destruct mp; easy. Qed.
Lemma map_unfold a mp : mp <> [] -> map_np a mp =
  bindr (mapr (map_field (a_dt a)) mp) (fun fs =>
  bindr (check_dt (unique_fields (fs ++ filter (fun f => negb (memb (f_name f) (sources mp))) (a_dt a)))) (fun _ =>
  bindr (mapr (map_sources (a_dt a) mp) (unique_fields (fs ++ filter (fun f => negb (memb (f_name f) (sources mp))) (a_dt a)))) (fun plan =>
  bindr (mapr (map_row plan) (a_rows a)) (fun rows =>
    Ok (mkArr (unique_fields (fs ++ filter (fun f => negb (memb (f_name f) (sources mp))) (a_dt a))) rows))))).
Proof. destruct mp; easy. Qed.

Section Unmap.
  Variables (mp : mapping) (a : arr).
  Hypothesis HP : proper mp.
  Hypothesis HA : array_ok a.
  Hypothesis HV : covers mp (a_dt a).
  Let dt := a_dt a.
  Let W := flat_map (written mp) dt.
  Let dtb := flat_map (unmap_field mp) dt.

  Lemma dtb_names : map f_name dtb = W.
  Proof.
    unfold dtb, W. induction dt as [|f d IH]; [easy|]. cbn. rewrite map_app, IH. f_equal.
    unfold unmap_field, written. destruct (lookup (f_name f) mp) as [ns|]; [|easy]. rewrite map_map. cbn. apply map_id.
  Qed.
  Lemma unmap_entries_ok row f : In row (a_rows a) -> In f dt ->
    match get (f_name f) row with Some v => unmap_entries mp f v | None => Err EValue end = Ok (writes mp row f).
  Proof.
    intros Hr Hf. destruct (row_shaped mp a HA HV row f Hr Hf) as (v & G & _ & S). unfold writes. rewrite G.
    unfold unmap_entries. unfold shaped in S. destruct (lookup (f_name f) mp) as [ns|]; [|easy].
    destruct v as [x|l].
    - destruct S as (_ & _ & L). destruct ns as [|n [|? ?]]; try discriminate. easy.
    - destruct S as (L & _). cbn [comps]. now apply combine_nth0.
  Qed.

  Lemma unmap_ok : mp <> [] -> exists rows, unmap_np a mp = Ok (mkArr dtb rows) /\
    Forall2 (fun row row' => map fst row' = map f_name dtb /\
      (forall f v, In f dt -> get (f_name f) row = Some v -> ~ In (f_name f) (map fst mp) -> get (f_name f) row' = Some v) /\
      (forall f ns v i n w, In f dt -> In (f_name f, ns) mp -> get (f_name f) row = Some v ->
         nth_error ns i = Some n -> nth_error (comps v) i = Some w -> get n row' = Some w)) (a_rows a) rows.
  Proof.
    intros Hne. rewrite (unmap_unfold a mp Hne). fold dt. fold dtb. unfold check_dt. rewrite dtb_names.
    pose proof (W_nodup mp a HP HA HV) as ND. fold dt in ND. fold W in ND.
    rewrite (proj2 (nodupb_iff _) ND). cbn [bindr].
    destruct (mapr_ok (unmap_row dt mp (zero_row dtb)) (fun row row' => map fst row' = map f_name dtb /\
      (forall f v, In f dt -> get (f_name f) row = Some v -> ~ In (f_name f) (map fst mp) -> get (f_name f) row' = Some v) /\
      (forall f ns v i n w, In f dt -> In (f_name f, ns) mp -> get (f_name f) row = Some v ->
         nth_error ns i = Some n -> nth_error (comps v) i = Some w -> get n row' = Some w)) (a_rows a)) as (rows & E & F).
    2: { exists rows. rewrite E. cbn [bindr]. split; [easy|]. rewrite <- dtb_names. exact F. }
    intros row Hr. unfold unmap_row. rewrite (mapr_map _ (writes mp row)).
    2: { intros f Hf. now apply unmap_entries_ok. }
    cbn [bindr]. rewrite <- flat_map_concat_map. eexists. split; [reflexivity|].
    destruct (ent_ok mp a HP HA HV row Hr) as [_ K]. fold dt in K. fold W in K. rewrite dtb_names in *.
    assert (ND' : NoDup (map fst (flat_map (writes mp row) dt))) by now rewrite K.
    split; [|split].
    - rewrite puts_keys; [now rewrite zero_row_keys, dtb_names|]. intros n. now rewrite K, zero_row_keys, dtb_names.
    - intros f v Hf G N. apply get_puts; [easy|]. apply in_flat_map. exists f. split; [easy|].
      unfold writes. rewrite G, (proj2 (lookup_None _ _) N). now left.
    - intros f ns v i n w Hf Hm G Hi Hw. apply get_puts; [easy|]. apply in_flat_map. exists f. split; [easy|].
      unfold writes. rewrite G, (In_lookup _ _ _ (pr_targets _ HP) Hm). eapply combine_In_nth; eauto.
  Qed.

  (** Mapping back an array all of whose fields come from the mapping. *)
  Hypothesis Hfull : forall f, In f dt -> In (f_name f) (map fst mp).
  Hypothesis Hall : forall n, In n (map fst mp) -> In n (map f_name dt).

  Lemma field_back p : In p mp -> exists f, In f dt /\ f_name f = fst p /\ map_field dtb p = Ok f.
  Proof.
    intros Hp. assert (Hn : In (fst p) (map f_name dt)) by (apply Hall; now apply in_map).
    apply in_map_iff in Hn. destruct Hn as (f & En & Hf). exists f. split; [easy|]. split; [easy|].
    assert (Hm : In (f_name f, snd p) mp) by (rewrite En, <- surjective_pairing; easy).
    destruct (co_fields _ _ HV f (snd p) Hf Hm) as [T D].
    unfold map_field. destruct (snd p) as [|s ss] eqn:Es; [destruct (pr_some _ HP p Hp); easy|].
    assert (Fs : field_of s dtb = Some (mkF s (f_ty f) None)).
    { apply field_of_In; [rewrite dtb_names; apply (W_nodup mp a HP HA HV)| |easy]. unfold dtb. apply in_flat_map. exists f.
      split; [easy|]. unfold unmap_field. rewrite (In_lookup _ _ _ (pr_targets _ HP) Hm). now left. }
    rewrite Fs. cbn [f_ty f_dim]. destruct f as [fn ft fd]. cbn [f_name f_ty f_dim] in *. subst fn. destruct ss as [|s2 ss].
    - destruct D as [(-> & _) | (_ & L)]; [easy | cbn in L; lia].
    - destruct D as [(_ & L) | (-> & _)]; [cbn in L; lia | easy].
  Qed.
  Lemma dtb_sources n : In n (map f_name dtb) -> In n (concat (map snd mp)).
  Proof.
    rewrite dtb_names. unfold W. intros H. apply in_flat_map in H. destruct H as (f & Hf & Hn).
    apply (written_in mp a HV f n Hf) in Hn. destruct Hn as [(-> & N & _) | (ns & Hm & _ & Hn)].
    - destruct N. now apply Hfull.
    - eapply in_sources; eauto.
  Qed.
  Lemma sources_dtb p s : In p mp -> In s (snd p) -> exists f, field_of s dtb = Some f.
  Proof.
    intros Hp Hs. destruct (field_back p Hp) as (f & Hf & En & _).
    exists (mkF s (f_ty f) None). apply field_of_In; [rewrite dtb_names; apply (W_nodup mp a HP HA HV)| |easy].
    unfold dtb. apply in_flat_map. exists f. split; [easy|]. unfold unmap_field.
    rewrite (In_lookup (f_name f) (snd p) mp (pr_targets _ HP)); [now apply (in_map (fun n => mkF n (f_ty f) None))|].
    now rewrite En, <- surjective_pairing.
  Qed.
  Lemma unique_fields_id l : NoDup (map f_name l) -> unique_fields l = l.
  Proof.
    induction l as [|f l IH]; cbn; intros H; [easy|]. inversion H as [|? ? Hf ND]; subst. rewrite IH by easy.
    rewrite filter_id; [easy|]. intros g Hg. unfold field_eqb.
    destruct (Nat.eqb_spec (f_name g) (f_name f)) as [E|]; [|easy]. destruct Hf. rewrite <- E. now apply in_map.
  Qed.
  Lemma cast_in t x : (t = TInt \/ t = TFloat) -> in_type t x -> cast t x = Ok x.
  Proof. intros [-> | ->] H; destruct x; easy. Qed.
  Lemma mapr_cast t l : (t = TInt \/ t = TFloat) -> Forall (in_type t) l -> mapr (cast t) l = Ok l.
  Proof. intros T. induction 1; cbn; [easy|]. rewrite cast_in by easy. cbn. now rewrite IHForall. Qed.

  (** One row, back as it was. *)
  Lemma map_row_back row row' : In row (a_rows a) -> 
    (forall f ns v i n w, In f dt -> In (f_name f, ns) mp -> get (f_name f) row = Some v ->
       nth_error ns i = Some n -> nth_error (comps v) i = Some w -> get n row' = Some w) ->
    forall p f, In p mp -> In f dt -> f_name f = fst p ->
    exists v, get (fst p) row = Some v /\
      bindr (no_field (pack row' (snd p))) (fun v => bindr (assign f v) (fun w => Ok (f_name f, w))) = Ok (fst p, v).
  Proof.
    intros Hr B p f Hp Hf En. assert (Hm : In (f_name f, snd p) mp) by (rewrite En, <- surjective_pairing; easy).
    destruct (row_shaped mp a HA HV row f Hr Hf) as (v & G & I & S). exists v. rewrite <- En. split; [easy|].
    destruct (co_fields _ _ HV f (snd p) Hf Hm) as [T _].
    unfold shaped in S. rewrite (In_lookup _ _ _ (pr_targets _ HP) Hm) in S. specialize (B f (snd p) v).
    unfold in_field in I. destruct v as [x|l].
    - destruct S as (_ & D & L). destruct (snd p) as [|s [|? ?]]; try discriminate. cbn [pack].
      rewrite (B 0 s (Sc x)) by easy. cbn [no_field bindr]. rewrite D in I. unfold assign. rewrite D.
      pose proof (cast_in _ _ T I) as C. destruct T as [T | T]; rewrite T in *; rewrite C; easy.
    - destruct S as (L & L2 & D). rewrite D in I. destruct I as [_ I].
      assert (X : mapr (scalar_of row') (snd p) = Ok l).
      { assert (B' : forall i n x, nth_error (snd p) i = Some n -> nth_error l i = Some x -> get n row' = Some (Sc x)).
        { intros i n x H1 H2. apply (B i n (Sc x)); auto. cbn. now rewrite nth_error_map, H2. }
        clear -B' L. revert l L B'. induction (snd p) as [|s ss IH]; intros l L B'; destruct l as [|x l]; try discriminate; [easy|].
        cbn. unfold scalar_of at 1. rewrite (B' 0 s x) by easy. cbn. rewrite (IH l); [easy | now injection L |].
        intros i n y H1 H2. apply (B' (S i)); easy. }
      destruct (snd p) as [|s [|s2 ss]]; cbn [length] in L2; try lia. cbn [pack]. rewrite X. cbn [bindr no_field].
      unfold assign. rewrite D, L, Nat.eqb_refl. destruct l as [|x [|y l]]; cbn [length] in L; try lia.
      pose proof (mapr_cast _ _ T I) as C. destruct T as [T | T]; rewrite T in *; rewrite C; easy.
  Qed.

  Lemma unmap_map : mp <> [] -> exists b a', unmap_np a mp = Ok b /\ map_np b mp = Ok a' /\
    (forall f, In f (a_dt a) <-> In f (a_dt a')) /\
    Forall2 (fun row row' => forall n, get n row = get n row') (a_rows a) (a_rows a').
  Proof.
    intros Hne. destruct (unmap_ok Hne) as (rows & E & F). exists (mkArr dtb rows).
    destruct (mapr_ok (map_field dtb) (fun p f => In f dt /\ f_name f = fst p) mp) as (fs & Ef & Ff).
    { intros p Hp. destruct (field_back p Hp) as (f & Hf & En & Em). eauto. }
    assert (Nf : map f_name fs = map fst mp).
    { revert Ff. clear. induction 1 as [|p f m fs [_ H] _ IH]; cbn; congruence. }
    assert (Df : filter (fun f => negb (memb (f_name f) (sources mp))) dtb = []).
    { assert (X : forall f, In f dtb -> In (f_name f) (sources mp)) by (intros f Hf; apply dtb_sources; now apply in_map).
      clear -X. induction dtb as [|f d IH]; [easy|]. cbn. rewrite (proj2 (memb_In _ _) (X f (or_introl eq_refl))). cbn. apply IH. intros g Hg. apply X. now right. }
    assert (U : unique_fields (fs ++ []) = fs).
    { rewrite app_nil_r. apply unique_fields_id. rewrite Nf. apply (pr_targets _ HP). }
    assert (Ms : mapr (map_sources dtb mp) fs = Ok (combine fs (map snd mp))).
    { assert (H : forall p, In p mp -> lookup (fst p) mp = Some (snd p) /\ forallb (fun s => match field_of s dtb with Some _ => true | None => false end) (snd p) = true).
      { intros p Hp. split; [apply In_lookup; [apply (pr_targets _ HP) | now rewrite <- surjective_pairing]|].
        apply forallb_forall. intros s Hs. destruct (sources_dtb p s Hp Hs) as [f ->]. easy. }
      assert (Y : forall m gs, Forall2 (fun p f => In f dt /\ f_name f = fst p) m gs -> (forall p, In p m -> In p mp) ->
                  mapr (map_sources dtb mp) gs = Ok (combine gs (map snd m))).
      { induction 1 as [|p f m gs [_ En] _ IH]; intros Hm; [easy|].
        cbn [mapr combine map]. unfold map_sources at 1. rewrite En. destruct (H p (Hm p (or_introl eq_refl))) as [-> ->]. cbn [bindr].
        rewrite IH by (intros; apply Hm; now right). easy. }
      apply (Y mp fs Ff). auto. }
    destruct (Forall2_mapr _ (fun row row' => forall n, get n row = get n row') (map_row (combine fs (map snd mp))) _ _ (Forall2_In_l _ _ _ F)) as (rows' & Er & Fr).
    { intros row rowb (Hr & _ & _ & B). pose proof (map_row_back row rowb Hr B) as Q.
      assert (X : exists out, map_row (combine fs (map snd mp)) rowb = Ok out /\ map fst out = map fst mp /\
        forall n, In n (map fst mp) -> get n out = get n row).
      { assert (Y : forall m gs, Forall2 (fun p f => In f dt /\ f_name f = fst p) m gs -> (forall p, In p m -> In p mp) -> NoDup (map fst m) ->
          exists out, map_row (combine gs (map snd m)) rowb = Ok out /\ map fst out = map fst m /\ forall n, In n (map fst m) -> get n out = get n row).
        { intros m gs FF. induction FF as [|p f m gs [Hf En] _ IH]; intros H ND; [exists []; cbn; easy|].
          cbn [map] in ND. inversion ND as [|? ? Np ND']; subst.
          destruct IH as (out & Eo & Ko & Go); [intros; apply H; now right | easy |].
          destruct (Q p f (H p (or_introl eq_refl)) Hf En) as (v & G & Ev).
          exists ((fst p, v) :: out). unfold map_row in *. cbn [map combine mapr fst snd]. rewrite Ev. cbn [bindr]. rewrite Eo. cbn [bindr].
          split; [easy|]. split; [cbn; now rewrite Ko|]. intros n [<- | Hn]; cbn [get].
          - now rewrite Nat.eqb_refl.
          - destruct (Nat.eqb_spec n (fst p)) as [->|]; [contradiction|]. auto. }
        apply (Y mp fs Ff); [auto | apply (pr_targets _ HP)]. }
      destruct X as (out & Eo & Ko & Go). exists out. split; [easy|]. intros n.
      destruct (in_dec Nat.eq_dec n (map fst mp)) as [Hi|Hi]; [now rewrite Go|].
      rewrite (proj2 (get_None n out)) by now rewrite Ko. apply get_None.
      rewrite (proj1 (ar_rows _ HA row Hr)). intros Hn. apply Hi. apply in_map_iff in Hn. destruct Hn as (f & <- & Hf). now apply Hfull. }
    exists (mkArr fs rows'). split; [easy|]. split; [|split; [|exact Fr]].
    - rewrite (map_unfold _ mp Hne). cbn [a_dt a_rows].
      rewrite Ef. cbn [bindr]. rewrite Df, U. unfold check_dt. rewrite Nf.
      rewrite (proj2 (nodupb_iff _) (pr_targets _ HP)). cbn [bindr]. rewrite Ms. cbn [bindr]. rewrite Er. easy.
    - cbn [a_dt]. fold dt. intros f. split; intros Hf.
      + pose proof (Hfull f Hf) as Ht. rewrite <- Nf in Ht. apply in_map_iff in Ht. destruct Ht as (g & Eg & Hg).
        assert (Hgd : In g dt). { clear -Ff Hg. induction Ff as [|p h m fs [H _] _ IH]; [easy|]. destruct Hg as [<- | Hg]; auto. }
        assert (f = g); [|now subst]. pose proof (ar_names _ HA) as ND. fold dt in ND.
        pose proof (field_of_In (f_name f) dt f ND Hf eq_refl) as A. pose proof (field_of_In (f_name f) dt g ND Hgd Eg) as B. congruence.
      + clear -Ff Hf. induction Ff as [|p h m fs [H _] _ IH]; [easy|]. destruct Hf as [<- | Hf]; auto.
  Qed.
End Unmap.

(** ** A field that is neither mapped nor a variable cannot be mapped back *)
Lemma unique_fields_in l f : In f l -> exists g, In g (unique_fields l) /\ f_name g = f_name f.
Proof.
  induction l as [|h l IH]; cbn; [easy|]. intros [-> | H]; [exists f; auto|].
  destruct (IH H) as (g & Hg & En). destruct (field_eqb g h) eqn:E.
  - exists h. split; [now left|]. unfold field_eqb in E. apply Bool.andb_true_iff in E. destruct E as [E _].
    apply Bool.andb_true_iff in E. destruct E as [E _]. apply Nat.eqb_eq in E. congruence.
  - exists g. split; [|easy]. right. apply filter_In. now rewrite E.
Qed.
Lemma mapr_err {A B} (f : A -> res B) l x : In x l -> (exists e, f x = Err e) -> exists e, mapr f l = Err e.
Proof.
  intros H [e E]. induction l as [|y l IH]; [easy|]. cbn. destruct H as [-> | H]; [rewrite E; cbn; eauto|].
  destruct (f y); cbn; [|eauto]. destruct (IH H) as [e' ->]. cbn. eauto.
Qed.
Lemma map_np_extra a mp f : mp <> [] -> In f (a_dt a) -> ~ In (f_name f) (map fst mp) -> ~ In (f_name f) (concat (map snd mp)) ->
  exists e, map_np a mp = Err e.
Proof.
  intros Hne Hf Ht Hs. rewrite (map_unfold a mp Hne).
  destruct (mapr (map_field (a_dt a)) mp) as [fs|e]; [|cbn; eauto]. cbn [bindr].
  destruct (unique_fields_in (fs ++ filter (fun f => negb (memb (f_name f) (sources mp))) (a_dt a)) f) as (g & Hg & En).
  { apply in_or_app. right. apply filter_In. split; [easy|]. apply Bool.negb_true_iff, memb_not. exact Hs. }
  destruct (check_dt _); [|cbn; eauto]. cbn [bindr].
  destruct (mapr_err (map_sources (a_dt a) mp) _ g Hg) as [e ->]; [|cbn; eauto].
  unfold map_sources. rewrite En, (proj2 (lookup_None _ _) Ht). eauto.
Qed.

(** ** With a given dtype *)
Lemma fill_other dt ps d row row' n : fill dt ps d row = Ok row' -> ~ In n (map fst ps) -> get n row' = get n row.
Proof.
  revert row. induction ps as [|[m ms] ps IH]; cbn; intros row H Hn; [congruence|].
  destruct (pack d ms) as [v|]; [|discriminate]. cbn in H. destruct (field_of m dt) as [f|]; [|discriminate].
  destruct (assign f v) as [w|]; [|discriminate]. cbn in H. rewrite (IH _ H) by tauto. apply get_put_other. intros ->. tauto.
Qed.
Lemma check_dt_ok dt u : check_dt dt = Ok u -> NoDup (map f_name dt).
Proof. unfold check_dt. destruct (nodupb (map f_name dt)) eqn:E; [|discriminate]. intros _. now apply nodupb_iff. Qed.

Lemma unique_In x l : In x (unique l) -> In x l.
Proof.
  induction l as [|y l IH]; cbn; [easy|]. intros [-> | H]; [now left|]. apply filter_In in H. right. apply IH. tauto.
Qed.
Lemma given_zeros l dtype mp a f ns : dtype <> [] -> to_np l dtype mp = Ok a -> In f dtype -> In (f_name f, ns) mp ->
  (forall d, In d l -> get (f_name f) d = None) ->
  forall row, In row (a_rows a) -> get (f_name f) row = Some (zero_value f).
Proof.
  intros Hne E Hf Hm Hk row Hrow. unfold to_np in E. destruct l as [|first l0]; [injection E as <-; easy|].
  destruct dtype as [|f0 d0] eqn:Ed; [congruence|]. rewrite <- Ed in *.
  cbv zeta in E. destruct (check_dt _) as [u|] eqn:C; [|discriminate]. cbn [bindr] in E. apply check_dt_ok in C.
  destruct (mapr _ (first :: l0)) as [rows|] eqn:R; [|discriminate]. cbn [bindr] in E. injection E as <-. cbn [a_rows] in Hrow.
  apply mapr_Forall2 in R.
  assert (X : exists d, fill (dtype ++ map mapped_field (mapped_in first dtype mp)) (plan first dtype mp) d
               (zero_row (dtype ++ map mapped_field (mapped_in first dtype mp))) = Ok row).
  { clear -R Hrow. induction R as [|d r ds rs H _ IH]; [easy|]. destruct Hrow as [<- | Hrow]; eauto. }
  destruct X as [d X]. rewrite (fill_other _ _ _ _ _ _ X).
  - apply get_zero_row; [easy|]. apply in_or_app. now left.
  - unfold plan. rewrite map_app, in_app_iff. intros [H | H].
    + rewrite map_map in H. cbn in H. rewrite map_id in H. unfold new_names in H. apply filter_In in H. destruct H as [H _].
      apply unique_In in H. apply get_keys in H. destruct H as [v Hv]. rewrite (Hk first) in Hv; [discriminate|now left].
    + unfold mapped_in in H. apply in_map_iff in H. destruct H as (p & Ep & Hp). apply filter_In in Hp. destruct Hp as [_ Hp].
      apply Bool.andb_true_iff in Hp. destruct Hp as [Hp _]. apply Bool.negb_true_iff, memb_not in Hp. apply Hp.
      destruct p as [q r]. cbn [fst] in *. subst q. now apply in_map.
Qed.

Lemma cast_kept t x : kept_as t x -> exists y, cast t x = Ok y /\ same x y.
Proof.
  destruct t, x; cbn [kept_as cast]; intros H; try easy; eexists; (split; [reflexivity|]); try apply same_refl; try reflexivity.
  now rewrite firstn_all2.
Qed.
Lemma assign_kept f v : kept_in f v -> exists w, assign f v = Ok w /\ same_value v w.
Proof.
  unfold kept_in. destruct (f_dim f) as [n|] eqn:D; destruct v as [x|l]; try easy.
  - intros [L H].
    assert (X : exists l', mapr (cast (f_ty f)) l = Ok l' /\ Forall2 same l l').
    { clear L D. induction H as [|x l Hx H IH]; [exists []; auto|]. destruct (cast_kept _ _ Hx) as (y & E & S).
      destruct IH as (l' & E' & S'). exists (y :: l'). cbn. rewrite E. cbn. rewrite E'. cbn. auto. }
    destruct X as (l' & E & S). exists (Vec l'). split; [|exact S]. unfold assign. rewrite D.
    destruct l as [|x [|y l]].
    + subst n. cbn in *. injection E as <-. now destruct (f_ty f).
    + subst n. cbn [length mapr] in *. destruct (f_ty f); (destruct (cast _ x) as [z|]; [|discriminate]; cbn in *; injection E as <-; easy).
    + rewrite L, Nat.eqb_refl. destruct (f_ty f); rewrite E; easy.
  - intros H. destruct (cast_kept _ _ H) as (y & E & S). exists (Sc y). split; [|exact S]. unfold assign. rewrite D.
    destruct (f_ty f); rewrite ?E; try easy. cbn in E. congruence.
  - intros H. exists (Vec l). split; [|apply same_refl_v]. unfold assign. now rewrite D, H.
Qed.

Lemma given_ok l dtype : dtype <> [] -> NoDup (map f_name dtype) ->
  (forall d, In d l -> NoDup (map fst d)) ->
  (forall d e n, In d l -> In e l -> In n (map fst d) -> In n (map fst e)) ->
  (forall d n v, In d l -> get n d = Some v -> exists f, In f dtype /\ f_name f = n /\ kept_in f v) ->
  exists rows, to_np l dtype [] = Ok (mkArr dtype rows) /\
    Forall2 (fun d row => map fst row = map f_name dtype /\
      (forall n v, get n d = Some v -> exists w, get n row = Some w /\ same_value v w) /\
      (forall f, In f dtype -> get (f_name f) d = None -> get (f_name f) row = Some (zero_value f))) l rows.
Proof.
  intros Hne ND Hd Hs Hf. unfold to_np. destruct l as [|first l0]; [exists []; auto|].
  destruct dtype as [|f0 d0] eqn:Ed; [congruence|]. rewrite <- Ed in *. cbv zeta. cbn [mapped_in filter map]. rewrite app_nil_r.
  unfold check_dt. rewrite (proj2 (nodupb_iff _) ND). cbn [bindr].
  assert (Pl : plan first dtype [] = map (fun n => (n, [n])) (map fst first)).
  { unfold plan. cbn [mapped_in filter]. rewrite app_nil_r. unfold new_names.
    rewrite unique_id by (apply Hd; now left). rewrite filter_id by easy. easy. }
  destruct (mapr_ok (fun d => fill dtype (plan first dtype []) d (zero_row dtype)) (fun d row => map fst row = map f_name dtype /\
      (forall n v, get n d = Some v -> exists w, get n row = Some w /\ same_value v w) /\
      (forall f, In f dtype -> get (f_name f) d = None -> get (f_name f) row = Some (zero_value f))) (first :: l0)) as (rows & E & F).
  2: { exists rows. rewrite E. cbn [bindr]. auto. }
  intros d Hin. rewrite Pl.
  assert (K : forall n, In n (map fst first) -> exists f v w, field_of n dtype = Some f /\ get n d = Some v /\ assign f v = Ok w /\ same_value v w).
  { intros n Hn. assert (X : In n (map fst d)) by (apply (Hs first d); auto; now left).
    apply get_keys in X. destruct X as [v Hv]. destruct (Hf d n v Hin Hv) as (f & Hfd & En & Kf).
    destruct (assign_kept f v Kf) as (w & Ew & Sw). exists f, v, w. split; [now apply field_of_In|]. auto. }
  destruct (fill_ok dtype (map (fun n => (n, [n])) (map fst first)) d (zero_row dtype)) as (row & Er & Kr & A & B).
  { rewrite map_map. cbn. rewrite map_id. apply Hd. now left. }
  { intros n k H. apply in_map_iff in H. destruct H as (m & E & Hm). injection E as <- <-.
    destruct (K m Hm) as (f & v & w & Ef & Ev & Ew & _). exists f, v, w. cbn [pack]. rewrite Ev. auto. }
  { intros n. rewrite map_map. cbn. rewrite map_id, zero_row_keys. intros Hn. destruct (K n Hn) as (f & _ & _ & Ef & _).
    apply field_of_Some in Ef. destruct Ef as [Hi <-]. now apply in_map. }
  exists row. split; [easy|]. split; [now rewrite Kr, zero_row_keys|]. split.
  - intros n v Hv. assert (X : In n (map fst first)).
    { apply (Hs d first); auto; [now left|]. apply get_keys. eauto. }
    destruct (K n X) as (f & v' & w & Ef & Ev & Ew & Sw). assert (v' = v) by congruence. subst v'.
    destruct (A n [n]) as (f' & v' & w' & Ef' & Ev' & Ew' & G).
    { now apply (in_map (fun n => (n, [n]))). }
    cbn [pack] in Ev'. rewrite Ev in Ev'. injection Ev' as <-. rewrite Ef in Ef'. injection Ef' as <-.
    rewrite Ew in Ew'. injection Ew' as <-. eauto.
  - intros f Hi G. rewrite B; [now apply get_zero_row|]. rewrite map_map. cbn. rewrite map_id. intros X.
    apply get_None in G. apply G. apply (Hs first d); auto. now left.
Qed.
