(** C85: a generator object's fields and settings are its own. *)
From Verif Require Import Base BaseLemmas GenInitModel.
Local Open Scope nat_scope.

(** ** Specification *)

(** the names that some field of the mapping consists of *)
Definition listed (m : mapping) (v : name) : Prop := exists k l, In (k, l) m /\ In v l.
(** no name belongs to two fields, or twice to one *)
Definition once_each (m : mapping) : Prop := NoDup (flat_map snd m).
(** the gen_specs dictionary that a call uses: the default has address 0 *)
Definition specs_addr {V} (c : @call V) : nat := match c_specs c with Some s => s | None => 0 end.
(** a later call that is given other dictionaries, or gives no settings *)
Definition apart {V} (g : gen) (c : @call V) : Prop := c_map c <> Some (g_map g) /\ (c_kwargs c = [] \/ specs_addr c <> g_specs g).

(** ** Lemmas *)
Lemma listed_flat m v : listed m v <-> In v (flat_map snd m).
Proof. rewrite in_flat_map. split; [intros (k & l & H1 & H2); exists (k, l); auto|intros ((k & l) & H1 & H2); exists k, l; auto]. Qed.
Lemma lookup_set {A} k k' (v : A) d : lookup k' (set k v d) = if k' =? k then Some v else lookup k' d.
Proof.
  induction d as [|[k0 w] d IH]; cbn; [destruct (k' =? k); auto|]. destruct (Nat.eqb_spec k k0) as [->|N]; cbn; [destruct (k' =? k0); auto|]. rewrite IH. destruct (Nat.eqb_spec k' k0), (Nat.eqb_spec k' k); auto; congruence.
Qed.
Lemma flat_set k l (m : mapping) : lookup k m = None -> flat_map snd (set k l m) = flat_map snd m ++ l.
Proof. induction m as [|[k0 w] m IH]; cbn; [now rewrite app_nil_r|]. destruct (k =? k0); [discriminate|]. intros H. cbn. rewrite IH by auto. now rewrite app_assoc. Qed.
Lemma lookup_In {A} k (d : list (name * A)) v : lookup k d = Some v -> In (k, v) d.
Proof. induction d as [|[k0 w] d IH]; cbn; [discriminate|]. destruct (Nat.eqb_spec k k0) as [->|]; [intros [= ->]; auto|auto]. Qed.
Lemma unmapped_In names m v : In v (unmapped names m) <-> In v names /\ ~ listed m v.
Proof. unfold unmapped. rewrite filter_In, listed_flat, negb_true_iff, memb_false. tauto. Qed.
Lemma rest_ok k names m m' : map_rest k names m = Ok m' ->
  (forall k' l, lookup k' m = Some l -> lookup k' m' = Some l) /\ (forall k', k' <> k -> lookup k' m' = lookup k' m) /\
  (lookup k m = None -> names = [k] -> m' = m) /\
  (lookup k m = None -> names <> [k] -> lookup k m' = Some (unmapped names m) /\ forall v, In v names -> listed m' v) /\
  (once_each m -> NoDup names -> once_each m') /\ (forall v, listed m' v -> listed m v \/ In v names) /\ forall v, listed m v -> listed m' v.
Proof.
  unfold map_rest. destruct (lookup k m) eqn:E; [intros [= <-]; repeat split; auto; discriminate|]. destruct names as [|v0 rest]; [discriminate|]. destruct ((1 <? length (v0 :: rest)) || negb (v0 =? k)) eqn:C; intros EQ0; apply (f_equal (fun r => match r with Ok x => x | Err _ => m end)) in EQ0; cbv beta iota in EQ0; subst m'.
  - assert (FS := flat_set k (unmapped (v0 :: rest) m) m E). split; [|split; [|split; [|split; [|split; [|split]]]]].
    + intros k' l H. rewrite lookup_set. destruct (Nat.eqb_spec k' k); congruence.
    + intros k' N. rewrite lookup_set. destruct (Nat.eqb_spec k' k); congruence.
    + intros _ EQ. injection EQ as -> ->. cbn in C. rewrite Nat.eqb_refl in C. discriminate.
    + intros _ _. split; [rewrite lookup_set, Nat.eqb_refl; auto|]. intros v Hv. apply listed_flat. rewrite FS. apply in_or_app. destruct (memb v (flat_map snd m)) eqn:M; [left; now apply memb_In|right]. apply unmapped_In. split; auto. intros L. apply listed_flat in L. apply memb_In in L. congruence.
    + unfold once_each. intros N1 N2. rewrite FS. clear FS. assert (D : forall v, In v (flat_map snd m) -> ~ In v (unmapped (v0 :: rest) m)) by (intros v H1 H2; apply unmapped_In in H2 as [_ H2]; apply H2, listed_flat; auto).
      assert (N3 : NoDup (unmapped (v0 :: rest) m)) by now apply NoDup_filter. revert N1 D N3. generalize (flat_map snd m), (unmapped (v0 :: rest) m). clear. induction l as [|a l IH]; intros l2 N1 D N3; auto. cbn. inversion N1; subst. constructor; [|apply IH; auto; intros v Hv; apply D; now right]. intros I. apply in_app_or in I as [I|I]; [contradiction|]. now apply (D a (or_introl eq_refl)).
    + intros v. rewrite !listed_flat, FS, in_app_iff, unmapped_In. tauto.
    + intros v. rewrite !listed_flat, FS, in_app_iff. tauto.
  - apply orb_false_iff in C as [C1 C2]. destruct rest; [|discriminate]. apply negb_false_iff, Nat.eqb_eq in C2 as ->. repeat split; auto; congruence.
Qed.
Lemma complete_ok vars objs rid m0 m : complete vars objs rid m0 = Ok m -> exists m1 m2, map_rest X vars m0 = Ok m1 /\ map_rest F objs m1 = Ok m2 /\ m = if rid then set SIM_ID [ID] m2 else m2.
Proof. unfold complete. destruct (map_rest X vars m0) as [m1|]; [|discriminate]. cbn. destruct (map_rest F objs m1) as [m2|] eqn:E2; [|discriminate]. cbn. intros [= <-]. exists m1, m2. auto. Qed.

Section Heap.
Context {V : Type}.
Implicit Types (h : @heap V) (c : @call V).
Lemma addr_ok h a a' h' : map_addr h a = (a', h') -> a' < length (h_maps h') /\ h_specs h' = h_specs h /\ length (h_maps h) <= length (h_maps h') /\
  nth a' (h_maps h') [] = (match a with Some a => nth a (h_maps h) [] | None => [] end) /\ (forall i, i < length (h_maps h) -> nth i (h_maps h') [] = nth i (h_maps h) []) /\ (Some a' = a \/ length (h_maps h) <= a').
Proof.
  assert (N : forall (l : list mapping), nth (length l) (l ++ [[]]) [] = []) by (intros l; rewrite app_nth2, Nat.sub_diag; auto).
  unfold map_addr. destruct a as [a|].
  - destruct (nth a (h_maps h) []) as [|p l] eqn:E; intros [= <- <-]; cbn [h_maps h_specs].
    + rewrite app_length, N. cbn. repeat split; auto; try lia. intros i Hi. now rewrite app_nth1.
    + repeat split; auto. destruct (Nat.lt_ge_cases a (length (h_maps h))); auto. rewrite nth_overflow in E by auto. discriminate.
  - intros [= <- <-]. cbn [h_maps h_specs]. rewrite app_length, N. cbn. repeat split; auto; try lia. intros i Hi. now rewrite app_nth1.
Qed.
Lemma nth_upd {A} (l : list A) i j f d : nth j (upd l i f) d = if (i =? j) && (j <? length l) then f (nth j l d) else nth j l d.
Proof.
  revert i j. induction l as [|a l IH]; intros [|i] [|j]; cbn; auto; try (now rewrite ?andb_false_r). rewrite IH. reflexivity.
Qed.
Lemma step_apart c h g : apart g c -> g_map g < length (h_maps h) ->
  mapping_of (fst (construct c h)) g = mapping_of h g /\ settings_of (fst (construct c h)) g = settings_of h g /\ g_map g < length (h_maps (fst (construct c h))).
Proof.
  intros [A1 A2] L. unfold construct. destruct (map_addr h (c_map c)) as [a h1] eqn:MA. destruct (addr_ok _ _ _ _ MA) as (B1 & B2 & B3 & B4 & B5 & B6).
  assert (NA : a <> g_map g) by (destruct B6 as [B6|B6]; [intros ->; congruence|lia]).
  destruct (complete _ _ _ _) as [m|e]; cbn [fst].
  - unfold mapping_of, settings_of. cbn [h_maps h_specs]. rewrite upd_length, !nth_upd, B2. destruct (Nat.eqb_spec a (g_map g)); [contradiction|]. cbn [andb]. split; [now apply B5|]. split; [|lia].
    fold (specs_addr c). destruct (Nat.eqb_spec (specs_addr c) (g_specs g)) as [E|]; auto. destruct A2 as [->|A2]; [|contradiction]. cbn [andb add_kwargs]. now destruct (Nat.ltb (g_specs g) (length (h_specs h))).
  - unfold mapping_of, settings_of. rewrite B2. split; [now apply B5|]. split; auto. lia.
Qed.
End Heap.

(** ** Theorems *)

(** The mapping keeps the user's entries. If there is none for x, the field x consists of
    the variables that no entry lists, unless x is the only variable; so every variable
    is in a field. The same holds for f and the objectives. Each name is in one place if
    this was so for the user's entries. *)
Theorem C85_mapping : forall vars objs rid m0 m, complete vars objs rid m0 = Ok m ->
  (forall k l, k <> SIM_ID -> lookup k m0 = Some l -> lookup k m = Some l) /\
  (rid = true -> lookup SIM_ID m = Some [ID]) /\
  (lookup X m0 = None -> vars <> [X] -> exists l, lookup X m = Some l /\ (forall v, In v l <-> In v vars /\ ~ listed m0 v) /\ l = filter (fun v => memb v l) vars) /\
  (lookup X m0 = None -> vars = [X] -> lookup X m = None) /\
  (lookup F m0 = None -> objs = [F] -> lookup F m = None) /\
  (lookup F m0 = None -> objs <> [F] -> exists l, lookup F m = Some l /\ forall v, In v l -> In v objs) /\
  (rid = false -> lookup X m0 = None -> vars <> [X] -> forall v, In v vars -> listed m v) /\
  (rid = false -> lookup F m0 = None -> objs <> [F] -> forall v, In v objs -> listed m v) /\
  (rid = false -> once_each m0 -> NoDup vars -> NoDup objs -> once_each m).
Proof.
  intros vars objs rid m0 m E. destruct (complete_ok _ _ _ _ _ E) as (m1 & m2 & E1 & E2 & ->). destruct (rest_ok _ _ _ _ E1) as (A1 & A2 & A3 & A4 & A5 & A6 & A7). destruct (rest_ok _ _ _ _ E2) as (B1 & B2 & B3 & B4 & B5 & B6 & B7).
  assert (LK : forall k, k <> SIM_ID -> lookup k (if rid then set SIM_ID [ID] m2 else m2) = lookup k m2). { intros k N. destruct rid; auto. rewrite lookup_set. destruct (Nat.eqb_spec k SIM_ID); congruence. }
  split; [intros k l N H; rewrite LK by auto; apply B1, A1; auto|]. split; [intros ->; rewrite lookup_set, Nat.eqb_refl; auto|]. split; [|split; [|split; [|split; [|split; [|split]]]]].
  - intros N1 N2. destruct (A4 N1 N2) as [L _]. exists (unmapped vars m0). rewrite LK by discriminate. split; [now apply B1|]. split; [intros v; apply unmapped_In|]. unfold unmapped. apply filter_ext_in. intros v Hv. destruct (negb (memb v (flat_map snd m0))) eqn:M; symmetry; [apply memb_In, filter_In; auto|apply memb_false; intros I; apply filter_In in I as [_ I]; congruence].
  - intros N1 N2. rewrite LK by discriminate. rewrite B2 by discriminate. now rewrite (A3 N1 N2).
  - intros N1 N2. rewrite LK by discriminate. rewrite B3; auto; rewrite A2 by discriminate; auto.
  - intros N1 N2. rewrite LK by discriminate. destruct B4 as [L _]; auto; [rewrite A2 by discriminate; auto|]. exists (unmapped objs m1). split; auto. intros v Hv. now apply unmapped_In in Hv.
  - intros -> N1 N2 v Hv. apply B7. now apply A4.
  - intros -> N1 N2 v Hv. apply B4; auto. rewrite A2 by discriminate. auto.
  - intros -> O N1 N2. auto.
Qed.
Print Assumptions C85_mapping.

(** A new object has this mapping, made from the dictionary it was given, and the
    settings of its keyword arguments on top of what its gen_specs had. *)
Theorem C85_made : forall V (c : @call V) h h1 g, construct c h = (h1, Ok g) -> specs_addr c < length (h_specs h) -> NoDup (map fst (c_kwargs c)) ->
  complete (c_vars c) (c_objs c) (c_id c) (match c_map c with Some a => nth a (h_maps h) [] | None => [] end) = Ok (mapping_of h1 g) /\
  forall k, lookup k (settings_of h1 g) = match lookup k (c_kwargs c) with Some v => Some v | None => match nth (specs_addr c) (h_specs h) None with Some d => lookup k d | None => None end end.
Proof.
  intros V c h h1 g E L ND. unfold construct in E. fold (specs_addr c) in E. destruct (map_addr h (c_map c)) as [a h'] eqn:MA. destruct (addr_ok _ _ _ _ MA) as (B1 & B2 & B3 & B4 & _). rewrite B4 in E. destruct (complete _ _ _ _) as [m|e]; [|discriminate]. injection E as <- <-. unfold mapping_of, settings_of. cbn [h_maps h_specs g_map g_specs]. rewrite !nth_upd, !Nat.eqb_refl, B2. cbn [andb].
  destruct (Nat.ltb_spec a (length (h_maps h'))); [|lia]. destruct (Nat.ltb_spec (specs_addr c) (length (h_specs h))); [|lia]. split; auto. intros k. generalize (nth (specs_addr c) (h_specs h) None). intros u.
  assert (G : forall kw d, NoDup (map fst kw) -> lookup k (fold_left (fun d p => set (fst p) (snd p) d) kw d) = match lookup k kw with Some v => Some v | None => @lookup V k d end).
  { clear. induction kw as [|[k0 v] kw IH]; intros d N; auto. cbn [fold_left fst snd lookup]. inversion N; subst. rewrite IH, lookup_set by auto. destruct (Nat.eqb_spec k k0) as [->|]; auto. destruct (lookup k0 kw) eqn:E; auto. apply lookup_In in E. destruct H1. apply in_map_iff. exists (k0, v0). auto. }
  unfold add_kwargs. destruct (c_kwargs c) as [|p kw]; [destruct u; auto|]. rewrite G by exact ND. destruct u; auto.
Qed.
Print Assumptions C85_made.

(** Nothing that is constructed later changes them, as long as it is not given one of
    the same dictionaries (the default gen_specs is such a dictionary). *)
Theorem C85_own : forall V (c : @call V) h h1 g cs, construct c h = (h1, Ok g) -> (forall c', In c' cs -> apart g c') ->
  mapping_of (constructs cs h1) g = mapping_of h1 g /\ settings_of (constructs cs h1) g = settings_of h1 g.
Proof.
  intros V c h h1 g cs E A. assert (L : g_map g < length (h_maps h1)). { unfold construct in E. destruct (map_addr h (c_map c)) as [a h'] eqn:MA. destruct (addr_ok _ _ _ _ MA) as (B1 & _). destruct (complete _ _ _ _); [|discriminate]. injection E as <- <-. cbn. now rewrite upd_length. }
  clear E. revert h1 L. unfold constructs. induction cs as [|c' cs IH]; intros h1 L; auto. cbn [fold_left]. destruct (step_apart c' h1 g (A c' (or_introl eq_refl)) L) as (S1 & S2 & S3). destruct (IH (fun x Hx => A x (or_intror Hx)) _ S3) as [I1 I2]. split; congruence.
Qed.
Print Assumptions C85_own.

(** ** Cases: core, edge, on_cube, energy are 10, 11, 12, 13; x_on_cube is 4 *)
Definition heap0 : @heap nat := mkHeap [[(4, [12])]] [None; Some [(20, 7)]].
Definition c1 : @call nat := mkCall [10; 11; 12] [13] true (Some 0) (Some 1) [(21, 5)].
Example made_case : let '(h, g) := construct c1 heap0 in
  g = Ok (mkGen 0 1) /\ mapping_of h (mkGen 0 1) = [(4, [12]); (X, [10; 11]); (F, [13]); (SIM_ID, [ID])] /\ settings_of h (mkGen 0 1) = [(20, 7); (21, 5)] /\
  apart (mkGen 0 1) (mkCall [10] [13] false None None [(21, 6)]).
Proof. repeat split; [discriminate|]. right. discriminate. Qed.
Example mapping_case : complete [10; 11; 12] [13] false [(4, [12])] = Ok [(4, [12]); (X, [10; 11]); (F, [13])] /\ once_each [(4, [12])] /\ complete [X] [F] false [] = Ok [] /\ complete [] [F] false [] = Err EIndex.
Proof. repeat split. repeat constructor; intuition. Qed.

(** Two objects that are constructed without gen_specs share the settings: those of the
    second replace the first's, and the second has settings that it was not given. *)
Theorem C85_default_refuted : exists (ca cb : @call nat) h h1 ga h2 gb, construct ca h = (h1, Ok ga) /\ construct cb h1 = (h2, Ok gb) /\ c_specs ca = None /\ c_specs cb = None /\ c_map ca = None /\ c_map cb = None /\
  lookup 20 (settings_of h1 ga) = Some 5 /\ lookup 20 (settings_of h2 ga) = Some 6 /\ lookup 21 (c_kwargs cb) = None /\ lookup 21 (settings_of h2 gb) = Some 9.
Proof.
  exists (mkCall [10] [13] false None None [(20, 5); (21, 9)]), (mkCall [11] [13] false None None [(20, 6)]), (mkHeap [] [None]). do 4 eexists. split; [vm_compute; reflexivity|]. split; [vm_compute; reflexivity|]. vm_compute. repeat split.
Qed.
Print Assumptions C85_default_refuted.
(** A mapping given to two objects is completed with the variables of the first, and the
    second then has these. *)
Theorem C85_shared_mapping_refuted : exists (ca cb : @call nat) h h1 ga h2 gb, construct ca h = (h1, Ok ga) /\ construct cb h1 = (h2, Ok gb) /\ c_map ca = Some 0 /\ c_map cb = Some 0 /\ lookup X (nth 0 (h_maps h) []) = None /\
  lookup X (mapping_of h2 gb) = Some [10] /\ ~ In 10 (c_vars cb).
Proof.
  exists (mkCall [10; 12] [13] false (Some 0) None []), (mkCall [11; 12] [13] false (Some 0) None []), (mkHeap [[(4, [12])]] [None]). do 4 eexists. split; [vm_compute; reflexivity|]. split; [vm_compute; reflexivity|]. vm_compute. repeat split. intuition discriminate.
Qed.
Print Assumptions C85_shared_mapping_refuted.
