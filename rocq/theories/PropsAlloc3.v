(** Property theorems about fast_alloc_and_pausing: C62. The proofs are in
    AllocMore5 and AllocMore7. *)
From Coq Require Import Permutation Sorted String.
From Verif Require Import Base BaseLemmas HistoryModel HistoryProofs WorkModel RsetModel RsetSpec SchedModel SchedSpec SchedServe AllocModel AllocSpec AllocProofs AllocLoops AllocFacts AllocFast AllocPersis PropsResources PropsAlloc AllocModel2 AllocSpec2 AllocMore AllocMore2 AllocMore3 AllocMore4 AllocMore5 AllocMore6 AllocMore7 PropsAlloc2.
Local Notation length := List.length.
Local Open Scope string_scope.
Local Open Scope list_scope.
Local Open Scope nat_scope.

(** One call, in any state in which need_to_give holds numbers of rows seen
    before: orders go to idle workers, one each; a simulation order is one row
    that was to be given, with the resource sets its row asks for; the others are
    calls of the generator with the whole history. Sets are free and not shared;
    workers reserved for generators get generator calls only; of the history only
    "paused" marks change, and only from unset to set. *)
Theorem C62_one_call : forall c d u g p H out p', ids_distinct (ac_W c) -> resources_ok c -> numbered H ->
  NoDup (ps_need p) -> (forall i, In i (ps_need p) -> i < ps_len p) -> ps_len p <= length H ->
  pausing_alloc c d u false g p H = (out, p') ->
  (forall w k, In (w, k) (o_work out) -> idle (ac_W c) w /\ k_persistent k = false /\
     (k_tag k = EVAL_SIM /\ (exists i, k_rows k = [i] /\ (In i (ps_need p) \/ ps_len p <= i < length H)) /\ unit_served c d H w k /\ (some_gen_only (ac_W c) -> ~ gen_only (ac_W c) w) \/
      k_tag k = EVAL_GEN /\ k_rows k = seq 0 (length H) /\ (some_gen_only (ac_W c) -> gen_only (ac_W c) w))) /\
  NoDup (map fst (o_work out)) /\ NoDup (sim_rows (o_work out)) /\
  (forall m, ac_rm c = Some m -> NoDup (sets_given (o_work out)) /\ forall i, In i (sets_given (o_work out)) -> is_free m i) /\
  length (o_rows out) = length H /\
  (forall i r, nth_error H i = Some r -> exists r', nth_error (o_rows out) i = Some r' /\ (forall f, f <> F_user "paused" -> r' f = r f) /\
     (truthy (r (F_user "paused")) = true -> truthy (r' (F_user "paused")) = true)).
Proof.
  intros c d u g p H out p' Hi Hr Hn Hd Hlt Hl E. destruct (to_give_spec p H Hn Hl Hlt Hd) as [G1 G2].
  destruct (pausing_facts c d u g p p' H out Hi Hr G1 E) as ((s & A) & SB & _ & _ & _ & _ & _ & F5 & _). destruct A as [A1 A2 A3 A4 (h & rs & A5 & A6)].
  split; [|split; [exact A1|split; [exact A3|split; [|split; [apply SB|]]]]].
  - intros w k Hin. destruct (A2 _ Hin) as [U0 [(U1 & U2 & U3 & U4 & U5)|((U1 & U2 & U3 & U4 & U5) & U6 & U7)]]; cbn in *; (split; [exact U0|]); (split; [exact U2|]); [right; auto|left].
    split; auto. split; [|auto]. destruct (k_rows k) as [|i [|]] eqn:Er; try discriminate. exists i. split; auto. apply G2, A4. unfold sim_rows, sims.
    apply in_concat. exists [i]. split; [|now left]. rewrite <- Er. apply (in_map (fun q => k_rows (snd q)) _ (w, k)). apply filter_In. split; auto. cbn. now rewrite U1.
  - intros m Hm. destruct (sinv_free c _ _ m Hm A5) as [N F]. destruct (nodup_perm_l _ _ _ N A6) as [N' I]. split; auto.
  - intros i r Er. destruct (proj2 SB i r Er) as (r' & Er' & F). exists r'. split; auto. split; [intros f Hf; apply F; intros [X|[]]; now apply Hf|].
    intros P. destruct (F5 i) as (r2 & E2 & P2); [exists r; auto|]. assert (X : Some r' = Some r2) by (rewrite <- E2; symmetry; exact Er'). injection X as ->. exact P2.
Qed.
Print Assumptions C62_one_call.

(** Never more generator calls at once than "num_active_gens" allows. *)
Theorem C62_num_gens : forall c d u g p H out p' n, ids_distinct (ac_W c) -> resources_ok c -> numbered H ->
  NoDup (ps_need p) -> (forall i, In i (ps_need p) -> i < ps_len p) -> ps_len p <= length H ->
  pausing_alloc c d u false g p H = (out, p') -> pz_num_gens u = Some n ->
  gens (o_work out) = [] \/ length (filter (fun r => w_active r =? EVAL_GEN) (ac_W c)) + length (gens (o_work out)) <= n.
Proof.
  intros c d u g p H out p' n Hi Hr Hn Hd Hlt Hl E En. destruct (to_give_spec p H Hn Hl Hlt Hd) as [G1 _].
  destruct (pausing_facts c d u g p p' H out Hi Hr G1 E) as (_ & _ & _ & _ & _ & _ & _ & _ & _ & _ & _ & _ & _ & F & _).
  destruct (gens (o_work out)) as [|q l]; [now left|right]. apply (F n En). discriminate.
Qed.
Print Assumptions C62_num_gens.

(** In batch mode the generator is called only when every row since the last
    generator call is evaluated or paused. *)
Theorem C62_batch_complete : forall c d u g p H out p', ids_distinct (ac_W c) -> resources_ok c -> numbered H ->
  NoDup (ps_need p) -> (forall i, In i (ps_need p) -> i < ps_len p) -> ps_len p <= length H ->
  pausing_alloc c d u false g p H = (out, p') -> pz_batch u = true -> gens (o_work out) <> [] ->
  forall i, match ps_last p with Some n => n | None => 0 end <= i < length H -> ended H i \/ paused (o_rows out) i.
Proof.
  intros c d u g p H out p' Hi Hr Hn Hd Hlt Hl E Eb Hg i Hl'. destruct (to_give_spec p H Hn Hl Hlt Hd) as [G1 _].
  destruct (pausing_facts c d u g p p' H out Hi Hr G1 E) as (_ & SB & _ & _ & _ & _ & _ & _ & _ & _ & _ & _ & _ & _ & _ & F & _).
  destruct (F Hg) as [_ O]. specialize (O Eb). destruct (nth_error H i) as [r|] eqn:Er; [|apply nth_error_None in Er; lia].
  destruct (proj2 SB i r Er) as (r' & Er' & FF). destruct (O i r' (proj1 Hl') Er') as [X|X]; [left; exists r; split; auto; rewrite <- FF; auto; intros [Y|[]]; discriminate|right; exists r'; auto].
Qed.
Print Assumptions C62_batch_complete.

(** A whole run, from the start, on a history of numbered rows that only grows:
    no point is given twice, and none of the first [n], the value that H_len
    starts with. *)
Theorem C62_never_twice : forall d nans part num batch g n l s', calls_of (pausing_call d nans part num batch) (g, mkPS n [] [] None 0, 0) l s' ->
  calls_fit l -> (forall c H out, In (c, H, out) l -> numbered H /\ n <= length H) ->
  NoDup (all_given l) /\ forall i, In i (all_given l) -> n <= i.
Proof.
  intros d nans part num batch g n l s' C Fit HN. destruct (pausing_never_twice _ _ _ _ _ _ _ _ C) as [A B]; auto.
  - split; [constructor|intros i []].
  - intros c H out Hin. now apply (HN c H out).
  - intros c H out N0. apply nth_error_In in N0. now apply (HN c H out).
  - split; auto. intros i Hi. destruct (B i Hi) as [[]|X]. exact X.
Qed.
Print Assumptions C62_never_twice.

(** With stop_on_NaNs: no call whose history shows a NaN in some component of
    point [z] gives a component of [z], if that was in the history when the NaN
    first showed. *)
Theorem C62_nan_stops_point : forall d part num batch g n l s' i z, calls_of (pausing_call d true part num batch) (g, mkPS n [] [] None 0, 0) l s' ->
  (forall k j, part k j = []) -> calls_fit l -> (forall c H out, In (c, H, out) l -> numbered H /\ n <= length H) ->
  (forall c H out, In (c, H, out) l -> i < length H -> point_of H i z) -> (forall c H out, In (c, H, out) l -> nan_point H z -> i < length H) ->
  forall c H out, In (c, H, out) l -> nan_point H z -> ~ In i (sim_rows (o_work out)).
Proof.
  intros d part num batch g n l s' i z C Ep Fit HN HP HZ. apply (pausing_nan d true part num batch i z _ l s' eq_refl Ep C); auto.
  - split; [constructor|intros j []].
  - intros c H out Hin. now apply (HN c H out).
  - intros c H out N0. apply nth_error_In in N0. now apply (HN c H out).
Qed.
Print Assumptions C62_nan_stops_point.

(** In batch mode no point is lost: after every call, each row from [n] on has
    been given or is paused, or every idle worker that may simulate has an order. *)
Theorem C62_batch_keeps_all : forall d nans part num g n l s', calls_of (pausing_call d nans part num true) (g, mkPS n [] [] None 0, 0) l s' ->
  calls_fit l -> kept n l -> (forall c H out, In (c, H, out) l -> o_err out = None) ->
  forall j c H out, nth_error l j = Some (c, H, out) -> ac_manage c = false ->
  (forall i, n <= i < length H -> In i (all_given (firstn (S j) l)) \/ paused (o_rows out) i) \/
  forall w, idle (ac_W c) w -> (some_gen_only (ac_W c) -> ~ gen_only (ac_W c) w) -> In w (map fst (o_work out)).
Proof.
  intros d nans part num g n l s' C Fit K HE. destruct l as [|[[c0 H0] o0] l]; [intros [|j]; discriminate|]. destruct K as [L K].
  exact (pausing_batch d nans part num true n _ _ _ eq_refl C (firstn n H0) [] (bat_init _ _ L) K Fit HE).
Qed.
Print Assumptions C62_batch_keeps_all.

(** Examples: two components each of points 0 and 1; component 0 of point 0 came
    back as NaN, so row 1 is paused and rows 2 and 3 go out. *)
Definition ps_row (id pt : Z) (st en : bool) (f : sc) : row := fun g =>
  match g with
  | F_sim_id => vint id | F_sim_started => vbool st | F_sim_ended => vbool en
  | F_user s => if String.eqb s "pt_id" then vint pt else if String.eqb s "f_i" then VS f else vint 0
  | _ => vint 0
  end.
Definition psH (f : sc) (e : bool) : list row := [ps_row 0 0 e e f; ps_row 1 0 false false (SNum 0); ps_row 2 1 false false (SNum 0); ps_row 3 1 false false (SNum 0)].
Definition psW (busy : nat) : list wrow := [mkW 1 false 0 0 false 0 false; mkW 2 false busy 0 false 0 false].
Definition psc (busy : nat) : actx := actx_with None (psW busy).
Lemma psc_ok b : ids_distinct (ac_W (psc b)) /\ resources_ok (psc b).
Proof. split; [repeat constructor; cbn; intuition discriminate|]. split; [intros l; apply Permutation_refl|exact I]. Qed.
Definition no_part : nat -> nat -> list Z := fun _ _ => [].
Definition ps0 : ps_state := mkPS 0 [] [] None 0.
Lemma psH_numbered f e : numbered (psH f e).
Proof. intros i r E. do 4 (destruct i as [|i]; [injection E as <-; reflexivity|]). destruct i; discriminate. Qed.
Definition ps_list : list (actx * list row) := [(psc 1, psH (SNum 0) false); (psc 0, psH SNaN true)].
Definition ps_calls2 : list (actx * list row * aout) := calls_from (pausing_call ad true no_part (Some 1) true) (0, ps0, 0) ps_list.
Example C62_cases :
  map (fun x => show (o_work (snd x))) ps_calls2 = [[(1, 1, [0], None)]; [(1, 1, [2], None); (2, 1, [3], None)]] /\
  map (fun x => map (fun r => as_int (r (F_user "paused"))) (o_rows (snd x))) ps_calls2 = [[0; 0; 0; 0]; [1; 1; 0; 0]]%Z /\
  show (o_work (fst (pausing_alloc (psc 0) ad (mkPZ true (fun _ => []) (Some 1) true) false 0 ps0 []))) = [(1, 2, [], None)].
Proof. vm_compute; repeat split; reflexivity. Qed.
Lemma ps_calls2_fit : calls_fit ps_calls2.
Proof.
  split.
  - intros c H out Hin. unfold ps_calls2, ps_list in Hin. cbn [calls_from In] in Hin. destruct Hin as [Hin|[Hin|[]]]; injection Hin as <- _ _; apply psc_ok.
  - intros k c H out c' H' out' E1 E2. unfold ps_calls2, ps_list in *. cbn [calls_from] in *. destruct k as [|[|k]]; cbn [nth_error] in *; try discriminate.
    injection E1 as _ <- _. injection E2 as _ <- _. cbn. lia.
Qed.
Lemma ps_calls2_in c H out : In (c, H, out) ps_calls2 -> (H = psH (SNum 0) false \/ H = psH SNaN true).
Proof. unfold ps_calls2, ps_list. cbn [calls_from In]. intros [X|[X|[]]]; injection X as _ <- _; auto. Qed.
Example C62_never_twice_met : NoDup (all_given ps_calls2).
Proof.
  destruct (calls_from_of (pausing_call ad true no_part (Some 1) true) ps_list (0, ps0, 0)) as (s' & C).
  apply (C62_never_twice ad true no_part (Some 1) true 0 0 _ s' C ps_calls2_fit). intros c H out Hin.
  destruct (ps_calls2_in _ _ _ Hin) as [-> | ->]; (split; [apply psH_numbered|cbn; lia]).
Qed.
Example C62_nan_stops_point_met : forall c H out, In (c, H, out) ps_calls2 -> nan_point H 0 -> ~ In 1 (sim_rows (o_work out)).
Proof.
  destruct (calls_from_of (pausing_call ad true no_part (Some 1) true) ps_list (0, ps0, 0)) as (s' & C).
  apply (C62_nan_stops_point ad no_part (Some 1) true 0 0 _ s' 1 0%Z C); auto; try exact ps_calls2_fit; intros c H out Hin; destruct (ps_calls2_in _ _ _ Hin) as [-> | ->]; intros; try (cbn; lia);
    try (eexists; split; reflexivity); (split; [apply psH_numbered|cbn; lia]).
Qed.
Example C62_nan_shows : nan_point (psH SNaN true) 0.
Proof. exists 0. split; [eexists; split; reflexivity|reflexivity]. Qed.
Lemma not_paused f e i : ~ paused (psH f e) i.
Proof. intros (r & E & P). do 4 (destruct i as [|i]; [injection E as <-; discriminate|]). destruct i; discriminate. Qed.
Example C62_batch_keeps_all_met : kept 0 ps_calls2.
Proof.
  unfold ps_calls2, ps_list, kept. cbn [calls_from]. split; [cbn; lia|]. cbn [firstn kept_from].
  split; [apply psH_numbered|]. split; [cbn; lia|]. split; [intros i Hi; cbn in Hi; lia|]. split; [intros i _; apply not_paused|].
  split; [intros i _ (r & E & P); do 4 (destruct i as [|i]; [injection E as <-; discriminate|]); destruct i; discriminate|].
  split; [apply psH_numbered|].
  set (o := fst _). assert (EL : length (o_rows o) = 4) by (vm_compute; reflexivity).
  assert (EP : forall i, ~ paused (o_rows o) i).
  { assert (X : map (fun r => truthy (r (F_user "paused"))) (o_rows o) = [false; false; false; false]) by (vm_compute; reflexivity).
    intros i (r & E & P). apply (map_nth_error (fun r => truthy (r (F_user "paused")))) in E. rewrite P in E. rewrite X in E. do 4 (destruct i as [|i]; [discriminate|]). destruct i; discriminate. }
  split; [rewrite EL; cbn; lia|]. split; [intros i _; split; intros X; [destruct (not_paused _ _ _ X)|destruct (EP i X)]|]. split; [intros i _; apply not_paused|].
  split; [|exact I]. assert (ES : sim_rows (o_work o) = [0]) by (vm_compute; reflexivity). rewrite ES. cbn [app].
  intros i _ (r & E & P). destruct i as [|i]; [now left|]. do 3 (destruct i as [|i]; [injection E as <-; discriminate|]). destruct i; discriminate.
Qed.

(** A state in the middle of a run: rows 2 and 3 wait, point 0 is paused; once all
    rows are evaluated or paused the generator is called, and the count of active
    generators is kept. *)
Definition psE : list row := [ps_row 0 0 true true SNaN; setf (F_user "paused") (vbool true) (ps_row 1 0 false false (SNum 0)); ps_row 2 1 true true (SNum 3); ps_row 3 1 true true (SNum 4)].
Lemma psE_numbered : numbered psE.
Proof. intros i r E. do 4 (destruct i as [|i]; [injection E as <-; reflexivity|]). destruct i; discriminate. Qed.
Example C62_one_call_met : NoDup (map fst (o_work (fst (pausing_alloc (psc 0) ad (mkPZ true (fun _ => []) (Some 1) true) false 1 (mkPS 4 [2; 3] [0%Z] (Some 0) 1) (psH SNaN true))))) /\
  show (o_work (fst (pausing_alloc (psc 0) ad (mkPZ true (fun _ => []) (Some 1) true) false 1 (mkPS 4 [2; 3] [0%Z] (Some 0) 1) (psH SNaN true)))) = [(1, 1, [2], None); (2, 1, [3], None)].
Proof.
  split; [|vm_compute; reflexivity]. eapply (C62_one_call (psc 0) ad _ 1 (mkPS 4 [2; 3] [0%Z] (Some 0) 1) (psH SNaN true)); try apply psc_ok; try apply psH_numbered; try apply surjective_pairing; cbn.
  - repeat constructor; cbn; intuition discriminate.
  - intros i [<-|[<-|[]]]; lia.
  - lia.
Qed.
Example C62_batch_complete_met :
  show (o_work (fst (pausing_alloc (psc 0) ad (mkPZ true (fun _ => []) (Some 1) true) false 1 (mkPS 4 [] [0%Z] (Some 0) 1) psE))) = [(1, 2, [0; 1; 2; 3], None)] /\
  forall i, i < 4 -> ended psE i \/ paused (o_rows (fst (pausing_alloc (psc 0) ad (mkPZ true (fun _ => []) (Some 1) true) false 1 (mkPS 4 [] [0%Z] (Some 0) 1) psE))) i.
Proof.
  split; [vm_compute; reflexivity|]. intros i Hi. refine (C62_batch_complete (psc 0) ad (mkPZ true (fun _ => []) (Some 1) true) 1 (mkPS 4 [] [0%Z] (Some 0) 1) psE _ _ (proj1 (psc_ok 0)) (proj2 (psc_ok 0)) psE_numbered (NoDup_nil _) _ _ (surjective_pairing _) eq_refl _ i _).
  - intros j [].
  - cbn; lia.
  - vm_compute. discriminate.
  - cbn. lia.
Qed.

(** Without batch mode a point can be lost: a generator call of the same call
    replaces its order, and it was taken off the list. *)
Theorem C62_point_lost_refuted : exists c H l s', ids_distinct (ac_W c) /\ resources_ok c /\ numbered H /\
  calls_of (pausing_call ad false no_part None false) (0, ps0, 0) l s' /\ calls_fit l /\ length l = 2 /\
  (forall c' H' out, In (c', H', out) l -> c' = c /\ H' = H /\ o_err out = None) /\ (exists w, idle (ac_W c) w) /\ evaluable H 0 /\
  all_given l = [] /\ ps_need (snd (fst s')) = [] /\ ps_len (snd (fst s')) = length H.
Proof.
  set (c := actx_with None [mkW 1 false 0 0 false 0 false]). set (H := [ps_row 0 0 false false (SNum 0)]).
  set (f := pausing_call ad false no_part None false). set (l := calls_from f (0, ps0, 0) [(c, H); (c, H)]).
  exists c, H, l, (snd (f c (snd (f c (0, ps0, 0) H)) H)).
  assert (C : ids_distinct (ac_W c) /\ resources_ok c). { split; [repeat constructor; cbn; intuition discriminate|]. split; [intros x; apply Permutation_refl|exact I]. }
  assert (IL : forall c' H' out, In (c', H', out) l -> c' = c /\ H' = H /\ o_err out = None).
  { unfold l. cbn [calls_from In]. intros c' H' out [X|[X|[]]]; injection X as <- <- <-; (split; [reflexivity|split; [reflexivity|vm_compute; reflexivity]]). }
  split; [apply C|]. split; [apply C|]. split; [intros [|i] r E; [injection E as <-; reflexivity|destruct i; discriminate]|].
  split; [unfold l; cbn [calls_from]; eapply calls_of_more; [apply surjective_pairing|]; eapply calls_of_more; [apply surjective_pairing|]; constructor|].
  split. { split; [intros c' H' out Hin; destruct (IL _ _ _ Hin) as (-> & _); exact C|]. intros k c' H' o c2 H2 o2 E1 E2. apply nth_error_In in E1, E2. destruct (IL _ _ _ E1) as (_ & -> & _). destruct (IL _ _ _ E2) as (_ & -> & _). lia. }
  split; [reflexivity|]. split; [exact IL|]. split; [exists 1; eexists; split; [left; reflexivity|split; reflexivity]|]. split; [eexists; split; [reflexivity|split; reflexivity]|].
  split; [vm_compute; reflexivity|]. split; vm_compute; reflexivity.
Qed.
Print Assumptions C62_point_lost_refuted.

(** A component that the generator adds to a point that is already paused is
    given although the history shows the NaN. *)
Theorem C62_nan_later_rows_refuted : exists c d u p H z i, ids_distinct (ac_W c) /\ resources_ok c /\ numbered H /\ pz_nans u = true /\
  NoDup (ps_need p) /\ ps_len p <= i < length H /\ In z (ps_paused p) /\ nan_point H z /\ point_of H i z /\ In i (sim_rows (o_work (fst (pausing_alloc c d u false 0 p H)))).
Proof.
  exists (psc 1), ad, (mkPZ true (fun _ => []) (Some 1) true), (mkPS 1 [] [0%Z] (Some 1) 1), (psH SNaN true), 0%Z, 1.
  split; [apply psc_ok|]. split; [apply psc_ok|]. split; [apply psH_numbered|]. split; [reflexivity|]. split; [constructor|]. split; [cbn; lia|]. split; [now left|].
  split; [exact C62_nan_shows|]. split; [eexists; split; reflexivity|]. vm_compute. auto.
Qed.
Print Assumptions C62_nan_later_rows_refuted.

(** A point whose cancellation was requested is given all the same, and so are
    points of H0 that were evaluated before, as H_len starts at 0. *)
Theorem C62_cancelled_given_refuted : exists c d u H i, ids_distinct (ac_W c) /\ resources_ok c /\ numbered H /\
  (exists r, nth_error H i = Some r /\ truthy (r F_cancel_requested) = true) /\ In i (sim_rows (o_work (fst (pausing_alloc c d u false 0 ps0 H)))).
Proof.
  exists (psc 0), ad, (mkPZ true (fun _ => []) (Some 1) true), [setf F_cancel_requested (vbool true) (ps_row 0 0 false false (SNum 0))], 0.
  split; [apply psc_ok|]. split; [apply psc_ok|]. split; [intros [|i] r E; [injection E as <-; reflexivity|destruct i; discriminate]|].
  split; [eexists; split; reflexivity|]. vm_compute. auto.
Qed.
Print Assumptions C62_cancelled_given_refuted.
Theorem C62_H0_again_refuted : exists c d u H i, ids_distinct (ac_W c) /\ resources_ok c /\ numbered H /\ ended H i /\
  In i (sim_rows (o_work (fst (pausing_alloc c d u false 0 ps0 H)))).
Proof.
  exists (psc 0), ad, (mkPZ true (fun _ => []) (Some 1) true), (psH (SNum 0) true), 0.
  split; [apply psc_ok|]. split; [apply psc_ok|]. split; [apply psH_numbered|].
  split; [eexists; split; reflexivity|]. vm_compute. auto.
Qed.
Print Assumptions C62_H0_again_refuted.
