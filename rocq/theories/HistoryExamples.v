(** Example data for the history properties: a short run that meets their hypotheses. *)
From Coq Require Import String.
From Verif Require Import Base HistoryModel HistorySpec HistoryInv HistoryInv2 HistoryRun HistoryRun2 HistoryRun3 HistoryStore HistoryKill HistoryFacts.
Local Notation length := List.length.
Open Scope string_scope.

(** ** Example data *)
Definition X := F_user "x".
Definition FF := F_user "f".
Definition no_H0 : sarr := mkA [] [].
(** generated points with the given x values, no sim_id *)
Definition pts (l : list Z) : sarr := mkA [(X, ShS)] (map (fun z f => if feqb X f then vint z else vint 0) l).
(** generated points with sim_id and x *)
Definition idpts (l : list (Z * Z)) : sarr :=
  mkA [(F_sim_id, ShS); (X, ShS)]
      (map (fun p f => if feqb F_sim_id f then vint (fst p) else if feqb X f then vint (snd p) else vint 0) l).
(** points that only request cancellation of the given ids *)
Definition cancels (l : list Z) : sarr :=
  mkA [(F_sim_id, ShS); (F_cancel_requested, ShS)]
      (map (fun z f => if feqb F_sim_id f then vint z else if feqb F_cancel_requested f then vbool true else vint 0) l).
(** simulator output *)
Definition outp (l : list Z) : option sarr := Some (mkA [(FF, ShS)] (map (fun z f => if feqb FF f then vint z else vint 0) l)).
Definition start : hist := init_history 2 [(X, ShS); (FF, ShS)] no_H0 true.
Definition a_run : list hop :=
  [HXIn 1 (pts [10; 11; 12]%Z) 5 6; HXOut [0] 2 true 7; HXOut [1; 2] 3 true 8;
   HXIn 1 (cancels [2]%Z) 5 9; HKill; HF [0] (outp [100]%Z) true 9; HToGen [0] 10;
   HXIn 1 (idpts [(4, 44); (3, 33)]%Z) 11 12].
Definition after_run : hist := fold_left (fun h o => fst (hstep o h)) a_run start.

Ltac setyes := eexists; split; [vm_compute; reflexivity|vm_compute; reflexivity].
Ltac setno := let H := fresh in intros H; destruct H as (? & H & ?); vm_compute in H; inversion H; subst; vm_compute in *; discriminate.

Example a_run_polite : Forall ids_polite a_run.
Proof. repeat constructor; cbn; intros; repeat match goal with H : _ \/ _ |- _ => destruct H end; subst; cbn; try lia; try discriminate; try contradiction; intuition discriminate. Qed.

Lemma irun_step h o os h2 : disciplined_op h o -> increasing_op h o -> snd (hstep o h) = None ->
  irun (fst (hstep o h)) os h2 -> irun h (o :: os) h2.
Proof. intros. econstructor; eauto. destruct (hstep o h); cbn in *; congruence. Qed.
Lemma irun_drun h os h2 : irun h os h2 -> drun h os h2.
Proof. induction 1; econstructor; eauto. Qed.
Ltac member := repeat match goal with H : In _ _ |- _ => destruct H as [<-|H]; [|try contradiction] | H : In _ [] |- _ => contradiction end.
Example a_run_disciplined : irun start a_run after_run.
Proof.
  unfold after_run, a_run. cbn [fold_left].
  repeat (apply irun_step; [split; [first [now left | exact I]|]|first [exact I | split; [reflexivity|vm_compute; congruence]]|vm_compute; reflexivity|]).
  all: try exact I.
  - split; [repeat constructor; cbn; intuition|]. intros k Hk. destruct Hk as [<-|[]]. split; [vm_compute; lia|setno].
  - split; [repeat constructor; cbn; intuition lia|]. intros k Hk. destruct Hk as [<-|[<-|[]]]; (split; [vm_compute; lia|setno]).
  - split; [repeat constructor; cbn; intuition|]. intros k Hk. destruct Hk as [<-|[]]. split; [setyes|setno].
  - constructor.
Qed.
Example a_run_ok : hrun a_run start = (after_run, None).
Proof. exact (drun_hrun _ _ _ (irun_drun _ _ _ a_run_disciplined)). Qed.

(** The history after a list of operations from [start]. *)
Definition after (os : list hop) : hist := fold_left (fun h o => fst (hstep o h)) os start.
Fixpoint all_ok (os : list hop) (h : hist) : bool :=
  match os with [] => true | o :: os => match snd (hstep o h) with None => all_ok os (fst (hstep o h)) | _ => false end end.
Lemma hrun_all_ok os : forall h, all_ok os h = true -> hrun os h = (fold_left (fun h o => fst (hstep o h)) os h, None).
Proof.
  induction os as [|o os IH]; intros h H; [reflexivity|]. unfold hrun in *. cbn [all_ok fold_left foldx] in *.
  destruct (hstep o h) as [h1 e] eqn:E. cbn [fst snd] in *. destruct e; [discriminate|]. cbn [bindx]. now apply IH.
Qed.
Lemma hrun_after os : all_ok os start = true -> hrun os start = (after os, None).
Proof. apply hrun_all_ok. Qed.
Lemma hstep_after o : snd (hstep o start) = None -> hstep o start = (after [o], None).
Proof. intros H. cbn [after fold_left]. unfold after. cbn [fold_left]. destruct (hstep o start); cbn in *; congruence. Qed.
Lemma drun_step h o os h2 : disciplined_op h o -> snd (hstep o h) = None ->
  drun (fst (hstep o h)) os h2 -> drun h (o :: os) h2.
Proof. intros. econstructor; eauto. destruct (hstep o h); cbn in *; congruence. Qed.
Definition bad_id_run : list hop :=
  [HXIn 1 (pts [10]%Z) 5 6; HXOut [0] 2 false 7; HF [0] (Some (mkA [(F_sim_id, ShS)] [fun _ => vint 77])) false 9].
Definition out_of_order_run : list hop :=
  [HXIn 1 (pts [10; 11]%Z) 5 6; HXOut [1] 2 true 7; HXOut [0] 3 true 8; HXIn 1 (cancels [1]%Z) 5 9].
