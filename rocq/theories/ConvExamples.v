(** Executable runs of the ensemble with persistent functions. *)
From Coq Require Import String.
From Verif Require Import Base HistoryModel HistorySpec HistoryRun RsetModel WorkModel ManagerModel ManagerSpec
  CommsModel WorkerModel WorkerSpec WorkerProofs SystemModel SystemSpec SystemProofs SystemExamples HistoryExamples ManagerExamples ConvModel ConvSpec.
Local Notation length := List.length.
Local Open Scope list_scope.
Local Open Scope nat_scope.

Definition order_okb (m : mgr) (w : nat) (k : work) : bool :=
  memb w (map w_id (m_W m)) && match k_recv k with None => true | _ => false end && ((k_tag k =? EVAL_SIM) || (k_tag k =? EVAL_GEN)) &&
  forallb (fun r => negb (w_id r =? w) || (w_persis r =? 0) ||
                    (k_persistent k && (k_tag k =? w_persis r) && match k_rows k with [] => false | _ => true end)) (m_W m).

Lemma order_okb_ok m w k : order_okb m w k = true -> order_ok m w k.
Proof.
  unfold order_okb, order_ok. rewrite !andb_true_iff, forallb_forall. intros (((H1 & H2) & H3) & H4). split.
  { unfold memb in H1. apply existsb_exists in H1 as (x & Hx & E). apply Nat.eqb_eq in E. now subst. }
  split. { now destruct (k_recv k). }
  split. { apply orb_true_iff in H3 as [H|H]; apply Nat.eqb_eq in H; auto. }
  intros r Hr Ew Hp. specialize (H4 r Hr). subst w. rewrite Nat.eqb_refl, (proj2 (Nat.eqb_neq _ _) Hp) in H4. cbn in H4.
  rewrite !andb_true_iff in H4. destruct H4 as ((A & B) & C). apply Nat.eqb_eq in B. repeat split; auto. intros E. now rewrite E in C.
Qed.

Inductive zact := ZGive (t : Z) (w : nat) (k : work) | ZTake (t : Z) (w : nat) | ZStop (t : Z) | ZFinish | ZWork (w : nat) | ZNote (w : nat).

Section Exec.
Variable U : Type.
Variable ustart : work -> list field -> list (list val) -> U.
Variable ustep : U -> uact U.
Variable kd : kind.
Variable c : mcfg.

Definition zexec1 (a : zact) (z : phase * sys U) : option (phase * sys U) :=
  let (ph, y) := z in
  match a with
  | ZGive t w k =>
      match ph with
      | Giving => if order_okb (y_m y) w k then
                    match give_order c t w k (y_m y) with (m', None) => Some (Giving, manager_moves y m' (y_w y)) | _ => None end
                  else None
      | _ => None
      end
  | ZTake t w =>
      match ph with
      | Finished => None
      | _ => if memb w (map w_id (m_W (y_m y))) then
               match q_out (s_comm (y_w y w)) with
               | i :: rest => match poll c (w, i, t) (y_m y) with
                              | (m', None) => Some (ph, manager_moves y m' (set_worker w (set_out rest (y_w y w)) (y_w y)))
                              | _ => None end
               | [] => None
               end
             else None
      end
  | ZStop t =>
      match ph with
      | Giving => match stop_all_persistent c t (y_m y) with (m', None) => Some (Stopping, manager_moves y m' (y_w y)) | _ => None end
      | _ => None
      end
  | ZFinish =>
      match ph with
      | Stopping => if any_active (y_m y) || any_persis (y_m y) then None
                    else Some (Finished, manager_moves y (kill_workers (y_m y)) (y_w y))
      | _ => None
      end
  | ZWork w => match WorkerModel.wstep ustart ustep kd true (y_w y w) with
               | Some s => Some (ph, mkSys (y_m y) (set_worker w s (y_w y))) | None => None end
  | ZNote w => Some (ph, mkSys (y_m y) (set_worker w (set_out (q_out (s_comm (y_w y w)) ++ [ILog]) (y_w y w)) (y_w y)))
  end.

Fixpoint zexec (l : list zact) (z : phase * sys U) : option (phase * sys U) :=
  match l with [] => Some z | a :: l' => match zexec1 a z with Some z' => zexec l' z' | None => None end end.

Lemma zexec_reach m0 l : forall z z', zreach U ustart ustep kd c order_ok m0 z -> zexec l z = Some z' -> zreach U ustart ustep kd c order_ok m0 z'.
Proof.
  induction l as [|a l IH]; intros [ph y] z' Hy E; cbn [zexec] in E; [congruence|].
  destruct (zexec1 a (ph, y)) as [z1|] eqn:E1; [|discriminate].
  apply (IH z1 z'); auto. eapply zr_step; [exact Hy|]. destruct a as [t w k|t w|t| |w|w]; cbn in E1.
  - destruct ph; try discriminate. destruct (order_okb (y_m y) w k) eqn:Eo; [|discriminate].
    destruct (give_order c t w k (y_m y)) as [m' [e|]] eqn:Eg; [discriminate|]. injection E1 as <-.
    eapply z_give; [apply order_okb_ok; exact Eo|exact Eg].
  - assert (Hp : ph <> Finished) by (destruct ph; discriminate).
    destruct (memb w (map w_id (m_W (y_m y)))) eqn:Em; [|destruct ph; discriminate].
    destruct (q_out (s_comm (y_w y w))) as [|i rest] eqn:Eq; [destruct ph; discriminate|].
    destruct (poll c (w, i, t) (y_m y)) as [m' [e|]] eqn:Ep; [destruct ph; discriminate|].
    replace z1 with (ph, manager_moves y m' (set_worker w (set_out rest (y_w y w)) (y_w y))) by (destruct ph; congruence).
    eapply z_take; eauto. unfold memb in Em. apply existsb_exists in Em as (x & Hx & Ex). apply Nat.eqb_eq in Ex. now subst.
  - destruct ph; try discriminate. destruct (stop_all_persistent c t (y_m y)) as [m' [e|]] eqn:Eg; [discriminate|]. injection E1 as <-.
    now apply (z_stop _ _ _ _ _ _ _ t).
  - destruct ph; try discriminate. destruct (any_active (y_m y)) eqn:Ea; [discriminate|]. destruct (any_persis (y_m y)) eqn:Ep; [discriminate|].
    injection E1 as <-. now apply z_finish.
  - destruct (WorkerModel.wstep ustart ustep kd true (y_w y w)) as [s|] eqn:Es; [|discriminate]. injection E1 as <-. eapply z_work. exact Es.
  - injection E1 as <-. apply z_note.
Qed.
End Exec.
Arguments zexec {U}. Arguments zexec1 {U}. Arguments zexec_reach {U}.

(** ** A persistent generator and simulations, with the manners asked for *)

(** The generator of many of libEnsemble's gen_funcs: send points, wait, and so
    on until told to stop. A simulation returns one number; it sees whether it
    should stop first. *)
Inductive gstate := GBegin | GSend (z : Z) | GWait (z : Z) | GEnd | SBegin | SEnd.
Definition gstart (k : work) (fs : list field) (d : list (list val)) : gstate :=
  if k_persistent k then GBegin else SBegin.
Definition gstep (u : gstate) : uact gstate :=
  match u with
  | GBegin => ACompute (GSend 10)
  | GSend z => ASend (PArr (pts [z; z + 1]%Z)) 0 false (GWait z)
  | GWait z => ARecv true (fun g => match g with RWork _ _ _ => GSend (z + 10) | _ => GEnd end)
  | GEnd => AReturn (RTuple [PNone; PDict; PInt FIN_PERSIS_GEN])
  | SBegin => APoll (fun _ => SEnd)
  | SEnd => AReturn (RTuple [match outp [100%Z] with Some a => PArr a | None => PNone end; PDict; PInt 35])
  end.
Definition g_single (u : gstate) : Prop := u = SBegin \/ u = SEnd.
Definition g_owing (u : gstate) : Prop := u = GBegin \/ exists z, u = GSend z.
Definition g_ready (u : gstate) : Prop := exists z, u = GWait z.
Definition g_ending (u : gstate) : Prop := u = GEnd.

Lemma g_manners : manners (fun k fs d => if k_persistent k then gstart k fs d else SBegin) gstep g_single g_owing g_ready g_ending.
Proof.
  constructor.
  - intros k fs d ->. now left.
  - intros k fs d Hk. unfold gstart. rewrite Hk. now left.
  - intros u [-> | ->]; cbn; [intros x; now right|].
    intros n H. inversion H; subst; split; [intros [?|?]; discriminate|discriminate].
  - intros u [->|(z & ->)]; cbn; [right; eauto|]. split; [intros [?|?]; discriminate|]. red. eauto.
  - intros u (z & ->). cbn. split; [intros k fs d; right; eauto|]. split; [reflexivity|discriminate].
  - intros u ->. cbn. exists FIN_PERSIS_GEN. split; [constructor|now right].
Qed.

(** the default settings: kill_canceled_sims and final_gen_send off *)
Definition cd (final : bool) : mcfg := mkC false false true true final false (Some 2) None None None.

(** Worker 1 runs the generator; its first two points are computed by 2 and 3;
    it is given the results and makes two more; the run stops while it is doing so. *)
Definition conv_run : list zact :=
  [ZGive 1 1 persis_gen_order; ZWork 1; ZWork 1; ZWork 1; ZTake 2 1; ZGive 3 2 (sim_order [0]); ZGive 3 3 (sim_order [1]);
   ZWork 2; ZWork 2; ZWork 2; ZWork 2; ZWork 3; ZWork 3; ZNote 3; ZWork 3; ZWork 3; ZTake 4 3; ZTake 4 3; ZTake 4 2;
   ZGive 5 1 (to_persis [0; 1]); ZWork 1; ZWork 1; ZStop 6; ZWork 1; ZTake 7 1; ZWork 1; ZWork 1; ZTake 8 1; ZFinish;
   ZWork 1; ZWork 2; ZWork 3].
Definition conv_user := fun k fs d => if k_persistent k then gstart k fs d else SBegin.
Definition conv_after (n : nat) := zexec conv_user gstep Local (cd false) (firstn n conv_run) (Giving, start_sys (m3 (cd false))).

(** ** User functions that break the rules *)

(** A generator that sends its points and ends at once. *)
Definition hasty_user (k : work) (fs : list field) (d : list (list val)) : prog :=
  QSend (PArr (pts [10; 20]%Z)) 0 false (QReturn (RTuple [PNone; PDict; PInt FIN_PERSIS_GEN])).
Definition hasty_run : list zact :=
  [ZGive 1 1 persis_gen_order; ZWork 1; ZWork 1; ZTake 2 1; ZWork 1; ZGive 3 1 (to_persis [0]); ZWork 1; ZWork 1; ZTake 4 1].

(** The well-behaved generator, stopped before any simulation has ended. *)
Definition early_run : list zact := [ZGive 1 1 persis_gen_order; ZWork 1; ZWork 1; ZWork 1; ZTake 2 1; ZStop 3; ZWork 1].

(** A persistent simulation that polls the manager while it computes. *)
Definition polling_user (k : work) (fs : list field) (d : list (list val)) : prog :=
  if k_tag k =? EVAL_SIM then
    let p := QSend (match outp [100%Z] with Some a => PArr a | None => PNone end) 0 false
               (QRecv true (QReturn (RTuple [PNone; PDict; PInt FIN_PERSIS_SIM])) QRaise QRaise) in QPoll p p
  else QReturn (RTuple [PArr (pts [10; 20]%Z); PDict]).
Definition persis_sim_order (rows : list nat) : work := mkWork EVAL_SIM [X; F_sim_id] rows true None None None None None None.
Definition polling_run : list zact :=
  [ZGive 1 1 gen_order; ZWork 1; ZWork 1; ZTake 2 1; ZGive 3 2 (persis_sim_order [0]); ZWork 2; ZWork 2; ZStop 4; ZWork 2; ZWork 2; ZTake 5 2].

(** A generator that forgets to return FINISHED_PERSISTENT_GEN_TAG. *)
Definition forgetful_user (k : work) (fs : list field) (d : list (list val)) : prog :=
  QSend (PArr (pts [10; 20]%Z)) 0 false (QRecv true (QReturn (RTuple [PArr (pts []); PDict])) QRaise QRaise).
Definition forgetful_run : list zact := [ZGive 1 1 persis_gen_order; ZWork 1; ZWork 1; ZTake 2 1; ZStop 3; ZWork 1; ZWork 1; ZTake 4 1].

Definition show_place {U} (p : place U) : string :=
  match p with AtTop => "top" | AtRows _ _ => "rows" | InCalc _ _ _ => "calc" | InRecv _ _ _ _ => "recv" | Left => "left" end%string.
Definition show_z {U} (z : phase * sys U) :=
  (fst z, map (fun r => (w_active r, w_persis r)) (m_W (y_m (snd z))),
   map (fun r => (show_place (s_place (y_w (snd z) (w_id r))), length (q_out (s_comm (y_w (snd z) (w_id r)))),
                  length (waiting (s_comm (y_w (snd z) (w_id r)))), map show_wev (s_log (y_w (snd z) (w_id r))))) (m_W (y_m (snd z)))).
Definition zrun_prog user c l := option_map show_z (zexec user pstep Local c l (Giving, start_sys (m3 c))).

(** Everybody waits: no message is on its way to the manager and no worker can move. *)
Definition waits {U} ustart ustep (z : phase * sys U) : bool :=
  forallb (fun r => let s := y_w (snd z) (w_id r) in
    match q_out (s_comm s) with [] => true | _ => false end &&
    match WorkerModel.wstep ustart ustep Local true s, WorkerModel.wstep ustart ustep Local false s with None, None => true | _, _ => false end)
    (m_W (y_m (snd z))).
Definition summary {U} ustart ustep (z : phase * sys U) :=
  (fst z, waits ustart ustep z, map (fun r => (w_active r, w_persis r)) (m_W (y_m (snd z)))).

Lemma waits_spec {U} ustart ustep (z : phase * sys U) r : waits ustart ustep z = true -> In r (m_W (y_m (snd z))) ->
  q_out (s_comm (y_w (snd z) (w_id r))) = [] /\ forall b, WorkerModel.wstep ustart ustep Local b (y_w (snd z) (w_id r)) = None.
Proof.
  intros H Hr. unfold waits in H. rewrite forallb_forall in H. specialize (H r Hr). apply andb_true_iff in H as (H1 & H2).
  destruct (q_out (s_comm (y_w (snd z) (w_id r)))); [|discriminate]. split; [reflexivity|].
  destruct (WorkerModel.wstep ustart ustep Local true (y_w (snd z) (w_id r))) eqn:E1; [discriminate|].
  destruct (WorkerModel.wstep ustart ustep Local false (y_w (snd z) (w_id r))) eqn:E2; [discriminate|]. intros []; assumption.
Qed.

(** A schedule that ends with everybody waiting for each other. *)
Lemma deadlock {U} ustart ustep c l marks :
  option_map (summary ustart ustep) (zexec (U := U) ustart ustep Local c l (Giving, start_sys (m3 c))) = Some (Stopping, true, marks) ->
  (exists a p, In (a, p) marks /\ a <> 0 /\ p <> 0) ->
  exists y, zreach U ustart ustep Local c order_ok (m3 c) (Stopping, y) /\
    (exists r, In r (m_W (y_m y)) /\ w_active r <> 0 /\ w_persis r <> 0) /\
    forall r, In r (m_W (y_m y)) -> q_out (s_comm (y_w y (w_id r))) = [] /\ forall b, WorkerModel.wstep ustart ustep Local b (y_w y (w_id r)) = None.
Proof.
  intros E (a & p & Hm & Ha & Hp).
  destruct (zexec ustart ustep Local c l (Giving, start_sys (m3 c))) as [[ph y]|] eqn:Ez; [|discriminate].
  apply (zexec_reach ustart ustep Local c (m3 c)) in Ez; [|apply zr_start].
  cbn [option_map] in E. assert (E' := f_equal (fun o => match o with Some x => x | None => (Giving, false, []) end) E). cbv beta iota in E'.
  unfold summary in E'. cbn [fst snd] in E'. injection E' as E1 E2 E3. subst ph.
  exists y. split; [exact Ez|]. split.
  - rewrite <- E3 in Hm. apply in_map_iff in Hm as (r & Er & Hr). injection Er as Er1 Er2. exists r. repeat split; congruence.
  - intros r Hr. exact (waits_spec _ _ _ _ E2 Hr).
Qed.
