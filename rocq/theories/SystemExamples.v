(** Executable schedules of the ensemble, for examples and counterexamples. *)
From Coq Require Import String.
From Verif Require Import Base HistoryModel HistorySpec HistoryRun RsetModel WorkModel ManagerModel ManagerSpec
  CommsModel WorkerModel WorkerSpec WorkerProofs SystemModel SystemProofs HistoryExamples ManagerExamples.
Local Notation length := List.length.
Local Open Scope list_scope.
Local Open Scope nat_scope.

(** User functions as finite programs. *)
Inductive prog :=
| QCompute (p : prog)
| QSend (v : pyval) (st : nat) (keep : bool) (p : prog)
| QRecv (blocking : bool) (on_signal on_work on_none : prog)
| QPoll (on_none on_signal : prog)
| QReturn (r : uret)
| QRaise.

Definition pstep (p : prog) : uact prog :=
  match p with
  | QCompute p => ACompute p
  | QSend v st keep p => ASend v st keep p
  | QRecv b p1 p2 p3 => ARecv b (fun g => match g with RSignal _ _ | RFinal _ => p1 | RNothing => p3 | _ => p2 end)
  | QPoll p1 p2 => APoll (fun o => match o with None => p1 | Some _ => p2 end)
  | QReturn r => AReturn r
  | QRaise => ARaised
  end.

(** One step of a schedule. *)
Inductive act := DGive (t : Z) (w : nat) (k : work) | DTake (t : Z) (w : nat) | DKill | DEdit (ed : nat -> row -> row) | DWork (w : nat) | DNote (w : nat).

Section Exec.
Variable ustart : work -> list field -> list (list val) -> prog.
Variable kd : kind.
Variable c : mcfg.

Definition exec1 (a : act) (y : sys prog) : option (sys prog) :=
  match a with
  | DGive t w k => match give_order c t w k (y_m y) with (m', None) => Some (manager_moves y m' (y_w y)) | _ => None end
  | DTake t w =>
      if memb w (map w_id (m_W (y_m y))) then
        match q_out (s_comm (y_w y w)) with
        | i :: rest => match poll c (w, i, t) (y_m y) with
                       | (m', None) => Some (manager_moves y m' (set_worker w (set_out rest (y_w y w)) (y_w y)))
                       | _ => None end
        | [] => None
        end
      else None
  | DKill => match kill_cancelled c (y_m y) with (m', None) => Some (manager_moves y m' (y_w y)) | _ => None end
  | DEdit ed => Some (mkSys (set_h (y_m y) (alloc_edit ed (m_h (y_m y)))) (y_w y))
  | DWork w => match wstep ustart pstep kd true (y_w y w) with
               | Some s => Some (mkSys (y_m y) (set_worker w s (y_w y))) | None => None end
  | DNote w => Some (mkSys (y_m y) (set_worker w (set_out (q_out (s_comm (y_w y w)) ++ [ILog]) (y_w y w)) (y_w y)))
  end.

Fixpoint exec (l : list act) (y : sys prog) : option (sys prog) :=
  match l with [] => Some y | a :: l' => match exec1 a y with Some y' => exec l' y' | None => None end end.

Definition gives_ok (P : nat -> work -> Prop) (l : list act) : Prop := forall t w k, In (DGive t w k) l -> P w k.

Lemma exec_reach (P : nat -> work -> Prop) m0 l : forall y y', gives_ok P l -> yreach prog ustart pstep kd c P m0 y ->
  exec l y = Some y' -> yreach prog ustart pstep kd c P m0 y'.
Proof.
  induction l as [|a l IH]; intros y y' Hg Hy E; cbn in E; [congruence|].
  destruct (exec1 a y) as [y1|] eqn:E1; [|discriminate].
  apply (IH y1 y'); auto; [intros t w k Hin; apply (Hg t w k); now right|].
  eapply yr_step; [exact Hy|]. destruct a as [t w k|t w| |ed|w|w]; cbn in E1.
  - destruct (give_order c t w k (y_m y)) as [m' [e|]] eqn:Eg; [discriminate|]. injection E1 as <-.
    eapply y_give; [apply (Hg t w k); now left|exact Eg].
  - destruct (memb w (map w_id (m_W (y_m y)))) eqn:Em; [|discriminate].
    destruct (q_out (s_comm (y_w y w))) as [|i rest] eqn:Eq; [discriminate|].
    destruct (poll c (w, i, t) (y_m y)) as [m' [e|]] eqn:Ep; [discriminate|]. injection E1 as <-.
    eapply y_take; eauto. unfold memb in Em. apply existsb_exists in Em as (x & Hx & Ex). apply Nat.eqb_eq in Ex. now subst.
  - destruct (kill_cancelled c (y_m y)) as [m' [e|]] eqn:Ep; [discriminate|]. injection E1 as <-. now apply y_kill.
  - injection E1 as <-. apply y_edit.
  - destruct (wstep ustart pstep kd true (y_w y w)) as [s|] eqn:Es; [|discriminate]. injection E1 as <-. eapply y_work. exact Es.
  - injection E1 as <-. apply y_note.
Qed.
End Exec.

Definition show_wev (e : wev) : string * list nat :=
  match e with
  | VCall k _ d => ("call"%string, k_tag k :: k_rows k)
  | VTake k => ("take"%string, k_rows k)
  | VHand (RWork k _ d) => ("work"%string, k_rows k)
  | VHand (RSignal tag s) => ("signal"%string, [tag; s])
  | VHand RNothing => ("nothing"%string, [])
  | VHand (RFinal k) => ("final"%string, k_rows k)
  | VHand (RMixed k k2) => ("mixed"%string, k_rows k ++ k_rows k2)
  | VDrop _ => ("drop"%string, [])
  | VMid _ a => ("send"%string, n_rows a)
  | VAnswer _ a => ("answer"%string, n_status a :: n_rows a)
  | VFail => ("fail"%string, [])
  | VEnd => ("end"%string, [])
  end.

(** A generator returning three points and a simulator that polls the manager. *)
Definition plain_user (k : work) (fs : list field) (d : list (list val)) : prog :=
  if k_tag k =? EVAL_GEN then QReturn (RTuple [PArr (pts [10; 20; 30]%Z); PDict])
  else QPoll (QReturn (RTuple [match outp [100%Z] with Some a => PArr a | None => PNone end; PDict; PInt 35])) (QReturn (ROne PNone)).

(** Two simulations; the second is cancelled while it runs. *)
Definition cancel_row (i : nat) : nat -> row -> row := fun j r => if j =? i then (fun f => if feqb f F_cancel_requested then vbool true else r f) else r.
Definition plain_schedule : list act :=
  [DGive 1 1 gen_order; DWork 1; DNote 1; DWork 1; DTake 2 1; DTake 3 1; DGive 4 1 (sim_order [0]); DGive 4 2 (sim_order [1]);
   DWork 2; DWork 2; DEdit (cancel_row 1); DKill; DWork 2; DWork 2; DTake 5 2; DWork 1].
Definition plain_end := exec plain_user Local c2 plain_schedule (start_sys (m3 c2)).
