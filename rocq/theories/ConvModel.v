(** The whole ensemble from the first order to the end of the run: as in
    SystemModel, with persistent functions and with the end of the run,
    _final_receive_and_kill of libensemble/manager.py:587-640.

    A manager step is one of the pieces of manager.py:709-723 (ManagerModel.iterate),
    the handshake with all persistent workers (manager.py:597-615), or the final
    FINISH messages (manager.py:631-632, _kill_workers). Only a run whose final
    loop ends because nobody is active or persistent any more is followed to the
    FINISH messages; one that runs out of wall-clock time is not. A step that
    raises is not a step: the runs considered are those without an error so far. *)
From Verif Require Import Base HistoryModel WorkModel ManagerModel CommsModel WorkerModel SystemModel.

(** The main loop (manager.py:709-723), the loop that waits for everybody
    (manager.py:617-629), and the time after it. *)
Inductive phase := Giving | Stopping | Finished.

Section Conv.
Variable U : Type.
Variable ustart : work -> list field -> list (list val) -> U.
Variable ustep : U -> uact U.
Variable kd : kind.
Variable c : mcfg.
Notation sys := (sys U).
Notation moves := (manager_moves U).

(** [P m w k]: with the manager in state m, the allocation function may hand
    order k to worker w. *)
Inductive zstep (P : mgr -> nat -> work -> Prop) : phase * sys -> phase * sys -> Prop :=
| z_give y t w k m' : P (y_m U y) w k -> give_order c t w k (y_m U y) = (m', None) ->
    zstep P (Giving, y) (Giving, moves y m' (y_w U y))
| z_take ph y t w i rest m' : ph <> Finished -> In w (map w_id (m_W (y_m U y))) ->
    q_out (s_comm U (y_w U y w)) = i :: rest -> poll c (w, i, t) (y_m U y) = (m', None) ->
    zstep P (ph, y) (ph, moves y m' (set_worker U w (set_out U rest (y_w U y w)) (y_w U y)))
| z_kill y m' : kill_cancelled c (y_m U y) = (m', None) -> zstep P (Giving, y) (Giving, moves y m' (y_w U y))
| z_edit y ed : zstep P (Giving, y) (Giving, mkSys U (set_h (y_m U y) (alloc_edit ed (m_h (y_m U y)))) (y_w U y))
| z_stop y t m' : stop_all_persistent c t (y_m U y) = (m', None) ->
    zstep P (Giving, y) (Stopping, moves y m' (y_w U y))
| z_finish y : any_active (y_m U y) = false -> any_persis (y_m U y) = false ->
    zstep P (Stopping, y) (Finished, moves y (kill_workers (y_m U y)) (y_w U y))
| z_work ph y w b s' : wstep U ustart ustep kd b (y_w U y w) = Some s' ->
    zstep P (ph, y) (ph, mkSys U (y_m U y) (set_worker U w s' (y_w U y)))
| z_note ph y w :     (* a log record, comms/logs.py *)
    zstep P (ph, y) (ph, mkSys U (y_m U y)
      (set_worker U w (set_out U (q_out (s_comm U (y_w U y w)) ++ [ILog]) (y_w U y w)) (y_w U y))).

Inductive zreach (P : mgr -> nat -> work -> Prop) (m0 : mgr) : phase * sys -> Prop :=
| zr_start : zreach P m0 (Giving, start_sys U m0)
| zr_step z z' : zreach P m0 z -> zstep P z z' -> zreach P m0 z'.

End Conv.
