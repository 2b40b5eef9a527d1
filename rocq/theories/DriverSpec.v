(** Vocabulary for the statements about how libE() ends. *)
From Verif Require Import Base HistoryModel HistorySpec WorkModel ManagerModel ManagerSpec DriverModel.
Local Open Scope nat_scope.

(** The history so far: the rows that have been generated. *)
Definition generated (h : hist) : sarr := mkA (h_dtype h) (firstn (h_index h) (h_rows h)).

(** No worker is going to report an exception when it is stopped. *)
Definition healthy (team : list wk) : Prop := forall w d, In w team -> ~ In (d, MError) (wk_msgs w).
(** Every worker can be waited for: there is a timeout or it answers; and a thread
    ends. *)
Definition can_end (d : drv) (team : list wk) : Prop :=
  (d_timeout d <> None \/ forall w, In w team -> exists z, In (z, MResult) (wk_msgs w)) /\
  (d_comms d = Threads -> forall w, In w team -> wk_stays w = false).

(** The allocation function leaves the fields alone that only libEnsemble may write. *)
Definition polite (its : list iter) : Prop :=
  forall it i r f, In it its -> protected f = true -> it_edit it i r f = r f.

(** The answer [a] is a set of simulation results (or says there are none). *)
Definition sim_results (a : answer) : Prop :=
  n_type a = EVAL_SIM /\ n_status a <> FIN_PERSIS_SIM /\ n_status a <> FIN_PERSIS_GEN /\ n_out a <> UOther.
(** Row [i] of a saved history is marked as simulated. *)
Definition marked_ended (a : sarr) (i : nat) : Prop := exists r, nth_error (a_rows a) i = Some r /\ r F_sim_ended = vbool true.
