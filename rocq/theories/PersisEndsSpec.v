(** Vocabulary for runs with persistent generators (start_only_persistent). *)
From Verif Require Import Base HistoryModel HistorySpec WorkModel RsetModel AllocModel ManagerModel ManagerSpec DrivenModel DrivenSpec.

(** Every answer answers the open order of its worker: same calculation type,
    and for a simulation the rows of the order. Simulations are not persistent,
    only a generator reports FINISHED_PERSISTENT_GEN, and nobody keeps the
    worker's state. *)
Definition answers_in_turn (l : list event) : Prop :=
  forall p w a q, l = p ++ Got w (IData a) :: q ->
  (exists k, open_order w p = Some k /\ n_type a = k_tag k /\ (k_tag k = EVAL_SIM -> n_rows a = k_rows k /\ n_persistent a = false)) /\
  n_keep a = false /\ n_status a <> FIN_PERSIS_SIM /\ (n_status a = FIN_PERSIS_GEN -> n_type a = EVAL_GEN).

(** A generator that goes on sends at least one point with each message. *)
Definition points_each_time (l : list event) : Prop :=
  forall w a, In (Got w (IData a)) l -> n_type a = EVAL_GEN -> n_status a <> FIN_PERSIS_GEN -> exists D, n_out a = UArr D /\ a_rows D <> [].

(** The numbering of the points is left to libEnsemble. *)
Definition unnumbered (l : list event) : Prop :=
  forall w a D, In (Got w (IData a)) l -> n_out a = UArr D -> ~ In F_sim_id (names (a_dtype D)).

(** A persistent generator has ended. *)
Definition gen_ended (l : list event) : Prop := exists w a, In (Got w (IData a)) l /\ n_status a = FIN_PERSIS_GEN.

(** The results handed to generators, and the generators started. *)
Fixpoint rows_back (l : list event) : list nat :=
  match l with
  | [] => []
  | Sent _ (OWork k) :: l' => (if k_tag k =? EVAL_GEN then k_rows k else []) ++ rows_back l'
  | _ :: l' => rows_back l'
  end.
Fixpoint gen_starts (l : list event) : nat :=
  match l with
  | [] => 0
  | Sent _ (OWork k) :: l' => (if (k_tag k =? EVAL_GEN) && (length (k_rows k) =? 0) then 1 else 0) + gen_starts l'
  | _ :: l' => gen_starts l'
  end.

(** The workers a persistent generator may be started on: the ones without
    resources, if there are such, and the ones reserved for generators, if there
    are such. Simulations go to the others. *)
Definition may_gen (W : list wrow) (r : wrow) : Prop :=
  ((exists q, In q W /\ w_zero q = true) -> w_zero r = true) /\ ((exists q, In q W /\ w_gen q = true) -> w_gen r = true).
Definition may_sim (W : list wrow) (r : wrow) : Prop :=
  ((exists q, In q W /\ w_zero q = true) -> w_zero r = false) /\ ((exists q, In q W /\ w_gen q = true) -> w_gen r = false).
(** There is a worker for a generator, and whatever workers [n] generators are
    started on, a worker is left for simulations. *)
Definition enough_workers (n : nat) (W : list wrow) : Prop :=
  (exists r, In r W /\ may_gen W r) /\
  ((exists r, In r W /\ may_sim W r /\ ~ may_gen W r) \/
   exists ws, NoDup ws /\ n < length ws /\ forall w, In w ws -> exists r, In r W /\ w_id r = w /\ may_sim W r).
