(** Vocabulary for runs driven by the other allocation functions. *)
From Verif Require Import Base HistoryModel HistorySpec WorkModel ManagerModel ManagerSpec DrivenModel.

(** A result with a "sim_id" column comes from a generator and numbers no point
    below 0. *)
Definition keeps_numbers (i : imsg) : Prop :=
  match i with
  | IData a => match n_out a with
    | UArr D => In F_sim_id (names (a_dtype D)) -> n_type a = EVAL_GEN /\ n_status a <> FIN_PERSIS_SIM /\ forall r, In r (a_rows D) -> (0 <= as_int (r F_sim_id))%Z
    | _ => True end
  | _ => True
  end.
Definition surr_numbers (v : surr) : Prop := forall w i t, In (w, i, t) (v_msgs v) -> keeps_numbers i.
