(** Vocabulary for specifications that libE accepts. *)
From Verif Require Import Base HistoryModel HistorySpec ManagerModel ManagerSpec DrivenModel SpecsModel.

(** The history a run with these specifications starts with; [al] is alloc_specs["out"]. *)
Definition start_history (c : mcfg) (sim gen : uspecs) (al : dtype) (H0 : sarr) (safe : bool) : hist :=
  fresh_history c (sp_out sim ++ sp_out gen ++ al) H0 safe.
(** The allocation function hands out the fields these specifications name. *)
Definition hands_out (a : asetup) (sim gen : uspecs) : Prop :=
  u_sim_in a = sp_in sim /\ u_gen_in a = sp_in gen /\ u_persis_in a = sp_persis_in gen.
(** Nothing set by the user; no lists attached to the user function. *)
Definition nothing_set : uspecs := mkSp [] [] [].
Definition no_attrs : attrs := mkAt None None None.
(** No simulation is under way: a point is started exactly if it is finished. *)
Definition nothing_open (h : hist) : Prop := forall k, is_set h k F_sim_started <-> is_set h k F_sim_ended.
