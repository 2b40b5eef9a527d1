(** Runs in which the other allocation functions of libEnsemble decide the work
    (manager.py:676-697): each call is given the manager's own tables and what the
    last call left in persis_info. *)
From Verif Require Import Base HistoryModel WorkModel RsetModel SchedModel AllocModel AllocModel2 ManagerModel DrivenModel.

(** start_fd_persistent.py:5-67 *)
Definition fd_alloc_fn (c : mcfg) (a : asetup) (u : fd_user) : alloc_fn nat := fun v g m =>
  let out := finite_diff_alloc (call_context c a v m) (h_dtype (m_h m)) u (no_more_work c m) g (trim_H (m_h m)) in
  (out, o_gens out).
(** inverse_bayes_allocf.py:8-65; [n]: subbatch_size * num_subbatches *)
Definition bayes_alloc_fn (c : mcfg) (a : asetup) (n : nat) : alloc_fn nat := fun v g m =>
  let out := inverse_bayes_alloc (call_context c a v m) (h_dtype (m_h m)) n (no_more_work c m) g (trim_H (m_h m)) in
  (out, o_gens out).
(** start_persistent_local_opt_gens.py:7-102; [O]: what its numerical parts decide, which may depend on everything *)
Definition local_opt_alloc_fn (c : mcfg) (a : asetup) (O : surr -> nat -> mgr -> lo_oracle) : alloc_fn nat := fun v g m =>
  let out := local_opt_alloc (call_context c a v m) (h_dtype (m_h m)) (O v g m) (no_more_work c m) g (trim_H (m_h m)) in
  (out, o_gens out).
(** persistent_aposmm_alloc.py:7-94 *)
Definition aposmm_alloc_fn (c : mcfg) (a : asetup) (init : nat) : alloc_fn (nat * ap_state) := fun v s m =>
  let (out, p) := persistent_aposmm_alloc (call_context c a v m) (h_dtype (m_h m)) init (no_more_work c m) (fst s) (snd s) (trim_H (m_h m)) in
  (out, (o_gens out, p)).
(** fast_alloc_and_pausing.py:6-148; [U]: its settings, with what the rule for partly evaluated points decides at this call *)
Definition pausing_alloc_fn (c : mcfg) (a : asetup) (U : surr -> nat * ps_state -> mgr -> ps_user) : alloc_fn (nat * ps_state) := fun v s m =>
  let (out, p) := pausing_alloc (call_context c a v m) (h_dtype (m_h m)) (U v s m) (no_more_work c m) (fst s) (snd s) (trim_H (m_h m)) in
  (out, (o_gens out, p)).

(** These functions, all given the manager's own tables. *)
Inductive shipped_too (c : mcfg) (a : asetup) : forall S, alloc_fn S -> Prop :=
| ship_fd : forall u, shipped_too c a nat (fd_alloc_fn c a u)
| ship_bayes : forall n, shipped_too c a nat (bayes_alloc_fn c a n)
| ship_local_opt : forall O, shipped_too c a nat (local_opt_alloc_fn c a O)
| ship_aposmm : forall n, shipped_too c a (nat * ap_state) (aposmm_alloc_fn c a n)
| ship_pausing : forall U, shipped_too c a (nat * ps_state) (pausing_alloc_fn c a U).
