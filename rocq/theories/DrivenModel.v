(** Runs of the manager in which the work comes from an allocation function that
    libEnsemble ships: libensemble/manager.py:642-723 (what alloc_f is given,
    what is done with its answer) joined with the models of the allocation
    functions (AllocModel). *)
From Verif Require Import Base HistoryModel WorkModel RsetModel SchedModel AllocModel ManagerModel.

(** What the world decides in one turn of the main loop: the clock at the loop
    test, the messages found, the clock inside the allocation function, the
    iteration order of Python sets, the clock at which the unit for each worker
    is sent, and the clock at the closing assertion. *)
Record surr := mkSurr {
  v_elapsed : Z; v_msgs : list (nat * imsg * Z); v_now : Z; v_ord : list nat -> list nat; v_times : nat -> Z; v_elapsed2 : Z }.

(** An allocation function with a state of its own between calls (persis_info
    and the class-level counter of generators). *)
Definition alloc_fn (S : Type) := surr -> S -> mgr -> aout * S.

(** The user's settings that the allocation functions read: libE_specs
    num_resource_sets (manager.py:258, "use_resource_sets"), scheduler_opts, units
    per resource set, resource requests of generators, sim_specs["in"],
    gen_specs["in"], gen_specs["persis_in"]. *)
Record asetup := mkSetup {
  u_manage : bool; u_split2fit : bool; u_match : bool; u_procs_per : nat; u_gpus_per : nat;
  u_gen_resources : nat; u_gen_use_gpus : option bool; u_gen_procs : Z; u_gen_gpus : Z;
  u_sim_in : list field; u_gen_in : list field; u_persis_in : list field }.

(** manager.py:648-665 _get_alloc_libE_info and 676-684: what alloc_f is called
    with. The worker table and the resource table are the manager's own. *)
Definition call_context (c : mcfg) (a : asetup) (v : surr) (m : mgr) : actx :=
  mkAC (m_W m) (c_gom c) (u_manage a) (m_res m) (u_split2fit a) (u_match a) (v_ord v) (u_procs_per a) (u_gpus_per a)
       (u_gen_resources a) (u_gen_use_gpus a) (u_gen_procs a) (u_gen_gpus a) (u_sim_in a) (u_gen_in a) (u_persis_in a).

(** libE_info["sim_max_given"] or not libE_info["any_idle_workers"]
    (give_sim_work_first.py:54, start_only_persistent.py:57, fast_alloc.py:23). *)
Definition no_more_work (c : mcfg) (m : mgr) : bool :=
  sim_max_given c m || negb (existsb (fun r => w_active r =? 0) (m_W m)).

(** The allocation functions, called by the manager on trim_H (manager.py:712). *)
Definition default_alloc (c : mcfg) (a : asetup) (u : user_opts) : alloc_fn nat := fun v g m =>
  let out := give_sim_work_first (call_context c a v m) (h_dtype (m_h m)) u (v_now v) (no_more_work c m) g (trim_H (m_h m)) in
  (out, o_gens out).
Definition persistent_alloc (c : mcfg) (a : asetup) (u : puser) : alloc_fn (nat * pinfo) := fun v s m =>
  let (out, p) := only_persistent_gens (call_context c a v m) (h_dtype (m_h m)) u (no_more_work c m) (fst s) (snd s) (trim_H (m_h m)) in
  (out, (o_gens out, p)).
Definition fast_alloc_fn (c : mcfg) (a : asetup) (num : option nat) : alloc_fn (nat * pinfo) := fun v s m =>
  let (out, p) := fast_alloc (call_context c a v m) (h_dtype (m_h m)) num (no_more_work c m) (fst s) (snd s) (trim_H (m_h m)) in
  (out, (o_gens out, p)).
Definition pregenerated_alloc (c : mcfg) (a : asetup) : alloc_fn (nat * pinfo) := fun v s m =>
  let (out, p) := give_pregenerated (call_context c a v m) (h_dtype (m_h m)) (no_more_work c m) (fst s) (snd s) (trim_H (m_h m)) in
  (out, (o_gens out, p)).
Definition one_gen_alloc (c : mcfg) (a : asetup) : alloc_fn (nat * pinfo) := fun v s m =>
  let (out, p) := ensure_one_active_gen (call_context c a v m) (h_dtype (m_h m)) (no_more_work c m) (fst s) (snd s) (trim_H (m_h m)) in
  (out, (o_gens out, p)).

(** manager.py:691-697, 713-720: the flag and the Work dictionary. *)
Definition result_of (v : surr) (out : aout) : alloc_result :=
  match o_err out with
  | Some e => ARaise e
  | None => if o_flag out =? 0 then AWork (map (fun p => (p, v_times v (fst p))) (o_work out)) else AStop
  end.

(** One turn: the allocation function is called on what kill_cancelled and
    receive leave behind, and writes its rows into the history in place. *)
Definition turn_of {S} (A : alloc_fn S) (c : mcfg) (v : surr) (s : S) (m : mgr) : iter * S :=
  let m1 := fst (bindx (kill_cancelled c m) (receive c (v_msgs v))) in
  let (out, s') := A v s m1 in
  (mkIt (v_elapsed v) (v_msgs v) (fun i r => nth i (o_rows out) r) (result_of v out) (v_elapsed2 v), s').

(** manager.py:708-723 with the work coming from [A]. *)
Fixpoint driven_loop {S} (A : alloc_fn S) (c : mcfg) (vs : list surr) (s : S) (m : mgr) : mgr * ctrl :=
  match vs with
  | [] => (m, CGo)
  | v :: vs' =>
      let (it, s') := turn_of A c v s m in
      match iterate c it m with
      | (m1, CGo) => driven_loop A c vs' s' m1
      | r => r
      end
  end.

(** manager.py:701-736 with the work coming from [A]. *)
Definition driven_run {S} (A : alloc_fn S) (c : mcfg) (vs : list surr) (s : S) (t : Z) rounds (m : mgr) : mgr * outcome :=
  match driven_loop A c vs s m with
  | (m1, CGo) => (m1, Running)
  | (m1, x) =>
      match final_phase c t rounds m1 with
      | (m2, FWait) => (m2, Running)
      | (m2, FExc e) => (m2, Raised e)
      | (m2, FDone f) => (m2, match x with CExc e => Raised e | _ => Returned f end)
      end
  end.
