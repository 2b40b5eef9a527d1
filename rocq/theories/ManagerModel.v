(** Model of libensemble/manager.py: termination tests, work orders, incoming
    messages, the main loop and the final phase.

    Not modelled: persis_info, live_data, log output, the checkpoint files
    (CheckpointModel), the ensemble directory set up in __init__, and the
    contents of exceptions. *)
From Verif Require Import Base HistoryModel RsetModel WorkModel.

(** libensemble/message_numbers.py:17-21 *)
Definition FIN_PERSIS_SIM : nat := 11.
Definition FIN_PERSIS_GEN : nat := 12.
Definition SIG_FINISH : nat := 20.
Definition SIG_KILL : nat := 21.

(** Exceptions without a Python built-in class of their own. *)
Definition EWorker : err := EOther 100.   (* WorkerException, manager.py:41 *)
Definition EAttr : err := EOther 101.     (* AttributeError *)

(** Messages from the manager to a worker: a work order (Work["tag"], Work); the
    row data (0, H_to_be_sent) with its column names and one list of values per
    row; (STOP_TAG, signal); (PERSIS_STOP, signal). manager.py:309,427,442,579,611. *)
Inductive omsg :=
| OWork (k : work)
| ORows (fs : list field) (data : list (list val))
| OStop (sig : nat)
| OPStop (sig : nat).

(** What a user function returned: None, a structured array, or something else. *)
Inductive uout := UNone | UArr (A : sarr) | UOther.

(** A data message from a worker, worker.py:377-384 and persistent_support.py:52-57:
    calc_type, calc_status, calc_out, libE_info["H_rows"], libE_info["keep_state"]
    and whether libE_info has the key "persistent". *)
Record answer := mkAns {
  n_type : nat; n_status : nat; n_out : uout; n_rows : list nat; n_keep : bool; n_persistent : bool }.

(** Messages from a worker: data, WorkerErrMsg (worker.py:424), a log record
    (comms/logs.py), or the end-of-thread message that makes recv raise
    CommFinishedException (comms.py:185-188). *)
Inductive imsg := IData (a : answer) | IErr | ILog | IDone.

(** What passes through the manager's communicators, in order. The worker named
    is the one whose communicator is used. *)
Inductive event := Sent (w : nat) (o : omsg) | Got (w : nat) (i : imsg).

(** The user's settings the manager reads: libE_specs gen_on_manager,
    kill_canceled_sims, use_persis_return_gen, use_persis_return_sim,
    final_gen_send; whether gen_specs has a "generator"; exit_criteria. *)
Record mcfg := mkC {
  c_gom : bool; c_kill : bool; c_ret_gen : bool; c_ret_sim : bool; c_final_send : bool; c_generator : bool;
  c_sim_max : option nat; c_gen_max : option nat; c_stop : option (field * sc); c_wall : option Z }.

(** The manager object. [m_res] is resources.resource_manager when resources
    are managed, [m_persis_in] is gen_specs["persis_in"]; [m_log] is a ghost
    record of the communicator traffic. *)
Record mgr := mkM {
  m_h : hist; m_W : list wrow; m_res : option rman; m_exc : bool; m_pending : list nat;
  m_persis_in : option (list field); m_log : list event }.

Definition set_h (m : mgr) h := mkM h (m_W m) (m_res m) (m_exc m) (m_pending m) (m_persis_in m) (m_log m).
Definition set_W (m : mgr) W := mkM (m_h m) W (m_res m) (m_exc m) (m_pending m) (m_persis_in m) (m_log m).
Definition set_res (m : mgr) r := mkM (m_h m) (m_W m) r (m_exc m) (m_pending m) (m_persis_in m) (m_log m).
Definition set_exc (m : mgr) b := mkM (m_h m) (m_W m) (m_res m) b (m_pending m) (m_persis_in m) (m_log m).
Definition set_pending (m : mgr) p := mkM (m_h m) (m_W m) (m_res m) (m_exc m) p (m_persis_in m) (m_log m).
Definition set_persis_in (m : mgr) p := mkM (m_h m) (m_W m) (m_res m) (m_exc m) (m_pending m) p (m_log m).
Definition logev (m : mgr) e := mkM (m_h m) (m_W m) (m_res m) (m_exc m) (m_pending m) (m_persis_in m) (m_log m ++ [e]).

Definition set_active (a : nat) (r : wrow) := mkW (w_id r) (w_gen r) a (w_persis r) (w_recv r) (w_gstart r) (w_zero r).
Definition set_persis (p : nat) (r : wrow) := mkW (w_id r) (w_gen r) (w_active r) p (w_recv r) (w_gstart r) (w_zero r).
Definition set_recv (b : bool) (r : wrow) := mkW (w_id r) (w_gen r) (w_active r) (w_persis r) b (w_gstart r) (w_zero r).
Definition set_gstart (t : Z) (r : wrow) := mkW (w_id r) (w_gen r) (w_active r) (w_persis r) (w_recv r) t (w_zero r).

(** self.W[w][..] = .. *)
Definition on_worker (c : mcfg) (w : nat) (f : wrow -> wrow) (m : mgr) : mgr :=
  match wpos (c_gom c) (length (m_W m)) w with
  | Some i => set_W m (upd (m_W m) i f)
  | None => m
  end.

(** self.wcomms[w].send(..); wcomms is indexed like W (manager.py:242). *)
Definition send (c : mcfg) (w : nat) (o : omsg) (m : mgr) : ex mgr :=
  match wget (c_gom c) (m_W m) w with
  | Some r => (logev m (Sent (w_id r) o), None)
  | None => (m, Some EIndex)
  end.

Definition any_active (m : mgr) : bool := existsb (fun r => negb (w_active r =? 0)) (m_W m).
Definition any_persis (m : mgr) : bool := existsb (fun r => negb (w_persis r =? 0)) (m_W m).

(** ** Termination tests, manager.py:276-302 *)

(** NumPy a <= b: false when either is NaN. *)
Definition sc_le (a b : sc) : bool :=
  match a, b with
  | SNum x, SNum y => (x <=? y)%Z
  | SNum _, SInf => true
  | SInf, SInf => true
  | _, _ => false
  end.

(** the entries of a cell of H[key]; filter_nans flattens (manager.py:139-141) *)
Definition entries (v : val) : list sc := match v with VS s => [s] | VV l => l end.
Definition not_nan (s : sc) : bool := match s with SNaN => false | _ => true end.

(** term_test_stop_val, manager.py:288-292; an unknown key raises ValueError. *)
Definition stop_val_hit (h : hist) (key : field) (v : sc) : res bool :=
  if has key (names (h_dtype h)) then
    Ok (existsb (fun x => sc_le x v)
          (filter not_nan (flat_map (fun r => entries (r key)) (filter (flag F_sim_ended) (h_rows h)))))
  else Err EValue.

(** term_test, manager.py:294-302, with the tests in the order of manager.py:226-231. *)
Definition term_test (c : mcfg) (elapsed : Z) (m : mgr) : res nat :=
  let h := m_h m in
  if match c_wall c with Some x => (x <=? elapsed)%Z | None => false end then Ok 2
  else if match c_sim_max c with Some n => n + h_ended_off h <=? h_ended h | None => false end then Ok 1
  else if match c_gen_max c with Some n => n + h_informed_off h <=? h_index h | None => false end then Ok 1
  else match c_stop c with
       | Some (key, v) => bindr (stop_val_hit h key v) (fun b => Ok (if b then 1 else 0))
       | None => Ok 0
       end.

(** _kill_workers, manager.py:306-309 *)
Definition kill_workers (m : mgr) : mgr :=
  fold_left (fun m r => logev m (Sent (w_id r) (OStop SIG_FINISH))) (m_W m) m.

(** ** Outgoing work orders *)

(** _check_work_order, manager.py:365-389. self.W[w] raises IndexError for an unknown worker. *)
Definition check_work_order (c : mcfg) (force : bool) (w : nat) (k : work) (m : mgr) : option err :=
  match wget (c_gom c) (m_W m) w with
  | None => Some EIndex
  | Some r =>
      if (if w_recv r then match k_recv k with None => true | Some _ => false end
          else negb force && negb (w_active r =? 0))
      then Some EAssert
      else match k_rows k with
           | [] => None
           | _ => match k_fields k with
                  | [] => Some EAssert
                  | fs => if forallb (fun f => has f (names (h_dtype (m_h m)))) fs then None else Some EAssert
                  end
           end
  end.

(** index_list[w - 1], where worker 0 reads the last entry (manager.py:401) *)
Definition default_rset (rm : rman) (w : nat) : res (option nat) :=
  let l := rm_index rm in
  match (match w with 0 => nth_error l (length l - 1) | S i => nth_error l i end) with
  | Some d => Ok d
  | None => Err EIndex
  end.

Definition with_team (k : work) (t : list nat) : work :=
  mkWork (k_tag k) (k_fields k) (k_rows k) (k_persistent k) (k_recv k) (Some t) (k_procs k) (k_gpus k) (k_gen_count k) (k_batch k).

(** _set_resources, manager.py:391-406: the order with its team filled in. *)
Definition set_resources (w : nat) (k : work) (rm : rman) : res work :=
  match k_team k with
  | Some _ => Ok k
  | None => bindr (default_rset rm w) (fun d => Ok (with_team k (match d with Some i => [i] | None => [] end)))
  end.

Fixpoint distinct_fields (l : list field) : bool :=
  match l with [] => true | f :: l' => negb (has f l') && distinct_fields l' end.

(** manager.py:437-440: the requested columns of the requested rows. *)
Definition row_data (fs : list field) (rows : list nat) (rs : list row) : option (list (list val)) :=
  fold_right (fun i acc => match nth_error rs i, acc with
                           | Some r, Some l => Some (map r fs :: l)
                           | _, _ => None end) (Some []) rows.

(** manager.py:427-442 of _send_work_order, after resources are set. A tag other
    than the three known ones fails at calc_type_strings (line 433), repeated
    column names at np.empty (438), a row beyond the array at line 440; in all
    three cases the order itself has been sent already. *)
Definition send_order_msgs (c : mcfg) (t : Z) (w : nat) (k : work) (m : mgr) : ex mgr :=
  bindx (send c w (OWork k) m) (fun m1 =>
    let m2 := if k_tag k =? EVAL_GEN then on_worker c w (set_gstart t) m1 else m1 in
    if negb ((k_tag k =? EVAL_SIM) || (k_tag k =? EVAL_GEN) || (k_tag k =? PERSIS_STOP)) then (m2, Some EKey)
    else match k_rows k with
         | [] => (m2, None)
         | _ => if distinct_fields (k_fields k) then
                  match row_data (k_fields k) (k_rows k) (h_rows (m_h m2)) with
                  | Some d => send c w (ORows (k_fields k) d) m2
                  | None => (m2, Some EIndex)
                  end
                else (m2, Some EValue)
         end).

(** _send_work_order, manager.py:420-442; also returns the order as sent. *)
Definition send_work_order (c : mcfg) (t : Z) (w : nat) (k : work) (m : mgr) : ex mgr :=
  match m_res m with
  | None => send_order_msgs c t w k m
  | Some rm =>
      match set_resources w k rm with
      | Err e => (m, Some e)
      | Ok k' =>
          let (rm', e) := assign_rsets (match k_team k' with Some l => l | None => [] end) w rm in
          let m1 := set_res m (Some rm') in
          match e with Some e => (m1, Some e) | None => send_order_msgs c t w k' m1 end
      end
  end.

Definition liftx (m : mgr) (r : ex hist) : ex mgr := (set_h m (fst r), snd r).

(** _update_state_on_alloc, manager.py:444-459 *)
Definition update_state_on_alloc (c : mcfg) (t : Z) (w : nat) (k : work) (m : mgr) : ex mgr :=
  let m1 := on_worker c w (set_active (k_tag k)) m in
  let m2 := if k_persistent k then
              let m' := on_worker c w (set_persis (k_tag k)) m1 in
              match k_recv k with Some true => on_worker c w (set_recv true) m' | _ => m' end
            else m1 in
  if negb (k_persistent k) && match k_recv k with Some _ => true | None => false end then (m2, Some EAssert)
  else if k_tag k =? EVAL_SIM then liftx m2 (update_history_x_out (k_rows k) w (c_kill c) t (m_h m2))
  else if k_tag k =? EVAL_GEN then liftx m2 (update_history_to_gen (k_rows k) t (m_h m2))
  else (m2, None).

(** manager.py:718-720: one work order of the main loop. *)
Definition give_order (c : mcfg) (t : Z) (w : nat) (k : work) (m : mgr) : ex mgr :=
  match check_work_order c false w k m with
  | Some e => (m, Some e)
  | None => bindx (send_work_order c t w k m) (update_state_on_alloc c t w k)
  end.

(** _sim_max_given, manager.py:642-646 *)
Definition sim_max_given (c : mcfg) (m : mgr) : bool :=
  match c_sim_max c with
  | Some n => n + h_started_off (m_h m) <=? h_started (m_h m)
  | None => false
  end.

(** manager.py:715-720: the loop over the allocation function's orders, each
    with the time at which it is sent. *)
Fixpoint give_orders (c : mcfg) (ws : list (nat * work * Z)) (m : mgr) : ex mgr :=
  match ws with
  | [] => (m, None)
  | (w, k, t) :: ws' =>
      if sim_max_given c m then (m, None)
      else bindx (give_order c t w k m) (give_orders c ws')
  end.

(** ** Incoming messages *)

(** _freeup_resources, manager.py:408-411 *)
Definition freeup (w : nat) (m : mgr) : mgr :=
  match m_res m with Some rm => set_res m (Some (free_rsets w rm)) | None => m end.

(** _ensure_sim_id_in_persis_in, manager.py:413-418 *)
Definition ensure_sim_id (c : mcfg) (D : sarr) (m : mgr) : mgr :=
  if c_generator c && (0 <? length (a_rows D)) && has F_sim_id (names (a_dtype D)) then
    let l := match m_persis_in m with Some l => l | None => [] end in
    set_persis_in m (Some (if has F_sim_id l then l else l ++ [F_sim_id]))
  else m.

Definition gstart_of (c : mcfg) (w : nat) (m : mgr) : Z :=
  match wget (c_gom c) (m_W m) w with Some r => w_gstart r | None => 0%Z end.

(** list.remove: the first occurrence *)
Fixpoint remove_one (x : nat) (l : list nat) : list nat :=
  match l with [] => [] | y :: l' => if y =? x then l' else y :: remove_one x l' end.



(** manager.py:485-487 *)
Definition deactivate (c : mcfg) (w : nat) (a : answer) (m : mgr) : mgr :=
  let recv := match wget (c_gom c) (m_W m) w with Some r => w_recv r | None => false end in
  if (negb (memb w (m_pending m)) && negb recv && negb (n_keep a)) || m_exc m
  then on_worker c w (set_active 0) m else m.

(** manager.py:490-508: a persistent function has ended. *)
Definition persis_finished (c : mcfg) (t : Z) (w : nat) (a : answer) (m : mgr) : ex mgr :=
  bindx
    (match n_out a with
     | UArr D =>
         if (n_status a =? FIN_PERSIS_GEN) && c_ret_gen c then
           let m1 := ensure_sim_id c D m in
           liftx m1 (update_history_x_in w D (gstart_of c w m1) t (m_h m1))
         else if (n_status a =? FIN_PERSIS_SIM) && c_ret_sim c then
           liftx m (update_history_f (n_rows a) (Some D) (c_kill c) t (m_h m))
         else (m, None)
     | _ => (m, None)
     end)
    (fun m1 =>
       let m2 := on_worker c w (set_persis 0) m1 in
       let m3 := match wget (c_gom c) (m_W m2) w with
                 | Some r => if w_recv r then on_worker c w (set_recv false) (on_worker c w (set_active 0) m2) else m2
                 | None => m2
                 end in
       let m4 := if memb w (m_pending m3)
                 then on_worker c w (set_active 0) (set_pending m3 (remove_one w (m_pending m3))) else m3 in
       (freeup w m4, None)).

(** manager.py:510-522: a simulation result. The AttributeError comes from
    history.py:127 when the output is neither None nor an array. *)
Definition sim_result (c : mcfg) (t : Z) (a : answer) (m : mgr) : ex mgr :=
  match n_out a with
  | UOther => if m_exc m then (m, None) else (kill_workers (set_exc m true), Some EWorker)
  | UNone => liftx m (update_history_f (n_rows a) None (c_kill c) t (m_h m))
  | UArr D => liftx m (update_history_f (n_rows a) (Some D) (c_kill c) t (m_h m))
  end.

(** manager.py:523-529: new points from a generator. Output that is not an
    array fails at len(D) or D.dtype, before anything changes. *)
Definition gen_result (c : mcfg) (t : Z) (w : nat) (a : answer) (m : mgr) : ex mgr :=
  match n_out a with
  | UArr D =>
      let m1 := ensure_sim_id c D m in
      bindx (liftx m1 (update_history_x_in w D (gstart_of c w m1) t (m_h m1))) (fun m2 =>
        if (0 <? length (a_rows D)) || any_active m2
           || match wget (c_gom c) (m_W m2) w with Some r => negb (w_persis r =? 0) | None => false end
        then (m2, None) else (m2, Some EAssert))
  | _ => (m, Some EType)
  end.

(** _update_state_on_worker_msg, manager.py:481-538 *)
Definition update_on_msg (c : mcfg) (t : Z) (w : nat) (a : answer) (m : mgr) : ex mgr :=
  let m0 := deactivate c w a m in
  if (n_status a =? FIN_PERSIS_SIM) || (n_status a =? FIN_PERSIS_GEN) then persis_finished c t w a m0
  else
    bindx (if n_type a =? EVAL_SIM then sim_result c t a m0 else (m0, None)) (fun m1 =>
    bindx (if n_type a =? EVAL_GEN then gen_result c t w a m1 else (m1, None)) (fun m2 =>
      (if n_persistent a then on_worker c w (set_persis (n_type a)) m2 else freeup w m2, None))).

(** _handle_msg_from_worker, manager.py:540-560. [w] is one of W["worker_id"]. *)
Definition handle_msg (c : mcfg) (p : nat * imsg * Z) (m : mgr) : ex mgr :=
  let '(w, i, t) := p in
  let m0 := logev m (Got w i) in
  match i with
  | IErr =>
      let m1 := on_worker c w (set_active 0) m0 in
      if m_exc m1 then (m1, None) else (kill_workers (set_exc m1 true), Some EWorker)
  | ILog | IDone => (m0, None)
  | IData a => update_on_msg c t w a m0
  end.

(** manager.py:474-477: only the communicators of the workers in the table are
    looked at, so a message from anyone else is never seen. *)
Definition poll (c : mcfg) (p : nat * imsg * Z) (m : mgr) : ex mgr :=
  if memb (fst (fst p)) (map w_id (m_W m)) then handle_msg c p m else (m, None).

(** _receive_from_workers, manager.py:463-479: the messages taken in one call,
    in the order in which the loop finds them. *)
Definition receive (c : mcfg) (msgs : list (nat * imsg * Z)) (m : mgr) : ex mgr := foldx (poll c) msgs m.

(** _kill_cancelled_sims, manager.py:562-583 *)
Definition kill_cancelled (c : mcfg) (m : mgr) : ex mgr :=
  if c_kill c then
    let '((h', e), ws) := kill_pass (m_h m) in
    bindx (foldx (fun z => send c (Z.to_nat z) (OStop SIG_KILL)) ws m) (fun m1 => (set_h m1 h', e))
  else (m, None).

(** ** The main loop *)

(** What a call of the allocation function does: raise, ask to stop, or return
    orders. The wrong-shape outputs of manager.py:692-695 count as raising. *)
Inductive alloc_result := ARaise (e : err) | AStop | AWork (ws : list (nat * work * Z)).

(** The surroundings of one iteration: the clock at the loop test, the messages
    that arrive, what the allocation function does to each row of the history it
    is shown and what it returns, and the clock at the closing assertion. *)
Record iter := mkIt {
  it_elapsed : Z; it_msgs : list (nat * imsg * Z);
  it_edit : nat -> row -> row; it_alloc : alloc_result; it_elapsed2 : Z }.

Definition sc_eqb (a b : sc) : bool :=
  match a, b with SNum x, SNum y => (x =? y)%Z | SInf, SInf => true | _, _ => false end.
Fixpoint scs_eqb (a b : list sc) : bool :=
  match a, b with
  | [], [] => true | x :: a', y :: b' => sc_eqb x y && scs_eqb a' b' | _, _ => false end.
Definition val_eqb (a b : val) : bool :=
  match a, b with VS x, VS y => sc_eqb x y | VV x, VV y => scs_eqb x y | _, _ => false end.

(** libensemble/tools/fields_keys.py:23-35 *)
Definition protected_fields : list field :=
  [F_gen_worker; F_gen_started_time; F_gen_ended_time; F_sim_worker; F_sim_started; F_sim_started_time;
   F_sim_ended; F_sim_ended_time; F_gen_informed; F_gen_informed_time; F_kill_sent].

(** np.array_equal at manager.py:687 *)
Definition same_protected (a b : row) : bool := forallb (fun f => val_eqb (a f) (b f)) protected_fields.
Fixpoint all_same_protected (a b : list row) : bool :=
  match a, b with
  | [], [] => true
  | x :: a', y :: b' => same_protected x y && all_same_protected a' b'
  | _, _ => false
  end.

(** The allocation function's edits: it is shown trim_H(), a view of the first
    [index] rows (manager.py:712, history.py:284-286). *)
Definition alloc_edit (ed : nat -> row -> row) (h : hist) : hist :=
  set_rows h (mapi 0 ed (trim_H h) ++ skipn (h_index h) (h_rows h)).

(** _alloc_work, manager.py:667-697 *)
Definition alloc_work (it : iter) (m : mgr) : mgr * res (option (list (nat * work * Z))) :=
  let m1 := set_h m (alloc_edit (it_edit it) (m_h m)) in
  match it_alloc it with
  | ARaise e => (m1, Err e)
  | r => if h_safe (m_h m) && negb (all_same_protected (trim_H (m_h m)) (trim_H (m_h m1))) then (m1, Err EAssert)
         else (m1, match r with AWork ws => Ok (Some ws) | _ => Ok None end)
  end.

Inductive ctrl := CGo | CStop | CExc (e : err).

(** manager.py:709-723: one turn of the while loop. *)
Definition iterate (c : mcfg) (it : iter) (m : mgr) : mgr * ctrl :=
  match term_test c (it_elapsed it) m with
  | Err e => (m, CExc e)
  | Ok (S _) => (m, CStop)
  | Ok 0 =>
      match bindx (kill_cancelled c m) (receive c (it_msgs it)) with
      | (m1, Some e) => (m1, CExc e)
      | (m1, None) =>
          match alloc_work it m1 with
          | (m2, Err e) => (m2, CExc e)
          | (m2, Ok None) => (m2, CStop)
          | (m2, Ok (Some ws)) =>
              match give_orders c ws m2 with
              | (m3, Some e) => (m3, CExc e)
              | (m3, None) =>
                  match term_test c (it_elapsed2 it) m3 with
                  | Err e => (m3, CExc e)
                  | Ok (S _) => (m3, CGo)
                  | Ok 0 => if any_active m3 then (m3, CGo) else (m3, CExc EAssert)
                  end
              end
          end
      end
  end.

(** CGo: the given iterations are over and the loop goes on. *)
Fixpoint main_loop (c : mcfg) (its : list iter) (m : mgr) : mgr * ctrl :=
  match its with
  | [] => (m, CGo)
  | it :: its' => match iterate c it m with
                  | (m1, CGo) => main_loop c its' m1
                  | r => r
                  end
  end.

(** ** The final phase *)

(** rows at manager.py:604 *)
Definition uninformed (rs : list row) : list nat :=
  map fst (filter (fun p => flag F_sim_ended (snd p) && negb (flag F_gen_informed (snd p)))
             (combine (seq 0 (length rs)) rs)).

(** manager.py:601-615 for one persistent worker *)
Definition stop_persistent (c : mcfg) (t : Z) (w : nat) (m : mgr) : ex mgr :=
  bindx
    (if c_final_send c then
       match m_persis_in m with
       | None => (m, Some EKey)
       | Some fs =>
           let rows := uninformed (h_rows (m_h m)) in
           let k := mkWork PERSIS_STOP fs rows true None None None None None None in
           match check_work_order c true w k m with
           | Some e => (m, Some e)
           | None => bindx (send_work_order c t w k m)
                       (fun m1 => liftx m1 (update_history_to_gen rows t (m_h m1)))
           end
       end
     else send c w (OPStop SIG_KILL) m)
    (fun m1 =>
       let m2 := on_worker c w (fun r => if w_active r =? 0 then set_active (w_persis r) r else r) m1 in
       (set_pending m2 (m_pending m2 ++ [w]), None)).

(** manager.py:599-615 *)
Definition stop_all_persistent (c : mcfg) (t : Z) (m : mgr) : ex mgr :=
  foldx (stop_persistent c t) (map w_id (filter (fun r => negb (w_persis r =? 0)) (m_W m))) m.

Inductive fin := FWait | FDone (flag : nat) | FExc (e : err).

(** manager.py:617-629: each round is the messages taken and the clock at the
    wall-clock test. FWait: the given rounds are over and the loop goes on. *)
Fixpoint final_loop (c : mcfg) (rounds : list (list (nat * imsg * Z) * Z)) (flag : nat) (m : mgr) : mgr * fin :=
  if (any_active m || any_persis m) && (flag =? 0) then
    match rounds with
    | [] => (m, FWait)
    | (msgs, el) :: rounds' =>
        match receive c msgs m with
        | (m1, Some e) => (m1, FExc e)
        | (m1, None) =>
            match term_test c el m1 with
            | Err e => (m1, FExc e)
            | Ok r =>
                let f1 := if (r =? 2) && negb (any_persis m1) then 2 else flag in
                final_loop c rounds' (if m_exc m1 then 1 else f1) m1
            end
        end
    end
  else (m, FDone flag).

(** _final_receive_and_kill, manager.py:587-640. _clean_up_thread waits for the
    local worker and is not modelled. *)
Definition final_phase (c : mcfg) (t : Z) rounds (m : mgr) : mgr * fin :=
  match stop_all_persistent c t m with
  | (m1, Some e) => (m1, FExc e)
  | (m1, None) =>
      match final_loop c rounds 0 m1 with
      | (m2, FDone f) => (kill_workers m2, FDone f)
      | r => r
      end
  end.

Inductive outcome := Running | Returned (flag : nat) | Raised (e : err).

(** run, manager.py:701-736. An exception of the loop is raised (wrapped in
    LoggedException) after the final phase; one in the final phase replaces it. *)
Definition run (c : mcfg) (its : list iter) (t : Z) rounds (m : mgr) : mgr * outcome :=
  match main_loop c its m with
  | (m1, CGo) => (m1, Running)
  | (m1, s) =>
      match final_phase c t rounds m1 with
      | (m2, FWait) => (m2, Running)
      | (m2, FExc e) => (m2, Raised e)
      | (m2, FDone f) => (m2, match s with CExc e => Raised e | _ => Returned f end)
      end
  end.

(** Manager.__init__, manager.py:192-272: the state before the first iteration. *)
Definition init_manager (c : mcfg) (h : hist) (n : nat) (zeros gens : list nat) (rm : option rman)
                        (persis_in : option (list field)) : mgr :=
  mkM h (init_workers n (c_gom c) zeros gens) rm false [] persis_in [].
