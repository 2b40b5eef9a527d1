(** Model of the message with which a persistent generator asks for simulations
    to be cancelled (libensemble/tools/persistent_support.py). What the manager
    does with it is in ManagerModel and HistoryModel. *)
From Verif Require Import Base HistoryModel WorkModel ManagerModel.

(** The array of persistent_support.py:124-126: one row per given id. *)
Definition cancel_row (z : Z) : row :=
  setf F_cancel_requested (vbool true) (setf F_sim_id (vint z) (fun _ => vint 0)).
Definition cancel_array (ids : list Z) : sarr :=
  mkA [(F_sim_id, ShS); (F_cancel_requested, ShS)] (map cancel_row ids).

(** send, persistent_support.py:31-58: [rows] are the H_rows of the libE_info the
    function was started with, and [persistent] says whether that has the key
    "persistent", as the orders for persistent functions do. *)
Definition ps_send (calc_type : nat) (rows : list nat) (persistent : bool)
    (out : sarr) (calc_status : nat) (keep_state : bool) : answer :=
  mkAns calc_type calc_status (UArr out) rows keep_state persistent.

(** request_cancel_sim_ids, persistent_support.py:117-127, called by a persistent
    generator; calc_status has the default UNSET_TAG = 0 (message_numbers.py:5). *)
Definition request_cancel_sim_ids (rows : list nat) (ids : list Z) : answer :=
  ps_send EVAL_GEN rows true (cancel_array ids) 0 true.
