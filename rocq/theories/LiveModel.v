(** Model of the live plot, libensemble/tools/live_data/plot2n.py. *)
From Verif Require Import Base.

(** A row of the history, as far as the plot looks at it. *)
Record prow := mkP { is_local_pt : bool; is_local_min : bool }.

(** The history at a call of live_update: its rows and hist.sim_ended_count. *)
Record view := mkView { v_rows : list prow; v_ended : nat }.

(** self.last_plot_count, and what was drawn so far, the newest first. *)
Record plot := mkPlot { last_plot_count : nat; drawn : list view }.

(** plot2n.py:35-44: nothing is drawn before the first call. *)
Definition new_plot : plot := mkPlot 0 [].

(** plot2n.py:117-132 *)
Definition live_update (v : view) (p : plot) : plot :=
  let new := skipn (last_plot_count p) (v_rows v) in
  if (5 <? countb is_local_pt new) || existsb is_local_min new || (last_plot_count p + 50 <=? v_ended v)
  then mkPlot (v_ended v) (v :: drawn p)
  else p.

(** manager.py:534-535: one call for every message with results. plot2n.py:134-136:
    finalize draws nothing. *)
Definition live_run (vs : list view) : plot := fold_left (fun p v => live_update v p) vs new_plot.
