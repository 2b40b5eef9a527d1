(** Concrete manager runs used to show that the manager theorems are not vacuous. *)
From Coq Require Import String.
From Verif Require Import Base HistoryModel HistorySpec HistoryRun RsetModel WorkModel ManagerModel ManagerSpec HistoryExamples PropsResources.
Local Notation length := List.length.
Local Open Scope nat_scope.

Definition cfg (sim_max : option nat) (wall : option Z) (final_send : bool) : mcfg :=
  mkC false true true true final_send false sim_max None None wall.
Definition c2 : mcfg := cfg (Some 2) None false.
Definition gen_order : work := mkWork EVAL_GEN [] [] false None None None None None None.
Definition sim_order (rows : list nat) : work := mkWork EVAL_SIM [X; F_sim_id] rows false None None None None None None.
Definition persis_gen_order : work := mkWork EVAL_GEN [] [] true None None None None None None.
Definition to_persis (rows : list nat) : work := mkWork EVAL_GEN [F_sim_id; FF] rows true None None None None None None.
Definition gen_answer (l : list Z) : imsg := IData (mkAns EVAL_GEN 35 (UArr (pts l)) [] false false).
Definition persis_answer (l : list Z) : imsg := IData (mkAns EVAL_GEN 0 (UArr (pts l)) [] false true).
Definition persis_end : imsg := IData (mkAns EVAL_GEN FIN_PERSIS_GEN UNone [] false true).
Definition out_array (l : list Z) : uout := match outp l with Some a => UArr a | None => UNone end.
Definition sim_answer (rows : list nat) (l : list Z) : imsg := IData (mkAns EVAL_SIM 35 (out_array l) rows false false).
Definition keep_rows : nat -> row -> row := fun _ r => r.
Definition turn (t : Z) (msgs : list (nat * imsg)) (ws : list (nat * work)) : iter :=
  mkIt t (map (fun p => (p, t)) msgs) keep_rows (AWork (map (fun p => (p, t)) ws)) t.
Definition round (t : Z) (msgs : list (nat * imsg)) : list (nat * imsg * Z) * Z := (map (fun p => (p, t)) msgs, t).

(** Three workers; no resource management. *)
Definition m3 (c : mcfg) : mgr := init_manager c (fresh_history c [(X, ShS); (FF, ShS)] no_H0 true) 3 [] [] None (Some [F_sim_id; FF]).
(** Four workers on the example machine. *)
Definition m4 (c : mcfg) : mgr := init_manager c (fresh_history c [(X, ShS); (FF, ShS)] no_H0 true) 4 [] [] (Some ex_table) (Some [F_sim_id; FF]).

(** A generator makes three points; sim_max is 2; results come back in the other order. *)
Definition plain_its : list iter :=
  [turn 1 [] [(1, gen_order)];
   turn 2 [(1, gen_answer [10; 20; 30]%Z)] [(1, sim_order [0]); (2, sim_order [1]); (3, sim_order [2])];
   turn 3 [(2, sim_answer [1] [101]%Z)] [];
   turn 4 [(1, sim_answer [0] [100]%Z)] [];
   turn 5 [] []].
(** A persistent generator on worker 1; one simulation is still running when
    sim_max is reached and its result arrives during the shutdown. *)
Definition persis_its : list iter :=
  [turn 1 [] [(1, persis_gen_order)];
   turn 2 [(1, persis_answer [10; 20; 30]%Z)] [(2, sim_order [0]); (3, sim_order [1; 2])];
   turn 3 [(2, sim_answer [0] [100]%Z)] [(1, to_persis [0])];
   mkIt 4 [] keep_rows AStop 4].
Definition persis_rounds := [round 5 [(3, sim_answer [1; 2] [101; 102]%Z)]; round 6 [(1, persis_end)]].
(** Worker 2 fails, then worker 3. *)
Definition error_its : list iter :=
  [turn 1 [] [(1, gen_order)];
   turn 2 [(1, gen_answer [10; 20; 30]%Z)] [(1, sim_order [0]); (2, sim_order [1]); (3, sim_order [2])];
   turn 3 [(2, IErr); (3, IErr); (1, sim_answer [0] [100]%Z)] []].
(** During the shutdown worker 2 returns a field that only libEnsemble may write. *)
Definition bad_rounds := [round 5 [(3, IData (mkAns EVAL_SIM 35 (UArr (mkA [(F_sim_ended, ShS)] [fun _ => vint 1])) [1; 2] false false))]].

Definition show_event (e : event) : string * nat * list nat :=
  match e with
  | Sent w (OWork k) => ("work"%string, w, k_rows k)
  | Sent w (ORows _ d) => ("rows"%string, w, [length d])
  | Sent w (OStop s) => ("stop"%string, w, [s])
  | Sent w (OPStop s) => ("persis_stop"%string, w, [s])
  | Got w (IData a) => ("answer"%string, w, n_rows a)
  | Got w IErr => ("error"%string, w, [])
  | Got w _ => ("other"%string, w, [])
  end.
Definition trace (p : mgr * outcome) := (map show_event (m_log (fst p)), snd p).
