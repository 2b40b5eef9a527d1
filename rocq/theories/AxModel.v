(** Model of gen_funcs/persistent_ax_multitask.py: the loop of persistent_gp_mt_ax_gen_f,
    AxRunner, AxMetric and max_utility_from_GP. Ax is an oracle: the Sobol sample, the
    points that a fitted model proposes, and its predictions. *)
From Coq Require Import Ascii String QArith.
From Verif Require Import Base TextModel EnvModel.
Local Open Scope nat_scope.
Local Notation length := List.length.

(** An arm's parameters: a dictionary. Simplification: values are exact rationals. *)
Definition arm := list (text * Q).
Fixpoint get (k : text) (a : arm) : res Q :=
  match a with [] => Err EKey | (k', v) :: a' => if teqb k k' then Ok v else get k a' end.
(** lines 321-326: x0, x1, ... in this order *)
Definition vector (a : arm) : res (list Q) := mapr (fun j => get (T "x" ++ dec j) a) (seq 0 (length a)).
(** lines 327-329: a row of the batch; [true]: the task is name_hifi *)
Record row := mkRow { o_x : list Q; o_sets : nat; o_hifi : bool }.
(** A trial: its type, its arms and, for each, the value in run_metadata (None without
    data). Simplification: arms have the names that Ax gives them, all different. *)
Record trial := mkTrial { t_hifi : bool; t_arms : list arm; t_f : list (option Q) }.
(** what the manager sends back: whether it is a stop, and the values of field f *)
Record reply := mkReply { y_stop : bool; y_f : option (list Q) }.

(** lines 314-329 *)
Definition batch (hifi : bool) (arms : list arm) : res (list row) :=
  mapr (fun a => bindr (vector a) (fun x => Ok (mkRow x 1 hifi))) arms.
(** lines 330-341: calc_in["f"][i] *)
Definition values (arms : list arm) (y : reply) : res (list (option Q)) :=
  mapr (fun i => match y_f y with
                 | None => Ok None
                 | Some f => match nth_error f i with Some v => Ok (Some v) | None => Err EIndex end
                 end) (seq 0 (length arms)).

(** lines 363-384 (max_utility_from_GP): [pred]: the predictions of the model for these
    arms at high fidelity; [argsort]: numpy's, some sorting permutation. GeneratorRun
    refuses weights and arms of different lengths. *)
Definition max_utility (argsort : list Q -> list nat) (n : nat) (pred : list Q) (arms : list arm) : res (list arm) :=
  let best := firstn n (rev (argsort (map Qopp pred))) in
  if length best =? n then mapr (fun i => match nth_error arms i with Some a => Ok a | None => Err EIndex end) best
  else Err EValue.

(** lines 165-168 *)
Record specs := mkSpecs { n_init_hifi : nat; n_init_lofi : nat; n_opt_hifi : nat; n_opt_lofi : nat }.
Record ax := mkAx {
  sobol : nat -> list arm;                       (* get_sobol(...).gen(n), not scrambled *)
  gen : list trial -> nat -> list arm;           (* get_MTGP on all data, then m.gen(n) *)
  predict : list trial -> list arm -> list Q;    (* get_MTGP on all data, then m.predict *)
  argsort : list Q -> list nat }.

(** Where the loop is: lines 216-226 twice, 232-251, 253-268 (with the arms of the low
    fidelity batch). *)
Inductive phase := InitHi | InitLo | OptLo | OptHi (gr : list arm).
Inductive status := Waiting | Done | Failed (e : err).

Definition arms_of (A : ax) (s : specs) (p : phase) (ts : list trial) : res (list arm) :=
  match p with
  | InitHi => Ok (sobol A (n_init_hifi s))
  | InitLo => Ok (sobol A (n_init_lofi s))
  | OptLo => Ok (gen A ts (n_opt_lofi s))
  | OptHi gr => max_utility (argsort A) (n_opt_hifi s) (predict A ts gr) gr
  end.
Definition hifi_of (p : phase) : bool := match p with InitHi | OptHi _ => true | _ => false end.
Definition next (p : phase) (arms : list arm) : phase := match p with InitHi => InitLo | InitLo => OptLo | OptLo => OptHi arms | OptHi _ => OptLo end.

(** The function, given the manager's answers in order: the batches it sends, its trials
    at the end, and how it ends. Saving the experiment is left out. *)
Fixpoint loop (A : ax) (s : specs) (p : phase) (ts : list trial) (ys : list reply) : list (list row) * list trial * status :=
  match bindr (arms_of A s p ts) (fun arms => bindr (batch (hifi_of p) arms) (fun b => Ok (arms, b))) with
  | Err e => ([], ts, Failed e)
  | Ok (arms, b) =>
      match ys with
      | [] => ([b], ts, Waiting)
      | y :: ys =>
          match values arms y with
          | Err e => ([b], ts, Failed e)
          | Ok f =>
              let ts := ts ++ [mkTrial (hifi_of p) arms f] in
              if y_stop y then ([b], ts, Done)
              else let '(bs, ts', st) := loop A s (next p arms) ts ys in (b :: bs, ts', st)
          end
      end
  end.
Definition gen_f (A : ax) (s : specs) (ys : list reply) : list (list row) * list trial * status := loop A s InitHi [] ys.
