(** What the history files should hold. *)
From Verif Require Import Base HistoryModel SaveModel.
Local Open Scope nat_scope.

Definition of_kind (kd : kind) (d : disk) : list file := filter (fun f => kind_eqb (f_kind f) kd) d.
(** What is counted for each kind of file. *)
Definition counted (kd : kind) (h : hist) : nat := match kd with KSims => h_ended h | _ => h_index h end.
Definition period (kd : kind) (c : save_cfg) : nat := match kd with KSims => s_sims c | _ => s_gens c end.

(** The history so far: the rows that have been generated. *)
Definition so_far (h : hist) : sarr := mkA (h_dtype h) (firstn (h_index h) (h_rows h)).

(** [fs] is the checkpoint of kind [kd] after the moments [hs]: none before the
    count reaches [k]; then one, named by the largest multiple of [k] reached,
    holding the history of the first moment at which it was reached. *)
Definition checkpoint (kd : kind) (k : nat) (hs : list hist) (fs : list file) : Prop :=
  (fs = [] /\ forall h, In h hs -> counted kd h < k) \/
  exists pre h post m, hs = pre ++ h :: post /\ 0 < m /\
    (forall x, In x pre -> counted kd x < m * k) /\ m * k <= counted kd h /\ (forall x, In x (h :: post) -> counted kd x < (m + 1) * k) /\
    fs = [mkFile kd (m * k) (Whole (so_far h))].

(** Counts never go down during a run. *)
Definition rising (kd : kind) (hs : list hist) : Prop :=
  forall a b pre mid post, hs = pre ++ a :: mid ++ b :: post -> counted kd a <= counted kd b.
