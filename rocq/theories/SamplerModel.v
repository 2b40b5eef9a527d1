(** Model of the persistent sampling functions that come with libEnsemble
    (gen_funcs/persistent_sampling.py and persistent_sampling_var_resources.py): the loops that send points and receive results. A
    random stream is a function from the number of points drawn before to the point. *)
From Verif Require Import Base.
Local Open Scope nat_scope.

Section Sampler.
Context {X R : Type}.               (* points and rows of results *)

(** What recv gives (tools/persistent_support.py:64-100): results, results that come with
    the request to stop, or a stop signal without rows. *)
Inductive mail := Go (l : list R) | Last (l : list R) | Stop.
Definition rows (m : mail) : option (list R) := match m with Go l | Last l => Some l | Stop => None end.
Definition stops (m : mail) : bool := match m with Go _ => false | _ => true end.
(** [b = len(calc_in)] if there are rows *)
Definition size (b : nat) (m : mail) : nat := match rows m with Some l => length l | None => b end.

Variable draw : nat -> X.           (* the k-th point of the stream *)

(** persistent_uniform (persistent_sampling.py:52-63), without obj_component. The loops
    of persistent_sampling_var_resources.py (51-61, 85-102, 119-131, 183-200, 219-248)
    have the same form, where a point carries its resources. [d]: points drawn so far.
    Gives the batches sent and whether the function has returned. *)
Fixpoint uniform (b d : nat) (ms : list mail) : list (list X) * bool :=
  let out := map draw (seq d b) in
  match ms with
  | [] => ([out], false)
  | m :: ms' => if stops m then ([out], true)
                else let '(o, r) := uniform (size b m) (d + b) ms' in (out :: o, r)
  end.

(** uniform_sample_with_var_priorities (persistent_sampling_var_resources.py:143-166):
    the first batch is made by [first], later ones by [draw]. *)
Variable first : nat -> X.
Definition var_priorities (b : nat) (ms : list mail) : list (list X) * bool :=
  let out := map first (seq 0 b) in
  match ms with
  | [] => ([out], false)
  | m :: ms' => if stops m then ([out], true)
                else let '(o, r) := uniform (size b m) b ms' in (out :: o, r)
  end.

(** uniform_nonblocking (181-200): before each mail there are polls that find nothing.
    Gives the spin count of the last receive, too. *)
Fixpoint nonblocking (b d spin : nat) (ms : list (nat * mail)) : list (list X) * bool * nat :=
  let out := map draw (seq d b) in
  match ms with
  | [] => ([out], false, spin)
  | (polls, m) :: ms' =>
      if stops m then ([out], true, polls)
      else let '(o, r, n) := nonblocking (size b m) (d + b) polls ms' in (out :: o, r, n)
  end.

(** persistent_request_shutdown (155-166) *)
Fixpoint shutdown (limit b d count : nat) (ms : list mail) : list (list X) * bool :=
  let out := map draw (seq d b) in
  match ms with
  | [] => ([out], false)
  | m :: ms' =>
      let b1 := size b m in
      if (limit <=? count + b1) || stops m then ([out], true)
      else let '(o, r) := shutdown limit b1 (d + b) (count + b1) ms' in (out :: o, r)
  end.

(** persistent_uniform_with_cancellations (249-275). What is sent: points, or numbers of
    points to be cancelled. *)
Inductive sent := Points (l : list X) | Cancel (l : list nat).
Fixpoint cancelling (b d from : nat) (ms : list mail) : list sent * bool :=
  let out := Points (map draw (seq d b)) in
  match ms with
  | [] => ([out], false)
  | m :: ms' =>
      let b1 := size b m in
      let c := match rows m with Some _ => [Cancel (seq from b1)] | None => [] end in
      let from1 := match rows m with Some _ => from + b1 | None => from end in
      if stops m then (out :: c, true)
      else let '(o, r) := cancelling b1 (d + b) from1 ms' in (out :: c ++ o, r)
  end.
Definition cancellations (b : nat) (ms : list mail) : list sent * bool := cancelling b 0 (b / 2) ms.
End Sampler.
Arguments mail R : clear implicits.
Arguments sent X : clear implicits.

(** ** persistent_uniform_final_update (persistent_sampling.py:66-135) *)
(** Lines 79-86: the corners of the domain; bit [i] of the number takes the lower bound. *)
Fixpoint corner {X} (lb ub : list X) (index i : nat) : list X :=
  match lb, ub with
  | l :: lb', u :: ub' => (if Nat.testbit index i then l else u) :: corner lb' ub' index (S i)
  | _, _ => []
  end.
Definition corners {X} (lb ub : list X) : list (list X) :=
  map (fun k => corner lb ub k 0) (seq 0 (2 ^ length lb)).

(** A function value; None is nan. *)
Definition value := option Z.
(** A row sent: sim_id and corner_id; a result: corner_id and f. *)
Record tally := mktally { total : list value; number : list nat }.
Definition add_value (t v : value) : value :=
  match t with
  | None => v
  | Some a => match v with Some b => Some (a + b)%Z | None => None end
  end.
(** Lines 119-124: a number of a corner outside the list raises IndexError. *)
Fixpoint count_in (l : list (nat * value)) (t : tally) : res tally :=
  match l with
  | [] => Ok t
  | (k, f) :: l' =>
      if k <? length (total t) then
        count_in l' (mktally (upd (total t) k (fun a => add_value a f)) (upd (number t) k S))
      else Err EIndex
  end.
(** Lines 128-133: the estimate of a mean is a sum and a count; None is nan. *)
Definition estimate (t : tally) (k : nat) : option (Z * nat) :=
  match nth_error (total t) k, nth_error (number t) k with
  | Some (Some a), Some (S n) => Some (a, S n)
  | _, _ => None
  end.
Definition report (t : tally) (all : list nat) : list (nat * nat * option (Z * nat)) :=
  map (fun p => (fst p, snd p, estimate t (snd p))) (combine (seq 0 (length all)) all).

(** The loop, lines 102-124. [pick k]: the corner chosen for the k-th point (np.random.choice
    with the weights of line 96, which never change). [all]: the corners sent so far. *)
Fixpoint final_update (pick : nat -> nat) (b next : nat) (all : list nat) (t : tally) (ms : list (mail (nat * value)))
  : list (list (nat * nat)) * option (res (list (nat * nat * option (Z * nat)))) :=
  let ids := seq next b in
  let out := map (fun k => (k, pick k)) ids in
  let all1 := all ++ map pick ids in
  match ms with
  | [] => ([out], None)
  | m :: ms' =>
      match match rows m with Some l => count_in l t | None => Ok t end with
      | Err e => ([out], Some (Err e))
      | Ok t1 =>
          if stops m then ([out], Some (Ok (report t1 all1)))
          else let '(o, r) := final_update pick (size b m) (next + b) all1 t1 ms' in (out :: o, r)
      end
  end.
Definition run_final_update (pick : nat -> nat) (n b : nat) (ms : list (mail (nat * value))) :=
  final_update pick b 0 [] (mktally (repeat None (2 ^ n)) (repeat 0 (2 ^ n))) ms.
