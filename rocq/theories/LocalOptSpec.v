(** Vocabulary for what APOSMM relies on when it talks to a local optimizer in a process
    of its own (LocalOptModel). *)
From Verif Require Import Base LocalOptModel.
Local Open Scope nat_scope.

(** What a caller who evaluates points for the optimizer should hear. The optimizer was
    told [told] and will be told [l]: for each point it asks for, it is given the next
    value. It gives up when the value is for another point. *)
Fixpoint hears {X V} (act : list V -> @request X) (same : X -> V -> bool) (told l : list V) : @reply X :=
  match act told with
  | Ask a => match l with
             | [] => RPoint a
             | v :: l' => if same a v then hears act same (told ++ [v]) l' else RRaise
             end
  | Finish a b => RDone a b
  | Throw => RRaise
  end.
(** The answer to the optimizer's own request, without regard to what came before. *)
Definition says {X} (r : @request X) : @reply X :=
  match r with Ask a => RPoint a | Finish a b => RDone a b | Throw => RRaise end.
(** Every value is for the point the optimizer asked for last. *)
Definition in_step {X V} (act : list V -> @request X) (same : X -> V -> bool) (l : list V) : Prop :=
  forall k v, nth_error l k = Some v -> exists a, act (firstn k l) = Ask a /\ same a v = true.

(** A call of the object is running. *)
Definition busy {X V} (s : @sys X V) : Prop :=
  match pa s with PIdle | PClosed | PRaised _ => False | _ => True end.
(** [n] steps without a further call lead from [s] to [s']. *)
Inductive steps {X V} act same starts : nat -> @sys X V -> @sys X V -> Prop :=
| steps_0 s : steps act same starts 0 s s
| steps_S n s s1 s2 : step act same starts s s1 -> steps act same starts n s1 s2 -> steps act same starts (S n) s s2.
(** Nothing can move any more. *)
Definition stuck {X V} act same starts (s : @sys X V) : Prop := forall s', ~ step act same starts s s'.
