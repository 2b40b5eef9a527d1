(** Model of the text in which a worker's slots are given to applications
    (WorkerResources.get_slots_as_string, libensemble/resources/worker_resources.py). *)
From Coq Require Import Ascii String.
From Verif Require Import Base TextModel.
Local Open Scope list_scope.
Local Open Scope nat_scope.

(** worker_resources.py:224-227: the name of a GPU, or of a tile of one *)
Definition slot_name (tiles i : nat) : text :=
  if 1 <? tiles then dec (i / tiles) ++ T "." ++ dec (i mod tiles) else dec i.

(** worker_resources.py:221-223; [limit] is not negative *)
Definition slot_list (on : list nat) (mult : nat) (limit : option nat) : list nat :=
  let l := flat_map (fun i => seq (i * mult) mult) on in
  match limit with Some n => firstn n l | None => l end.

(** worker_resources.py:210-228, with the default delimiter; [on]: slots_on_node *)
Definition get_slots_as_string (tiles mult : nat) (limit : option nat) (on : option (list nat)) : option text :=
  match on with
  | None => None
  | Some on => Some (join ","%char (map (slot_name tiles) (slot_list on mult limit)))
  end.

(** worker_resources.py:230-254 (set_env_to_slots), the new value; os.environ takes no None *)
Definition set_env_to_slots (tiles mult : nat) (on : option (list nat)) : res text :=
  match get_slots_as_string tiles mult None on with Some t => Ok t | None => Err EType end.
