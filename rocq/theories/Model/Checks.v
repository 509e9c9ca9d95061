(** Argument checks of models/utils.py. *)
From Coq Require Import String List.
From Verif Require Import Model.PyDict.
Import ListNotations.
Open Scope string_scope.

(** models/utils.py:44-52 _check_recursive_dict_type: None when the check passes, otherwise the key and
    the value named in the ValueError. ok is isinstance(value, ref_type). *)
Fixpoint check_value {A : Type} (ok : A -> bool) (key : string) (t : tree A) : option (string * A) :=
  match t with
  | Leaf a => if ok a then None else Some (key, a)
  | Node l =>
      (fix go (l : list (string * tree A)) : option (string * A) :=
         match l with
         | [] => None
         | (k, s) :: r => match check_value ok k s with Some e => Some e | None => go r end
         end) l
  end.
Definition check_recursive_dict_type {A : Type} (ok : A -> bool) (d : list (string * tree A)) : option (string * A) :=
  check_value ok "" (Node d).
