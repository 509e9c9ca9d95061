(** All leaves of a nested dictionary with the names that lead to them, in iteration order. *)
From Coq Require Import String List.
From Verif Require Import Model.PyDict.
Import ListNotations.
Open Scope list_scope.

Fixpoint paths {A : Type} (t : tree A) : list (list string * A) :=
  match t with
  | Leaf a => [([], a)]
  | Node l => (fix go (l : list (string * tree A)) : list (list string * A) :=
       match l with
       | [] => []
       | (k, s) :: r => map (fun q => (k :: fst q, snd q)) (paths s) ++ go r
       end) l
  end.
