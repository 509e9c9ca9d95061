(** Nested dictionaries whose names survive flattening. *)
From Coq Require Import List String Ascii.
From Verif Require Import Model.PyDict.
Import ListNotations.
Open Scope string_scope.

(** the character does not occur *)
Fixpoint no_colon (s : string) : Prop :=
  match s with EmptyString => True | String c r => c <> ":"%char /\ no_colon r end.
(** path is the list of names above t: names of a dictionary are distinct, non-empty and without ':',
    a leaf is not called NULL, and if its name is cached by the interpreter it is not the
    name of one of its ancestors *)
Fixpoint names_ok {A : Type} (interned : string -> bool) (path : list string) (t : tree A) : Prop :=
  match t with
  | Leaf _ => True
  | Node l =>
      NoDup (map fst l) /\
      (fix all (l : list (string * tree A)) : Prop :=
         match l with
         | [] => True
         | (k, s) :: r =>
             (k <> "" /\ no_colon k /\
              match s with
              | Leaf _ => k <> "NULL" /\ (interned k = true -> ~ In k path)
              | Node [] => interned "NULL" = true -> ~ In "NULL" (path ++ [k])
              | Node _ => names_ok interned (path ++ [k]) s
              end) /\ all r
         end) l
  end.
