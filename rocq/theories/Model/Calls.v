(** Python calls: which arguments a function takes. Values of arguments play no role in the check. *)
From Coq Require Import List String Bool Arith.
From Verif Require Import Model.PyDict.
Import ListNotations.
Open Scope string_scope.
Open Scope nat_scope.

(** def f(required..., optional=...): positional-or-keyword parameters only *)
Record sig : Type := Sig { required : list string; optional : list string }.
Definition names_of (g : sig) : list string := (required g ++ optional g)%list.
Definition mem_name (k : string) (l : list string) : bool := existsb (String.eqb k) l.
(** f(p1, ..., pn, kw1=..., ...): not too many positional arguments, every keyword names a parameter that
    is not yet filled, every required parameter is filled *)
Definition accepts (g : sig) (npos : nat) (kw : list string) : bool :=
  (npos <=? List.length (names_of g)) &&
  forallb (fun k => mem_name k (skipn npos (names_of g))) kw &&
  forallb (fun k => mem_name k kw) (skipn npos (required g)).
Definition call {A : Type} (g : sig) (npos : nat) (kw : list string) (body : result A) : result A :=
  if accepts g npos kw then body else Err TypeError.
(** self._fun(...): a class that does not define it has no such attribute *)
Definition call_attr {B A : Type} (f : option (sig * B)) (npos : nat) (kw : list string) (run : B -> result A) : result A :=
  match f with
  | None => Err AttributeError
  | Some (g, b) => call g npos kw (run b)
  end.
