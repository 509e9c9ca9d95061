(** The order in which the parameters are listed and the name shown for each of them. *)
From Coq Require Import List String.
From Verif Require Import Model.PyDict Model.Params Model.Views Spec.StateSpec.
Import ListNotations.
Open Scope string_scope.

(** alphabetical order, name by name from the outermost *)
Fixpoint path_lt (p q : list string) : Prop :=
  match p, q with
  | a :: p', b :: q' => slt a b \/ a = b /\ path_lt p' q'
  | _, _ => False
  end.
(** the names of a path separated by ':' *)
Fixpoint colons (p : list string) : string :=
  match p with
  | [] => ""
  | [k] => k
  | k :: r => k ++ ":" ++ colons r
  end.
(** the name printed for the parameter at a path *)
Definition shown_name (p : list string) : string :=
  match p with
  | k :: r => if String.eqb k "kernel_params" then "kernel " ++ colons r else k
  | [] => ""
  end.
(** every name of the nested dictionary satisfies P *)
Fixpoint all_names {A : Type} (P : string -> Prop) (t : tree A) : Prop :=
  match t with
  | Leaf _ => True
  | Node l => (fix all (l : list (string * tree A)) : Prop :=
       match l with [] => True | (k, s) :: r => P k /\ all_names P s /\ all r end) l
  end.
(** a parameter of the kernel, another one *)
Definition in_kernel (q : list string * param) : Prop := exists r, fst q = "kernel_params" :: r.
Definition not_kernel (q : list string * param) : Prop := exists k r, fst q = k :: r /\ k <> "kernel_params".
(** the line for the parameter p found at a path *)
Definition named_row (q : list string * param) : row :=
  Row (shown_name (fst q)) (m_trainable (p_meta (snd q))) (m_bijector (p_meta (snd q))) (m_prior (p_meta (snd q)))
    (a_dtype (p_value (snd q))) (a_shape (p_value (snd q))) (p_value (snd q)).
