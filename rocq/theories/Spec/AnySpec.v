(** Vocabulary of the theorems on regression with a kernel object of any origin. *)
From Coq Require Import List String Reals.
From Verif Require Import Base.Sums Base.Mat Model.Calls Model.GPR Model.GPRAny.
Import ListNotations.
(** the predictions use the jacobian of the training data contracted with the coefficients (mode true: the default
    options of GPR.predict_derivs and predict_y_derivs), or the full matrix (mode false) *)
Definition contracted (mode : bool) (nv : nat) (c : Mat) (jac : Ten) : option Mat :=
  if mode then Some (jaccoef_of nv c jac) else None.
(** in the first case d0kjc and d01kjc of the kernel must take the arguments by the names used in _gpr.py *)
Definition mode_ok (K : kernel_object) (mode : bool) : Prop := mode = true ->
  accepts (ko_d0kjc K) 0 ["x1"; "x2"; "params"; "jaccoef"]%string = true /\
  accepts (ko_d01kjc K) 0 ["x1"; "x2"; "params"; "jaccoef"; "jacobian"]%string = true.
