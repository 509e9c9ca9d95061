(** Fitting and predicting in one go, and the changes of data the predictions are compared under. *)
From Coq Require Import Reals Arith.
From Verif Require Import Base.Sums Base.Mat Model.Arrays Model.Kernels Model.LinAlg Model.GPR Model.SGPR.
Open Scope R_scope.

(** the prediction at xs t, output j, of a GPR model fitted to x, y *)
Definition gpr (la : linalg) (m o nf : nat) (k : kexp) (sigma : R) (mf : nat -> nat -> Mat -> R) (x y xs : Mat) : Mat :=
  let fit := fit_dense la m o nf k sigma x y mf in
  predict_dense m nf k sigma x xs (fst fit) (snd fit).
(** the same with the iterative routines, at n points *)
Definition gpr_iter (la : linalg) (choose : nat -> Vec -> nat) (np n m o nf : nat) (k : kexp) (sigma : R)
    (mf : nat -> nat -> Mat -> R) (x y xs : Mat) : Mat :=
  let fit := fit_iter la choose m o nf k sigma x y mf np in
  predict_iter m n nf k sigma x xs (fst fit) (snd fit).
(** SGPR with m inducing points xl *)
Definition sgpr (la : linalg) (m n o nf : nat) (k : kexp) (sigma : R) (mf : nat -> nat -> Mat -> R) (xl x y xs : Mat) : Mat :=
  let fit := sg_fit_dense la m n o nf k sigma xl x y mf in
  sg_predict_dense m nf k xl xs (fst fit) (snd fit).
(** GPR fitted to derivatives (gpr.py:436-717 take the mean to be zero, whatever state.mean_function is):
    predicted derivatives (n points, nd directions) and predicted values *)
Definition gpr_derivs (la : linalg) (m nf nv : nat) (k : kexp) (sigma : R)
    (x : Mat) (jac : Ten) (y : Mat) (n nd : nat) (xs : Mat) (jacs : Ten) : Mat :=
  let fit := fit_derivs_dense la m nf nv k sigma x jac y zero_mean in
  predict_derivs_dense m n nf nv nd k sigma x jac xs jacs (fst fit) 0.
Definition gpr_y_derivs (la : linalg) (m nf nv : nat) (k : kexp) (sigma : R)
    (x : Mat) (jac : Ten) (y : Mat) (n : nat) (xs : Mat) : Mat :=
  let fit := fit_derivs_dense la m nf nv k sigma x jac y zero_mean in
  predict_y_derivs_dense m n nf nv k x jac xs (fst fit) (snd fit).
(** the same for a sparse model with m inducing points xl and their jacobians jl, nv columns each *)
Definition sgpr_derivs (la : linalg) (m n nf nv nv' : nat) (k : kexp) (sigma : R) (xl : Mat) (jl : Ten)
    (x : Mat) (jac : Ten) (y : Mat) (ns nd : nat) (xs : Mat) (jacs : Ten) : Mat :=
  let fit := sg_fit_derivs_dense la m n nf nv nv' k sigma xl jl x y jac zero_mean in
  sg_predict_derivs_dense m ns nf nv nd k xl jl xs jacs (fst fit) 0.
Definition sgpr_y_derivs (la : linalg) (m n nf nv nv' : nat) (k : kexp) (sigma : R) (xl : Mat) (jl : Ten)
    (x : Mat) (jac : Ten) (y : Mat) (ns : nat) (xs : Mat) : Mat :=
  let fit := sg_fit_derivs_dense la m n nf nv nv' k sigma xl jl x y jac zero_mean in
  sg_predict_y_derivs_dense m ns nf nv k xl jl xs (fst fit) (snd fit).

(** p permutes 0..m-1 *)
Definition permutes (m : nat) (p : nat -> nat) : Prop :=
  (forall i, (i < m)%nat -> (p i < m)%nat) /\
  (forall i j, (i < m)%nat -> (j < m)%nat -> p i = p j -> i = j).
(** kernels of the difference of the inputs: no linear or polynomial factor *)
Fixpoint stationary (k : kexp) : Prop :=
  match k with
  | KAtom _ (ALin | APoly _ _ | ANoInt _ _) => False
  | KAtom _ _ => True
  | KSum k1 k2 | KProd k1 k2 => stationary k1 /\ stationary k2
  end.
