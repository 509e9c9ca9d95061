(** Models the dense routines of gpx/models/_gpr.py for a kernel object of any origin: the kernel is called through
    its methods with params["kernel_params"], and can raise. Model/GPR.v follows the same lines for the kernels of
    the library, with the parameter values inside the kernel. *)
From Coq Require Import List String Reals Arith.
From Verif Require Import Base.Sums Base.Mat Model.Arrays Model.Kernels Model.PyDict Model.Params Model.Calls Model.LinAlg
  Model.GPR Model.Public Model.KernelObj Model.KernelMethods Model.CustomKernel.
Import ListNotations.
Open Scope string_scope.
Open Scope R_scope.

(** A kernel object, with the parameters of its methods d0kjc and d01kjc: _gpr.py names the arguments of these two. *)
Record kernel_object : Type := KernelObject { ko : methods; ko_d0kjc : sig; ko_d01kjc : sig }.
Definition atom_d0kjc : sig := sig_d0kjc (KAtom None ALin).
Definition atom_d01kjc : sig := sig_d01kjc (KAtom None ALin).
(** an instance of a class of the user: kernelizers.py:197-236, 343-394 *)
Definition user_object (u : user_base) (ad : option (list nat)) : kernel_object :=
  KernelObject (user_methods u ad) atom_d0kjc atom_d01kjc.
(** kernels.py:1795-1848 Sum (operations.py:140, 164: the closures name their arguments jacobian, and jacobian1 and
    jacobian2) and 1851-1942 Prod (operations.py:335, 411) *)
Definition sum_object (p q : kernel_object) : kernel_object :=
  KernelObject (sum_methods (ko p) (ko q)) (Sig ["x1"; "x2"; "params"; "jacobian"] ["active_dims"])
    (Sig ["x1"; "x2"; "params"; "jacobian1"; "jacobian2"] ["active_dims"]).
Definition prod_object (p q : kernel_object) : kernel_object :=
  KernelObject (prod_methods (ko p) (ko q)) atom_d0kjc atom_d01kjc.
(** the kernels of the library *)
Fixpoint library_object (o : kobj) : kernel_object :=
  match o with
  | OAtom _ _ => KernelObject (build o) atom_d0kjc atom_d01kjc
  | OSum a b => sum_object (library_object a) (library_object b)
  | OProd a b => prod_object (library_object a) (library_object b)
  end.

(** array expressions of a matrix that a method returns *)
Definition with1 {A} (a : out) (f : Mat -> A) : result (option A) := bind a (fun m => Ok (option_map f m)).
Definition with2 {A} (a b : out) (f : Mat -> Mat -> A) : result (option A) :=
  bind a (fun x => bind b (fun y => Ok (match x, y with Some X, Some Y => Some (f X Y) | _, _ => None end))).
Definition with3 {A} (a b c : out) (f : Mat -> Mat -> Mat -> A) : result (option A) :=
  bind a (fun x => bind b (fun y => bind c (fun z =>
    Ok (match x, y, z with Some X, Some Y, Some Z => Some (f X Y Z) | _, _, _ => None end)))).

Section Any.
  Variables (la : linalg) (nf : nat) (K : kernel_object) (t : ptree) (sigma : R).
  (** _gpr.py:40-64 _A_lhs *)
  Definition any_A_lhs (x1 x2 : Mat) (noise : bool) : out :=
    with1 (o_k (ko K) nf x1 x2 t) (fun A => if noise then fun i j => A i j + (sigma ^ 2 + jit10) * eye i j else A).
  (** _gpr.py:67-91 _A_derivs_lhs *)
  Definition any_A_derivs_lhs (n1 n2 nv1 nv2 : nat) (x1 : Mat) (jac1 : Ten) (x2 : Mat) (jac2 : Ten) (noise : bool) : out :=
    with1 (o_d01kj (ko K) n1 n2 nf nv1 nv2 x1 x2 t jac1 jac2)
      (fun A => if noise then fun i j => A i j + (sigma ^ 2 + jit10) * eye i j else A).

  (** _gpr.py:263-283 _fit_dense *)
  Definition any_fit (m o : nat) (x y : Mat) (mean_function : nat -> nat -> Mat -> R) : result (option (Mat * R)) :=
    let mu := mean_function m o y in
    let y : Mat := fun i j => y i j - mu in
    with1 (any_A_lhs x x true) (fun C_mm => (la_solve la m C_mm y, mu)).
  (** _gpr.py:435-464 _predict_dense: the mean, and the covariance *)
  Definition any_predict (m : nat) (x_train x c : Mat) (mu : R) : out :=
    with1 (any_A_lhs x_train x false) (fun K_mn => fun s j => mu + mm m (tr K_mn) c s j).
  Definition any_predict_cov (m : nat) (x_train x : Mat) : out :=
    with3 (any_A_lhs x_train x false) (any_A_lhs x_train x_train true) (any_A_lhs x x false) (fun K_mn C_mm C_nn =>
      let L_m := la_chol la m C_mm in
      let G_mn := la_tri la m L_m K_mn in
      fun i j => C_nn i j - mm m (tr G_mn) G_mn i j).

  (** _gpr.py:314-345 _fit_derivs_dense; y has shape (m, nv) *)
  Definition any_fit_derivs (m nv : nat) (x : Mat) (jac : Ten) (y : Mat) (mean_function : nat -> nat -> Mat -> R)
      : result (option (Mat * R)) :=
    let y := flat nv y in
    let mu := mean_function (m * nv)%nat 1%nat y in
    let y : Mat := fun i j => y i j - mu in
    with1 (any_A_derivs_lhs m m nv nv x jac x jac true) (fun C_mm => (la_solve la (m * nv) C_mm y, mu)).
  (** _gpr.py:489-568 _predict_derivs_dense, the mean; jaccoef is None, or given (default options of
      GPR.predict_derivs) *)
  Definition any_predict_derivs (m n nv nd : nat) (x_train : Mat) (jac_train : Ten) (x : Mat) (jac : Ten) (c : Mat) (mu : R)
      (jaccoef : option Mat) : out :=
    match jaccoef with
    | Some jc =>
        call (ko_d01kjc K) 0 ["x1"; "x2"; "params"; "jaccoef"; "jacobian"]
          (with1 (o_d01kjc (ko K) m n nf nd x_train x t jc jac)
            (fun A => unflat nd (fun r _ => mu + sum m (fun s => A s r))))
    | None =>
        with1 (any_A_derivs_lhs m n nv nd x_train jac_train x jac false)
          (fun K_mn => unflat nd (fun r j => mu + mm (m * nv) (tr K_mn) c r j))
    end.
  (** _gpr.py:608-659 _predict_y_derivs_dense, the mean *)
  Definition any_predict_y_derivs (m n nv : nat) (x_train : Mat) (jac_train : Ten) (x c : Mat) (mu : R)
      (jaccoef : option Mat) : out :=
    match jaccoef with
    | Some jc =>
        call (ko_d0kjc K) 0 ["x1"; "x2"; "params"; "jaccoef"]
          (with1 (o_d0kjc (ko K) m n nf x_train x t jc) (fun A s _ => mu + sum m (fun i => A i s)))
    | None =>
        with1 (o_d0kj (ko K) m n nf nv x_train x t jac_train) (fun K_mn s j => mu + mm (m * nv) (tr K_mn) c s j)
    end.

  (** _gpr.py:738-770 _lml_dense *)
  Definition any_lml (m o : nat) (x y : Mat) (mean_function : nat -> nat -> Mat -> R) : result (option R) :=
    let mu := mean_function m o y in
    with1 (any_A_lhs x x true) (fun C_mm => lml_of la m o C_mm (fun i j => y i j - mu)).
  (** _gpr.py:825-871 _lml_derivs_dense *)
  Definition any_lml_derivs (m nv : nat) (x : Mat) (jac : Ten) (y : Mat) (mean_function : nat -> nat -> Mat -> R)
      : result (option R) :=
    let y := flat nv y in
    let mu := mean_function (m * nv)%nat 1%nat y in
    with1 (any_A_derivs_lhs m m nv nv x jac x jac true) (fun C_mm => lml_of la (m * nv) 1 C_mm (fun i j => y i j - mu)).
End Any.
