(** Property C70: kernels written by the user, alone and combined with those of the library. *)
From Coq Require Import List String Reals.
From Verif Require Import Base.Sums Base.Mat Model.Kernels Model.PyDict Model.Params Model.Calls Model.KernelObj Model.KernelMethods Model.CustomKernel
  Spec.KernelSpec Spec.KernelMethodsSpec Spec.CustomSpec Proofs.CustomFacts Proofs.CustomExamples.
Import ListNotations.
Open Scope R_scope.

(** ** C70 *)
(** a function on two samples that takes active_dims, with derivatives that autodiff computes: all nine methods *)
Theorem C70_user : forall u nf ad t b, accepts (u_sig u) 3 ["active_dims"%string] = true -> u_body u nf ad t = Ok b ->
  autodiff nf (tr_k b) (tr_g0 b) (tr_g1 b) (tr_h b) -> differentiates (user_methods u ad) t nf (tr_k b).
Proof. exact user_differentiates. Qed.
Print Assumptions C70_user.
(** the library's kernels whose derivatives the code computes exactly *)
Theorem C70_library : forall o t nf k, computes (build o) t k -> wf nf k -> ls_nonzero k -> exact k -> no_m52 k ->
  differentiates (build o) t nf (kernel_at nf k).
Proof. exact (fun o => library_differentiates (build o)). Qed.
Print Assumptions C70_library.
(** sums and products of any kernel objects *)
Theorem C70_sum : forall p q t t1 t2 nf k1 k2, item "kernel1" t = Ok t1 -> item "kernel2" t = Ok t2 ->
  differentiates p t1 nf k1 -> differentiates q t2 nf k2 -> differentiates (sum_methods p q) t nf (fun x y => k1 x y + k2 x y).
Proof. exact sum_differentiates. Qed.
Print Assumptions C70_sum.
Theorem C70_prod : forall p q t t1 t2 nf k1 k2, item "kernel1" t = Ok t1 -> item "kernel2" t = Ok t2 ->
  differentiates p t1 nf k1 -> differentiates q t2 nf k2 -> differentiates (prod_methods p q) t nf (fun x y => k1 x y * k2 x y).
Proof. exact prod_differentiates. Qed.
Print Assumptions C70_prod.
(** covariance functions stay covariance functions, and the matrix k returns for one batch is then positive
    semidefinite *)
Theorem C70_covariance : forall k1 k2, covariance k1 -> covariance k2 ->
  covariance (fun x y => k1 x y + k2 x y) /\ covariance (fun x y => k1 x y * k2 x y).
Proof. exact covariance_composite. Qed.
Print Assumptions C70_covariance.
Theorem C70_gram : forall o t nf k n X, differentiates o t nf k -> covariance k ->
  exists A, o_k o nf X X t = Ok (Some A) /\ (forall i j, A i j = A j i) /\
  forall c : Vec, 0 <= sum n (fun i => sum n (fun j => c i * A i j * c j)).
Proof. exact covariance_gram. Qed.
Print Assumptions C70_gram.
Example C70_user_case : forall nf, differentiates (user_methods sq_base None) (Node []) nf sq_k /\ covariance sq_k /\
  differentiates mixed mixed_params nf (fun x y => sq_k x y * kernel_at nf (KAtom None ALin) x y).
Proof. exact (fun nf => conj (user_differentiates sq_base nf None _ _ sq_accepted eq_refl (sq_autodiff nf)) (conj sq_covariance (mixed_ok nf))). Qed.

(** which decorator is used: with_jaccoef and trace_samples play no role without with_jacob, nor for argnums=1, and
    other argnums are rejected *)
Theorem C70_argnums : forall wj wjc wjc' tr tr',
  (forall a, grad_kernelize a false wjc tr = grad_kernelize a false wjc' tr') /\
  grad_kernelize Arg1 wj wjc tr = grad_kernelize Arg1 wj wjc' tr' /\
  grad_kernelize ArgOther wj wjc tr = Err ValueError /\
  (forall a, a <> ArgOther -> exists l, grad_kernelize a wj wjc tr = Ok l).
Proof. exact argnums_spec. Qed.
Print Assumptions C70_argnums.
(** the function described in the docstring of Kernel, with the parameters x1, x2, params and no active_dims,
    makes an object whose methods all raise *)
Theorem C70_docstring_refuted : forall body ad, raises (user_methods (UserBase (Sig ["x1"; "x2"; "params"] []) body) ad)%string TypeError.
Proof. exact docstring_raises. Qed.
Print Assumptions C70_docstring_refuted.
