(** How predictions follow the units, the zero point and the order of the data.
    Reference: Spec/EquivSpec.v (fitting followed by predicting; permutations; stationary kernels). *)
From Coq Require Import Reals Arith List.
From Coquelicot Require Import Coquelicot.
From Verif Require Import Base.Sums Base.Mat Base.PSD Model.Arrays Model.Kernels Model.LinAlg Model.GPR Model.SGPR
  Spec.KernelSpec Spec.GPSpec Spec.EquivSpec Proofs.LinAlgFacts Proofs.GPRExamples Proofs.GPREquiv Proofs.EquivExamples.
Open Scope R_scope.

(** ** C64, GPR *)
Theorem C64_linear : forall la, linalg_ok la -> forall nf k, all_atoms (fun _ a => psd_atom a) k ->
  forall m o sigma mf x y1 y2 a b xs t j, mf = zero_mean \/ mf = data_mean -> (j < o)%nat ->
  gpr la m o nf k sigma mf x (fun i j => a * y1 i j + b * y2 i j) xs t j
  = a * gpr la m o nf k sigma mf x y1 xs t j + b * gpr la m o nf k sigma mf x y2 xs t j.
Proof. exact gpr_lin. Qed.
Print Assumptions C64_linear.
Theorem C64_offset : forall la, linalg_ok la -> forall nf k, all_atoms (fun _ a => psd_atom a) k ->
  forall m o sigma x y b xs t j, (0 < m)%nat -> (j < o)%nat ->
  gpr la m o nf k sigma data_mean x (fun i j => y i j + b) xs t j = gpr la m o nf k sigma data_mean x y xs t j + b.
Proof. exact gpr_shift. Qed.
Print Assumptions C64_offset.
Theorem C64_constant : forall la, linalg_ok la -> forall nf k, all_atoms (fun _ a => psd_atom a) k ->
  forall m o sigma x b xs t j, (0 < m)%nat -> (j < o)%nat ->
  gpr la m o nf k sigma data_mean x (fun _ _ => b) xs t j = b.
Proof. exact gpr_const. Qed.
Print Assumptions C64_constant.
Theorem C64_order : forall la, linalg_ok la -> forall nf k, all_atoms (fun _ a => psd_atom a) k ->
  forall m o sigma mf x y p xs t j, mf = zero_mean \/ mf = data_mean -> permutes m p -> (j < o)%nat ->
  gpr la m o nf k sigma mf (fun i => x (p i)) (fun i => y (p i)) xs t j = gpr la m o nf k sigma mf x y xs t j.
Proof. exact gpr_perm. Qed.
Print Assumptions C64_order.
Theorem C64_covariance_order : forall la, linalg_ok la -> forall nf k, all_atoms (fun _ a => psd_atom a) k ->
  forall m n sigma x p xs, permutes m p ->
  meq n n (predict_cov la m nf k sigma (fun i => x (p i)) xs) (predict_cov la m nf k sigma x xs).
Proof. exact cov_perm. Qed.
Print Assumptions C64_covariance_order.
Theorem C64_likelihood_offset : forall la, linalg_ok la -> forall nf k, all_atoms (fun _ a => psd_atom a) k ->
  forall m o sigma x y b, (0 < m)%nat -> (0 < o)%nat ->
  lml_dense la m o nf k sigma x (fun i j => y i j + b) data_mean = lml_dense la m o nf k sigma x y data_mean.
Proof. exact lml_shift. Qed.
Print Assumptions C64_likelihood_offset.
Theorem C64_outputs : forall la, linalg_ok la -> forall nf k, all_atoms (fun _ a => psd_atom a) k ->
  forall m o sigma x y xs t j, (j < o)%nat ->
  gpr la m o nf k sigma zero_mean x y xs t j = gpr la m 1 nf k sigma zero_mean x (fun i _ => y i j) xs t O.
Proof. exact gpr_column. Qed.
Print Assumptions C64_outputs.
(** data_mean is one number for all outputs: there one output's targets move the predictions of the others *)
Theorem C64_pooled_mean_refuted : forall la, linalg_ok la ->
  ~ (forall m o nf k sigma x y xs t j, (0 < m)%nat -> (j < o)%nat -> all_atoms (fun _ a => psd_atom a) k ->
     gpr la m o nf k sigma data_mean x y xs t j = gpr la m 1 nf k sigma data_mean x (fun i _ => y i j) xs t O).
Proof. exact pooled_mean. Qed.
Print Assumptions C64_pooled_mean_refuted.
Theorem C64_translation : forall la, linalg_ok la ->
  forall nf k m o sigma mf x y xs v t j, all_atoms (fun _ a => psd_atom a) k -> stationary k -> (j < o)%nat ->
  gpr la m o nf k sigma mf (fun i d => x i d + v d) y (fun i d => xs i d + v d) t j = gpr la m o nf k sigma mf x y xs t j.
Proof. exact gpr_translate. Qed.
Print Assumptions C64_translation.
Theorem C64_feature_order : forall la, linalg_ok la ->
  forall nf k m o sigma mf x y xs p t j, all_atoms (fun _ a => psd_atom a) k ->
  all_atoms (fun ad _ => ad = None) k -> permutes nf p -> (j < o)%nat ->
  gpr la m o nf k sigma mf (fun i d => x i (p d)) y (fun i d => xs i (p d)) t j = gpr la m o nf k sigma mf x y xs t j.
Proof. exact gpr_features. Qed.
Print Assumptions C64_feature_order.
(** the iterative routines give the same predictions, so all of the above holds of them *)
Theorem C64_iterative : forall la, linalg_ok la -> forall nf k, all_atoms (fun _ a => psd_atom a) k ->
  forall choose np n m o sigma mf x y xs t j, sigma <> 0 -> (t < n)%nat -> (j < o)%nat ->
  gpr_iter la choose np n m o nf k sigma mf x y xs t j = gpr la m o nf k sigma mf x y xs t j.
Proof. exact gpr_iter_eq. Qed.
Print Assumptions C64_iterative.

(** ** C64, SGPR *)
Theorem C64_sparse_linear : forall la, linalg_ok la -> forall nf k, all_atoms (fun _ a => psd_atom a) k ->
  forall m n o sigma mf xl x y1 y2 a b xs t j, mf = zero_mean \/ mf = data_mean -> (j < o)%nat ->
  sgpr la m n o nf k sigma mf xl x (fun i j => a * y1 i j + b * y2 i j) xs t j
  = a * sgpr la m n o nf k sigma mf xl x y1 xs t j + b * sgpr la m n o nf k sigma mf xl x y2 xs t j.
Proof. exact sgpr_lin. Qed.
Print Assumptions C64_sparse_linear.
Theorem C64_sparse_offset : forall la, linalg_ok la -> forall nf k, all_atoms (fun _ a => psd_atom a) k ->
  forall m n o sigma xl x y b xs t j, (0 < n)%nat -> (j < o)%nat ->
  sgpr la m n o nf k sigma data_mean xl x (fun i j => y i j + b) xs t j = sgpr la m n o nf k sigma data_mean xl x y xs t j + b.
Proof. exact sgpr_shift. Qed.
Print Assumptions C64_sparse_offset.
Theorem C64_sparse_order : forall la, linalg_ok la -> forall nf k, all_atoms (fun _ a => psd_atom a) k ->
  forall m n o sigma mf xl x y p xs t j, mf = zero_mean \/ mf = data_mean -> permutes n p -> (j < o)%nat ->
  sgpr la m n o nf k sigma mf xl (fun i => x (p i)) (fun i => y (p i)) xs t j = sgpr la m n o nf k sigma mf xl x y xs t j.
Proof. exact sgpr_perm. Qed.
Print Assumptions C64_sparse_order.
Theorem C64_inducing_order : forall la, linalg_ok la -> forall nf k, all_atoms (fun _ a => psd_atom a) k ->
  forall m n o sigma mf xl x y p xs t j, permutes m p -> (j < o)%nat ->
  sgpr la m n o nf k sigma mf (fun i => xl (p i)) x y xs t j = sgpr la m n o nf k sigma mf xl x y xs t j.
Proof. exact sgpr_perm_inducing. Qed.
Print Assumptions C64_inducing_order.

(** ** C64, GPR fitted to derivatives (C56 says when the noisy derivative matrix is positive definite) *)
Theorem C64_derivatives_linear : forall la, linalg_ok la -> forall m nf nv k sigma x jac,
  pd (m * nv) (noisy sigma (d01kj m m nf nv nv k x x jac jac)) ->
  forall y1 y2 a b n nd xs jacs t u,
  gpr_derivs la m nf nv k sigma x jac (fun i j => a * y1 i j + b * y2 i j) n nd xs jacs t u
  = a * gpr_derivs la m nf nv k sigma x jac y1 n nd xs jacs t u + b * gpr_derivs la m nf nv k sigma x jac y2 n nd xs jacs t u.
Proof. exact gpr_derivs_lin. Qed.
Print Assumptions C64_derivatives_linear.
Theorem C64_derivatives_values_linear : forall la, linalg_ok la -> forall m nf nv k sigma x jac,
  pd (m * nv) (noisy sigma (d01kj m m nf nv nv k x x jac jac)) ->
  forall y1 y2 a b n xs t,
  gpr_y_derivs la m nf nv k sigma x jac (fun i j => a * y1 i j + b * y2 i j) n xs t O
  = a * gpr_y_derivs la m nf nv k sigma x jac y1 n xs t O + b * gpr_y_derivs la m nf nv k sigma x jac y2 n xs t O.
Proof. exact gpr_y_derivs_lin. Qed.
Print Assumptions C64_derivatives_values_linear.
Theorem C64_derivatives_order : forall la, linalg_ok la ->
  forall m nf nv k sigma x jac y p n nd xs jacs t u, wf nf k -> permutes m p ->
  pd (m * nv) (noisy sigma (d01kj m m nf nv nv k x x jac jac)) -> (t < n)%nat -> (u < nd)%nat ->
  gpr_derivs la m nf nv k sigma (fun i => x (p i)) (fun i => jac (p i)) (fun i => y (p i)) n nd xs jacs t u
  = gpr_derivs la m nf nv k sigma x jac y n nd xs jacs t u.
Proof. exact gpr_derivs_perm. Qed.
Print Assumptions C64_derivatives_order.
Theorem C64_derivatives_values_order : forall la, linalg_ok la ->
  forall m nf nv k sigma x jac y p n xs t, wf nf k -> permutes m p ->
  pd (m * nv) (noisy sigma (d01kj m m nf nv nv k x x jac jac)) -> (t < n)%nat ->
  gpr_y_derivs la m nf nv k sigma (fun i => x (p i)) (fun i => jac (p i)) (fun i => y (p i)) n xs t O
  = gpr_y_derivs la m nf nv k sigma x jac y n xs t O.
Proof. exact gpr_y_derivs_perm. Qed.
Print Assumptions C64_derivatives_values_order.
Example C64_example : linalg_ok ref_la /\ all_atoms (fun _ a => psd_atom a) gp_kernel /\ permutes 3 (fun i => (2 - i)%nat)
  /\ (forall m nv sigma x jac, pd (m * nv) (noisy sigma (d01kj m m 3 nv nv gp_kernel x x jac jac)))
  /\ stationary (KProd (KAtom None (AM52 2)) (KSum (KAtom (Some (1 :: nil)%nat) (APer 1 3)) (KAtom None (AConst 2)))).
Proof. exact ex_C64. Qed.
