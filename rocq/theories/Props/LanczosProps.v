(** C45-C46: the Lanczos iteration and the stochastic log-determinant. *)
From Coq Require Import Reals Arith.
From Verif Require Import Base.Sums Base.Mat Model.Arrays Model.Lanczos Spec.Det Spec.LanczosSpec.
From Verif Require Import Proofs.LanczosFacts Proofs.LanczosQuad Proofs.LanczosLogdet Proofs.LanczosBias Proofs.LanczosExamples.
Open Scope R_scope.

(** ** C45 *)
Theorem C45_orthonormal : forall n m A matvec v1 draw T V, (forall z i, (i < n)%nat -> matvec z i = mv n A z i) ->
  dot n v1 v1 = 1 -> (0 < m)%nat -> lanczos_tridiagonal matvec m n v1 draw = (T, V) -> restarts_ok n m T V draw ->
  forall a b, (a < m)%nat -> (b < m)%nat -> dot n (fun i => V i a) (fun i => V i b) = delta a b.
Proof. exact orthonormal. Qed.
Print Assumptions C45_orthonormal.
Theorem C45_first_vector : forall n m matvec v1 draw T V, (0 < m)%nat -> lanczos_tridiagonal matvec m n v1 draw = (T, V) ->
  forall i, V i 0%nat = v1 i.
Proof. exact first_col. Qed.
Print Assumptions C45_first_vector.
Theorem C45_tridiagonal : forall n m A matvec v1 draw T V, (forall z i, (i < n)%nat -> matvec z i = mv n A z i) ->
  dot n v1 v1 = 1 -> (0 < m)%nat -> lanczos_tridiagonal matvec m n v1 draw = (T, V) -> restarts_ok n m T V draw ->
  (forall a b, (a < m)%nat -> (b < m)%nat -> T a b = T b a) /\ (forall a b, a <> b -> a <> S b -> b <> S a -> T a b = 0) /\
  (forall a, (S a < m)%nat -> 0 <= T a (S a)).
Proof. exact tri_sym. Qed.
Print Assumptions C45_tridiagonal.
(** V^T A V = T up to the threshold of the restarts, and exactly when they happen on vanishing residuals only *)
Theorem C45_reduces : forall n m A matvec v1 draw T V, sym n A -> (forall z i, (i < n)%nat -> matvec z i = mv n A z i) ->
  dot n v1 v1 = 1 -> (0 < m)%nat -> lanczos_tridiagonal matvec m n v1 draw = (T, V) -> restarts_ok n m T V draw ->
  forall a b, (a < m)%nat -> (b < m)%nat ->
    Rabs (mm n (tr V) (mm n A V) a b - T a b) <= 2 / 10 ^ 12 /\ (no_tiny m T -> mm n (tr V) (mm n A V) a b = T a b).
Proof. exact reduced. Qed.
Print Assumptions C45_reduces.
(** A V = V T on all columns but the last *)
Theorem C45_relation : forall n m A matvec v1 draw T V, sym n A -> (forall z i, (i < n)%nat -> matvec z i = mv n A z i) ->
  dot n v1 v1 = 1 -> (0 < m)%nat -> lanczos_tridiagonal matvec m n v1 draw = (T, V) -> restarts_ok n m T V draw -> no_tiny m T ->
  forall a i, (S a < m)%nat -> (i < n)%nat -> mv n A (fun j => V j a) i = sum m (fun b => T b a * V i b).
Proof. exact lanczos_relation. Qed.
Print Assumptions C45_relation.
(** the columns span the Krylov vectors A^k v1, k < m *)
Theorem C45_krylov : forall n m A matvec v1 draw T V, sym n A -> (forall z i, (i < n)%nat -> matvec z i = mv n A z i) ->
  dot n v1 v1 = 1 -> (0 < m)%nat -> lanczos_tridiagonal matvec m n v1 draw = (T, V) -> restarts_ok n m T V draw -> no_tiny m T ->
  forall k i, (k < m)%nat -> (i < n)%nat -> power n A k v1 i = mv m V (power m T k (delta 0)) i.
Proof. exact krylov. Qed.
Print Assumptions C45_krylov.

(** ** C46 *)
(** the eigenvalues of T and the squared first components of its eigenvectors: quadrature of order 2m-1 *)
Theorem C46_quadrature : forall n m A matvec v1 draw T V lam Q, sym n A -> (forall z i, (i < n)%nat -> matvec z i = mv n A z i) ->
  dot n v1 v1 = 1 -> (0 < m)%nat -> lanczos_tridiagonal matvec m n v1 draw = (T, V) -> restarts_ok n m T V draw -> no_tiny m T ->
  eigen m T lam Q -> forall k, (k <= 2 * m - 1)%nat ->
  sum m (fun i => Q 0%nat i ^ 2 * lam i ^ k) = dot n v1 (power n A k v1).
Proof. exact quad_moment. Qed.
Print Assumptions C46_quadrature.
(** as many steps as distinct eigenvalues: the quadrature is exact for every function *)
Theorem C46_quadrature_exact : forall n m A matvec v1 draw T V lam Q, sym n A -> (forall z i, (i < n)%nat -> matvec z i = mv n A z i) ->
  dot n v1 v1 = 1 -> (0 < m)%nat -> lanczos_tridiagonal matvec m n v1 draw = (T, V) -> restarts_ok n m T V draw -> no_tiny m T ->
  eigen m T lam Q -> forall a P f d, eigen n A a P -> at_most d n a -> (d <= m)%nat ->
  sum m (fun i => Q 0%nat i ^ 2 * f (lam i)) = spectral n a P f v1.
Proof. exact quad_exact. Qed.
Print Assumptions C46_quadrature_exact.
(** then lanczos_logdet is the average of s^T ln(A) s over the probes s *)
Theorem C46_estimate : forall n m A matvec draw eigh a P d, (forall z i, (i < n)%nat -> matvec z i = mv n A z i) -> (0 < n)%nat -> (0 < m)%nat ->
  eigen n A a P -> (forall k, (k < n)%nat -> / 10 ^ 36 <= a k) -> at_most d n a -> (d <= m)%nat ->
  forall ne signs, (0 < ne)%nat -> (forall p, (p < ne)%nat -> is_sign n (fun i => signs i p)) ->
  (forall p, (p < ne)%nat -> probe_ok n m matvec draw eigh (fun i => signs i p)) ->
  lanczos_logdet eigh matvec ne n m signs draw = / INR ne * sum ne (fun p => spectral n a P ln (fun i => signs i p)).
Proof. exact logdet_value. Qed.
Print Assumptions C46_estimate.
(** and its mean over independent uniform signs is the log-determinant *)
Theorem C46_unbiased : forall n m A matvec draw eigh a P d, (forall z i, (i < n)%nat -> matvec z i = mv n A z i) -> (0 < n)%nat -> (0 < m)%nat ->
  eigen n A a P -> (forall k, (k < n)%nat -> / 10 ^ 36 <= a k) -> at_most d n a -> (d <= m)%nat ->
  forall ne, (0 < ne)%nat -> (forall s, is_sign n s -> probe_ok n m matvec draw eigh s) ->
  probe_mean ne n (fun signs => lanczos_logdet eigh matvec ne n m signs draw) = ln (det n A).
Proof. exact logdet_unbiased. Qed.
Print Assumptions C46_unbiased.
(** multiples of the identity: exact whatever the probes and the number of steps *)
Theorem C46_identity : forall n m matvec draw eigh s ne signs, (0 < n)%nat -> (0 < m)%nat -> (0 < ne)%nat -> / 10 ^ 36 <= s ->
  (forall z i, (i < n)%nat -> matvec z i = s * z i) ->
  (forall p, (p < ne)%nat -> is_sign n (fun i => signs i p)) -> (forall p, (p < ne)%nat -> probe_ok n m matvec draw eigh (fun i => signs i p)) ->
  lanczos_logdet eigh matvec ne n m signs draw = INR n * ln s.
Proof. exact logdet_scalar. Qed.
Print Assumptions C46_identity.
(** fewer steps: the estimate is never below the average of s^T ln(A) s, its mean never below the log-determinant *)
Theorem C46_overestimate : forall n m A matvec draw eigh a P, (forall z i, (i < n)%nat -> matvec z i = mv n A z i) -> (0 < n)%nat -> (0 < m)%nat ->
  eigen n A a P -> (forall k, (k < n)%nat -> / 10 ^ 36 <= a k) ->
  forall ne signs, (0 < ne)%nat -> (forall p, (p < ne)%nat -> is_sign n (fun i => signs i p)) ->
  (forall p, (p < ne)%nat -> probe_ok n m matvec draw eigh (fun i => signs i p)) ->
  / INR ne * sum ne (fun p => spectral n a P ln (fun i => signs i p)) <= lanczos_logdet eigh matvec ne n m signs draw.
Proof. exact logdet_over. Qed.
Print Assumptions C46_overestimate.
Theorem C46_mean_overestimate : forall n m A matvec draw eigh a P, (forall z i, (i < n)%nat -> matvec z i = mv n A z i) -> (0 < n)%nat -> (0 < m)%nat ->
  eigen n A a P -> (forall k, (k < n)%nat -> / 10 ^ 36 <= a k) ->
  forall ne, (0 < ne)%nat -> (forall s, is_sign n s -> probe_ok n m matvec draw eigh s) ->
  ln (det n A) <= probe_mean ne n (fun signs => lanczos_logdet eigh matvec ne n m signs draw).
Proof. exact logdet_mean_over. Qed.
Print Assumptions C46_mean_overestimate.

(** diag(1, 2) with two steps meets the hypotheses for every probe *)
Example C45_C46_example : (forall s draw, is_sign 2 s -> probe_ok 2 2 ex_mv draw ex_eigh s) /\ (forall z i, (i < 2)%nat -> ex_mv z i = mv 2 ex_A z i) /\
  eigen 2 ex_A (fun i => if Nat.eqb i 0 then 1 else 2) eye /\ at_most 2 2 (fun i => if Nat.eqb i 0 then 1 else 2) /\
  (forall k, (k < 2)%nat -> / 10 ^ 36 <= (if Nat.eqb k 0 then 1 else 2)).
Proof. exact (conj ex_probe (conj ex_mv_ok (conj ex_eigen (conj ex_two ex_low)))). Qed.
