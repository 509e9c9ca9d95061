(** Coefficient-contracted kernels and predictions stay close to the uncontracted ones for every
    kernel, Matern52 included. *)
From Coq Require Import Reals Lra Lia Arith List.
From Verif Require Import Base.Sums Base.Mat Model.Arrays Model.Kernelizers Model.Kernels Model.LinAlg
  Model.Operations Model.GPR Model.SGPR Spec.KernelSpec Spec.CloseSpec Spec.GPSpec Spec.SparseSpec
  Proofs.Loops Proofs.KernelMethods Proofs.Contraction Proofs.KernelDerivs Proofs.KernelPropLemmas
  Proofs.KernelSym Proofs.Local Proofs.JetPSD Proofs.Matvec Proofs.GPRFacts Proofs.GPRPack
  Proofs.SGPRFacts Proofs.SGPRIter Proofs.SGPRPack Proofs.KernelClose.
Open Scope R_scope.

Lemma d0kjc_coef_close : forall n m nf nv k X1 X2 J (c : Mat) s t, wf nf k -> ls_nonzero k ->
  (s < n)%nat -> (t < m)%nat ->
  Rabs (d0kjc n m nf k X1 X2 (fun s f => sum nv (fun v => c s v * J s f v)) s t
        - sum nv (fun v => c s v * d0kj n m nf nv k X1 X2 J (s * nv + v)%nat t))
  <= cerr0 nf k (X1 s) (X2 t) (fun f => sum nv (fun v => c s v * J s f v)).
Proof.
  intros n m nf nv k X1 X2 J c s t W L Hs Ht.
  replace (sum nv (fun v => c s v * d0kj n m nf nv k X1 X2 J (s * nv + v)%nat t))
    with (sum nf (fun f => sum nv (fun v => c s v * J s f v) * d0k nf k X1 X2 (s * nf + f)%nat t)).
  - now apply d0kjc_close.
  - transitivity (sum nv (fun v => sum nf (fun f => c s v * J s f v * d0k nf k X1 X2 (s * nf + f)%nat t))).
    + rewrite sum_swap. apply sum_ext; intros f Hf. now rewrite sum_scal_r.
    + apply sum_ext; intros v Hv. rewrite d0kj_ctr by auto. rewrite <- sum_scal_l.
      apply sum_ext; intros; ring.
Qed.
Lemma d01kjc_coef_close : forall n m nf nv nv2 k X1 X2 J1 J2 (c : Mat) s t u,
  wf nf k -> ls_nonzero k -> (s < n)%nat -> (t < m)%nat -> (u < nv2)%nat ->
  Rabs (d01kjc n m nf nv2 k X1 X2 (fun s f => sum nv (fun v => c s v * J1 s f v)) J2 s (t * nv2 + u)%nat
        - sum nv (fun v => c s v * d01kj n m nf nv nv2 k X1 X2 J1 J2 (s * nv + v)%nat (t * nv2 + u)%nat))
  <= cerr01 nf k (X1 s) (X2 t) (fun f => sum nv (fun v => c s v * J1 s f v)) (fun e => J2 t e u).
Proof.
  intros n m nf nv nv2 k X1 X2 J1 J2 c s t u W L Hs Ht Hu.
  rewrite (sum_ext nv _ (fun v => c s v * sum nf (fun f => sum nf (fun e => J1 s f v *
     d01k nf k X1 X2 (s * nf + f)%nat (t * nf + e)%nat * J2 t e u))))
    by (intros; now rewrite d01kj_ctr by auto).
  rewrite <- (coef_bil nf nv (fun v => c s v) (fun f v => J1 s f v)
    (fun f e => d01k nf k X1 X2 (s * nf + f)%nat (t * nf + e)%nat) (fun e => J2 t e u)).
  now apply (d01kjc_close n m nf nv2 k X1 X2 (fun s f => sum nv (fun v => c s v * J1 s f v))).
Qed.

Lemma predict_derivs_jaccoef_close : forall m n nf nv nd k sigma xt jt x jac c mu t u,
  wf nf k -> ls_nonzero k -> (t < n)%nat -> (u < nd)%nat ->
  Rabs (predict_derivs_jaccoef m n nf nd k xt x jac mu (jaccoef_of nv c jt) t u
        - predict_derivs_dense m n nf nv nd k sigma xt jt x jac c mu t u)
  <= sum m (fun s => cerr01 nf k (xt s) (x t) (jaccoef_of nv c jt s) (fun e => jac t e u)).
Proof.
  intros m n nf nv nd k sigma xt jt x jac c mu t u W L Ht Hu.
  unfold predict_derivs_jaccoef, predict_derivs_dense, unflat, A_derivs_lhs.
  unfold mm, tr. rewrite sum_block.
  match goal with |- Rabs (?a + ?b - (?a + ?d)) <= _ => replace (a + b - (a + d)) with (b - d) by ring end.
  rewrite <- sum_minus. eapply Rle_trans; [apply sum_abs_le|]. apply sum_le. intros s Hs.
  refine (Rle_trans _ _ _ _ (d01kjc_coef_close m n nf nv nd k xt x jt jac
    (fun s v => c (s * nv + v)%nat O) s t u W L Hs Ht Hu)).
  apply Req_le. unfold jaccoef_of. f_equal. f_equal. apply sum_ext. intros. ring.
Qed.
Lemma predict_y_derivs_jaccoef_close : forall m n nf nv k xt jt x c mu t j,
  wf nf k -> ls_nonzero k -> (t < n)%nat -> j = O ->
  Rabs (predict_y_derivs_jaccoef m n nf k xt x mu (jaccoef_of nv c jt) t j
        - predict_y_derivs_dense m n nf nv k xt jt x c mu t j)
  <= sum m (fun s => cerr0 nf k (xt s) (x t) (jaccoef_of nv c jt s)).
Proof.
  intros m n nf nv k xt jt x c mu t j W L Ht ->.
  unfold predict_y_derivs_jaccoef, predict_y_derivs_dense, mm, tr. rewrite sum_block.
  match goal with |- Rabs (?a + ?b - (?a + ?d)) <= _ => replace (a + b - (a + d)) with (b - d) by ring end.
  rewrite <- sum_minus. eapply Rle_trans; [apply sum_abs_le|]. apply sum_le. intros s Hs.
  refine (Rle_trans _ _ _ _ (d0kjc_coef_close m n nf nv k xt x jt
    (fun s v => c (s * nv + v)%nat O) s t W L Hs Ht)).
  apply Req_le. unfold jaccoef_of. f_equal. f_equal. apply sum_ext. intros. ring.
Qed.
Lemma sg_jaccoef_close : forall m n nf nv nd k xl jl x jac c mu t u,
  wf nf k -> ls_nonzero k -> regular nf k m n xl x -> (t < n)%nat -> (u < nd)%nat ->
  Rabs (sg_predict_derivs_jaccoef m n nf nd k xl x jac mu (jaccoef_of nv c jl) t u
        - sg_predict_derivs_dense m n nf nv nd k xl jl x jac c mu t u)
  <= sum m (fun s => cerr01 nf k (xl s) (x t) (jaccoef_of nv c jl s) (fun e => jac t e u)).
Proof.
  intros m n nf nv nd k xl jl x jac c mu t u W L Rg Ht Hu.
  pose proof (predict_derivs_jaccoef_close m n nf nv nd k 0 xl jl x jac c mu t u W L Ht Hu) as E.
  rewrite <- (sg_predict_derivs_iter_eq m n nf nv nd k 0) by auto.
  rewrite <- predict_derivs_iter_eq in E by auto. exact E.
Qed.
Lemma sg_jaccoef_values_close : forall m n nf nv k xl jl x c mu t j,
  wf nf k -> ls_nonzero k -> (t < n)%nat -> j = O ->
  Rabs (sg_predict_y_derivs_jaccoef m n nf k xl x mu (jaccoef_of nv c jl) t j
        - sg_predict_y_derivs_dense m n nf nv k xl jl x c mu t j)
  <= sum m (fun s => cerr0 nf k (xl s) (x t) (jaccoef_of nv c jl s)).
Proof. exact predict_y_derivs_jaccoef_close. Qed.
