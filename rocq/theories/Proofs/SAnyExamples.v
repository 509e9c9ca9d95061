(** The kernel of Proofs/CustomExamples.v plus the linear kernel. *)
From Coq Require Import List String Reals.
From Verif Require Import Base.Sums Base.Mat Model.Kernels Model.PyDict Model.Params Model.Calls Model.KernelObj Model.KernelMethods
  Model.CustomKernel Model.GPRAny Spec.KernelSpec Spec.KernelMethodsSpec Spec.CustomSpec Spec.SmoothSpec Spec.AnySpec
  Proofs.SmoothFacts Proofs.CustomFacts Proofs.CustomExamples Proofs.AnyExamples Proofs.KernelObjFacts Proofs.KernelMethodsFacts Proofs.KernelPropLemmas.
Import ListNotations.
Open Scope R_scope.

Definition plus_object : kernel_object := sum_object (user_object sq_base None) (library_object (OAtom CLinear None)).
Definition plus_k (nf : nat) (x y : Vec) : R := sq_k x y + kernel_at nf (KAtom None ALin) x y.
Lemma plus_case : forall nf, (0 < nf)%nat ->
  differentiates (ko plus_object) mixed_params nf (plus_k nf) /\ covariance (plus_k nf) /\ smooth_kernel nf (plus_k nf) /\
  ~ mode_ok plus_object true.
Proof.
  intros nf H. refine (conj _ (conj _ (conj _ _))).
  - apply (sum_differentiates _ _ mixed_params (Node []) (Node [])); [reflexivity|reflexivity| |].
    + exact (user_differentiates sq_base nf None _ _ sq_accepted eq_refl (sq_autodiff nf)).
    + destruct (default_computes (OAtom CLinear None)) as [t [E C]]. injection E as <-.
      apply library_differentiates; [exact C|exact I|exact I|exact I|reflexivity].
  - apply (covariance_composite sq_k (kernel_at nf (KAtom None ALin)) sq_covariance (lin_covariance nf)).
  - apply smooth_sum; [exists sq_g0, sq_g1, sq_h; now apply sq_smooth|]. apply smooth_library; exact I.
  - intro M. destruct (M eq_refl) as [E _]. discriminate E.
Qed.
