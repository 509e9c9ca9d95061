(** Cases meeting the hypotheses of the theorems in Props/EquivProps.v. *)
From Coq Require Import Reals Arith List Lia Lra.
From Verif Require Import Base.Sums Base.Mat Base.PSD Model.Arrays Model.Kernels Model.LinAlg Model.GPR
  Spec.KernelSpec Spec.GPSpec Spec.EquivSpec Proofs.LinAlgFacts Proofs.GPRFacts Proofs.GPRExamples.
Open Scope R_scope.

Lemma ex_C64 : linalg_ok ref_la /\ all_atoms (fun _ a => psd_atom a) gp_kernel /\ permutes 3 (fun i => (2 - i)%nat)
  /\ (forall m nv sigma x jac, pd (m * nv) (noisy sigma (d01kj m m 3 nv nv gp_kernel x x jac jac)))
  /\ stationary (KProd (KAtom None (AM52 2)) (KSum (KAtom (Some (1 :: nil)%nat) (APer 1 3)) (KAtom None (AConst 2)))).
Proof.
  destruct gp_kernel_ok as [H1 [H2 [H3 [H4 H5]]]].
  refine (conj ref_la_ok (conj H1 (conj _ (conj _ _)))).
  - split; intros; lia.
  - intros m nv sigma x jac. exact (Ad_pd m 3 nv gp_kernel sigma x jac H1 H2 H3 H5).
  - simpl; tauto.
Qed.
