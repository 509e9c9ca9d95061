(** Cases meeting the hypotheses of the theorems in Props/PublicProps.v. *)
From Coq Require Import Reals Arith List Lia Lra Bool.
From Verif Require Import Base.Sums Base.Mat Base.PSD Model.Arrays Model.Kernels Model.LinAlg Model.GPR Model.PyDict Model.Public
  Spec.KernelSpec Spec.GPSpec Spec.EquivSpec Spec.PublicSpec Proofs.LinAlgFacts Proofs.GPRFacts Proofs.GPRExamples Proofs.PublicFacts Proofs.GPRTDFit.
Import ListNotations.
Open Scope R_scope.
(** a product containing a sum, without Matern52 *)
Definition pub_kernel : kexp :=
  KProd (KSum (KAtom None (AConst 2)) (KAtom (Some [0; 2]%nat) ALin)) (KAtom None (APer 1 3)).
Lemma pub_kernel_ok : all_atoms (fun _ a => psd_atom a) pub_kernel /\ wf 3 pub_kernel /\ ls_nonzero pub_kernel
  /\ exact pub_kernel /\ dgram_ok pub_kernel /\ no_m52 pub_kernel /\ is_sum pub_kernel = false.
Proof.
  assert (E : exact pub_kernel) by (repeat split).
  refine (conj _ (conj _ (conj _ (conj E (conj (exact_dgram _ E) (conj _ eq_refl)))))).
  - simpl. repeat split; try lra; apply Rgt_not_eq; lra.
  - simpl. repeat split; auto; try (repeat constructor; simpl; intuition lia); intros d H; simpl in H; intuition lia.
  - simpl. repeat split; apply Rgt_not_eq; lra.
  - simpl. repeat split.
Qed.
Lemma ex_pub : forall choose x y jac xs jacs, exists out vout,
  gpr_predict_derivs ref_la 3 pub_kernel 1 (gpr_fit_derivs ref_la choose 3 pub_kernel 1 4 2 x y jac true 2) 5 2 xs jacs false false = Ok out /\
  gpr_predict_y_derivs ref_la 3 pub_kernel 1 (gpr_fit_derivs ref_la choose 3 pub_kernel 1 4 2 x y jac true 2) 5 xs false false = Ok vout.
Proof.
  intros choose x y jac xs jacs.
  destruct (proj2 (proj1 (pub_derivs_ok ref_la choose 3 pub_kernel 1 4 2 x y jac true 2 5 2 xs jacs false false))) as [out E]; [split; [reflexivity|]; reflexivity|].
  destruct (proj2 (proj1 (proj2 (pub_derivs_ok ref_la choose 3 pub_kernel 1 4 2 x y jac true 2 5 2 xs jacs false false)))) as [vout V]; [split; [reflexivity|]; reflexivity|].
  eauto.
Qed.
