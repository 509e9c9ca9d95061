(** The kernel of Proofs/CustomExamples.v is smooth, alone and multiplied by the linear kernel. *)
From Coq Require Import List String Reals Lra Lia Arith.
From Coquelicot Require Import Coquelicot.
From Verif Require Import Base.Sums Base.Mat Base.PSD Model.Arrays Model.Kernels Model.PyDict Model.Params Model.Calls Model.Kernelizers
  Model.KernelObj Model.KernelMethods Model.CustomKernel Model.GPRAny Spec.Partial Spec.KernelSpec Spec.KernelMethodsSpec Spec.CustomSpec Spec.SmoothSpec
  Proofs.Deriv Proofs.Jet2 Proofs.SmoothFacts Proofs.CustomExamples Proofs.KernelDerivs Proofs.KernelSym Proofs.Local Proofs.KernelPSD Proofs.CustomFacts Proofs.KernelObjFacts Proofs.KernelPropLemmas.
Import ListNotations.
Open Scope R_scope.

Lemma first_dir : forall nf (u : Vec) r, (0 < nf)%nat -> sum nf (fun f => u f * (if Nat.eqb f 0 then r else 0)) = u O * r.
Proof.
  intros nf u r H. rewrite (sum_ext nf _ (fun f => delta 0 f * (u f * r))).
  - exact (sum_delta_l nf 0 (fun f => u f * r) H).
  - intros f _. unfold delta. rewrite (Nat.eqb_sym 0 f). destruct (Nat.eqb_spec f 0); ring.
Qed.
Lemma sq_smooth : forall nf, (0 < nf)%nat -> smooth nf sq_k sq_g0 sq_g1 sq_h.
Proof.
  intros nf H. apply smooth_jet2. intros x u y v.
  assert (C1 : cont2 (fun s _ => x O + s * u O)).
  { apply (cont2_fst (fun s => x O + s * u O)). intro s. apply @ex_derive_continuous. auto_derive; auto. }
  assert (C2 : cont2 (fun _ t => y O + t * v O)).
  { apply (cont2_snd (fun t => y O + t * v O)). intro s. apply @ex_derive_continuous. auto_derive; auto. }
  assert (J1 : jet2 (fun s _ => x O + s * u O) (fun _ _ => u O) (fun _ _ => 0) (fun _ _ => 0)).
  { constructor; try apply cont2_const; [exact C1|intros; auto_derive; trivial; ring|intros; auto_derive; trivial; ring|intros; auto_derive; trivial; ring]. }
  assert (J2 : jet2 (fun _ t => y O + t * v O) (fun _ _ => 0) (fun _ _ => v O) (fun _ _ => 0)).
  { constructor; try apply cont2_const; [exact C2|intros; auto_derive; trivial; ring|intros; auto_derive; trivial; ring|intros; auto_derive; trivial; ring]. }
  eapply jet2_ext; [..|exact (jet2_mult _ _ _ _ _ _ _ _ (jet2_mult _ _ _ _ _ _ _ _ J1 J1) (jet2_mult _ _ _ _ _ _ _ _ J2 J2))];
    intros s t; cbv beta.
  - reflexivity.
  - unfold dir, sq_g0. rewrite first_dir by auto. unfold toward. ring.
  - unfold dir, sq_g1. rewrite first_dir by auto. unfold toward. ring.
  - unfold dir2, sq_h. set (X := toward x u s O). set (Y := toward y v t O).
    rewrite (sum_ext nf _ (fun f => u f * (if Nat.eqb f 0 then v O * (2 * X * (2 * Y)) else 0))).
    + rewrite first_dir by auto. unfold X, Y, toward. ring.
    + intros f _. destruct (Nat.eqb f 0).
      * rewrite <- (first_dir nf v (2 * X * (2 * Y)) H), <- sum_scal_l. apply sum_ext. intros e _. destruct (Nat.eqb e 0); ring.
      * rewrite Rmult_0_r. apply sum_zero_ext. intros e _. ring.
Qed.
(** MyKernel() * Linear(), as an argument of GPR *)
Definition mixed_object : kernel_object := prod_object (user_object sq_base None) (library_object (OAtom CLinear None)).
Definition mixed_k (nf : nat) (x y : Vec) : R := sq_k x y * kernel_at nf (KAtom None ALin) x y.
Lemma lin_covariance : forall nf, covariance (kernel_at nf (KAtom None ALin)).
Proof.
  intro nf. split; [intros; apply kernel_at_sym|]. intros n X c.
  pose proof (gram_psd_kk nf n X (KAtom None ALin) I c) as G. eapply Rle_trans; [exact G|]. apply Req_le.
  apply sum_ext; intros. apply sum_ext; intros. now rewrite kk_at.
Qed.
Lemma mixed_case : forall nf, (0 < nf)%nat ->
  differentiates (ko mixed_object) mixed_params nf (mixed_k nf) /\ covariance (mixed_k nf) /\ smooth_kernel nf (mixed_k nf).
Proof.
  intros nf H. refine (conj (mixed_ok nf) (conj _ _)).
  - apply (covariance_composite sq_k (kernel_at nf (KAtom None ALin)) sq_covariance (lin_covariance nf)).
  - apply smooth_prod; [exists sq_g0, sq_g1, sq_h; now apply sq_smooth|]. apply smooth_library; exact I.
Qed.
