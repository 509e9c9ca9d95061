(** A kernel written by a user, k(x, y) = x0^2 y0^2, alone and multiplied by the library's linear kernel. *)
From Coq Require Import List String Reals Lra Lia Arith.
From Coquelicot Require Import Coquelicot.
From Verif Require Import Base.Sums Base.Mat Base.PSD Model.Arrays Model.Kernels Model.PyDict Model.Params Model.Calls Model.Kernelizers
  Model.KernelObj Model.KernelMethods Model.CustomKernel Spec.Partial Spec.KernelSpec Spec.KernelMethodsSpec Spec.CustomSpec
  Proofs.Deriv Proofs.KernelObjFacts Proofs.KernelMethodsFacts Proofs.CustomFacts.
Import ListNotations.
Open Scope R_scope.

Definition sq_k (x y : Vec) : R := x O * x O * (y O * y O).
Definition sq_g0 (x y : Vec) : Vec := fun f => if Nat.eqb f 0 then 2 * x O * (y O * y O) else 0.
Definition sq_g1 (x y : Vec) : Vec := fun e => if Nat.eqb e 0 then x O * x O * (2 * y O) else 0.
Definition sq_h (x y : Vec) : Mat := fun f e => if Nat.eqb f 0 then if Nat.eqb e 0 then 2 * x O * (2 * y O) else 0 else 0.
Definition sq_base : user_base :=
  UserBase (Sig ["x1"; "x2"; "params"] ["active_dims"])%string (fun _ _ _ => Ok (Traced sq_k sq_g0 sq_g1 sq_h)).
Lemma sq_accepted : accepts (u_sig sq_base) 3 ["active_dims"%string] = true.
Proof. reflexivity. Qed.
Lemma sq_partial0 : forall x y f, partial0 sq_k x y f (sq_g0 x y f).
Proof.
  intros x y f. unfold partial0, sq_k, sq_g0, upd. destruct f as [|f]; cbn [Nat.eqb]; auto_derive; trivial; ring.
Qed.
Lemma sq_autodiff : forall nf, autodiff nf sq_k sq_g0 sq_g1 sq_h.
Proof.
  intros nf x y f e _ _. split; [apply sq_partial0|]. split.
  - unfold partial1, sq_k, sq_g1, upd. destruct e as [|e]; cbn [Nat.eqb]; auto_derive; trivial; ring.
  - exists (fun r => sq_g0 x (upd y e r) f). split; [apply filter_forall; intro r; apply sq_partial0|].
    unfold sq_g0, sq_h, upd. destruct f as [|f], e as [|e]; cbn [Nat.eqb]; auto_derive; trivial; ring.
Qed.
Lemma sq_covariance : covariance sq_k.
Proof.
  split; [intros; unfold sq_k; ring|]. intros n X c. unfold sq_k.
  replace (sum n (fun i => sum n (fun j => c i * (X i O * X i O * (X j O * X j O)) * c j)))
    with (sum n (fun i => c i * (X i O * X i O)) * sum n (fun i => c i * (X i O * X i O))); [apply Rle_0_sqr|].
  rewrite sum_mult. apply sum_ext; intros i _. apply sum_ext; intros j _. ring.
Qed.

(** MyKernel() * Linear() *)
Definition mixed : methods := prod_methods (user_methods sq_base None) (build (OAtom CLinear None)).
Definition mixed_params : ptree := Node [("kernel1", Node []); ("kernel2", Node [])]%string.
Lemma mixed_ok : forall nf, differentiates mixed mixed_params nf (fun x y => sq_k x y * kernel_at nf (KAtom None ALin) x y).
Proof.
  intro nf. apply (prod_differentiates _ _ mixed_params (Node []) (Node [])); [reflexivity|reflexivity| |].
  - exact (user_differentiates sq_base nf None _ _ sq_accepted eq_refl (sq_autodiff nf)).
  - destruct (default_computes (OAtom CLinear None)) as [t [E C]]. injection E as <-.
    apply library_differentiates; [exact C|exact I|exact I|exact I|reflexivity].
Qed.
