(** Facts on kernels written by the user and on the sums and products they are put in. *)
From Coq Require Import List String Reals Lia Lra Arith.
From Coquelicot Require Import Coquelicot.
From Verif Require Import Base.Sums Base.Mat Base.PSD Model.Arrays Model.Kernels Model.PyDict Model.Params Model.Calls Model.Kernelizers
  Model.KernelObj Model.KernelMethods Model.CustomKernel Spec.Partial Spec.KernelSpec Spec.KernelMethodsSpec Spec.CustomSpec
  Proofs.Deriv Proofs.KernelDerivs Proofs.Loops Proofs.Contraction Proofs.KernelPropLemmas.
Import ListNotations.
Open Scope R_scope.

Lemma traced_ok : forall u nf ad t b f, accepts (u_sig u) 3 ["active_dims"%string] = true -> u_body u nf ad t = Ok b ->
  traced_base u nf ad t f = Ok (Some (f b)).
Proof. intros u nf ad t b f S B. unfold traced_base, call. rewrite S, B. reflexivity. Qed.

Lemma user_differentiates : forall u nf ad t b, accepts (u_sig u) 3 ["active_dims"%string] = true -> u_body u nf ad t = Ok b ->
  autodiff nf (tr_k b) (tr_g0 b) (tr_g1 b) (tr_h b) -> differentiates (user_methods u ad) t nf (tr_k b).
Proof.
  intros u nf ad t b S B D.
  assert (D0 : forall x y f, (f < nf)%nat -> partial0 (tr_k b) x y f (tr_g0 b x y f)) by (intros x y f H; apply (D x y f f H H)).
  assert (D1 : forall x y f, (f < nf)%nat -> partial1 (tr_k b) x y f (tr_g1 b x y f)) by (intros x y f H; apply (D x y f f H H)).
  assert (D2 : forall x y f e, (f < nf)%nat -> (e < nf)%nat -> partial01 (tr_k b) x y f e (tr_h b x y f e)) by (intros x y f e H H'; apply (D x y f e H H')).
  constructor; intros; eexists;
    (split; [cbn [user_methods o_k o_d0k o_d1k o_d01k o_d0kj o_d1kj o_d01kj o_d0kjc o_d01kjc]; unfold run_plain, run_jac, run_jac2, run_coef, run_coefjac;
      cbn [grad_kernelize grad0_dispatch grad1_dispatch grad01_dispatch bind]; apply traced_ok; eassumption|]); intros.
  - reflexivity.
  - unfold grad0_kernelize, rs_row. rewrite blk_div, blk_mod by auto. now apply D0.
  - unfold grad1_kernelize, rs_col. rewrite blk_div, blk_mod by auto. now apply D1.
  - unfold grad01_kernelize, rs_4. rewrite !blk_div, !blk_mod by auto. now apply D2.
  - exists (tr_g0 b (X1 s) (X2 u0)). split; [intros; now apply D0|]. rewrite grad0jac_entry by auto. apply sum_ext; intros; ring.
  - exists (tr_g1 b (X1 s) (X2 u0)). split; [intros; now apply D1|]. rewrite grad1jac_entry by auto. apply sum_ext; intros; ring.
  - exists (tr_h b (X1 s) (X2 u0)). split; [intros; now apply D2|]. rewrite grad01jac_entry by auto. reflexivity.
  - exists (tr_g0 b (X1 s) (X2 u0)). split; [intros; now apply D0|]. rewrite grad0jaccoef_untraced_entry by auto. apply sum_ext; intros; ring.
  - exists (tr_h b (X1 s) (X2 u0)). split; [intros; now apply D2|]. rewrite grad01jaccoef_untraced_entry by auto. reflexivity.
Qed.

Lemma library_differentiates : forall o t nf k, computes o t k -> wf nf k -> ls_nonzero k -> exact k -> no_m52 k ->
  differentiates o t nf (kernel_at nf k).
Proof.
  intros o t nf k [K D0 D1 D2 J0 J1 J2 C0 C2] W L E M.
  constructor; intros; eexists; (split; [first [apply K|apply D0|apply D1|apply D2|apply J0|apply J1|apply J2|apply C0|apply C2]|]); intros.
  - apply kk_at.
  - now apply d0k_partial.
  - now apply d1k_partial.
  - now apply d01k_partial.
  - exists (fun f => d0k nf k X1 X2 (s * nf + f)%nat u). split; [intros; now apply d0k_partial|now apply d0kj_ctr].
  - exists (fun f => d1k nf k X1 X2 s (u * nf + f)%nat). split; [intros; now apply d1k_partial|now apply d1kj_ctr].
  - exists (fun f e => d01k nf k X1 X2 (s * nf + f)%nat (u * nf + e)%nat). split; [intros; now apply d01k_partial|now apply d01kj_ctr].
  - exists (fun f => d0k nf k X1 X2 (s * nf + f)%nat u). split; [intros; now apply d0k_partial|now apply d0kjc_ctr].
  - exists (fun f e => d01k nf k X1 X2 (s * nf + f)%nat (u * nf + e)%nat). split; [intros; now apply d01k_partial|now apply d01kjc_ctr].
Qed.

Section Composite.
  Context (p q : methods) (t t1 t2 : ptree) (nf : nat) (k1 k2 : Vec -> Vec -> R).
  Hypothesis I1 : item "kernel1" t = Ok t1.
  Hypothesis I2 : item "kernel2" t = Ok t2.
  Hypothesis P : differentiates p t1 nf k1.
  Hypothesis Q : differentiates q t2 nf k2.

  Lemma in_halves : forall f, halves t f = f t1 t2.
  Proof. intro f. unfold halves. rewrite I1. cbn [bind]. rewrite I2. reflexivity. Qed.

  Lemma sum_differentiates : differentiates (sum_methods p q) t nf (fun x y => k1 x y + k2 x y).
  Proof.
    constructor; intros; cbn [sum_methods o_k o_d0k o_d1k o_d01k o_d0kj o_d1kj o_d01kj o_d0kjc o_d01kjc];
      unfold sum_kernels, sum_kernels_jac, sum_kernels_jac2, sum_kernels_coef, sum_kernels_coefjac; rewrite in_halves.
    - destruct (f_k _ _ _ _ P X1 X2) as [A [-> HA]], (f_k _ _ _ _ Q X1 X2) as [B [-> HB]]. eexists; split; [reflexivity|].
      intros. cbv beta. now rewrite HA, HB.
    - destruct (f_d0k _ _ _ _ P X1 X2) as [A [-> HA]], (f_d0k _ _ _ _ Q X1 X2) as [B [-> HB]]. eexists; split; [reflexivity|].
      intros. apply partial0_sum; auto.
    - destruct (f_d1k _ _ _ _ P X1 X2) as [A [-> HA]], (f_d1k _ _ _ _ Q X1 X2) as [B [-> HB]]. eexists; split; [reflexivity|].
      intros. apply partial1_sum; auto.
    - destruct (f_d01k _ _ _ _ P X1 X2) as [A [-> HA]], (f_d01k _ _ _ _ Q X1 X2) as [B [-> HB]]. eexists; split; [reflexivity|].
      intros. apply partial01_sum; auto.
    - destruct (f_d0kj _ _ _ _ P n m nv X1 X2 J) as [A [-> HA]], (f_d0kj _ _ _ _ Q n m nv X1 X2 J) as [B [-> HB]]. eexists; split; [reflexivity|].
      intros s v u Hs Hv Hu. destruct (HA s v u Hs Hv Hu) as [a [Ha Ea]], (HB s v u Hs Hv Hu) as [b [Hb Eb]].
      exists (fun f => a f + b f). split; [intros; apply partial0_sum; auto|]. rewrite Ea, Eb, <- sum_plus. apply sum_ext; intros; ring.
    - destruct (f_d1kj _ _ _ _ P n m nv X1 X2 J) as [A [-> HA]], (f_d1kj _ _ _ _ Q n m nv X1 X2 J) as [B [-> HB]]. eexists; split; [reflexivity|].
      intros s u w Hs Hu Hw. destruct (HA s u w Hs Hu Hw) as [a [Ha Ea]], (HB s u w Hs Hu Hw) as [b [Hb Eb]].
      exists (fun f => a f + b f). split; [intros; apply partial1_sum; auto|]. rewrite Ea, Eb, <- sum_plus. apply sum_ext; intros; ring.
    - destruct (f_d01kj _ _ _ _ P n m nv1 nv2 X1 X2 J1 J2) as [A [-> HA]], (f_d01kj _ _ _ _ Q n m nv1 nv2 X1 X2 J1 J2) as [B [-> HB]]. eexists; split; [reflexivity|].
      intros s v u w Hs Hv Hu Hw. destruct (HA s v u w Hs Hv Hu Hw) as [a [Ha Ea]], (HB s v u w Hs Hv Hu Hw) as [b [Hb Eb]].
      exists (fun f e => a f e + b f e). split; [intros; apply partial01_sum; auto|]. rewrite Ea, Eb, <- sum_plus. apply sum_ext; intros.
      rewrite <- sum_plus. apply sum_ext; intros; ring.
    - destruct (f_d0kjc _ _ _ _ P n m X1 X2 C) as [A [-> HA]], (f_d0kjc _ _ _ _ Q n m X1 X2 C) as [B [-> HB]]. eexists; split; [reflexivity|].
      intros s u Hs Hu. destruct (HA s u Hs Hu) as [a [Ha Ea]], (HB s u Hs Hu) as [b [Hb Eb]].
      exists (fun f => a f + b f). split; [intros; apply partial0_sum; auto|]. rewrite Ea, Eb, <- sum_plus. apply sum_ext; intros; ring.
    - destruct (f_d01kjc _ _ _ _ P n m nv X1 X2 C J) as [A [-> HA]], (f_d01kjc _ _ _ _ Q n m nv X1 X2 C J) as [B [-> HB]]. eexists; split; [reflexivity|].
      intros s u w Hs Hu Hw. destruct (HA s u w Hs Hu Hw) as [a [Ha Ea]], (HB s u w Hs Hu Hw) as [b [Hb Eb]].
      exists (fun f e => a f e + b f e). split; [intros; apply partial01_sum; auto|]. rewrite Ea, Eb, <- sum_plus. apply sum_ext; intros.
      rewrite <- sum_plus. apply sum_ext; intros; ring.
  Qed.

  (** the two-sided contraction of the product rule *)
  Lemma contract_prod : forall (l r : Vec) (h1 h2 : Mat) (a1 a2 b1 b2 : Vec) x y,
    x * sum nf (fun f => sum nf (fun e => l f * h2 f e * r e)) + sum nf (fun f => l f * a1 f) * sum nf (fun e => r e * b2 e)
      + sum nf (fun e => r e * b1 e) * sum nf (fun f => l f * a2 f) + sum nf (fun f => sum nf (fun e => l f * h1 f e * r e)) * y
    = sum nf (fun f => sum nf (fun e => l f * (x * h2 f e + a1 f * b2 e + b1 e * a2 f + h1 f e * y) * r e)).
  Proof.
    intros. rewrite (Rmult_comm (sum nf (fun e => r e * b1 e))). rewrite !sum_mult. rewrite <- sum_scal_l, <- sum_scal_r, <- !sum_plus.
    apply sum_ext; intros f Hf. rewrite <- sum_scal_l, <- sum_scal_r, <- !sum_plus. apply sum_ext; intros; ring.
  Qed.
  Lemma contract_one : forall (l d1 d2 : Vec) x y,
    x * sum nf (fun f => l f * d2 f) + sum nf (fun f => l f * d1 f) * y = sum nf (fun f => l f * (x * d2 f + d1 f * y)).
  Proof. intros. rewrite <- sum_scal_l, <- sum_scal_r, <- sum_plus. apply sum_ext; intros; ring. Qed.

  Lemma prod_differentiates : differentiates (prod_methods p q) t nf (fun x y => k1 x y * k2 x y).
  Proof.
    constructor; intros; cbn [prod_methods o_k o_d0k o_d1k o_d01k o_d0kj o_d1kj o_d01kj o_d0kjc o_d01kjc];
      unfold prod_kernels, prod_kernels_deriv, prod_kernels_deriv01, prod_kernels_deriv_jac, prod_kernels_deriv0_jaccoef, prod_kernels_deriv01_jac, prod_kernels_deriv01_jaccoef;
      rewrite in_halves;
      destruct (f_k _ _ _ _ P X1 X2) as [A [-> HA]], (f_k _ _ _ _ Q X1 X2) as [B [-> HB]].
    - eexists; split; [reflexivity|]. intros. cbv beta. now rewrite HA, HB.
    - destruct (f_d0k _ _ _ _ P X1 X2) as [A0 [-> HA0]], (f_d0k _ _ _ _ Q X1 X2) as [B0 [-> HB0]]. eexists; split; [reflexivity|].
      intros. unfold rep_row. rewrite blk_div, HA, HB by auto. apply partial0_prod; auto.
    - destruct (f_d1k _ _ _ _ P X1 X2) as [A1 [-> HA1]], (f_d1k _ _ _ _ Q X1 X2) as [B1 [-> HB1]]. eexists; split; [reflexivity|].
      intros. unfold rep_col. rewrite blk_div, HA, HB by auto. apply partial1_prod; auto.
    - destruct (f_d0k _ _ _ _ P X1 X2) as [A0 [-> HA0]], (f_d0k _ _ _ _ Q X1 X2) as [B0 [-> HB0]].
      destruct (f_d1k _ _ _ _ P X1 X2) as [A1 [-> HA1]], (f_d1k _ _ _ _ Q X1 X2) as [B1 [-> HB1]].
      destruct (f_d01k _ _ _ _ P X1 X2) as [A2 [-> HA2]], (f_d01k _ _ _ _ Q X1 X2) as [B2 [-> HB2]]. eexists; split; [reflexivity|].
      intros. unfold rep_col, rep_row. rewrite !blk_div, HA, HB by auto. apply partial01_prod; auto.
    - destruct (f_d0kj _ _ _ _ P n m nv X1 X2 J) as [A0 [-> HA0]], (f_d0kj _ _ _ _ Q n m nv X1 X2 J) as [B0 [-> HB0]]. eexists; split; [reflexivity|].
      intros s v u Hs Hv Hu. destruct (HA0 s v u Hs Hv Hu) as [a [Ha Ea]], (HB0 s v u Hs Hv Hu) as [b [Hb Eb]].
      exists (fun f => k1 (X1 s) (X2 u) * b f + a f * k2 (X1 s) (X2 u)). split; [intros; apply partial0_prod; auto|].
      unfold rep_row. rewrite blk_div, HA, HB, Ea, Eb by auto. apply contract_one.
    - destruct (f_d1kj _ _ _ _ P n m nv X1 X2 J) as [A1 [-> HA1]], (f_d1kj _ _ _ _ Q n m nv X1 X2 J) as [B1 [-> HB1]]. eexists; split; [reflexivity|].
      intros s u w Hs Hu Hw. destruct (HA1 s u w Hs Hu Hw) as [a [Ha Ea]], (HB1 s u w Hs Hu Hw) as [b [Hb Eb]].
      exists (fun f => k1 (X1 s) (X2 u) * b f + a f * k2 (X1 s) (X2 u)). split; [intros; apply partial1_prod; auto|].
      unfold rep_col. rewrite blk_div, HA, HB, Ea, Eb by auto. apply contract_one.
    - destruct (f_d0kj _ _ _ _ P n m nv1 X1 X2 J1) as [A0 [-> HA0]], (f_d0kj _ _ _ _ Q n m nv1 X1 X2 J1) as [B0 [-> HB0]].
      destruct (f_d1kj _ _ _ _ P n m nv2 X1 X2 J2) as [A1 [-> HA1]], (f_d1kj _ _ _ _ Q n m nv2 X1 X2 J2) as [B1 [-> HB1]].
      destruct (f_d01kj _ _ _ _ P n m nv1 nv2 X1 X2 J1 J2) as [A2 [-> HA2]], (f_d01kj _ _ _ _ Q n m nv1 nv2 X1 X2 J1 J2) as [B2 [-> HB2]]. eexists; split; [reflexivity|].
      intros s v u w Hs Hv Hu Hw.
      destruct (HA0 s v u Hs Hv Hu) as [a0 [Ha0 Ea0]], (HB0 s v u Hs Hv Hu) as [b0 [Hb0 Eb0]].
      destruct (HA1 s u w Hs Hu Hw) as [a1 [Ha1 Ea1]], (HB1 s u w Hs Hu Hw) as [b1 [Hb1 Eb1]].
      destruct (HA2 s v u w Hs Hv Hu Hw) as [a2 [Ha2 Ea2]], (HB2 s v u w Hs Hv Hu Hw) as [b2 [Hb2 Eb2]].
      exists (fun f e => k1 (X1 s) (X2 u) * b2 f e + a0 f * b1 e + a1 e * b0 f + a2 f e * k2 (X1 s) (X2 u)). split; [intros; apply partial01_prod; auto|].
      unfold rep_col, rep_row. rewrite !blk_div, HA, HB, Ea0, Eb0, Ea1, Eb1, Ea2, Eb2 by auto.
      exact (contract_prod (fun f => J1 s f v) (fun e => J2 u e w) a2 b2 a0 b0 a1 b1 _ _).
    - destruct (f_d0kjc _ _ _ _ P n m X1 X2 C) as [A0 [-> HA0]], (f_d0kjc _ _ _ _ Q n m X1 X2 C) as [B0 [-> HB0]]. eexists; split; [reflexivity|].
      intros s u Hs Hu. destruct (HA0 s u Hs Hu) as [a [Ha Ea]], (HB0 s u Hs Hu) as [b [Hb Eb]].
      exists (fun f => k1 (X1 s) (X2 u) * b f + a f * k2 (X1 s) (X2 u)). split; [intros; apply partial0_prod; auto|].
      rewrite HA, HB, Ea, Eb by auto. apply contract_one.
    - destruct (f_d0kjc _ _ _ _ P n m X1 X2 C) as [A0 [-> HA0]], (f_d0kjc _ _ _ _ Q n m X1 X2 C) as [B0 [-> HB0]].
      destruct (f_d1kj _ _ _ _ P n m nv X1 X2 J) as [A1 [-> HA1]], (f_d1kj _ _ _ _ Q n m nv X1 X2 J) as [B1 [-> HB1]].
      destruct (f_d01kjc _ _ _ _ P n m nv X1 X2 C J) as [A2 [-> HA2]], (f_d01kjc _ _ _ _ Q n m nv X1 X2 C J) as [B2 [-> HB2]]. eexists; split; [reflexivity|].
      intros s u w Hs Hu Hw.
      destruct (HA0 s u Hs Hu) as [a0 [Ha0 Ea0]], (HB0 s u Hs Hu) as [b0 [Hb0 Eb0]].
      destruct (HA1 s u w Hs Hu Hw) as [a1 [Ha1 Ea1]], (HB1 s u w Hs Hu Hw) as [b1 [Hb1 Eb1]].
      destruct (HA2 s u w Hs Hu Hw) as [a2 [Ha2 Ea2]], (HB2 s u w Hs Hu Hw) as [b2 [Hb2 Eb2]].
      exists (fun f e => k1 (X1 s) (X2 u) * b2 f e + a0 f * b1 e + a1 e * b0 f + a2 f e * k2 (X1 s) (X2 u)). split; [intros; apply partial01_prod; auto|].
      unfold rep_col. rewrite !blk_div, HA, HB, Ea0, Eb0, Ea1, Eb1, Ea2, Eb2 by auto.
      exact (contract_prod (fun f => C s f) (fun e => J u e w) a2 b2 a0 b0 a1 b1 _ _).
  Qed.
End Composite.

Lemma covariance_composite : forall k1 k2, covariance k1 -> covariance k2 ->
  covariance (fun x y => k1 x y + k2 x y) /\ covariance (fun x y => k1 x y * k2 x y).
Proof.
  intros k1 k2 [S1 P1] [S2 P2]. split; (split; [intros; now rewrite S1, S2|]); intros n X c.
  - exact (psd_madd n (fun i j => k1 (X i) (X j)) (fun i j => k2 (X i) (X j)) (P1 n X) (P2 n X) c).
  - refine (psd_hada n (fun i j => k1 (X i) (X j)) (fun i j => k2 (X i) (X j)) (P1 n X) _ (P2 n X) c). intros i j _ _. apply S2.
Qed.
(** the matrix of k over one batch of points *)
Lemma covariance_gram : forall o t nf k n X, differentiates o t nf k -> covariance k ->
  exists A, o_k o nf X X t = Ok (Some A) /\ (forall i j, A i j = A j i) /\
  forall c : Vec, 0 <= sum n (fun i => sum n (fun j => c i * A i j * c j)).
Proof.
  intros o t nf k n X D [S P]. destruct (f_k _ _ _ _ D X X) as [A [E H]]. exists A. split; [exact E|]. split; [intros; rewrite !H; apply S|].
  intro c. erewrite sum_ext; [exact (P n X c)|]. intros i _. apply sum_ext; intros j _. now rewrite H.
Qed.

(** ** the function of the class docstring takes no active_dims *)
Lemma unaccepted_raises : forall u ad, accepts (u_sig u) 3 ["active_dims"%string] = false -> raises (user_methods u ad) TypeError.
Proof.
  intros u ad S. assert (T : forall nf t f, traced_base u nf ad t f = Err TypeError) by (intros; unfold traced_base, call; now rewrite S).
  unfold raises. cbn [user_methods o_k o_d0k o_d1k o_d01k o_d0kj o_d1kj o_d01kj o_d0kjc o_d01kjc].
  unfold run_plain, run_jac, run_jac2, run_coef, run_coefjac. cbn [grad_kernelize grad0_dispatch grad1_dispatch grad01_dispatch bind].
  repeat split; intros; apply T.
Qed.
Lemma docstring_raises : forall body ad, raises (user_methods (UserBase (Sig ["x1"; "x2"; "params"] []) body) ad)%string TypeError.
Proof. intros. now apply unaccepted_raises. Qed.
Lemma argnums_spec : forall wj wjc wjc' tr tr',
  (forall a, grad_kernelize a false wjc tr = grad_kernelize a false wjc' tr') /\
  grad_kernelize Arg1 wj wjc tr = grad_kernelize Arg1 wj wjc' tr' /\
  grad_kernelize ArgOther wj wjc tr = Err ValueError /\
  (forall a, a <> ArgOther -> exists l, grad_kernelize a wj wjc tr = Ok l).
Proof.
  intros. split; [intros []; reflexivity|]. split; [reflexivity|]. split; [reflexivity|].
  intros [] H; try (eexists; reflexivity). now destruct H.
Qed.
