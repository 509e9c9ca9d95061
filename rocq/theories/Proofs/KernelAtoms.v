(** Value and derivatives of the kernel atoms. *)
From Coq Require Import Reals Lra Lia Arith List FunctionalExtensionality.
From Coquelicot Require Import Coquelicot.
From Verif Require Import Base.Sums Base.Mat Model.Arrays Model.Distances Model.Kernelizers
  Model.Kernels Spec.Partial Proofs.Deriv.
Open Scope R_scope.

Lemma jit12_pos : 0 < jit12.
Proof. unfold jit12. apply Rinv_0_lt_compat. lra. Qed.
Lemma tiny36_pos : 0 < tiny36.
Proof. unfold tiny36. apply Rinv_0_lt_compat. lra. Qed.
Lemma tiny36_lt_jit12 : tiny36 < jit12.
Proof. unfold tiny36, jit12. apply Rinv_lt_contravar; lra. Qed.

(** inner functions *)
Definition h_mul (x y : R) := x * y.
Definition h_sq (l x y : R) := (x / l - y / l) ^ 2.
Definition h_sq_x (l x y : R) := 2 / l * (x / l - y / l).
Definition h_sq_y (l x y : R) := - (2 / l * (x / l - y / l)).
Definition h_sq_xy (l x y : R) := - (2 / l ^ 2).
Definition h_per (l p x y : R) := (sin (PI * Rabs (x - y) / p)) ^ 2 / l.
Definition h_per_x (l p x y : R) := 2 * sin (PI * (x - y) / p) * cos (PI * (x - y) / p) * (PI / p) / l.
Definition h_per_y (l p x y : R) := - h_per_x l p x y.
Definition h_per_xy (l p x y : R) :=
  - (2 * (PI / p) * (PI / p) *
     (cos (PI * (x - y) / p) * cos (PI * (x - y) / p)
      - sin (PI * (x - y) / p) * sin (PI * (x - y) / p)) / l).

Lemma h_mul_dx : forall x y, is_derive (fun z => h_mul z y) x y.
Proof. intros. unfold h_mul. auto_derive; auto; ring. Qed.
Lemma h_mul_dy : forall x y, is_derive (fun z => h_mul x z) y x.
Proof. intros. unfold h_mul. auto_derive; auto; ring. Qed.
Lemma h_mul_dxy : forall x y : R, is_derive (fun z => z) y 1.
Proof. intros. auto_derive; auto; ring. Qed.

Lemma h_sq_dx : forall l x y, is_derive (fun z => h_sq l z y) x (h_sq_x l x y).
Proof. intros. unfold h_sq, h_sq_x. unfold Rdiv. auto_derive; auto; simpl; ring. Qed.
Lemma h_sq_dy : forall l x y, is_derive (fun z => h_sq l x z) y (h_sq_y l x y).
Proof. intros. unfold h_sq, h_sq_y. unfold Rdiv. auto_derive; auto; simpl; ring. Qed.
Lemma h_sq_dxy : forall l x y, l <> 0 -> is_derive (fun z => h_sq_x l x z) y (h_sq_xy l x y).
Proof.
  intros l x y Hl. unfold h_sq_x, h_sq_xy. unfold Rdiv. auto_derive; auto. simpl. field; auto.
Qed.

Lemma sin_abs_sq : forall p z, (sin (PI * Rabs z / p)) ^ 2 = (sin (PI * z / p)) ^ 2.
Proof.
  intros p z. unfold Rabs. destruct (Rcase_abs z); auto.
  replace (PI * - z / p) with (- (PI * z / p)) by (unfold Rdiv; ring).
  rewrite sin_neg. ring.
Qed.
Lemma h_per_eq : forall l p x y, h_per l p x y = (sin (PI * (x - y) / p)) ^ 2 / l.
Proof. intros. unfold h_per. now rewrite sin_abs_sq. Qed.
Lemma h_per_dx : forall l p x y, is_derive (fun z => h_per l p z y) x (h_per_x l p x y).
Proof.
  intros. eapply is_derive_ext; [intros t; symmetry; apply h_per_eq|].
  unfold h_per_x. unfold Rdiv, Rminus. auto_derive; auto; simpl; ring.
Qed.
Lemma h_per_dy : forall l p x y, is_derive (fun z => h_per l p x z) y (h_per_y l p x y).
Proof.
  intros. eapply is_derive_ext; [intros t; symmetry; apply h_per_eq|].
  unfold h_per_y, h_per_x. unfold Rdiv, Rminus. auto_derive; auto; simpl; ring.
Qed.
Lemma h_per_dxy : forall l p x y, is_derive (fun z => h_per_x l p x z) y (h_per_xy l p x y).
Proof.
  intros. unfold h_per_xy, h_per_x. unfold Rdiv, Rminus. auto_derive; auto; simpl. ring.
Qed.

(** outer functions *)
Lemma pow_dphi : forall d off u,
  is_derive (fun u => (off + u) ^ d) u (INR d * (off + u) ^ (d - 1)).
Proof.
  intros. auto_derive; auto. replace (d - 1)%nat with (pred d) by lia. ring.
Qed.
Lemma pow_dphi' : forall d off u,
  is_derive (fun u => INR d * (off + u) ^ (d - 1)) u (INR d * (INR d - 1) * (off + u) ^ (d - 2)).
Proof.
  intros d off u. auto_derive; auto.
  replace (pred (d - 1)) with (d - 2)%nat by lia.
  destruct d as [|d].
  - simpl; ring.
  - replace (S d - 1)%nat with d by lia. rewrite S_INR. ring.
Qed.
Lemma exp_dphi : forall c u, is_derive (fun u => exp (c * u)) u (c * exp (c * u)).
Proof. intros. auto_derive; auto; ring. Qed.

(** d(u) = sqrt(c*(u+j)) for positive argument *)
Lemma sqrt_lin : forall c j u, 0 < c * (u + j) ->
  is_derive (fun u => sqrt (c * (u + j))) u (c / (2 * sqrt (c * (u + j)))).
Proof.
  intros c j u H. assert (0 < sqrt (c * (u + j))) by now apply sqrt_lt_R0.
  auto_derive; auto. field. lra.
Qed.

Definition dd (c j u : R) := sqrt (c * (u + j)).
Definition m12_phi (c j u : R) := exp (- dd c j u).
Definition m12_phi' (c j u : R) := - (c / (2 * dd c j u)) * exp (- dd c j u).
Definition m12_phi'' (c j u : R) :=
  c * c / (4 * (dd c j u) ^ 2) * (1 + / dd c j u) * exp (- dd c j u).
Definition m32_phi (c j u : R) := (1 + dd c j u) * exp (- dd c j u).
Definition m32_phi' (c j u : R) := - (c / 2) * exp (- dd c j u).
Definition m32_phi'' (c j u : R) := c * c / (4 * dd c j u) * exp (- dd c j u).
Definition m52_phi (c j u : R) := (1 + dd c j u + (dd c j u) ^ 2 / 3) * exp (- dd c j u).
Definition m52_phi' (c j u : R) := - (c / 6) * (1 + dd c j u) * exp (- dd c j u).
Definition m52_phi'' (c j u : R) := c * c / 12 * exp (- dd c j u).

Lemma dd_pos : forall c j u, 0 < c * (u + j) -> 0 < dd c j u.
Proof. intros. now apply sqrt_lt_R0. Qed.
Lemma dd_is : forall c j u, 0 < c * (u + j) -> is_derive (dd c j) u (c / (2 * dd c j u)).
Proof. intros. now apply sqrt_lin. Qed.
Lemma dd_ex : forall c j u, 0 < c * (u + j) -> ex_derive (dd c j) u.
Proof. intros. eexists. now apply dd_is. Qed.
Lemma dd_D : forall c j u, 0 < c * (u + j) -> Derive (dd c j) u = c / (2 * dd c j u).
Proof. intros. apply is_derive_unique. now apply dd_is. Qed.

Ltac dd_tac := intros c j u H; pose proof (dd_pos c j u H); pose proof (dd_ex c j u H);
  auto_derive; [repeat split; auto; try lra | change (fun x : R => dd c j x) with (dd c j); try rewrite (dd_D c j u H)].

Lemma m12_phi_d : forall c j u, 0 < c * (u + j) -> is_derive (m12_phi c j) u (m12_phi' c j u).
Proof. unfold m12_phi, m12_phi'. dd_tac. field. lra. Qed.
Lemma m12_phi_dd : forall c j u, 0 < c * (u + j) -> is_derive (m12_phi' c j) u (m12_phi'' c j u).
Proof.
  unfold m12_phi', m12_phi''. dd_tac. field. lra.
Qed.
Lemma m32_phi_d : forall c j u, 0 < c * (u + j) -> is_derive (m32_phi c j) u (m32_phi' c j u).
Proof. unfold m32_phi, m32_phi'. dd_tac. field. lra. Qed.
Lemma m32_phi_dd : forall c j u, 0 < c * (u + j) -> is_derive (m32_phi' c j) u (m32_phi'' c j u).
Proof. unfold m32_phi', m32_phi''. dd_tac. field. lra. Qed.
Lemma m52_phi_d : forall c j u, 0 < c * (u + j) -> is_derive (m52_phi c j) u (m52_phi' c j u).
Proof. unfold m52_phi, m52_phi'. dd_tac. simpl. field. lra. Qed.
Lemma m52_phi_dd : forall c j u, 0 < c * (u + j) -> is_derive (m52_phi' c j) u (m52_phi'' c j u).
Proof. unfold m52_phi', m52_phi''. dd_tac. field. lra. Qed.
