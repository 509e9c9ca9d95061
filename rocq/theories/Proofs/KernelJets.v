(** Base and batched kernels as composites, and their derivatives. *)
From Coq Require Import Reals Lra Lia Arith List FunctionalExtensionality.
From Coquelicot Require Import Coquelicot.
From Verif Require Import Base.Sums Base.Mat Model.Arrays Model.Distances Model.Kernelizers
  Model.Kernels Spec.Partial Proofs.Deriv Proofs.KernelAtoms.
Open Scope R_scope.

Definition ah (a : atom) : R -> R -> R :=
  match a with
  | AConst _ | ALin | APoly _ _ | ANoInt _ _ => h_mul
  | ASE l | AM12 l | AM32 l | AM52 l => h_sq l
  | APer l p => h_per l p
  end.
Definition ahx (a : atom) : R -> R -> R :=
  match a with
  | AConst _ | ALin | APoly _ _ | ANoInt _ _ => fun x y => y
  | ASE l | AM12 l | AM32 l | AM52 l => h_sq_x l
  | APer l p => h_per_x l p
  end.
Definition ahy (a : atom) : R -> R -> R :=
  match a with
  | AConst _ | ALin | APoly _ _ | ANoInt _ _ => fun x y => x
  | ASE l | AM12 l | AM32 l | AM52 l => h_sq_y l
  | APer l p => h_per_y l p
  end.
Definition ahxy (a : atom) : R -> R -> R :=
  match a with
  | AConst _ | ALin | APoly _ _ | ANoInt _ _ => fun x y => 1
  | ASE l | AM12 l | AM32 l | AM52 l => h_sq_xy l
  | APer l p => h_per_xy l p
  end.
(** base *)
Definition aphi (a : atom) (u : R) : R :=
  match a with
  | AConst v => v
  | ALin => u
  | APoly d off => (off + u) ^ d
  | ANoInt d off => (off + u) ^ d - off ^ d
  | ASE l => exp (- u)
  | AM12 l => exp (- sqrt (Rmax u tiny36))
  | AM32 l => (1 + sqrt (Rmax (3 * u) tiny36)) * exp (- sqrt (Rmax (3 * u) tiny36))
  | AM52 l => (1 + sqrt (Rmax (5 * u) tiny36) + 5 * u / 3) * exp (- sqrt (Rmax (5 * u) tiny36))
  | APer l p => exp (-4 * u)
  end.
Definition aphi' (a : atom) (u : R) : R :=
  match a with
  | AConst v => 0
  | ALin => 1
  | APoly d off | ANoInt d off => INR d * (off + u) ^ (d - 1)
  | ASE l => - exp (- u)
  | AM12 l => m12_phi' 1 0 u
  | AM32 l => m32_phi' 3 0 u
  | AM52 l => m52_phi' 5 0 u
  | APer l p => -4 * exp (-4 * u)
  end.
Definition aphi'' (a : atom) (u : R) : R :=
  match a with
  | AConst v => 0
  | ALin => 0
  | APoly d off | ANoInt d off => INR d * (INR d - 1) * (off + u) ^ (d - 2)
  | ASE l => exp (- u)
  | AM12 l => m12_phi'' 1 0 u
  | AM32 l => m32_phi'' 3 0 u
  | AM52 l => m52_phi'' 5 0 u
  | APer l p => 16 * exp (-4 * u)
  end.
Definition aP (a : atom) (u : R) : Prop :=
  match a with
  | AM12 l => tiny36 < u
  | AM32 l => tiny36 < 3 * u
  | AM52 l => tiny36 < 5 * u
  | _ => True
  end.
Definition atom_l (a : atom) : Prop :=
  match a with
  | ASE l | AM12 l | AM32 l | AM52 l => l <> 0
  | _ => True
  end.

Lemma ah_dx : forall a x y, is_derive (fun z => ah a z y) x (ahx a x y).
Proof.
  destruct a; intros; simpl; auto using h_mul_dx, h_sq_dx, h_per_dx.
Qed.
Lemma ah_dy : forall a x y, is_derive (fun z => ah a x z) y (ahy a x y).
Proof.
  destruct a; intros; simpl; auto using h_mul_dy, h_sq_dy, h_per_dy.
Qed.
Lemma ah_dxy : forall a, atom_l a -> forall x y, is_derive (fun z => ahx a x z) y (ahxy a x y).
Proof.
  destruct a; simpl; intros; auto using h_mul_dxy, h_sq_dxy, h_per_dxy.
Qed.

Lemma aP_open : forall a u, aP a u -> locally u (aP a).
Proof.
  assert (G : forall c d u, 0 < c -> d < c * u -> locally u (fun v => d < c * v)).
  { intros c d u Hc H. assert (H' : d / c < u).
    { apply Rmult_lt_reg_l with c; auto. unfold Rdiv.
      replace (c * (d * / c)) with d by (field; lra). auto. }
    apply (filter_imp (fun v => d / c < v)); [|now apply (open_gt (d / c))].
    intros v Hv. apply Rmult_lt_reg_l with (/ c); [now apply Rinv_0_lt_compat|].
    replace (/ c * (c * v)) with v by (field; lra).
    replace (/ c * d) with (d / c) by (unfold Rdiv; ring). exact Hv. }
  destruct a; simpl; intros u H; try (apply filter_forall; auto; fail).
  - apply (filter_imp (fun v => tiny36 < 1 * v)); [intros v Hv; simpl in *; lra|].
    apply G; lra.
  - apply G; auto; lra.
  - apply G; auto; lra.
Qed.

Lemma sqrt_max_dd : forall c u, tiny36 < c * u -> sqrt (Rmax (c * u) tiny36) = dd c 0 u.
Proof.
  intros c u H. unfold dd. rewrite Rmax_left by lra. now rewrite Rplus_0_r.
Qed.

Lemma aphi_d : forall a u, aP a u -> is_derive (aphi a) u (aphi' a u).
Proof.
  intros a u H. pose proof tiny36_pos as T.
  destruct a; simpl in *.
  - apply (is_derive_const variance u).
  - apply (is_derive_id u).
  - apply pow_dphi.
  - eapply is_derive_eq.
    + apply (is_derive_minus (fun u => (offset + u) ^ degree) (fun _ => offset ^ degree)).
      * apply pow_dphi. * apply (is_derive_const (offset ^ degree) u).
    + unfold minus, plus, opp, zero; simpl. ring.
  - change (is_derive (fun u => exp (- u)) u (- exp (- u))). auto_derive; auto. ring.
  - apply (is_derive_ext_loc (m12_phi 1 0)).
    + generalize (aP_open (AM12 l) u H). apply filter_imp. intros v Hv. simpl in Hv.
      unfold m12_phi. rewrite <- sqrt_max_dd by lra. now rewrite Rmult_1_l.
    + apply m12_phi_d. lra.
  - apply (is_derive_ext_loc (m32_phi 3 0)).
    + generalize (aP_open (AM32 l) u H). apply filter_imp. intros v Hv. simpl in Hv.
      unfold m32_phi. now rewrite <- sqrt_max_dd by lra.
    + apply m32_phi_d. lra.
  - apply (is_derive_ext_loc (m52_phi 5 0)).
    + generalize (aP_open (AM52 l) u H). apply filter_imp. intros v Hv. simpl in Hv.
      unfold m52_phi. rewrite <- sqrt_max_dd by lra.
      rewrite pow2_sqrt by (apply Rle_trans with tiny36; [lra|apply Rmax_r]).
      now rewrite (Rmax_left (5 * v)) at 2 by lra.
    + apply m52_phi_d. lra.
  - apply exp_dphi.
Qed.

Lemma aphi'_d : forall a u, aP a u -> is_derive (aphi' a) u (aphi'' a u).
Proof.
  intros a u H. pose proof tiny36_pos as T.
  destruct a; simpl in *.
  - apply (is_derive_const 0 u).
  - apply (is_derive_const 1 u).
  - apply pow_dphi'.
  - apply pow_dphi'.
  - change (is_derive (fun u => - exp (- u)) u (exp (- u))). auto_derive; auto. ring.
  - apply m12_phi_dd. lra.
  - apply m32_phi_dd. lra.
  - apply m52_phi_dd. lra.
  - change (is_derive (fun u => -4 * exp (-4 * u)) u (16 * exp (-4 * u))). auto_derive; auto. ring.
Qed.

Lemma base_kap : forall nf ad a x y,
  kernel_base nf ad a x y = kap (dims nf ad) (ah a) (aphi a) x y.
Proof.
  intros nf ad a x y. unfold kernel_base, kap, usum. destruct a; reflexivity.
Qed.

(** jet of the base kernel *)
Definition aS0 nf ad a := S0 (dims nf ad) (ahx a).
Definition aS1 nf ad a := S1 (dims nf ad) (ahy a).
Definition aS01 nf ad a := S01 (dims nf ad) (ahxy a).
Definition au nf ad a := usum (dims nf ad) (ah a).

Lemma partial0_ext : forall k k' x y f d, (forall a b, k a b = k' a b) ->
  partial0 k x y f d -> partial0 k' x y f d.
Proof. intros k k' x y f d E H. eapply is_derive_ext; [|exact H]. intros; simpl; apply E. Qed.
Lemma partial1_ext : forall k k' x y f d, (forall a b, k a b = k' a b) ->
  partial1 k x y f d -> partial1 k' x y f d.
Proof. intros k k' x y f d E H. eapply is_derive_ext; [|exact H]. intros; simpl; apply E. Qed.
Lemma partial01_ext : forall k k' x y f e d, (forall a b, k a b = k' a b) ->
  partial01 k x y f e d -> partial01 k' x y f e d.
Proof.
  intros k k' x y f e d E [g [L D]]. exists g; split; auto.
  generalize L. apply filter_imp. intros t. now apply partial0_ext.
Qed.

Lemma base_partial0 : forall nf ad a x y f, aP a (au nf ad a x y) ->
  partial0 (kernel_base nf ad a) x y f (aphi' a (au nf ad a x y) * aS0 nf ad a x y f).
Proof.
  intros. apply (partial0_ext (kap (dims nf ad) (ah a) (aphi a)));
    [intros; symmetry; apply base_kap|].
  apply (kap_partial0 _ _ (ahx a) (ah_dx a) _ (aphi' a) (aP a) (aphi_d a)); auto.
Qed.
Lemma base_partial1 : forall nf ad a x y f, aP a (au nf ad a x y) ->
  partial1 (kernel_base nf ad a) x y f (aphi' a (au nf ad a x y) * aS1 nf ad a x y f).
Proof.
  intros. apply (partial1_ext (kap (dims nf ad) (ah a) (aphi a)));
    [intros; symmetry; apply base_kap|].
  apply (kap_partial1 _ _ (ahy a) (ah_dy a) _ (aphi' a) (aP a) (aphi_d a)); auto.
Qed.
Lemma base_partial01 : forall nf ad a x y f e, atom_l a -> aP a (au nf ad a x y) ->
  partial01 (kernel_base nf ad a) x y f e
    (aphi'' a (au nf ad a x y) * aS1 nf ad a x y e * aS0 nf ad a x y f
     + aphi' a (au nf ad a x y) * aS01 nf ad a x y f e).
Proof.
  intros. apply (partial01_ext (kap (dims nf ad) (ah a) (aphi a)));
    [intros; symmetry; apply base_kap|].
  apply (kap_partial01 _ _ (ahx a) (ahy a) (ahxy a) (ah_dx a) (ah_dy a) (ah_dxy a H)
           _ (aphi' a) (aphi'' a) (aP a) (aP_open a) (aphi_d a) (aphi'_d a)); auto.
Qed.

(** batched kernels, pair of samples *)
Definition fphi (a : atom) (u : R) : R :=
  match a with
  | ASE l => exp (- (u + jit12))
  | AM12 l => m12_phi 1 jit12 u
  | AM32 l => m32_phi 3 jit12 u
  | AM52 l => m52_phi 5 jit12 u
  | _ => aphi a u
  end.
Definition fphi' (a : atom) (u : R) : R :=
  match a with
  | ASE l => - exp (- (u + jit12))
  | AM12 l => m12_phi' 1 jit12 u
  | AM32 l => m32_phi' 3 jit12 u
  | AM52 l => m52_phi' 5 jit12 u
  | _ => aphi' a u
  end.
Definition fphi'' (a : atom) (u : R) : R :=
  match a with
  | ASE l => exp (- (u + jit12))
  | AM12 l => m12_phi'' 1 jit12 u
  | AM32 l => m32_phi'' 3 jit12 u
  | AM52 l => m52_phi'' 5 jit12 u
  | _ => aphi'' a u
  end.
(** the batched kernels are smooth wherever the distance is non-negative *)
Definition fP (a : atom) (u : R) : Prop :=
  match a with
  | AM12 l | AM32 l | AM52 l => - jit12 < u
  | _ => True
  end.
Lemma fP_open : forall a u, fP a u -> locally u (fP a).
Proof.
  destruct a; simpl; intros u H; try (apply filter_forall; auto; fail);
  apply (open_gt (- jit12) u); auto.
Qed.
Lemma fphi_d : forall a u, fP a u -> is_derive (fphi a) u (fphi' a u).
Proof.
  intros a u H. destruct a; simpl in *;
    try (apply (aphi_d (AConst variance)); exact I);
    try (apply (aphi_d ALin); exact I);
    try (apply (aphi_d (APoly degree offset)); exact I);
    try (apply (aphi_d (ANoInt degree offset)); exact I);
    try (apply (aphi_d (APer l p)); exact I).
  - change (is_derive (fun u => exp (- (u + jit12))) u (- exp (- (u + jit12)))). auto_derive; auto. ring.
  - apply m12_phi_d; lra.
  - apply m32_phi_d; lra.
  - apply m52_phi_d; lra.
Qed.
Lemma fphi'_d : forall a u, fP a u -> is_derive (fphi' a) u (fphi'' a u).
Proof.
  intros a u H. destruct a; simpl in *;
    try (apply (aphi'_d (AConst variance)); exact I);
    try (apply (aphi'_d ALin); exact I);
    try (apply (aphi'_d (APoly degree offset)); exact I);
    try (apply (aphi'_d (ANoInt degree offset)); exact I);
    try (apply (aphi'_d (APer l p)); exact I).
  - change (is_derive (fun u => - exp (- (u + jit12))) u (exp (- (u + jit12)))). auto_derive; auto. ring.
  - apply m12_phi_dd; lra.
  - apply m32_phi_dd; lra.
  - apply m52_phi_dd; lra.
Qed.

Lemma usum_sq_nonneg : forall ds l x y, 0 <= usum ds (h_sq l) x y.
Proof.
  intros. unfold usum. apply sum_nonneg. intros. unfold h_sq. apply pow2_ge_0.
Qed.
Lemma fP_au : forall nf ad a x y, fP a (au nf ad a x y).
Proof.
  intros. pose proof jit12_pos.
  destruct a; simpl; auto; unfold au; simpl;
    pose proof (usum_sq_nonneg (dims nf ad) l x y); lra.
Qed.

Lemma sqdist_usum : forall ds l X1 X2 s t,
  squared_distances (length ds) (scaled l (gatherM ds X1)) (scaled l (gatherM ds X2)) s t
  = usum ds (h_sq l) (X1 s) (X2 t) + jit12.
Proof.
  intros. unfold squared_distances, scaled, usum, h_sq, gatherM.
  f_equal. rewrite <- sum_scal_l, <- sum_minus, <- sum_plus.
  apply sum_ext; intros; ring.
Qed.
Lemma sqrt_c_max : forall c u, 0 <= c -> 0 <= u ->
  sqrt c * sqrt (Rmax (u + jit12) tiny36) = dd c jit12 u.
Proof.
  intros c u Hc Hu. pose proof jit12_pos. pose proof tiny36_lt_jit12.
  rewrite Rmax_left by lra. unfold dd. rewrite sqrt_mult; lra.
Qed.

Lemma atom_k_kap : forall nf ad a X1 X2 s t,
  atom_k nf ad a X1 X2 s t = kap (dims nf ad) (ah a) (fphi a) (X1 s) (X2 t).
Proof.
  intros nf ad a X1 X2 s t. unfold kap.
  destruct a; unfold atom_k; simpl.
  - unfold constant_fast; ring.
  - unfold linear_fast, mm, tr, usum, h_mul, gatherM. reflexivity.
  - reflexivity.
  - reflexivity.
  - unfold se_fast. now rewrite sqdist_usum.
  - unfold m12_fast, m12_phi. rewrite sqdist_usum.
    rewrite <- sqrt_c_max by (auto using usum_sq_nonneg; lra). rewrite sqrt_1, Rmult_1_l. reflexivity.
  - unfold m32_fast, m32_phi. rewrite sqdist_usum.
    rewrite <- sqrt_c_max by (auto using usum_sq_nonneg; lra). reflexivity.
  - unfold m52_fast, m52_phi. rewrite sqdist_usum.
    rewrite <- sqrt_c_max by (auto using usum_sq_nonneg; lra). reflexivity.
  - reflexivity.
Qed.

Definition fkap nf ad a := kap (dims nf ad) (ah a) (fphi a).
Lemma fast_partial0 : forall nf ad a x y f,
  partial0 (fkap nf ad a) x y f (fphi' a (au nf ad a x y) * aS0 nf ad a x y f).
Proof.
  intros. apply (kap_partial0 _ _ (ahx a) (ah_dx a) _ (fphi' a) (fP a) (fphi_d a)).
  apply fP_au.
Qed.
Lemma fast_partial1 : forall nf ad a x y f,
  partial1 (fkap nf ad a) x y f (fphi' a (au nf ad a x y) * aS1 nf ad a x y f).
Proof.
  intros. apply (kap_partial1 _ _ (ahy a) (ah_dy a) _ (fphi' a) (fP a) (fphi_d a)).
  apply fP_au.
Qed.
Lemma fast_partial01 : forall nf ad a x y f e, atom_l a ->
  partial01 (fkap nf ad a) x y f e
    (fphi'' a (au nf ad a x y) * aS1 nf ad a x y e * aS0 nf ad a x y f
     + fphi' a (au nf ad a x y) * aS01 nf ad a x y f e).
Proof.
  intros.
  apply (kap_partial01 _ _ (ahx a) (ahy a) (ahxy a) (ah_dx a) (ah_dy a) (ah_dxy a H)
           _ (fphi' a) (fphi'' a) (fP a) (fP_open a) (fphi_d a) (fphi'_d a)).
  apply fP_au.
Qed.
