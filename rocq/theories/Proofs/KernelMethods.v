(** Entries of the (derivative) kernel methods of the atoms. *)
From Coq Require Import Reals Lra Lia Arith List FunctionalExtensionality.
From Coquelicot Require Import Coquelicot.
From Verif Require Import Base.Sums Base.Mat Model.Arrays Model.Distances Model.Kernelizers
  Model.Kernels Spec.Partial Proofs.Deriv Proofs.KernelAtoms Proofs.KernelJets Proofs.Loops.
Open Scope R_scope.

(** multiplier of the inner derivative used by jacrev/custom_jvp *)
Definition gphi' (a : atom) (u : R) : R :=
  match a with
  | AM32 l => - (3 / 2) * exp (- sqrt (Rmax (3 * u) tiny36))
  | AM52 l => - (5 / 6) * (1 + sqrt (Rmax (5 * u) tiny36)) * exp (- sqrt (Rmax (5 * u) tiny36))
  | _ => aphi' a u
  end.
Definition cond0 (a : atom) (u : R) : Prop :=
  match a with AM12 l => tiny36 < u | _ => True end.

Lemma gphi'_P : forall a u, aP a u -> gphi' a u = aphi' a u.
Proof.
  intros a u H. destruct a; simpl in *; auto.
  - unfold m32_phi'. rewrite sqrt_max_dd by lra. ring.
  - unfold m52_phi'. rewrite sqrt_max_dd by lra. ring.
Qed.
Lemma aP_cond0 : forall a u, aP a u -> cond0 a u.
Proof. destruct a; simpl; auto. Qed.

Lemma sqrt3_sq : sqrt 3 * sqrt 3 = 3. Proof. apply sqrt_def; lra. Qed.
Lemma sqrt5_sq : sqrt 5 * sqrt 5 = 5. Proof. apply sqrt_def; lra. Qed.

Lemma diff_sum : forall c l ds x y, 0 <= c ->
  sum (length ds) (fun b => (sqrt c * (gather ds x b / l - gather ds y b / l)) ^ 2)
  = c * usum ds (h_sq l) x y.
Proof.
  intros c l ds x y Hc. unfold usum. rewrite <- sum_scal_l. apply sum_ext; intros b Hb.
  unfold h_sq. replace ((sqrt c * (gather ds x b / l - gather ds y b / l)) ^ 2)
    with (sqrt c * sqrt c * (gather ds x b / l - gather ds y b / l) ^ 2) by ring.
  now rewrite sqrt_def.
Qed.

Lemma m32_t0_val : forall l ds x y a, l <> 0 ->
  m32_t0 l (length ds) (gather ds x) (gather ds y) a
  = gphi' (AM32 l) (usum ds (h_sq l) x y) * h_sq_x l (gather ds x a) (gather ds y a).
Proof.
  intros l ds x y a Hl. unfold m32_t0. cbv zeta. rewrite diff_sum by lra.
  simpl. unfold h_sq_x. set (E := exp _). set (z := gather ds x a / l - gather ds y a / l).
  replace (- sqrt 3 / l * E * (sqrt 3 * z)) with (- (sqrt 3 * sqrt 3) / l * E * z)
    by (field; auto).
  rewrite sqrt3_sq. field; auto.
Qed.
Lemma m52_t0_val : forall l ds x y a, l <> 0 ->
  m52_t0 l (length ds) (gather ds x) (gather ds y) a
  = gphi' (AM52 l) (usum ds (h_sq l) x y) * h_sq_x l (gather ds x a) (gather ds y a).
Proof.
  intros l ds x y a Hl. unfold m52_t0. cbv zeta. rewrite diff_sum by lra.
  simpl. unfold h_sq_x. set (E := exp _). set (z := gather ds x a / l - gather ds y a / l).
  set (d := sqrt (Rmax _ _)).
  replace (- (sqrt 5 / (3 * l)) * (1 + d) * E * (sqrt 5 * z))
    with (- (sqrt 5 * sqrt 5) / (3 * l) * (1 + d) * E * z) by (field; auto).
  rewrite sqrt5_sq. field; auto.
Qed.

Lemma scat_add_scal : forall ds c v f,
  scat_add ds (fun a => c * v a) f = c * sum (length ds) (fun a => delta (nth a ds O) f * v a).
Proof.
  intros. unfold scat_add. rewrite <- sum_scal_l. apply sum_ext; intros; ring.
Qed.
Lemma scat_add_ext : forall ds v w f, (forall a, v a = w a) -> scat_add ds v f = scat_add ds w f.
Proof. intros. unfold scat_add. apply sum_ext; intros. now rewrite H. Qed.

Lemma jac0_val : forall nf ad a x y f, atom_l a -> cond0 a (au nf ad a x y) ->
  jac0 nf ad a x y f = gphi' a (au nf ad a x y) * aS0 nf ad a x y f.
Proof.
  intros nf ad a x y f Hl Hc.
  assert (G : aP a (au nf ad a x y) ->
     Derive (fun t => kernel_base nf ad a (upd x f t) y) (x f)
     = aphi' a (au nf ad a x y) * aS0 nf ad a x y f).
  { intro HP. apply is_derive_unique. now apply base_partial0. }
  unfold jac0. destruct a; simpl in Hc, Hl; try (apply G; simpl; auto; fail).
  - rewrite (scat_add_ext _ _ (fun a => gphi' (AM32 l) (usum (dims nf ad) (h_sq l) x y)
       * h_sq_x l (gather (dims nf ad) x a) (gather (dims nf ad) y a)))
       by (intros; now apply m32_t0_val).
    now rewrite scat_add_scal.
  - rewrite (scat_add_ext _ _ (fun a => gphi' (AM52 l) (usum (dims nf ad) (h_sq l) x y)
       * h_sq_x l (gather (dims nf ad) x a) (gather (dims nf ad) y a)))
       by (intros; now apply m52_t0_val).
    now rewrite scat_add_scal.
Qed.

Lemma jac1_val : forall nf ad a x y f, atom_l a -> cond0 a (au nf ad a x y) ->
  jac1 nf ad a x y f = gphi' a (au nf ad a x y) * aS1 nf ad a x y f.
Proof.
  intros nf ad a x y f Hl Hc.
  assert (G : aP a (au nf ad a x y) ->
     Derive (fun t => kernel_base nf ad a x (upd y f t)) (y f)
     = aphi' a (au nf ad a x y) * aS1 nf ad a x y f).
  { intro HP. apply is_derive_unique. now apply base_partial1. }
  unfold jac1. destruct a; simpl in Hc, Hl; try (apply G; simpl; auto; fail).
  - rewrite (scat_add_ext _ _ (fun a => gphi' (AM32 l) (usum (dims nf ad) (h_sq l) x y)
       * h_sq_y l (gather (dims nf ad) x a) (gather (dims nf ad) y a)))
       by (intros; unfold m32_t1; rewrite m32_t0_val by auto; unfold h_sq_y, h_sq_x; ring).
    now rewrite scat_add_scal.
  - rewrite (scat_add_ext _ _ (fun a => gphi' (AM52 l) (usum (dims nf ad) (h_sq l) x y)
       * h_sq_y l (gather (dims nf ad) x a) (gather (dims nf ad) y a)))
       by (intros; unfold m52_t1; rewrite m52_t0_val by auto; unfold h_sq_y, h_sq_x; ring).
    now rewrite scat_add_scal.
Qed.

Lemma jac0_derive : forall nf ad a x y f e, atom_l a -> aP a (au nf ad a x y) ->
  is_derive (fun t => jac0 nf ad a x (upd y e t) f) (y e)
    (aphi'' a (au nf ad a x y) * aS1 nf ad a x y e * aS0 nf ad a x y f
     + aphi' a (au nf ad a x y) * aS01 nf ad a x y f e).
Proof.
  intros nf ad a x y f e Hl HP.
  destruct (base_partial01 nf ad a x y f e Hl HP) as [g [L D]].
  apply (is_derive_ext_loc g); auto.
  assert (LP : locally (y e) (fun t => aP a (au nf ad a x (upd y e t)))).
  { apply (usum_locally _ _ (ahy a) (ah_dy a) (aP a) (aP_open a)); auto. }
  generalize (filter_and _ _ L LP). apply filter_imp. intros t [H1 H2].
  rewrite jac0_val; auto using aP_cond0. rewrite gphi'_P by auto.
  eapply partial0_unique; [exact H1|]. now apply base_partial0.
Qed.
Lemma hess01_val : forall nf ad a x y f e, atom_l a -> aP a (au nf ad a x y) ->
  hess01 nf ad a x y f e
  = aphi'' a (au nf ad a x y) * aS1 nf ad a x y e * aS0 nf ad a x y f
     + aphi' a (au nf ad a x y) * aS01 nf ad a x y f e.
Proof. intros. apply is_derive_unique. now apply jac0_derive. Qed.

(** ** batched methods *)
Definition mult0 (a : atom) (u : R) : R :=
  match a with AM52 l => fphi' a u | _ => gphi' a u end.
Definition mult01' (a : atom) (u : R) : R :=
  match a with ASE _ | AM52 _ => fphi' a u | _ => aphi' a u end.
Definition mult01'' (a : atom) (u : R) : R :=
  match a with ASE _ | AM52 _ => fphi'' a u | _ => aphi'' a u end.
(** condition under which the d01k formula is valid *)
Definition cond01 (a : atom) (u : R) : Prop :=
  match a with AM12 _ | AM32 _ => aP a u | _ => True end.

Lemma poly_u : forall d off ds X1 X2 s t,
  poly_c1 d off ds X1 X2 s t = INR d * (off + usum ds h_mul (X1 s) (X2 t)) ^ (d - 1).
Proof. reflexivity. Qed.
Lemma poly_u2 : forall d off ds X1 X2 s t,
  poly_c2 d off ds X1 X2 s t = INR d * (INR d - 1) * (off + usum ds h_mul (X1 s) (X2 t)) ^ (d - 2).
Proof. reflexivity. Qed.

Lemma m52_d_dd : forall l ds X1 X2 s t,
  m52_d l ds X1 X2 s t = dd 5 jit12 (usum ds (h_sq l) (X1 s) (X2 t)).
Proof.
  intros. unfold m52_d. rewrite sqdist_usum. apply sqrt_c_max; [lra|apply usum_sq_nonneg].
Qed.
Lemma se_ed2_val : forall l ds X1 X2 s t,
  se_ed2 l ds X1 X2 s t = exp (- (usum ds (h_sq l) (X1 s) (X2 t) + jit12)).
Proof. intros. unfold se_ed2, se_fast. now rewrite sqdist_usum. Qed.

Lemma m52_mult : forall l d E z, l <> 0 ->
  - (sqrt 5 / (3 * l)) * (1 + d) * E * (sqrt 5 * z)
  = - (5 / 6) * (1 + d) * E * (2 / l * z).
Proof.
  intros. replace (- (sqrt 5 / (3 * l)) * (1 + d) * E * (sqrt 5 * z))
    with (- (sqrt 5 * sqrt 5) / (3 * l) * (1 + d) * E * z) by (field; auto).
  rewrite sqrt5_sq. field; auto.
Qed.

Lemma atom_d0k_entry : forall nf ad a X1 X2 s f t,
  atom_l a -> NoDup (dims nf ad) -> (f < nf)%nat -> cond0 a (au nf ad a (X1 s) (X2 t)) ->
  atom_d0k nf ad a X1 X2 (s * nf + f)%nat t
  = mult0 a (au nf ad a (X1 s) (X2 t)) * aS0 nf ad a (X1 s) (X2 t) f.
Proof.
  intros nf ad a X1 X2 s f t Hl HN Hf Hc.
  assert (G : grad0_kernelize nf (jac0 nf ad a) X1 X2 (s * nf + f)%nat t
     = gphi' a (au nf ad a (X1 s) (X2 t)) * aS0 nf ad a (X1 s) (X2 t) f).
  { unfold grad0_kernelize, rs_row. rewrite blk_div, blk_mod by auto. now apply jac0_val. }
  destruct a; unfold atom_d0k; try exact G.
  - unfold zeros. simpl. ring.
  - unfold linear_d0k, tile_row. rewrite blk_mod by auto. rewrite scat_sum by auto.
    simpl. rewrite Rmult_1_l. reflexivity.
  - unfold poly_d0k, rs_row. rewrite blk_div, blk_mod by auto. rewrite scat_sum by auto.
    rewrite poly_u. simpl. unfold aS0, S0, au. simpl. rewrite <- sum_scal_l.
    apply sum_ext; intros. unfold gather. ring.
  - unfold poly_d0k, rs_row. rewrite blk_div, blk_mod by auto. rewrite scat_sum by auto.
    rewrite poly_u. simpl. unfold aS0, S0, au. simpl. rewrite <- sum_scal_l.
    apply sum_ext; intros. unfold gather. ring.
  - unfold m52_d0k, rs_row. rewrite blk_div, blk_mod by auto. rewrite scat_sum by auto.
    simpl. unfold aS0, S0, au. simpl. rewrite <- sum_scal_l.
    apply sum_ext; intros. rewrite m52_d_dd. rewrite m52_mult by auto.
    unfold m52_phi', zdiff, h_sq_x, gatherM. field; auto.
Qed.

Lemma atom_d1k_entry : forall nf ad a X1 X2 s f t,
  atom_l a -> NoDup (dims nf ad) -> (f < nf)%nat -> cond0 a (au nf ad a (X1 s) (X2 t)) ->
  atom_d1k nf ad a X1 X2 s (t * nf + f)%nat
  = mult0 a (au nf ad a (X1 s) (X2 t)) * aS1 nf ad a (X1 s) (X2 t) f.
Proof.
  intros nf ad a X1 X2 s f t Hl HN Hf Hc.
  assert (G : grad1_kernelize nf (jac1 nf ad a) X1 X2 s (t * nf + f)%nat
     = gphi' a (au nf ad a (X1 s) (X2 t)) * aS1 nf ad a (X1 s) (X2 t) f).
  { unfold grad1_kernelize, rs_col. rewrite blk_div, blk_mod by auto. now apply jac1_val. }
  destruct a; unfold atom_d1k; try exact G.
  - unfold zeros. simpl. ring.
  - unfold linear_d1k, tile_col. rewrite blk_mod by auto. rewrite scat_sum by auto.
    simpl. rewrite Rmult_1_l. reflexivity.
  - unfold poly_d1k, rs_col. rewrite blk_div, blk_mod by auto. rewrite scat_sum by auto.
    rewrite poly_u. simpl. unfold aS1, S1, au. simpl. rewrite <- sum_scal_l.
    apply sum_ext; intros. unfold gather. ring.
  - unfold poly_d1k, rs_col. rewrite blk_div, blk_mod by auto. rewrite scat_sum by auto.
    rewrite poly_u. simpl. unfold aS1, S1, au. simpl. rewrite <- sum_scal_l.
    apply sum_ext; intros. unfold gather. ring.
  - unfold m52_d1k, rs_col. rewrite blk_div, blk_mod by auto. rewrite scat_sum by auto.
    simpl. unfold aS1, S1, au. simpl. rewrite <- sum_scal_l.
    apply sum_ext; intros. rewrite m52_d_dd.
    set (D := dd _ _ _). set (Z := zdiff _ _ _ _ _ _ _).
    replace (sqrt 5 / (3 * l) * (1 + D) * exp (- D) * (sqrt 5 * Z))
      with (- (- (sqrt 5 / (3 * l)) * (1 + D) * exp (- D) * (sqrt 5 * Z))) by ring.
    rewrite m52_mult by auto. unfold m52_phi', h_sq_y. fold D. unfold Z, zdiff, gatherM. field; auto.
Qed.

Lemma double_scat : forall ds (c : nat -> R) (d : nat -> R) f e,
  sum (length ds) (fun b => delta (nth b ds O) f * c b) *
  sum (length ds) (fun a => delta (nth a ds O) e * d a)
  = sum (length ds) (fun b => sum (length ds) (fun a =>
      delta (nth b ds O) f * delta (nth a ds O) e * (c b * d a))).
Proof.
  intros. rewrite sum_mult. apply sum_ext; intros; apply sum_ext; intros; ring.
Qed.

Lemma atom_d01k_entry : forall nf ad a X1 X2 s f t e,
  atom_l a -> NoDup (dims nf ad) -> (f < nf)%nat -> (e < nf)%nat ->
  cond01 a (au nf ad a (X1 s) (X2 t)) ->
  atom_d01k nf ad a X1 X2 (s * nf + f)%nat (t * nf + e)%nat
  = mult01'' a (au nf ad a (X1 s) (X2 t)) * aS1 nf ad a (X1 s) (X2 t) e * aS0 nf ad a (X1 s) (X2 t) f
    + mult01' a (au nf ad a (X1 s) (X2 t)) * aS01 nf ad a (X1 s) (X2 t) f e.
Proof.
  intros nf ad a X1 X2 s f t e Hl HN Hf He Hc.
  assert (G : aP a (au nf ad a (X1 s) (X2 t)) ->
     grad01_kernelize nf (hess01 nf ad a) X1 X2 (s * nf + f)%nat (t * nf + e)%nat
     = aphi'' a (au nf ad a (X1 s) (X2 t)) * aS1 nf ad a (X1 s) (X2 t) e * aS0 nf ad a (X1 s) (X2 t) f
       + aphi' a (au nf ad a (X1 s) (X2 t)) * aS01 nf ad a (X1 s) (X2 t) f e).
  { intro HP. unfold grad01_kernelize, rs_4. rewrite !blk_div, !blk_mod by auto.
    now apply hess01_val. }
  assert (PP : forall d off, poly_d01k d off (dims nf ad) nf X1 X2 (s * nf + f)%nat (t * nf + e)%nat
     = INR d * (INR d - 1) * (off + usum (dims nf ad) h_mul (X1 s) (X2 t)) ^ (d - 2)
         * S1 (dims nf ad) (fun x y => x) (X1 s) (X2 t) e
         * S0 (dims nf ad) (fun x y => y) (X1 s) (X2 t) f
       + INR d * (off + usum (dims nf ad) h_mul (X1 s) (X2 t)) ^ (d - 1)
         * S01 (dims nf ad) (fun x y => 1) (X1 s) (X2 t) f e).
  { intros d off. unfold poly_d01k, rs_4. rewrite !blk_div, !blk_mod by auto.
    rewrite scat2_sum by auto. rewrite poly_u, poly_u2.
    set (c1 := INR d * _ ^ (d - 1)). set (c2 := INR d * (INR d - 1) * _).
    unfold S1, S0, S01.
    rewrite Rmult_assoc, (Rmult_comm (sum _ _) (sum _ _)), double_scat.
    rewrite <- !sum_scal_l, <- sum_plus. apply sum_ext; intros b Hb.
    rewrite <- sum_scal_l.
    rewrite (sum_ext _ (fun a => delta (nth b (dims nf ad) O) f * delta (nth a (dims nf ad) O) e *
         (c1 * delta a b + gatherM (dims nf ad) X1 s a * c2 * gatherM (dims nf ad) X2 t b))
       (fun a => c2 * (delta (nth b (dims nf ad) O) f * delta (nth a (dims nf ad) O) e *
            (gather (dims nf ad) (X2 t) b * gather (dims nf ad) (X1 s) a))
          + delta a b * (c1 * (delta (nth b (dims nf ad) O) f * delta (nth a (dims nf ad) O) e)))).
    - rewrite sum_plus. f_equal. rewrite (sum_delta_l' _ b) by auto. ring.
    - intros. unfold gatherM. ring. }
  destruct a; unfold atom_d01k; try (apply G; exact Hc).
  - unfold zeros. simpl. ring.
  - unfold linear_d01k. rewrite !blk_mod by auto. rewrite scat_diag_sum by auto.
    simpl. rewrite Rmult_0_l, Rmult_0_l, Rplus_0_l, Rmult_1_l. reflexivity.
  - apply PP.
  - apply PP.
  - unfold se_d01k, rs_4. rewrite !blk_div, !blk_mod by auto. rewrite !scat_sum by auto.
    rewrite se_ed2_val. simpl. unfold aS1, aS0, aS01, S1, S0, S01, au. simpl.
    set (E := exp _).
    rewrite (sum_ext _ (fun a => delta (nth a (dims nf ad) O) f * delta (nth a (dims nf ad) O) e *
        (E * (2 / l ^ 2))) (fun i => - E *
       (delta (nth i (dims nf ad) O) f * delta (nth i (dims nf ad) O) e *
        h_sq_xy l (gather (dims nf ad) (X1 s) i) (gather (dims nf ad) (X2 t) i))))
      by (intros; unfold h_sq_xy; ring).
    rewrite (sum_scal_l _ (- E)). f_equal.
    rewrite (sum_ext _ (fun a => delta (nth a (dims nf ad) O) e *
        h_sq_y l (gather (dims nf ad) (X1 s) a) (gather (dims nf ad) (X2 t) a))
      (fun a => - (delta (nth a (dims nf ad) O) e * (2 / l * zdiff l (dims nf ad) X1 X2 s t a))))
      by (intros; unfold h_sq_y, zdiff, gatherM; ring).
    rewrite sum_opp. unfold h_sq_x, zdiff, gatherM. ring.
  - unfold m52_d01k, rs_4. rewrite !blk_div, !blk_mod by auto. rewrite !scat_sum by auto.
    rewrite m52_d_dd. simpl. unfold aS1, aS0, aS01, S1, S0, S01, au. simpl.
    unfold m52_phi'', m52_phi'. set (D := dd _ _ _).
    rewrite (sum_ext _ (fun a => delta (nth a (dims nf ad) O) f * delta (nth a (dims nf ad) O) e *
        (5 / (3 * l ^ 2) * exp (- D) * (1 + D))) (fun i => - (5 / 6) * (1 + D) * exp (- D) *
       (delta (nth i (dims nf ad) O) f * delta (nth i (dims nf ad) O) e *
        h_sq_xy l (gather (dims nf ad) (X1 s) i) (gather (dims nf ad) (X2 t) i))))
      by (intros; unfold h_sq_xy; field; auto).
    rewrite (sum_scal_l _ (- (5 / 6) * (1 + D) * exp (- D))). f_equal.
    assert (Q : forall g, sum (length (dims nf ad)) (fun a => delta (nth a (dims nf ad) O) g *
          (sqrt 5 * zdiff l (dims nf ad) X1 X2 s t a))
       = sqrt 5 * sum (length (dims nf ad)) (fun a => delta (nth a (dims nf ad) O) g *
           zdiff l (dims nf ad) X1 X2 s t a)).
    { intro g. rewrite <- sum_scal_l. apply sum_ext; intros; ring. }
    rewrite !Q.
    rewrite (sum_ext _ (fun a => delta (nth a (dims nf ad) O) e *
        h_sq_y l (gather (dims nf ad) (X1 s) a) (gather (dims nf ad) (X2 t) a))
      (fun a => - (2 / l) * (delta (nth a (dims nf ad) O) e * zdiff l (dims nf ad) X1 X2 s t a)))
      by (intros; unfold h_sq_y, zdiff, gatherM; ring).
    rewrite (sum_ext _ (fun a => delta (nth a (dims nf ad) O) f *
        h_sq_x l (gather (dims nf ad) (X1 s) a) (gather (dims nf ad) (X2 t) a))
      (fun a => (2 / l) * (delta (nth a (dims nf ad) O) f * zdiff l (dims nf ad) X1 X2 s t a)))
      by (intros; unfold h_sq_x, zdiff, gatherM; ring).
    rewrite !sum_scal_l.
    set (A := sum _ (fun a => _ * zdiff _ _ _ _ _ _ _)).
    set (B := sum _ (fun a => _ * zdiff _ _ _ _ _ _ _)).
    transitivity (- (5 / (3 * (l * (l * 1)))) * exp (- D) * (sqrt 5 * sqrt 5) * A * B); [ring|].
    rewrite sqrt5_sq. field; auto.
Qed.

(** ** inside the clamp of Matern12/Matern32 (coincident points) *)
Definition areg (a : atom) (u : R) : Prop :=
  match a with AM12 _ => u <> tiny36 | AM32 _ => 3 * u <> tiny36 | _ => True end.
Definition rmult01' (a : atom) (u : R) : R :=
  match a with
  | AM12 _ => if Rlt_dec tiny36 u then aphi' a u else 0
  | AM32 _ => gphi' a u
  | _ => mult01' a u
  end.
Definition rmult01'' (a : atom) (u : R) : R :=
  match a with
  | AM12 _ => if Rlt_dec tiny36 u then aphi'' a u else 0
  | AM32 _ => if Rlt_dec tiny36 (3 * u) then aphi'' a u else 0
  | _ => mult01'' a u
  end.
Definition rmult0 (a : atom) (u : R) : R :=
  match a with
  | AM12 _ => if Rlt_dec tiny36 u then aphi' a u else 0
  | _ => mult0 a u
  end.

Lemma lt_open_c : forall c d u, 0 < c -> c * u < d -> locally u (fun v => c * v < d).
Proof.
  intros c d u Hc H. apply (filter_imp (fun v => v < d / c)).
  - intros v Hv. apply Rmult_lt_reg_l with (/ c); [now apply Rinv_0_lt_compat|].
    replace (/ c * (c * v)) with v by (field; lra).
    replace (/ c * d) with (d / c) by (unfold Rdiv; ring). exact Hv.
  - apply (open_lt (d / c)). apply Rmult_lt_reg_l with c; auto.
    replace (c * (d / c)) with d by (field; lra). exact H.
Qed.
Lemma m12_clamp_u : forall nf ad l x y, au nf ad (AM12 l) x y < tiny36 ->
  kernel_base nf ad (AM12 l) x y = exp (- sqrt tiny36).
Proof.
  intros nf ad l x y H. rewrite base_kap. unfold kap. simpl. unfold au in H. simpl in H.
  rewrite Rmax_right by lra. reflexivity.
Qed.
Lemma m12_clamp_jac0 : forall nf ad l x y f, au nf ad (AM12 l) x y < tiny36 ->
  jac0 nf ad (AM12 l) x y f = 0.
Proof.
  intros nf ad l x y f H. unfold jac0. apply is_derive_unique.
  apply (is_derive_ext_loc (fun _ => exp (- sqrt tiny36))).
  - assert (L : locally (x f) (fun t => au nf ad (AM12 l) (upd x f t) y < tiny36)).
    { unfold au. simpl ah.
      assert (C : continuous (fun t => usum (dims nf ad) (h_sq l) (upd x f t) y) (x f)).
      { apply (ex_derive_continuous (V := R_NormedModule)). eexists. apply (usum_d0 _ _ (h_sq_x l) (h_sq_dx l)). }
      apply (C (fun u => u < tiny36)). apply open_lt. rewrite upd_eta. exact H. }
    generalize L. apply filter_imp. intros t Ht. symmetry. now apply m12_clamp_u.
  - apply (is_derive_const (exp (- sqrt tiny36)) (x f)).
Qed.
Lemma m12_clamp_jac1 : forall nf ad l x y f, au nf ad (AM12 l) x y < tiny36 ->
  jac1 nf ad (AM12 l) x y f = 0.
Proof.
  intros nf ad l x y f H. unfold jac1. apply is_derive_unique.
  apply (is_derive_ext_loc (fun _ => exp (- sqrt tiny36))).
  - assert (L : locally (y f) (fun t => au nf ad (AM12 l) x (upd y f t) < tiny36)).
    { unfold au. simpl ah.
      assert (C : continuous (fun t => usum (dims nf ad) (h_sq l) x (upd y f t)) (y f)).
      { apply (ex_derive_continuous (V := R_NormedModule)). eexists. apply (usum_d1 _ _ (h_sq_y l) (h_sq_dy l)). }
      apply (C (fun u => u < tiny36)). apply open_lt. rewrite upd_eta. exact H. }
    generalize L. apply filter_imp. intros t Ht. symmetry. now apply m12_clamp_u.
  - apply (is_derive_const (exp (- sqrt tiny36)) (y f)).
Qed.
Lemma au_cont1 : forall nf ad l x y e (P : R -> Prop), locally (usum (dims nf ad) (h_sq l) x y) P ->
  locally (y e) (fun t => P (usum (dims nf ad) (h_sq l) x (upd y e t))).
Proof.
  intros nf ad l x y e P H.
  assert (C : continuous (fun t => usum (dims nf ad) (h_sq l) x (upd y e t)) (y e)).
  { apply (ex_derive_continuous (V := R_NormedModule)). eexists. apply (usum_d1 _ _ (h_sq_y l) (h_sq_dy l)). }
  apply C. now rewrite upd_eta.
Qed.
Lemma m12_clamp_hess : forall nf ad l x y f e, au nf ad (AM12 l) x y < tiny36 ->
  hess01 nf ad (AM12 l) x y f e = 0.
Proof.
  intros nf ad l x y f e H. unfold hess01. apply is_derive_unique.
  apply (is_derive_ext_loc (fun _ => 0)); [|apply (is_derive_const 0 (y e))].
  generalize (au_cont1 nf ad l x y e (fun u => u < tiny36) (open_lt _ _ H)).
  apply filter_imp. intros t Ht. symmetry. now apply m12_clamp_jac0.
Qed.
Lemma m32_clamp_hess : forall nf ad l x y f e, l <> 0 -> 3 * au nf ad (AM32 l) x y < tiny36 ->
  hess01 nf ad (AM32 l) x y f e = gphi' (AM32 l) (au nf ad (AM32 l) x y) * aS01 nf ad (AM32 l) x y f e.
Proof.
  intros nf ad l x y f e Hl H. unfold hess01. apply is_derive_unique.
  assert (V : forall u, 3 * u < tiny36 -> gphi' (AM32 l) u = - (3 / 2) * exp (- sqrt tiny36)).
  { intros u Hu. simpl. now rewrite Rmax_right by lra. }
  apply (is_derive_ext_loc (fun t => - (3 / 2) * exp (- sqrt tiny36) * aS0 nf ad (AM32 l) x (upd y e t) f)).
  - generalize (au_cont1 nf ad l x y e (fun u => 3 * u < tiny36) (lt_open_c 3 _ _ ltac:(lra) H)).
    apply filter_imp. intros t Ht. rewrite jac0_val by (simpl; auto).
    rewrite V by exact Ht. reflexivity.
  - rewrite V by exact H.
    apply (is_derive_scal (fun t => aS0 nf ad (AM32 l) x (upd y e t) f)).
    apply (S0_d1 _ (h_sq_x l) (h_sq_xy l)). intros; now apply h_sq_dxy.
Qed.

(** entries at every regular pair of points *)
Lemma atom_d0k_reg : forall nf ad a X1 X2 s f t,
  atom_l a -> NoDup (dims nf ad) -> (f < nf)%nat -> areg a (au nf ad a (X1 s) (X2 t)) ->
  atom_d0k nf ad a X1 X2 (s * nf + f)%nat t
  = rmult0 a (au nf ad a (X1 s) (X2 t)) * aS0 nf ad a (X1 s) (X2 t) f.
Proof.
  intros nf ad a X1 X2 s f t Hl HN Hf Hr.
  destruct a; try (rewrite atom_d0k_entry by (simpl; auto); reflexivity).
  simpl in Hr. unfold rmult0. destruct (Rlt_dec tiny36 _) as [H|H].
  - rewrite atom_d0k_entry by (simpl; auto). reflexivity.
  - unfold atom_d0k, grad0_kernelize, rs_row. rewrite blk_div, blk_mod by auto.
    rewrite m12_clamp_jac0 by lra. ring.
Qed.
Lemma atom_d1k_reg : forall nf ad a X1 X2 s f t,
  atom_l a -> NoDup (dims nf ad) -> (f < nf)%nat -> areg a (au nf ad a (X1 s) (X2 t)) ->
  atom_d1k nf ad a X1 X2 s (t * nf + f)%nat
  = rmult0 a (au nf ad a (X1 s) (X2 t)) * aS1 nf ad a (X1 s) (X2 t) f.
Proof.
  intros nf ad a X1 X2 s f t Hl HN Hf Hr.
  destruct a; try (rewrite atom_d1k_entry by (simpl; auto); reflexivity).
  simpl in Hr. unfold rmult0. destruct (Rlt_dec tiny36 _) as [H|H].
  - rewrite atom_d1k_entry by (simpl; auto). reflexivity.
  - unfold atom_d1k, grad1_kernelize, rs_col. rewrite blk_div, blk_mod by auto.
    rewrite m12_clamp_jac1 by lra. ring.
Qed.
Lemma atom_d01k_reg : forall nf ad a X1 X2 s f t e,
  atom_l a -> NoDup (dims nf ad) -> (f < nf)%nat -> (e < nf)%nat ->
  areg a (au nf ad a (X1 s) (X2 t)) ->
  atom_d01k nf ad a X1 X2 (s * nf + f)%nat (t * nf + e)%nat
  = rmult01'' a (au nf ad a (X1 s) (X2 t)) * aS1 nf ad a (X1 s) (X2 t) e * aS0 nf ad a (X1 s) (X2 t) f
    + rmult01' a (au nf ad a (X1 s) (X2 t)) * aS01 nf ad a (X1 s) (X2 t) f e.
Proof.
  intros nf ad a X1 X2 s f t e Hl HN Hf He Hr.
  destruct a; try (rewrite atom_d01k_entry by (simpl; auto); reflexivity).
  - simpl in Hr. unfold rmult01'', rmult01'. destruct (Rlt_dec tiny36 _) as [H|H].
    + rewrite atom_d01k_entry by (simpl; auto). reflexivity.
    + unfold atom_d01k, grad01_kernelize, rs_4. rewrite !blk_div, !blk_mod by auto.
      rewrite m12_clamp_hess by lra. ring.
  - simpl in Hr. unfold rmult01'', rmult01'. destruct (Rlt_dec tiny36 _) as [H|H].
    + rewrite atom_d01k_entry by (simpl; auto). rewrite gphi'_P by exact H. reflexivity.
    + unfold atom_d01k, grad01_kernelize, rs_4. rewrite !blk_div, !blk_mod by auto.
      rewrite m32_clamp_hess by (auto; lra). ring.
Qed.
