(** Derivative kernels of arbitrary kernel expressions are close to the derivatives of the
    single-sample kernel, with an explicit bound. *)
From Coq Require Import Reals Lra Lia Arith List FunctionalExtensionality.
From Coquelicot Require Import Coquelicot.
From Verif Require Import Base.Sums Base.Mat Model.Arrays Model.Distances Model.Kernelizers
  Model.Kernels Spec.Partial Spec.KernelSpec Spec.CloseSpec Proofs.Deriv Proofs.KernelAtoms
  Proofs.KernelJets Proofs.Loops Proofs.KernelMethods Proofs.Contraction Proofs.KernelDerivs
  Proofs.KernelBounds Proofs.KernelPropLemmas Proofs.KernelSym Proofs.Local.
Open Scope R_scope.

Lemma der0_is : forall k x y f d, partial0 k x y f d -> der0 k x y f = d.
Proof. intros. now apply is_derive_unique. Qed.
Lemma der1_is : forall k x y f d, partial1 k x y f d -> der1 k x y f = d.
Proof. intros. now apply is_derive_unique. Qed.
Lemma der01_is : forall k x y f e d, partial01 k x y f e d -> der01 k x y f e = d.
Proof.
  intros k x y f e d [g [L D]]. apply is_derive_unique.
  apply (is_derive_ext_loc g); [|exact D].
  revert L. apply filter_imp. intros t Ht. symmetry. now apply der0_is.
Qed.

(** ** the single-sample kernel is differentiable away from the clamps *)
Definition free (nf : nat) (k : kexp) (x y : Vec) : Prop :=
  all_atoms (fun ad a => unclamped nf ad a x y) k.
Lemma kb_partial0 : forall nf k x y f, free nf k x y -> partial0 (kb nf k) x y f (der0 (kb nf k) x y f).
Proof.
  intros nf k x y f H.
  assert (G : exists d, partial0 (kb nf k) x y f d).
  { induction k as [ad a|k1 IH1 k2 IH2|k1 IH1 k2 IH2].
    - eexists. apply base_partial0. now apply unclamped_aP.
    - destruct H as [H1 H2], (IH1 H1) as [d1 D1], (IH2 H2) as [d2 D2].
      eexists. apply partial0_sum; eauto.
    - destruct H as [H1 H2], (IH1 H1) as [d1 D1], (IH2 H2) as [d2 D2].
      eexists. apply partial0_prod; eauto. }
  destruct G as [d D]. rewrite (der0_is _ _ _ _ _ D). exact D.
Qed.
Lemma kb_partial1 : forall nf k x y f, free nf k x y -> partial1 (kb nf k) x y f (der1 (kb nf k) x y f).
Proof.
  intros nf k x y f H.
  assert (G : exists d, partial1 (kb nf k) x y f d).
  { induction k as [ad a|k1 IH1 k2 IH2|k1 IH1 k2 IH2].
    - eexists. apply base_partial1. now apply unclamped_aP.
    - destruct H as [H1 H2], (IH1 H1) as [d1 D1], (IH2 H2) as [d2 D2].
      eexists. apply partial1_sum; eauto.
    - destruct H as [H1 H2], (IH1 H1) as [d1 D1], (IH2 H2) as [d2 D2].
      eexists. apply partial1_prod; eauto. }
  destruct G as [d D]. rewrite (der1_is _ _ _ _ _ D). exact D.
Qed.
Lemma kb_partial01 : forall nf k x y f e, ls_nonzero k -> free nf k x y ->
  partial01 (kb nf k) x y f e (der01 (kb nf k) x y f e).
Proof.
  intros nf k x y f e HL H.
  assert (G : exists d, partial01 (kb nf k) x y f e d).
  { induction k as [ad a|k1 IH1 k2 IH2|k1 IH1 k2 IH2].
    - eexists. apply base_partial01; [now apply ls_atom_l|now apply unclamped_aP].
    - destruct H as [H1 H2], HL as [L1 L2], (IH1 L1 H1) as [d1 D1], (IH2 L2 H2) as [d2 D2].
      eexists. apply partial01_sum; eauto.
    - destruct H as [H1 H2], HL as [L1 L2], (IH1 L1 H1) as [d1 D1], (IH2 L2 H2) as [d2 D2].
      eexists. apply partial01_prod; eauto using kb_partial0, kb_partial1. }
  destruct G as [d D]. rewrite (der01_is _ _ _ _ _ _ D). exact D.
Qed.
Lemma der0_sum : forall nf k1 k2 x y f, free nf k1 x y -> free nf k2 x y ->
  der0 (kb nf (KSum k1 k2)) x y f = der0 (kb nf k1) x y f + der0 (kb nf k2) x y f.
Proof. intros. apply der0_is. apply partial0_sum; now apply kb_partial0. Qed.
Lemma der1_sum : forall nf k1 k2 x y f, free nf k1 x y -> free nf k2 x y ->
  der1 (kb nf (KSum k1 k2)) x y f = der1 (kb nf k1) x y f + der1 (kb nf k2) x y f.
Proof. intros. apply der1_is. apply partial1_sum; now apply kb_partial1. Qed.
Lemma der0_prod : forall nf k1 k2 x y f, free nf k1 x y -> free nf k2 x y ->
  der0 (kb nf (KProd k1 k2)) x y f
  = kb nf k1 x y * der0 (kb nf k2) x y f + der0 (kb nf k1) x y f * kb nf k2 x y.
Proof. intros. apply der0_is. apply partial0_prod; now apply kb_partial0. Qed.
Lemma der1_prod : forall nf k1 k2 x y f, free nf k1 x y -> free nf k2 x y ->
  der1 (kb nf (KProd k1 k2)) x y f
  = kb nf k1 x y * der1 (kb nf k2) x y f + der1 (kb nf k1) x y f * kb nf k2 x y.
Proof. intros. apply der1_is. apply partial1_prod; now apply kb_partial1. Qed.
Lemma der01_sum : forall nf k1 k2 x y f e, ls_nonzero k1 -> ls_nonzero k2 ->
  free nf k1 x y -> free nf k2 x y ->
  der01 (kb nf (KSum k1 k2)) x y f e = der01 (kb nf k1) x y f e + der01 (kb nf k2) x y f e.
Proof. intros. apply der01_is. apply partial01_sum; now apply kb_partial01. Qed.
Lemma der01_prod : forall nf k1 k2 x y f e, ls_nonzero k1 -> ls_nonzero k2 ->
  free nf k1 x y -> free nf k2 x y ->
  der01 (kb nf (KProd k1 k2)) x y f e
  = kb nf k1 x y * der01 (kb nf k2) x y f e + der0 (kb nf k1) x y f * der1 (kb nf k2) x y e
    + der1 (kb nf k1) x y e * der0 (kb nf k2) x y f + der01 (kb nf k1) x y f e * kb nf k2 x y.
Proof.
  intros. apply der01_is. apply partial01_prod; auto using kb_partial0, kb_partial1, kb_partial01.
Qed.

(** ** bounds on atoms *)
Lemma scat_cases : forall ds v f, NoDup ds ->
  (exists a, (a < length ds)%nat /\ nth a ds O = f
     /\ sum (length ds) (fun b => delta (nth b ds O) f * v b) = v a)
  \/ sum (length ds) (fun b => delta (nth b ds O) f * v b) = 0.
Proof.
  intros ds v f H. rewrite <- scat_sum by auto. unfold scat.
  destruct (find_ix f ds) as [a|] eqn:E; auto.
  destruct (find_ix_spec _ _ _ E). left. exists a. auto.
Qed.
Lemma S0_sq_bound : forall ds l x y f, l <> 0 -> NoDup ds ->
  Rabs (S0 ds (h_sq_x l) x y f) <= 2 * Rabs (x f - y f) / l ^ 2
  /\ (S0 ds (h_sq_x l) x y f) ^ 2 <= 4 / l ^ 2 * usum ds (h_sq l) x y.
Proof.
  intros ds l x y f Hl HN. unfold S0.
  assert (L2 : 0 < l ^ 2) by (apply pow2_gt_0; auto).
  pose proof (usum_sq_nonneg ds l x y) as N.
  assert (P0 : 0 <= 2 * Rabs (x f - y f) / l ^ 2).
  { unfold Rdiv. apply Rmult_le_pos; [pose proof (Rabs_pos (x f - y f)); lra|].
    left. now apply Rinv_0_lt_compat. }
  assert (P1 : 0 <= 4 / l ^ 2) by (left; apply Rdiv_lt_0_compat; lra).
  destruct (scat_cases ds (fun a => h_sq_x l (gather ds x a) (gather ds y a)) f HN) as [[a [Ha [En Es]]]|Es];
    rewrite Es.
  - unfold h_sq_x, gather. rewrite En. split.
    + replace (2 / l * (x f / l - y f / l)) with (2 * (x f - y f) * / l ^ 2) by (field; auto).
      rewrite !Rabs_mult, (Rabs_right 2), (Rabs_right (/ l ^ 2)) by (try lra; left; now apply Rinv_0_lt_compat).
      apply Req_le. unfold Rdiv. ring.
    + replace ((2 / l * (x f / l - y f / l)) ^ 2) with (4 / l ^ 2 * (x f / l - y f / l) ^ 2) by (field; auto).
      apply Rmult_le_compat_l; auto. unfold usum.
      assert (T : h_sq l (gather ds x a) (gather ds y a)
         <= sum (length ds) (fun a => h_sq l (gather ds x a) (gather ds y a))).
      { apply (sum_term_le (length ds) (fun a => h_sq l (gather ds x a) (gather ds y a))); auto.
        intros. unfold h_sq. apply pow2_ge_0. }
      unfold h_sq at 1, gather at 1 2 in T. rewrite En in T. exact T.
  - rewrite Rabs_R0. split; auto. rewrite pow_i by lia. now apply Rmult_le_pos.
Qed.
Lemma S1_sq_neg : forall ds l x y f, S1 ds (h_sq_y l) x y f = - S0 ds (h_sq_x l) x y f.
Proof.
  intros. unfold S1, S0. rewrite <- sum_opp. apply sum_ext; intros. unfold h_sq_y, h_sq_x. ring.
Qed.
Lemma S01_sq_bound : forall ds l x y f e, l <> 0 -> NoDup ds ->
  Rabs (S01 ds (h_sq_xy l) x y f e) <= 2 / l ^ 2.
Proof.
  intros ds l x y f e Hl HN. unfold S01. assert (L2 : 0 < l ^ 2) by (apply pow2_gt_0; auto).
  assert (P : 0 < 2 / l ^ 2) by (apply Rdiv_lt_0_compat; lra).
  rewrite (sum_ext _ _ (fun a => delta (nth a ds O) f * (delta (nth a ds O) e * - (2 / l ^ 2))))
    by (intros; unfold h_sq_xy; ring).
  destruct (scat_cases ds (fun a => delta (nth a ds O) e * - (2 / l ^ 2)) f HN) as [[a [Ha [En Es]]]|Es];
    rewrite Es.
  - unfold delta. destruct (Nat.eqb _ _).
    + rewrite Rmult_1_l, Rabs_Ropp, Rabs_right by lra. lra.
    + rewrite Rmult_0_l, Rabs_R0. lra.
  - rewrite Rabs_R0. lra.
Qed.
Lemma sq_prod_bound : forall p q M, 0 <= M -> p ^ 2 <= M -> q ^ 2 <= M -> Rabs (p * q) <= M.
Proof. intros p q M HM Hp Hq. apply Rabs_le. split; nra. Qed.
Lemma S10_sq_bound : forall ds l x y f e, l <> 0 -> NoDup ds ->
  Rabs (S1 ds (h_sq_y l) x y e * S0 ds (h_sq_x l) x y f) <= 4 / l ^ 2 * usum ds (h_sq l) x y.
Proof.
  intros ds l x y f e Hl HN. apply sq_prod_bound.
  - apply Rmult_le_pos; [|apply usum_sq_nonneg]. left. apply Rdiv_lt_0_compat; [lra|].
    apply pow2_gt_0; auto.
  - rewrite S1_sq_neg. replace ((- S0 ds (h_sq_x l) x y e) ^ 2) with (S0 ds (h_sq_x l) x y e ^ 2) by ring.
    now apply S0_sq_bound.
  - now apply S0_sq_bound.
Qed.

(** first derivatives of Matern52 *)
Lemma m52_gf : forall l u, 0 <= u ->
  Rabs (fphi' (AM52 l) u - gphi' (AM52 l) u) <= 25 / 12 * / 10 ^ 12.
Proof.
  intros l u Hu. simpl. unfold m52_phi'.
  pose proof (sqrt_sub_le 5 u ltac:(lra) Hu) as A. pose proof (sqrt_sq_sub 5 u ltac:(lra) Hu) as B.
  pose proof (g32_decr _ _ A) as C. pose proof (g32_lip _ _ A) as D. unfold g32 in *.
  set (a := sqrt (Rmax (5 * u) tiny36)) in *. set (b := dd 5 jit12 u) in *.
  set (p := (1 + a) * exp (- a)) in *. set (q := (1 + b) * exp (- b)) in *.
  replace (- (5 / 6) * (1 + b) * exp (- b) - - (5 / 6) * (1 + a) * exp (- a))
    with (5 / 6 * (p - q)) by (unfold p, q; ring).
  unfold jit12 in B. rewrite Rabs_mult, (Rabs_right (5 / 6)), (Rabs_right (p - q)) by lra. lra.
Qed.
Lemma m52_ff'' : forall u, 0 <= u ->
  0 <= (exp (- dd 5 0 u) - exp (- dd 5 jit12 u)) * u <= / 2 * / 10 ^ 12.
Proof.
  intros u Hu. pose proof jit12_pos as J.
  assert (A : 0 <= dd 5 0 u <= dd 5 jit12 u).
  { split; [apply dd_nonneg|]. unfold dd. apply sqrt_le_1_alt. lra. }
  assert (S0 : dd 5 0 u ^ 2 = 5 * u) by (unfold dd; rewrite pow2_sqrt; lra).
  assert (S1 : dd 5 jit12 u ^ 2 = 5 * (u + jit12)) by (unfold dd; rewrite pow2_sqrt; lra).
  pose proof (exp_lip _ _ A) as [E1 _].
  assert (E3 : exp (- dd 5 0 u) - exp (- dd 5 jit12 u)
     <= exp (- dd 5 0 u) * (dd 5 jit12 u - dd 5 0 u)).
  { replace (exp (- dd 5 jit12 u)) with (exp (- dd 5 0 u) * exp (- (dd 5 jit12 u - dd 5 0 u)))
      by (rewrite <- exp_plus; f_equal; ring).
    pose proof (exp_ge_1p (- (dd 5 jit12 u - dd 5 0 u))). pose proof (exp_pos (- dd 5 0 u)). nra. }
  pose proof (exp_1p_neg (dd 5 0 u) (proj1 A)) as E2. pose proof (exp_pos (- dd 5 0 u)) as E4.
  set (a := dd 5 0 u) in *. set (b := dd 5 jit12 u) in *. set (E := exp (- a)) in *.
  split; [apply Rmult_le_pos; auto|].
  apply Rle_trans with (E * (b - a) * u); [apply Rmult_le_compat_r; auto|].
  replace u with (a * a / 5) by (replace (a * a) with (a ^ 2) by ring; rewrite S0; field).
  assert (F1 : a * (b - a) <= 5 / 2 * jit12) by nra.
  assert (F2 : 0 <= a * (b - a)) by nra.
  assert (F3 : 0 <= E * a <= 1) by (split; nra).
  replace (E * (b - a) * (a * a / 5)) with ((E * a) * (a * (b - a)) / 5) by field.
  assert (F4 : (E * a) * (a * (b - a)) <= 1 * (5 / 2 * jit12)) by (apply Rmult_le_compat; lra).
  unfold jit12 in *. lra.
Qed.

Lemma sub_mult_bound : forall p q s e b, Rabs (p - q) <= e -> Rabs s <= b -> Rabs (p * s - q * s) <= e * b.
Proof.
  intros p q s e b H1 H2. replace (p * s - q * s) with ((p - q) * s) by ring. rewrite Rabs_mult.
  apply Rmult_le_compat; auto using Rabs_pos.
Qed.
Lemma atom_close0 : forall nf ad a X1 X2 s f t,
  ad_ok nf ad -> ls_ok a -> unclamped nf ad a (X1 s) (X2 t) -> (f < nf)%nat ->
  Rabs (atom_d0k nf ad a X1 X2 (s * nf + f)%nat t - der0 (kernel_base nf ad a) (X1 s) (X2 t) f)
  <= atom_err0 a (X1 s) (X2 t) f.
Proof.
  intros nf ad a X1 X2 s f t W L U Hf.
  destruct (is_m52 a) eqn:M.
  - destruct a; try discriminate. pose proof (unclamped_aP _ _ _ _ _ U) as P.
    rewrite atom_d0k_entry by (simpl; auto using ad_ok_nodup).
    rewrite (der0_is _ _ _ _ _ (base_partial0 _ _ _ _ _ f P)).
    rewrite <- gphi'_P by exact P. unfold atom_err0.
    replace (25 / 6 * / 10 ^ 12 * Rabs (X1 s f - X2 t f) / l ^ 2)
      with (25 / 12 * / 10 ^ 12 * (2 * Rabs (X1 s f - X2 t f) / l ^ 2)) by (field; auto).
    apply sub_mult_bound.
    + apply (m52_gf l). apply usum_sq_nonneg.
    + apply S0_sq_bound; auto using ad_ok_nodup.
  - rewrite (der0_is _ _ _ _ _ (d0k_base nf ad a X1 X2 s f t W L M U Hf)).
    simpl. rewrite Rminus_eq_0, Rabs_R0. destruct a; try discriminate; simpl; lra.
Qed.
Lemma atom_close1 : forall nf ad a X1 X2 s f t,
  ad_ok nf ad -> ls_ok a -> unclamped nf ad a (X1 s) (X2 t) -> (f < nf)%nat ->
  Rabs (atom_d1k nf ad a X1 X2 s (t * nf + f)%nat - der1 (kernel_base nf ad a) (X1 s) (X2 t) f)
  <= atom_err0 a (X1 s) (X2 t) f.
Proof.
  intros nf ad a X1 X2 s f t W L U Hf.
  destruct (is_m52 a) eqn:M.
  - destruct a; try discriminate. pose proof (unclamped_aP _ _ _ _ _ U) as P.
    rewrite atom_d1k_entry by (simpl; auto using ad_ok_nodup).
    rewrite (der1_is _ _ _ _ _ (base_partial1 _ _ _ _ _ f P)).
    rewrite <- gphi'_P by exact P. unfold atom_err0.
    replace (25 / 6 * / 10 ^ 12 * Rabs (X1 s f - X2 t f) / l ^ 2)
      with (25 / 12 * / 10 ^ 12 * (2 * Rabs (X1 s f - X2 t f) / l ^ 2)) by (field; auto).
    apply sub_mult_bound.
    + apply (m52_gf l). apply usum_sq_nonneg.
    + unfold aS1. simpl ahy. rewrite S1_sq_neg, Rabs_Ropp. apply S0_sq_bound; auto using ad_ok_nodup.
  - rewrite (der1_is _ _ _ _ _ (d1k_base nf ad a X1 X2 s f t W L M U Hf)).
    simpl. rewrite Rminus_eq_0, Rabs_R0. destruct a; try discriminate; simpl; lra.
Qed.
Lemma u_exp : forall u, 0 <= u -> 0 <= exp (- u) * u <= 1.
Proof.
  intros u Hu. pose proof (exp_1p_neg u Hu). pose proof (exp_pos (- u)). split; nra.
Qed.
Lemma atom_close01 : forall nf ad a X1 X2 s f t e,
  ad_ok nf ad -> ls_ok a -> unclamped nf ad a (X1 s) (X2 t) -> (f < nf)%nat -> (e < nf)%nat ->
  Rabs (atom_d01k nf ad a X1 X2 (s * nf + f)%nat (t * nf + e)%nat
        - der01 (kernel_base nf ad a) (X1 s) (X2 t) f e) <= atom_err01 a.
Proof.
  intros nf ad a X1 X2 s f t e W L U Hf He.
  pose proof (ad_ok_nodup _ _ W) as HN.
  assert (G : is_m52 a = false -> is_se a = false ->
     Rabs (atom_d01k nf ad a X1 X2 (s * nf + f)%nat (t * nf + e)%nat
        - der01 (kernel_base nf ad a) (X1 s) (X2 t) f e) <= atom_err01 a).
  { intros M S. rewrite (der01_is _ _ _ _ _ _ (d01k_base nf ad a X1 X2 s f t e W L M S U Hf He)).
    simpl. rewrite Rminus_eq_0, Rabs_R0. destruct a; try discriminate; simpl; lra. }
  assert (Q : forall p'' q'' p' q' A B, p'' * A + p' * B - (q'' * A + q' * B)
     = (p'' - q'') * A + (p' * B - q' * B)) by (intros; ring).
  pose proof jit12_pos as J.
  destruct a; try (now apply G).
  - (* SE *)
    pose proof (unclamped_aP _ _ _ _ _ U) as P. simpl in L.
    rewrite atom_d01k_entry by (simpl; auto).
    rewrite (der01_is _ _ _ _ _ _ (base_partial01 nf ad (ASE l) _ _ f e L P)).
    change (atom_err01 (ASE l)) with (6 * jit12 / l ^ 2).
    unfold aS0, aS1, aS01, au. simpl.
    pose proof (S10_sq_bound (dims nf ad) l (X1 s) (X2 t) f e L HN) as B1.
    pose proof (S01_sq_bound (dims nf ad) l (X1 s) (X2 t) f e L HN) as B2.
    pose proof (usum_sq_nonneg (dims nf ad) l (X1 s) (X2 t)) as N.
    set (u := usum _ _ _ _) in *. set (A := S1 _ _ _ _ _) in *. set (B := S0 _ _ _ _ _) in *.
    set (C := S01 _ _ _ _ _ _) in *.
    assert (E1 : 0 <= exp (- u) - exp (- (u + jit12)) <= exp (- u) * jit12).
    { replace (exp (- (u + jit12))) with (exp (- u) * exp (- jit12)) by (rewrite <- exp_plus; f_equal; ring).
      pose proof (exp_ge_1p (- jit12)). pose proof (exp_neg_le1 jit12 ltac:(lra)).
      pose proof (exp_pos (- u)). split; nra. }
    pose proof (u_exp u N) as E2. pose proof (exp_neg_le1 u N) as E3. pose proof (exp_pos (- u)) as E4.
    assert (L2 : 0 < / l ^ 2) by (apply Rinv_0_lt_compat, pow2_gt_0; auto).
    replace (exp (- (u + jit12)) * A * B + - exp (- (u + jit12)) * C - (exp (- u) * A * B + - exp (- u) * C))
      with (- ((exp (- u) - exp (- (u + jit12))) * (A * B)) + (exp (- u) - exp (- (u + jit12))) * C) by ring.
    eapply Rle_trans; [apply Rabs_triang|]. rewrite Rabs_Ropp, !Rabs_mult.
    rewrite (Rabs_right (exp (- u) - exp (- (u + jit12)))) by lra.
    rewrite <- Rabs_mult.
    assert (F1 : (exp (- u) - exp (- (u + jit12))) * Rabs (A * B) <= 4 * jit12 * / l ^ 2).
    { apply Rle_trans with (exp (- u) * jit12 * (4 / l ^ 2 * u)).
      - apply Rmult_le_compat; try apply E1; auto using Rabs_pos.
      - replace (exp (- u) * jit12 * (4 / l ^ 2 * u)) with (exp (- u) * u * (4 * jit12 * / l ^ 2)) by (field; auto).
        assert (0 < 4 * jit12 * / l ^ 2) by (apply Rmult_lt_0_compat; lra). nra. }
    assert (F2 : (exp (- u) - exp (- (u + jit12))) * Rabs C <= 2 * jit12 * / l ^ 2).
    { apply Rle_trans with (1 * jit12 * (2 / l ^ 2)).
      - apply Rmult_le_compat; try apply E1; auto using Rabs_pos.
        apply Rle_trans with (1 := proj2 E1). apply Rmult_le_compat_r; lra.
      - apply Req_le. field; auto. }
    change (/ 10 ^ 12) with jit12 in *. change (l * (l * 1)) with (l ^ 2).
    replace (6 * jit12 / l ^ 2) with (4 * jit12 * / l ^ 2 + 2 * jit12 * / l ^ 2) by (field; auto).
    lra.
  - (* Matern52 *)
    pose proof (unclamped_aP _ _ _ _ _ U) as P. simpl in L.
    rewrite atom_d01k_entry by (simpl; auto).
    rewrite (der01_is _ _ _ _ _ _ (base_partial01 nf ad (AM52 l) _ _ f e L P)).
    pose proof (m52_gf l (au nf ad (AM52 l) (X1 s) (X2 t)) (usum_sq_nonneg (dims nf ad) l (X1 s) (X2 t))) as G1.
    rewrite gphi'_P in G1 by exact P.
    change (mult01' (AM52 l)) with (fphi' (AM52 l)). change (mult01'' (AM52 l)) with (fphi'' (AM52 l)).
    pose proof (S10_sq_bound (dims nf ad) l (X1 s) (X2 t) f e L HN) as B1.
    pose proof (S01_sq_bound (dims nf ad) l (X1 s) (X2 t) f e L HN) as B2.
    pose proof (usum_sq_nonneg (dims nf ad) l (X1 s) (X2 t)) as N.
    unfold aS0, aS1, aS01. simpl ahx. simpl ahy. simpl ahxy.
    unfold au in *. simpl ah in *. 
    pose proof (m52_ff'' (usum (dims nf ad) (h_sq l) (X1 s) (X2 t)) N) as G2.
    set (u := usum _ _ _ _) in *. set (A := S1 _ _ _ _ _) in *. set (B := S0 _ _ _ _ _) in *.
    set (C := S01 _ _ _ _ _ _) in *.
    assert (L2 : 0 < / l ^ 2) by (apply Rinv_0_lt_compat, pow2_gt_0; auto).
    rewrite !Rmult_assoc, Q. eapply Rle_trans; [apply Rabs_triang|].
    pose proof (sub_mult_bound _ _ C _ _ G1 B2) as F2.
    assert (F1 : Rabs ((fphi'' (AM52 l) u - aphi'' (AM52 l) u) * (A * B)) <= 25 / 6 * / 10 ^ 12 * / l ^ 2).
    { rewrite Rabs_mult. simpl. unfold m52_phi''.
      replace (5 * 5 / 12 * exp (- dd 5 jit12 u) - 5 * 5 / 12 * exp (- dd 5 0 u))
        with (- (25 / 12 * (exp (- dd 5 0 u) - exp (- dd 5 jit12 u)))) by field.
      assert (E1 : 0 <= exp (- dd 5 0 u) - exp (- dd 5 jit12 u)).
      { apply exp_lip. split; [apply dd_nonneg|]. unfold dd. apply sqrt_le_1_alt. lra. }
      rewrite Rabs_Ropp, Rabs_right by lra.
      set (E := exp (- dd 5 0 u) - exp (- dd 5 jit12 u)) in *.
      change (l * (l * 1)) with (l ^ 2).
      apply Rle_trans with (25 / 12 * E * (4 / l ^ 2 * u)).
      - apply Rmult_le_compat_l; auto; lra.
      - replace (25 / 12 * E * (4 / l ^ 2 * u)) with (25 / 3 * / l ^ 2 * (E * u)) by (field; auto).
        change (10 * (10 * (10 * (10 * (10 * (10 * (10 * (10 * (10 * (10 * (10 * (10 * 1))))))))))))
          with (10 ^ 12). set (j := / 10 ^ 12) in *.
        replace (25 / 6 * j * / l ^ 2) with (25 / 3 * / l ^ 2 * (/ 2 * j)) by (field; auto).
        apply Rmult_le_compat_l; lra. }
    unfold atom_err01.
    change (10 * (10 * (10 * (10 * (10 * (10 * (10 * (10 * (10 * (10 * (10 * (10 * 1))))))))))))
          with (10 ^ 12).
    set (j := / 10 ^ 12) in *. assert (0 < j) by (unfold j; apply Rinv_0_lt_compat; lra).
    replace (25 / 12 * j * (2 / l ^ 2)) with (25 / 6 * j * / l ^ 2) in F2 by (field; auto).
    replace (9 * j / l ^ 2) with (25 / 6 * j * / l ^ 2 + 25 / 6 * j * / l ^ 2 + 2 / 3 * j * / l ^ 2) by (field; auto).
    assert (0 < j * / l ^ 2) by (apply Rmult_lt_0_compat; auto). lra.
Qed.

(** ** composites *)
Lemma perr_bound : forall a b v1 v2 e1 e2, Rabs (a - v1) <= e1 -> Rabs (b - v2) <= e2 ->
  Rabs (a * b - v1 * v2) <= perr e1 v1 e2 v2.
Proof.
  intros a b v1 v2 e1 e2 H1 H2. unfold perr.
  replace (a * b - v1 * v2) with ((a - v1) * v2 + v1 * (b - v2) + (a - v1) * (b - v2)) by ring.
  pose proof (Rabs_pos (a - v1)). pose proof (Rabs_pos (b - v2)).
  eapply Rle_trans; [apply Rabs_triang|]. apply Rplus_le_compat.
  - eapply Rle_trans; [apply Rabs_triang|]. rewrite !Rabs_mult. apply Rplus_le_compat.
    + apply Rmult_le_compat_r; auto using Rabs_pos.
    + apply Rmult_le_compat_l; auto using Rabs_pos.
  - rewrite Rabs_mult. apply Rmult_le_compat; auto.
Qed.
Lemma sum_bound : forall a b v1 v2 e1 e2, Rabs (a - v1) <= e1 -> Rabs (b - v2) <= e2 ->
  Rabs (a + b - (v1 + v2)) <= e1 + e2.
Proof.
  intros. replace (a + b - (v1 + v2)) with ((a - v1) + (b - v2)) by ring.
  eapply Rle_trans; [apply Rabs_triang|]. lra.
Qed.
Lemma d0k_close : forall nf k X1 X2 s f t,
  wf nf k -> ls_nonzero k -> free nf k (X1 s) (X2 t) -> (f < nf)%nat ->
  Rabs (d0k nf k X1 X2 (s * nf + f)%nat t - der0 (kb nf k) (X1 s) (X2 t) f) <= err0 nf k (X1 s) (X2 t) f.
Proof.
  intros nf k X1 X2 s f t W L F Hf.
  induction k as [ad a|k1 IH1 k2 IH2|k1 IH1 k2 IH2].
  - now apply atom_close0.
  - destruct W as [W1 W2], L as [L1 L2], F as [F1 F2]. rewrite der0_sum by auto.
    apply sum_bound; auto.
  - destruct W as [W1 W2], L as [L1 L2], F as [F1 F2]. rewrite der0_prod by auto.
    cbn [d0k err0]. unfold rep_row. rewrite !blk_div by auto. rewrite !kk_at.
    apply sum_bound; apply perr_bound; auto using kerr_bound.
Qed.
Lemma d1k_close : forall nf k X1 X2 s f t,
  wf nf k -> ls_nonzero k -> free nf k (X1 s) (X2 t) -> (f < nf)%nat ->
  Rabs (d1k nf k X1 X2 s (t * nf + f)%nat - der1 (kb nf k) (X1 s) (X2 t) f) <= err1 nf k (X1 s) (X2 t) f.
Proof.
  intros nf k X1 X2 s f t W L F Hf.
  induction k as [ad a|k1 IH1 k2 IH2|k1 IH1 k2 IH2].
  - now apply atom_close1.
  - destruct W as [W1 W2], L as [L1 L2], F as [F1 F2]. rewrite der1_sum by auto.
    apply sum_bound; auto.
  - destruct W as [W1 W2], L as [L1 L2], F as [F1 F2]. rewrite der1_prod by auto.
    cbn [d1k err1]. unfold rep_col. rewrite !blk_div by auto. rewrite !kk_at.
    apply sum_bound; apply perr_bound; auto using kerr_bound.
Qed.
Lemma d01k_close : forall nf k X1 X2 s f t e,
  wf nf k -> ls_nonzero k -> free nf k (X1 s) (X2 t) -> (f < nf)%nat -> (e < nf)%nat ->
  Rabs (d01k nf k X1 X2 (s * nf + f)%nat (t * nf + e)%nat - der01 (kb nf k) (X1 s) (X2 t) f e)
  <= err01 nf k (X1 s) (X2 t) f e.
Proof.
  intros nf k X1 X2 s f t e W L F Hf He.
  induction k as [ad a|k1 IH1 k2 IH2|k1 IH1 k2 IH2].
  - now apply atom_close01.
  - destruct W as [W1 W2], L as [L1 L2], F as [F1 F2]. rewrite der01_sum by auto.
    apply sum_bound; auto.
  - destruct W as [W1 W2], L as [L1 L2], F as [F1 F2]. rewrite der01_prod by auto.
    cbn [d01k err01]. unfold rep_col, rep_row. rewrite !blk_div by auto. rewrite !kk_at.
    repeat apply sum_bound; apply perr_bound; auto using kerr_bound, d0k_close, d1k_close.
Qed.

Lemma composite_close : forall nf k X1 X2 s f t e,
  wf nf k -> ls_nonzero k -> all_atoms (fun ad a => unclamped nf ad a (X1 s) (X2 t)) k ->
  (f < nf)%nat -> (e < nf)%nat ->
  (partial0 (kb nf k) (X1 s) (X2 t) f (der0 (kb nf k) (X1 s) (X2 t) f)
   /\ Rabs (d0k nf k X1 X2 (s * nf + f)%nat t - der0 (kb nf k) (X1 s) (X2 t) f)
      <= err0 nf k (X1 s) (X2 t) f)
  /\ (partial1 (kb nf k) (X1 s) (X2 t) e (der1 (kb nf k) (X1 s) (X2 t) e)
   /\ Rabs (d1k nf k X1 X2 s (t * nf + e)%nat - der1 (kb nf k) (X1 s) (X2 t) e)
      <= err1 nf k (X1 s) (X2 t) e)
  /\ (partial01 (kb nf k) (X1 s) (X2 t) f e (der01 (kb nf k) (X1 s) (X2 t) f e)
   /\ Rabs (d01k nf k X1 X2 (s * nf + f)%nat (t * nf + e)%nat - der01 (kb nf k) (X1 s) (X2 t) f e)
      <= err01 nf k (X1 s) (X2 t) f e).
Proof.
  intros. refine (conj (conj _ _) (conj (conj _ _) (conj _ _)));
    auto using kb_partial0, kb_partial1, kb_partial01, d0k_close, d1k_close, d01k_close.
Qed.

(** ** coefficient-contracted kernels, any kernel *)
Lemma dir1_d1kj : forall n m nf nv k X1 X2 J s t u, wf nf k ->
  (s < n)%nat -> (t < m)%nat -> (u < nv)%nat ->
  d1kj n m nf nv k X1 X2 J s (t * nv + u)%nat = dir1 nf k (X1 s) (X2 t) (fun f => J t f u).
Proof.
  intros n m nf nv k X1 X2 J s t u W Hs Ht Hu. rewrite d1kj_ctr by auto. unfold dir1.
  apply sum_ext; intros f Hf. f_equal.
  rewrite d1k_loc by auto. symmetry. now apply d1k_loc0.
Qed.

Lemma atom_err0_nonneg : forall a x y f, 0 <= atom_err0 a x y f.
Proof.
  intros a x y f. destruct a; unfold atom_err0; try lra.
  assert (0 <= 25 / 6 * / 10 ^ 12) by lra. pose proof (Rabs_pos (x f - y f)).
  unfold Rdiv at 1. apply Rmult_le_pos; [apply Rmult_le_pos; auto|].
  destruct (Req_dec l 0) as [->|Hl].
  - rewrite pow_i by lia. rewrite Rinv_0. lra.
  - left. apply Rinv_0_lt_compat. apply pow2_gt_0; auto.
Qed.
Lemma cerr0_nonneg : forall nf k x y w, 0 <= cerr0 nf k x y w.
Proof.
  intros nf k x y w. induction k as [ad a|k1 IH1 k2 IH2|k1 IH1 k2 IH2]; simpl.
  - apply sum_nonneg. intros. apply Rmult_le_pos; [apply Rabs_pos|apply atom_err0_nonneg].
  - lra.
  - pose proof (Rabs_pos (kernel_at nf k1 x y)). pose proof (Rabs_pos (kernel_at nf k2 x y)). nra.
Qed.
Lemma atom_d0kjc_close : forall n m nf ad a X1 X2 JC s t, ad_ok nf ad -> ls_ok a -> (s < n)%nat ->
  Rabs (atom_d0kjc n m nf ad a X1 X2 JC s t
        - sum nf (fun f => JC s f * atom_d0k nf ad a X1 X2 (s * nf + f)%nat t))
  <= sum nf (fun f => Rabs (JC s f) * atom_err0 a (X1 s) (X2 t) f).
Proof.
  intros n m nf ad a X1 X2 JC s t W L Hs.
  destruct (is_m52 a) eqn:M.
  - destruct a; try discriminate. simpl in L.
    unfold atom_d0kjc. rewrite grad0jaccoef_untraced_entry by auto.
    rewrite <- sum_minus. eapply Rle_trans; [apply sum_abs_le|]. apply sum_le. intros f Hf.
    rewrite atom_d0k_entry by (simpl; auto using ad_ok_nodup). rewrite jac0_val by (simpl; auto).
    set (u := au nf ad (AM52 l) (X1 s) (X2 t)). set (A := aS0 _ _ _ _ _ _).
    change (mult0 (AM52 l) u) with (fphi' (AM52 l) u).
    replace (gphi' (AM52 l) u * A * JC s f - JC s f * (fphi' (AM52 l) u * A))
      with (- (JC s f * (fphi' (AM52 l) u * A - gphi' (AM52 l) u * A))) by ring.
    rewrite Rabs_Ropp, Rabs_mult. apply Rmult_le_compat_l; [apply Rabs_pos|].
    unfold atom_err0.
    replace (25 / 6 * / 10 ^ 12 * Rabs (X1 s f - X2 t f) / l ^ 2)
      with (25 / 12 * / 10 ^ 12 * (2 * Rabs (X1 s f - X2 t f) / l ^ 2)) by (field; auto).
    apply sub_mult_bound.
    + apply m52_gf. apply usum_sq_nonneg.
    + apply S0_sq_bound; auto using ad_ok_nodup.
  - rewrite atom_d0kjc_ctr by auto. rewrite Rminus_eq_0, Rabs_R0. apply sum_nonneg.
    intros. apply Rmult_le_pos; [apply Rabs_pos|apply atom_err0_nonneg].
Qed.
Lemma d0kjc_close : forall n m nf k X1 X2 JC s t, wf nf k -> ls_nonzero k -> (s < n)%nat ->
  Rabs (d0kjc n m nf k X1 X2 JC s t - sum nf (fun f => JC s f * d0k nf k X1 X2 (s * nf + f)%nat t))
  <= cerr0 nf k (X1 s) (X2 t) (JC s).
Proof.
  intros n m nf k X1 X2 JC s t W L Hs.
  induction k as [ad a|k1 IH1 k2 IH2|k1 IH1 k2 IH2].
  - now apply atom_d0kjc_close.
  - destruct W, L. cbn [d0kjc d0k cerr0].
    rewrite (sum_ext _ _ (fun f => JC s f * d0k nf k1 X1 X2 (s * nf + f)%nat t
       + JC s f * d0k nf k2 X1 X2 (s * nf + f)%nat t)) by (intros; ring).
    rewrite sum_plus. apply sum_bound; auto.
  - destruct W, L. cbn [d0kjc d0k cerr0]. unfold rep_row.
    rewrite (sum_ext _ _ (fun f => kk nf k1 X1 X2 s t * (JC s f * d0k nf k2 X1 X2 (s * nf + f)%nat t)
       + JC s f * d0k nf k1 X1 X2 (s * nf + f)%nat t * kk nf k2 X1 X2 s t))
      by (intros; rewrite !blk_div by auto; ring).
    rewrite sum_plus, sum_scal_l, sum_scal_r, !kk_at. apply sum_bound.
    + rewrite <- Rmult_minus_distr_l, Rabs_mult. apply Rmult_le_compat_l; auto using Rabs_pos.
    + rewrite <- Rmult_minus_distr_r, Rabs_mult. apply Rmult_le_compat_r; auto using Rabs_pos.
Qed.
Lemma d01kjc_close : forall n m nf nv k X1 X2 JC J s t u, wf nf k -> ls_nonzero k ->
  (s < n)%nat -> (t < m)%nat -> (u < nv)%nat ->
  Rabs (d01kjc n m nf nv k X1 X2 JC J s (t * nv + u)%nat
        - sum nf (fun f => sum nf (fun e => JC s f *
            d01k nf k X1 X2 (s * nf + f)%nat (t * nf + e)%nat * J t e u)))
  <= cerr01 nf k (X1 s) (X2 t) (JC s) (fun e => J t e u).
Proof.
  intros n m nf nv k X1 X2 JC J s t u W L Hs Ht Hu.
  induction k as [ad a|k1 IH1 k2 IH2|k1 IH1 k2 IH2].
  - unfold d01kjc, d01k. rewrite atom_d01kjc_ctr by auto. rewrite Rminus_eq_0, Rabs_R0. simpl. lra.
  - destruct W, L. cbn [d01kjc d01k cerr01].
    rewrite (sum_ext _ _ (fun f => sum nf (fun e => JC s f *
            d01k nf k1 X1 X2 (s * nf + f)%nat (t * nf + e)%nat * J t e u)
         + sum nf (fun e => JC s f *
            d01k nf k2 X1 X2 (s * nf + f)%nat (t * nf + e)%nat * J t e u)))
      by (intros; rewrite <- sum_plus; apply sum_ext; intros; ring).
    rewrite sum_plus. apply sum_bound; auto.
  - destruct W, L. cbn [d01kjc d01k cerr01]. unfold rep_row, rep_col.
    rewrite !blk_div by auto. rewrite !dir1_d1kj by auto.
    match goal with |- Rabs (?A - _) <= ?B => assert (Q : forall r, r = sum nf (fun f => sum nf (fun e => JC s f *
        (kk nf k1 X1 X2 s t * d01k nf k2 X1 X2 (s * nf + f)%nat (t * nf + e)%nat
         + d0k nf k1 X1 X2 (s * nf + f)%nat t * d1k nf k2 X1 X2 s (t * nf + e)%nat
         + d1k nf k1 X1 X2 s (t * nf + e)%nat * d0k nf k2 X1 X2 (s * nf + f)%nat t
         + d01k nf k1 X1 X2 (s * nf + f)%nat (t * nf + e)%nat * kk nf k2 X1 X2 s t) * J t e u))
         -> Rabs (A - r) <= B) end.
    2: { apply Q. apply sum_ext; intros; apply sum_ext; intros. now rewrite !blk_div by auto. }
    intros r ->.
    rewrite <- (bil_prod_rule nf (JC s) (fun e => J t e u)).
    rewrite <- !(d1kj_ctr n m nf nv) by auto. rewrite !dir1_d1kj by auto. rewrite !kk_at.
    assert (M1 : forall c p q e, Rabs (p - q) <= e -> Rabs (c * p - c * q) <= Rabs c * e).
    { intros. rewrite <- Rmult_minus_distr_l, Rabs_mult. apply Rmult_le_compat_l; auto using Rabs_pos. }
    assert (M2 : forall c p q e, Rabs (p - q) <= e -> Rabs (p * c - q * c) <= e * Rabs c).
    { intros. rewrite <- Rmult_minus_distr_r, Rabs_mult. apply Rmult_le_compat_r; auto using Rabs_pos. }
    repeat apply sum_bound; (apply M1 || apply M2); auto using d0kjc_close.
Qed.

(** a squared exponential times a Matern32 on one feature, plus a Matern52 *)
Definition ex_close : kexp :=
  KSum (KProd (KAtom None (ASE 2)) (KAtom (Some (1 :: nil)%nat) (AM32 1))) (KAtom None (AM52 3)).
Lemma ex_C32_close : wf 3 ex_close /\ ls_nonzero ex_close /\
  all_atoms (fun ad a => unclamped 3 ad a (fun _ => 0) (fun _ => 1)) ex_close.
Proof.
  unfold ex_close. refine (conj _ (conj _ _)); simpl.
  - repeat split; try lra; try (repeat constructor; simpl; intuition lia); simpl; intros d H; intuition lia.
  - repeat split; apply Rgt_not_eq; lra.
  - unfold sqd, gather. simpl. repeat split; lra.
Qed.
