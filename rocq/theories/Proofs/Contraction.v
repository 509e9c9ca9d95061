(** Contractions of derivative kernels with jacobians. *)
From Coq Require Import Reals Lra Lia Arith List FunctionalExtensionality.
From Coquelicot Require Import Coquelicot.
From Verif Require Import Base.Sums Base.Mat Model.Arrays Model.Distances Model.Kernelizers
  Model.Kernels Spec.Partial Spec.KernelSpec Proofs.Deriv Proofs.KernelAtoms Proofs.KernelJets
  Proofs.Loops Proofs.KernelMethods.
Open Scope R_scope.

Lemma ad_ok_nodup : forall nf ad, ad_ok nf ad -> NoDup (dims nf ad).
Proof. intros nf [ds|] H; simpl in *; [tauto|apply seq_NoDup]. Qed.
Lemma ad_ok_lt : forall nf ad, ad_ok nf ad -> forall a, (a < length (dims nf ad))%nat ->
  (nth a (dims nf ad) O < nf)%nat.
Proof.
  intros nf ad H a Ha. assert (I : In (nth a (dims nf ad) O) (dims nf ad)) by now apply nth_In.
  destruct ad as [ds|]; simpl in *; [now apply H|]. apply in_seq in I. lia.
Qed.

Lemma scat_nth : forall ds v a, NoDup ds -> (a < length ds)%nat -> scat ds v (nth a ds O) = v a.
Proof.
  intros ds v a HN Ha. rewrite scat_sum by auto. rewrite (sum_single (length ds) a); auto.
  - rewrite delta_same. ring.
  - intros j Hj Hja. rewrite delta_diff; [ring|]. intro Hc. apply Hja.
    apply (proj1 (NoDup_nth ds O) HN); auto.
Qed.
Lemma sum_scat : forall nf ds J v, NoDup ds ->
  (forall a, (a < length ds)%nat -> (nth a ds O < nf)%nat) ->
  sum nf (fun f => J f * scat ds v f) = sum (length ds) (fun a => J (nth a ds O) * v a).
Proof.
  intros nf ds J v HN HL.
  rewrite (sum_ext nf _ (fun f => sum (length ds) (fun a => delta (nth a ds O) f * (J f * v a)))).
  - rewrite sum_swap. apply sum_ext; intros a Ha. now rewrite sum_delta_l by auto.
  - intros f Hf. rewrite scat_sum by auto. rewrite <- sum_scal_l. apply sum_ext; intros; ring.
Qed.

Lemma sum_scat2 : forall nf ds (K : nat -> nat -> R) c, NoDup ds ->
  (forall a, (a < length ds)%nat -> (nth a ds O < nf)%nat) ->
  sum nf (fun f => sum nf (fun e => K f e *
      sum (length ds) (fun b => sum (length ds) (fun a =>
        delta (nth b ds O) f * delta (nth a ds O) e * c b a))))
  = sum (length ds) (fun b => sum (length ds) (fun a => K (nth b ds O) (nth a ds O) * c b a)).
Proof.
  intros nf ds K c HN HL.
  rewrite (sum_ext nf _ (fun f => sum (length ds) (fun b => delta (nth b ds O) f *
     sum (length ds) (fun a => K f (nth a ds O) * c b a)))).
  { rewrite sum_swap. apply sum_ext; intros b Hb. now rewrite sum_delta_l by auto. }
  intros f Hf.
  rewrite (sum_ext nf _ (fun e => sum (length ds) (fun b => sum (length ds) (fun a =>
       delta (nth a ds O) e * (delta (nth b ds O) f * (K f e * c b a)))))).
  - rewrite sum_swap. apply sum_ext; intros b Hb. rewrite sum_swap, <- sum_scal_l.
    apply sum_ext; intros a Ha. now rewrite sum_delta_l by auto.
  - intros e He. rewrite <- sum_scal_l. apply sum_ext; intros b Hb. rewrite <- sum_scal_l.
    apply sum_ext; intros a Ha. ring.
Qed.
Lemma sum_scat_d : forall nf ds (K : nat -> nat -> R) c, NoDup ds ->
  (forall a, (a < length ds)%nat -> (nth a ds O < nf)%nat) ->
  sum nf (fun f => sum nf (fun e => K f e *
      sum (length ds) (fun a => delta (nth a ds O) f * delta (nth a ds O) e * c)))
  = sum (length ds) (fun a => K (nth a ds O) (nth a ds O) * c).
Proof.
  intros nf ds K c HN HL.
  transitivity (sum nf (fun f => sum nf (fun e => K f e *
      sum (length ds) (fun b => sum (length ds) (fun a =>
        delta (nth b ds O) f * delta (nth a ds O) e * (delta b a * c)))))).
  - apply sum_ext; intros f Hf; apply sum_ext; intros e He. f_equal.
    apply sum_ext; intros b Hb.
    rewrite (sum_ext _ _ (fun a => delta b a * (delta (nth b ds O) f * delta (nth a ds O) e * c)))
      by (intros; ring).
    now rewrite sum_delta_l by auto.
  - rewrite sum_scat2 by auto. apply sum_ext; intros b Hb.
    rewrite (sum_ext _ _ (fun a => delta b a * (K (nth b ds O) (nth a ds O) * c)))
      by (intros; ring).
    now rewrite sum_delta_l by auto.
Qed.
(** product of two scattered vectors *)
Lemma sum_scat_prod : forall nf ds (j1 j2 : Vec) v w, NoDup ds ->
  (forall a, (a < length ds)%nat -> (nth a ds O < nf)%nat) ->
  sum nf (fun f => sum nf (fun e => j1 f * (scat ds v f * scat ds w e) * j2 e))
  = sum (length ds) (fun a => j1 (nth a ds O) * v a) * sum (length ds) (fun a => w a * j2 (nth a ds O)).
Proof.
  intros nf ds j1 j2 v w HN HL.
  rewrite <- (sum_scat nf ds j1 v HN HL).
  rewrite (sum_ext _ (fun a => w a * j2 (nth a ds O)) (fun a => j2 (nth a ds O) * w a)) by (intros; ring).
  rewrite <- (sum_scat nf ds j2 w HN HL). rewrite sum_mult.
  apply sum_ext; intros; apply sum_ext; intros. ring.
Qed.

Section Ctr.
Variables (n m nf : nat).

(** ** d0kj *)
Lemma atom_d0kj_ctr : forall nv ad a X1 X2 J s v t, ad_ok nf ad ->
  (s < n)%nat -> (v < nv)%nat -> (t < m)%nat ->
  atom_d0kj n m nf nv ad a X1 X2 J (s * nv + v)%nat t
  = sum nf (fun f => J s f v * atom_d0k nf ad a X1 X2 (s * nf + f)%nat t).
Proof.
  intros nv ad a X1 X2 J s v t Had Hs Hv Ht.
  pose proof (ad_ok_nodup _ _ Had) as HN. pose proof (ad_ok_lt _ _ Had) as HL.
  assert (G : forall g, grad0jac_kernelize n m nf nv g X1 X2 J (s * nv + v)%nat t
    = sum nf (fun f => J s f v * grad0_kernelize nf g X1 X2 (s * nf + f)%nat t)).
  { intros g. rewrite grad0jac_entry by auto. apply sum_ext; intros f Hf.
    unfold grad0_kernelize, rs_row. rewrite blk_div, blk_mod by auto. ring. }
  assert (PP : forall d off, poly_d0kj d off (dims nf ad) nv X1 X2 J (s * nv + v)%nat t
     = sum nf (fun f => J s f v * poly_d0k d off (dims nf ad) nf X1 X2 (s * nf + f)%nat t)).
  { intros d off. unfold poly_d0kj, poly_d0k, rs_row. rewrite blk_div, blk_mod by auto.
    rewrite (sum_ext nf _ (fun f => J s f v * scat (dims nf ad) (fun a =>
       poly_c1 d off (dims nf ad) X1 X2 s t * X2 t (nth a (dims nf ad) O)) f))
     by (intros; now rewrite blk_div, blk_mod by auto).
    rewrite sum_scat by auto. apply sum_ext; intros. unfold gatherT, gatherM, gather. ring. }
  destruct a; unfold atom_d0kj, atom_d0k; try apply G; try apply PP.
  - unfold zeros. symmetry. apply sum_zero_ext. intros; ring.
  - unfold linear_d0kj, linear_d0k, rs_row, tile_row. rewrite blk_div, blk_mod by auto.
    rewrite (sum_ext nf _ (fun f => J s f v * scat (dims nf ad) (fun a =>
       X2 t (nth a (dims nf ad) O)) f)) by (intros; now rewrite blk_mod by auto).
    rewrite sum_scat by auto. reflexivity.
  - unfold m52_d0kj. unfold rs_row at 1. rewrite blk_div, blk_mod by auto.
    unfold m52_d0k, rs_row.
    rewrite (sum_ext _ _ (fun a => J s (nth a (dims nf ad) O) v * (scat (dims nf ad) (fun a =>
     - (sqrt 5 / (3 * l)) * (1 + m52_d l (dims nf ad) X1 X2 s t) * exp (- m52_d l (dims nf ad) X1 X2 s t)
     * (sqrt 5 * zdiff l (dims nf ad) X1 X2 s t a)) (nth a (dims nf ad) O))))
     by (intros; unfold gatherT; now rewrite blk_div, blk_mod by auto).
    rewrite (sum_ext nf _ (fun f => J s f v * scat (dims nf ad) (fun a =>
     - (sqrt 5 / (3 * l)) * (1 + m52_d l (dims nf ad) X1 X2 s t) * exp (- m52_d l (dims nf ad) X1 X2 s t)
     * (sqrt 5 * zdiff l (dims nf ad) X1 X2 s t a)) f))
     by (intros; now rewrite blk_div, blk_mod by auto).
    rewrite sum_scat by auto. apply sum_ext; intros. f_equal. now rewrite scat_nth by auto.
Qed.

Lemma atom_d1kj_ctr : forall nv ad a X1 X2 J s v t, ad_ok nf ad ->
  (s < n)%nat -> (v < nv)%nat -> (t < m)%nat ->
  atom_d1kj n m nf nv ad a X1 X2 J s (t * nv + v)%nat
  = sum nf (fun f => J t f v * atom_d1k nf ad a X1 X2 s (t * nf + f)%nat).
Proof.
  intros nv ad a X1 X2 J s v t Had Hs Hv Ht.
  pose proof (ad_ok_nodup _ _ Had) as HN. pose proof (ad_ok_lt _ _ Had) as HL.
  assert (G : forall g, grad1jac_kernelize n m nf nv g X1 X2 J s (t * nv + v)%nat
    = sum nf (fun f => J t f v * grad1_kernelize nf g X1 X2 s (t * nf + f)%nat)).
  { intros g. rewrite grad1jac_entry by auto. apply sum_ext; intros f Hf.
    unfold grad1_kernelize, rs_col. rewrite blk_div, blk_mod by auto. ring. }
  assert (PP : forall d off, poly_d1kj d off (dims nf ad) nv X1 X2 J s (t * nv + v)%nat
     = sum nf (fun f => J t f v * poly_d1k d off (dims nf ad) nf X1 X2 s (t * nf + f)%nat)).
  { intros d off. unfold poly_d1kj, poly_d1k, rs_col. rewrite blk_div, blk_mod by auto.
    rewrite (sum_ext nf _ (fun f => J t f v * scat (dims nf ad) (fun a =>
       poly_c1 d off (dims nf ad) X1 X2 s t * X1 s (nth a (dims nf ad) O)) f))
     by (intros; now rewrite blk_div, blk_mod by auto).
    rewrite sum_scat by auto. apply sum_ext; intros. unfold gatherT, gatherM, gather. ring. }
  destruct a; unfold atom_d1kj, atom_d1k; try apply G; try apply PP.
  - unfold zeros. symmetry. apply sum_zero_ext. intros; ring.
  - unfold linear_d1kj, linear_d1k, rs_col, tile_col. rewrite blk_div, blk_mod by auto.
    rewrite (sum_ext nf _ (fun f => J t f v * scat (dims nf ad) (fun a =>
       X1 s (nth a (dims nf ad) O)) f)) by (intros; now rewrite blk_mod by auto).
    rewrite sum_scat by auto. apply sum_ext; intros; unfold gatherM, gatherT, gather; ring.
  - unfold m52_d1kj. unfold rs_col at 1. rewrite blk_div, blk_mod by auto.
    unfold m52_d1k, rs_col.
    rewrite (sum_ext _ _ (fun a => J t (nth a (dims nf ad) O) v * (scat (dims nf ad) (fun a =>
     (sqrt 5 / (3 * l)) * (1 + m52_d l (dims nf ad) X1 X2 s t) * exp (- m52_d l (dims nf ad) X1 X2 s t)
     * (sqrt 5 * zdiff l (dims nf ad) X1 X2 s t a)) (nth a (dims nf ad) O))))
     by (intros; unfold gatherT; rewrite blk_div, blk_mod by auto; ring).
    rewrite (sum_ext nf _ (fun f => J t f v * scat (dims nf ad) (fun a =>
     (sqrt 5 / (3 * l)) * (1 + m52_d l (dims nf ad) X1 X2 s t) * exp (- m52_d l (dims nf ad) X1 X2 s t)
     * (sqrt 5 * zdiff l (dims nf ad) X1 X2 s t a)) f))
     by (intros; now rewrite blk_div, blk_mod by auto).
    rewrite sum_scat by auto. apply sum_ext; intros. f_equal. now rewrite scat_nth by auto.
Qed.

(** ** d01kj and d01kjc, via a common bilinear form *)
Lemma sum_scat_lap : forall ds (j1 j2 : Vec) v w c q, NoDup ds ->
  (forall a, (a < length ds)%nat -> (nth a ds O < nf)%nat) ->
  sum nf (fun f => sum nf (fun e => j1 f * (c * scat ds v f * scat ds w e
     + sum (length ds) (fun a => delta (nth a ds O) f * delta (nth a ds O) e * q)) * j2 e))
  = c * sum (length ds) (fun a => v a * j1 (nth a ds O)) * sum (length ds) (fun a => w a * j2 (nth a ds O))
    + sum (length ds) (fun a => j1 (nth a ds O) * q * j2 (nth a ds O)).
Proof.
  intros ds j1 j2 v w c q HN HL.
  rewrite (sum_ext nf _ (fun f => sum nf (fun e => (c * j1 f) * (scat ds v f * scat ds w e) * j2 e)
     + sum nf (fun e => (j1 f * j2 e) * sum (length ds) (fun a => delta (nth a ds O) f * delta (nth a ds O) e * q)))).
  - rewrite sum_plus. rewrite sum_scat_prod by auto. 
    rewrite (sum_scat_d nf ds (fun f e => j1 f * j2 e)) by auto. f_equal.
    + f_equal. rewrite <- sum_scal_l. apply sum_ext; intros; ring.
    + apply sum_ext; intros; ring.
  - intros f Hf. rewrite <- sum_plus. apply sum_ext; intros; ring.
Qed.

Lemma poly_ctr : forall d off ds (j1 j2 : Vec) X1 X2 s t, NoDup ds ->
  (forall a, (a < length ds)%nat -> (nth a ds O < nf)%nat) ->
  sum nf (fun f => sum nf (fun e => j1 f *
     poly_d01k d off ds nf X1 X2 (s * nf + f)%nat (t * nf + e)%nat * j2 e))
  = sum (length ds) (fun f => sum (length ds) (fun e =>
      j1 (nth f ds O) * poly_tmp d off ds X1 X2 s f t e * j2 (nth e ds O))).
Proof.
  intros d off ds j1 j2 X1 X2 s t HN HL.
  set (c := fun b a => poly_tmp d off ds X1 X2 s b t a).
  transitivity (sum nf (fun f => sum nf (fun e => (j1 f * j2 e) *
      sum (length ds) (fun b => sum (length ds) (fun a =>
        delta (nth b ds O) f * delta (nth a ds O) e * c b a))))).
  - apply sum_ext; intros f Hf; apply sum_ext; intros e He.
    unfold poly_d01k, rs_4. rewrite !blk_div, !blk_mod by auto.
    rewrite scat2_sum by auto.
    rewrite Rmult_assoc, (Rmult_comm _ (j2 e)), <- Rmult_assoc. f_equal.
    apply sum_ext; intros b Hb; apply sum_ext; intros a Ha. f_equal.
    unfold c, poly_tmp. rewrite (delta_sym b a). ring.
  - rewrite (sum_scat2 nf ds (fun f e => j1 f * j2 e)) by auto.
    apply sum_ext; intros; apply sum_ext; intros. unfold c. ring.
Qed.

Lemma se_ctr : forall l ds (j1 j2 : Vec) X1 X2 s t, NoDup ds ->
  (forall a, (a < length ds)%nat -> (nth a ds O < nf)%nat) ->
  sum nf (fun f => sum nf (fun e => j1 f *
     se_d01k l ds nf X1 X2 (s * nf + f)%nat (t * nf + e)%nat * j2 e))
  = - se_ed2 l ds X1 X2 s t * sum (length ds) (fun a => 2 / l * zdiff l ds X1 X2 s t a * j1 (nth a ds O))
      * sum (length ds) (fun a => 2 / l * zdiff l ds X1 X2 s t a * j2 (nth a ds O))
     + sum (length ds) (fun a => j1 (nth a ds O) * (se_ed2 l ds X1 X2 s t * (2 / l ^ 2)) * j2 (nth a ds O)).
Proof.
  intros l ds j1 j2 X1 X2 s t HN HL.
  rewrite <- (sum_scat_lap ds j1 j2 (fun a => 2 / l * zdiff l ds X1 X2 s t a)
    (fun a => 2 / l * zdiff l ds X1 X2 s t a)) by auto.
  apply sum_ext; intros f Hf; apply sum_ext; intros e He.
  unfold se_d01k, rs_4. rewrite !blk_div, !blk_mod by auto. reflexivity.
Qed.
Lemma m52_ctr : forall l ds (j1 j2 : Vec) X1 X2 s t, NoDup ds ->
  (forall a, (a < length ds)%nat -> (nth a ds O < nf)%nat) ->
  sum nf (fun f => sum nf (fun e => j1 f *
     m52_d01k l ds nf X1 X2 (s * nf + f)%nat (t * nf + e)%nat * j2 e))
  = - (5 / (3 * l ^ 2) * exp (- m52_d l ds X1 X2 s t))
      * sum (length ds) (fun a => sqrt 5 * zdiff l ds X1 X2 s t a * j1 (nth a ds O))
      * sum (length ds) (fun a => sqrt 5 * zdiff l ds X1 X2 s t a * j2 (nth a ds O))
     + sum (length ds) (fun a => j1 (nth a ds O) *
        (5 / (3 * l ^ 2) * exp (- m52_d l ds X1 X2 s t) * (1 + m52_d l ds X1 X2 s t)) * j2 (nth a ds O)).
Proof.
  intros l ds j1 j2 X1 X2 s t HN HL.
  rewrite <- (sum_scat_lap ds j1 j2 (fun a => sqrt 5 * zdiff l ds X1 X2 s t a)
    (fun a => sqrt 5 * zdiff l ds X1 X2 s t a)) by auto.
  apply sum_ext; intros f Hf; apply sum_ext; intros e He.
  unfold m52_d01k, rs_4. rewrite !blk_div, !blk_mod by auto. reflexivity.
Qed.
Lemma linear_ctr : forall ds (j1 j2 : Vec) X1 X2 s t, NoDup ds ->
  (forall a, (a < length ds)%nat -> (nth a ds O < nf)%nat) ->
  sum nf (fun f => sum nf (fun e => j1 f *
     linear_d01k ds nf X1 X2 (s * nf + f)%nat (t * nf + e)%nat * j2 e))
  = sum (length ds) (fun a => j1 (nth a ds O) * j2 (nth a ds O)).
Proof.
  intros ds j1 j2 X1 X2 s t HN HL.
  transitivity (sum nf (fun f => sum nf (fun e => (j1 f * j2 e) *
      sum (length ds) (fun a => delta (nth a ds O) f * delta (nth a ds O) e * 1)))).
  - apply sum_ext; intros f Hf; apply sum_ext; intros e He.
    unfold linear_d01k. rewrite !blk_mod by auto. rewrite scat_diag_sum by auto. ring.
  - rewrite (sum_scat_d nf ds (fun f e => j1 f * j2 e)) by auto. apply sum_ext; intros; ring.
Qed.

Lemma atom_d01kj_ctr : forall nv1 nv2 ad a X1 X2 J1 J2 s v t u, ad_ok nf ad ->
  (s < n)%nat -> (v < nv1)%nat -> (t < m)%nat -> (u < nv2)%nat ->
  atom_d01kj n m nf nv1 nv2 ad a X1 X2 J1 J2 (s * nv1 + v)%nat (t * nv2 + u)%nat
  = sum nf (fun f => sum nf (fun e => J1 s f v *
      atom_d01k nf ad a X1 X2 (s * nf + f)%nat (t * nf + e)%nat * J2 t e u)).
Proof.
  intros nv1 nv2 ad a X1 X2 J1 J2 s v t u Had Hs Hv Ht Hu.
  pose proof (ad_ok_nodup _ _ Had) as HN. pose proof (ad_ok_lt _ _ Had) as HL.
  set (j1 := fun f => J1 s f v). set (j2 := fun f => J2 t f u).
  assert (G : forall h, grad01jac_kernelize n m nf nv1 nv2 h X1 X2 J1 J2 (s * nv1 + v)%nat (t * nv2 + u)%nat
    = sum nf (fun f => sum nf (fun e => J1 s f v *
        grad01_kernelize nf h X1 X2 (s * nf + f)%nat (t * nf + e)%nat * J2 t e u))).
  { intros h. rewrite grad01jac_entry by auto. apply sum_ext; intros f Hf.
    apply sum_ext; intros e He.
    unfold grad01_kernelize, rs_4. rewrite !blk_div, !blk_mod by auto. ring. }
  destruct a; unfold atom_d01kj, atom_d01k; try apply G.
  - unfold zeros. symmetry. apply sum_zero_ext. intros. apply sum_zero_ext. intros; ring.
  - rewrite (linear_ctr (dims nf ad) j1 j2) by auto.
    unfold linear_d01kj, rs_4. rewrite !blk_div, !blk_mod by auto. reflexivity.
  - rewrite (poly_ctr degree offset (dims nf ad) j1 j2) by auto.
    unfold poly_d01kj, rs_4. rewrite !blk_div, !blk_mod by auto. reflexivity.
  - rewrite (poly_ctr degree offset (dims nf ad) j1 j2) by auto.
    unfold poly_d01kj, rs_4. rewrite !blk_div, !blk_mod by auto. reflexivity.
  - rewrite (se_ctr l (dims nf ad) j1 j2) by auto.
    unfold se_d01kj, rs_4. rewrite !blk_div, !blk_mod by auto. reflexivity.
  - rewrite (m52_ctr l (dims nf ad) j1 j2) by auto.
    unfold m52_d01kj, rs_4. rewrite !blk_div, !blk_mod by auto. reflexivity.
Qed.

Lemma atom_d01kjc_ctr : forall nv ad a X1 X2 JC J s t u, ad_ok nf ad -> ls_ok a ->
  (s < n)%nat -> (t < m)%nat -> (u < nv)%nat ->
  atom_d01kjc n m nf nv ad a X1 X2 JC J s (t * nv + u)%nat
  = sum nf (fun f => sum nf (fun e => JC s f *
      atom_d01k nf ad a X1 X2 (s * nf + f)%nat (t * nf + e)%nat * J t e u)).
Proof.
  intros nv ad a X1 X2 JC J s t u Had Hl Hs Ht Hu.
  pose proof (ad_ok_nodup _ _ Had) as HN. pose proof (ad_ok_lt _ _ Had) as HL.
  set (j1 := JC s). set (j2 := fun f => J t f u).
  assert (G : forall h, grad01jaccoef_untraced n m nf nv h X1 X2 JC J s (t * nv + u)%nat
    = sum nf (fun f => sum nf (fun e => JC s f *
        grad01_kernelize nf h X1 X2 (s * nf + f)%nat (t * nf + e)%nat * J t e u))).
  { intros h. rewrite grad01jaccoef_untraced_entry by auto. apply sum_ext; intros f Hf.
    apply sum_ext; intros e He.
    unfold grad01_kernelize, rs_4. rewrite !blk_div, !blk_mod by auto. ring. }
  destruct a; unfold atom_d01kjc; try apply G.
  - rewrite grad01jaccoef_untraced_entry by auto.
    apply sum_ext; intros f Hf; apply sum_ext; intros e He. f_equal. f_equal.
    rewrite (atom_d01k_entry nf ad (AConst variance)) by (simpl; auto).
    now rewrite hess01_val by (simpl; auto).
  - rewrite grad01jaccoef_untraced_entry by auto.
    apply sum_ext; intros f Hf; apply sum_ext; intros e He. f_equal. f_equal.
    rewrite (atom_d01k_entry nf ad ALin) by (simpl; auto).
    now rewrite hess01_val by (simpl; auto).
  - unfold atom_d01k. rewrite (poly_ctr degree offset (dims nf ad) j1 j2) by auto.
    unfold poly_d01kjc, rs_col. rewrite !blk_div, !blk_mod by auto. reflexivity.
  - unfold atom_d01k. rewrite (poly_ctr degree offset (dims nf ad) j1 j2) by auto.
    unfold poly_d01kjc, rs_col. rewrite !blk_div, !blk_mod by auto. reflexivity.
  - unfold atom_d01k. rewrite (se_ctr l (dims nf ad) j1 j2) by auto.
    unfold se_d01kjc, rs_col. rewrite !blk_div, !blk_mod by auto. reflexivity.
  - unfold atom_d01k. rewrite (m52_ctr l (dims nf ad) j1 j2) by auto.
    unfold m52_d01kjc, rs_col. rewrite !blk_div, !blk_mod by auto. reflexivity.
Qed.

Lemma atom_d0kjc_ctr : forall ad a X1 X2 JC s t, ad_ok nf ad -> ls_ok a -> is_m52 a = false ->
  (s < n)%nat ->
  atom_d0kjc n m nf ad a X1 X2 JC s t
  = sum nf (fun f => JC s f * atom_d0k nf ad a X1 X2 (s * nf + f)%nat t).
Proof.
  intros ad a X1 X2 JC s t Had Hl Hm Hs.
  pose proof (ad_ok_nodup _ _ Had) as HN.
  unfold atom_d0kjc. rewrite grad0jaccoef_untraced_entry by auto.
  apply sum_ext; intros f Hf. rewrite Rmult_comm. f_equal.
  assert (G : grad0_kernelize nf (jac0 nf ad a) X1 X2 (s * nf + f)%nat t = jac0 nf ad a (X1 s) (X2 t) f).
  { unfold grad0_kernelize, rs_row. now rewrite blk_div, blk_mod by auto. }
  destruct a; try (symmetry; exact G); try discriminate;
   (rewrite atom_d0k_entry by (simpl; auto); rewrite jac0_val by (simpl; auto); reflexivity).
Qed.

(** ** kernel expressions *)
Lemma d0kj_ctr : forall nv k X1 X2 J s v t, wf nf k ->
  (s < n)%nat -> (v < nv)%nat -> (t < m)%nat ->
  d0kj n m nf nv k X1 X2 J (s * nv + v)%nat t
  = sum nf (fun f => J s f v * d0k nf k X1 X2 (s * nf + f)%nat t).
Proof.
  induction k as [ad a|k1 IH1 k2 IH2|k1 IH1 k2 IH2]; intros X1 X2 J s v t W Hs Hv Ht; simpl.
  - now apply atom_d0kj_ctr.
  - destruct W as [W1 W2]. rewrite IH1, IH2 by auto. rewrite <- sum_plus.
    apply sum_ext; intros; ring.
  - destruct W as [W1 W2]. rewrite IH1, IH2 by auto. unfold rep_row.
    rewrite !blk_div by auto. rewrite <- sum_scal_l, <- sum_scal_r, <- sum_plus.
    apply sum_ext; intros. rewrite !blk_div by auto. ring.
Qed.
Lemma d1kj_ctr : forall nv k X1 X2 J s v t, wf nf k ->
  (s < n)%nat -> (v < nv)%nat -> (t < m)%nat ->
  d1kj n m nf nv k X1 X2 J s (t * nv + v)%nat
  = sum nf (fun f => J t f v * d1k nf k X1 X2 s (t * nf + f)%nat).
Proof.
  induction k as [ad a|k1 IH1 k2 IH2|k1 IH1 k2 IH2]; intros X1 X2 J s v t W Hs Hv Ht; simpl.
  - now apply atom_d1kj_ctr.
  - destruct W as [W1 W2]. rewrite IH1, IH2 by auto. rewrite <- sum_plus.
    apply sum_ext; intros; ring.
  - destruct W as [W1 W2]. rewrite IH1, IH2 by auto. unfold rep_col.
    rewrite !blk_div by auto. rewrite <- sum_scal_l, <- sum_scal_r, <- sum_plus.
    apply sum_ext; intros. rewrite !blk_div by auto. ring.
Qed.

Lemma bil_prod_rule : forall (j1 j2 : Vec) a1 a2 (p0 q0 p1 q1 : Vec) (P Q : Mat),
  a1 * sum nf (fun f => sum nf (fun e => j1 f * Q f e * j2 e))
  + sum nf (fun f => j1 f * p0 f) * sum nf (fun e => j2 e * q1 e)
  + sum nf (fun e => j2 e * p1 e) * sum nf (fun f => j1 f * q0 f)
  + sum nf (fun f => sum nf (fun e => j1 f * P f e * j2 e)) * a2
  = sum nf (fun f => sum nf (fun e => j1 f *
       (a1 * Q f e + p0 f * q1 e + p1 e * q0 f + P f e * a2) * j2 e)).
Proof.
  intros.
  rewrite (Rmult_comm (sum nf (fun e => j2 e * p1 e))), !sum_mult.
  rewrite <- sum_scal_l, <- sum_scal_r, <- !sum_plus. apply sum_ext; intros f Hf.
  rewrite <- sum_scal_l, <- sum_scal_r, <- !sum_plus. apply sum_ext; intros e He. ring.
Qed.

Lemma d01kj_ctr : forall nv1 nv2 k X1 X2 J1 J2 s v t u, wf nf k ->
  (s < n)%nat -> (v < nv1)%nat -> (t < m)%nat -> (u < nv2)%nat ->
  d01kj n m nf nv1 nv2 k X1 X2 J1 J2 (s * nv1 + v)%nat (t * nv2 + u)%nat
  = sum nf (fun f => sum nf (fun e => J1 s f v *
      d01k nf k X1 X2 (s * nf + f)%nat (t * nf + e)%nat * J2 t e u)).
Proof.
  induction k as [ad a|k1 IH1 k2 IH2|k1 IH1 k2 IH2]; intros X1 X2 J1 J2 s v t u W Hs Hv Ht Hu; simpl.
  - now apply atom_d01kj_ctr.
  - destruct W as [W1 W2]. rewrite IH1, IH2 by auto. rewrite <- sum_plus.
    apply sum_ext; intros. rewrite <- sum_plus. apply sum_ext; intros. ring.
  - destruct W as [W1 W2]. rewrite IH1, IH2 by auto. unfold rep_row, rep_col.
    rewrite !blk_div by auto. rewrite !d0kj_ctr, !d1kj_ctr by auto.
    rewrite (bil_prod_rule (fun f => J1 s f v) (fun e => J2 t e u)).
    apply sum_ext; intros; apply sum_ext; intros. now rewrite !blk_div by auto.
Qed.

Lemma d0kjc_ctr : forall k X1 X2 JC s t, wf nf k -> ls_nonzero k -> no_m52 k ->
  (s < n)%nat ->
  d0kjc n m nf k X1 X2 JC s t
  = sum nf (fun f => JC s f * d0k nf k X1 X2 (s * nf + f)%nat t).
Proof.
  induction k as [ad a|k1 IH1 k2 IH2|k1 IH1 k2 IH2]; intros X1 X2 JC s t W L M Hs; simpl.
  - now apply atom_d0kjc_ctr.
  - destruct W, L, M. rewrite IH1, IH2 by auto. rewrite <- sum_plus.
    apply sum_ext; intros; ring.
  - destruct W, L, M. rewrite IH1, IH2 by auto. unfold rep_row.
    rewrite <- sum_scal_l, <- sum_scal_r, <- sum_plus.
    apply sum_ext; intros. rewrite !blk_div by auto. ring.
Qed.

Lemma d01kjc_ctr : forall nv k X1 X2 JC J s t u, wf nf k -> ls_nonzero k -> no_m52 k ->
  (s < n)%nat -> (t < m)%nat -> (u < nv)%nat ->
  d01kjc n m nf nv k X1 X2 JC J s (t * nv + u)%nat
  = sum nf (fun f => sum nf (fun e => JC s f *
      d01k nf k X1 X2 (s * nf + f)%nat (t * nf + e)%nat * J t e u)).
Proof.
  induction k as [ad a|k1 IH1 k2 IH2|k1 IH1 k2 IH2]; intros X1 X2 JC J s t u W L M Hs Ht Hu; simpl.
  - now apply atom_d01kjc_ctr.
  - destruct W, L, M. rewrite IH1, IH2 by auto. rewrite <- sum_plus.
    apply sum_ext; intros. rewrite <- sum_plus. apply sum_ext; intros. ring.
  - destruct W, L, M. rewrite IH1, IH2 by auto. unfold rep_row, rep_col.
    rewrite !blk_div by auto. rewrite !d0kjc_ctr, !d1kj_ctr by auto.
    rewrite (bil_prod_rule (JC s) (fun e => J t e u)).
    apply sum_ext; intros; apply sum_ext; intros. now rewrite !blk_div by auto.
Qed.
End Ctr.
