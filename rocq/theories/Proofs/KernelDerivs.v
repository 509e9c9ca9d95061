(** Derivative kernels of kernel expressions are derivatives of the kernel. *)
From Coq Require Import Reals Lra Lia Arith List FunctionalExtensionality.
From Coquelicot Require Import Coquelicot.
From Verif Require Import Base.Sums Base.Mat Model.Arrays Model.Distances Model.Kernelizers
  Model.Kernels Spec.Partial Spec.KernelSpec Proofs.Deriv Proofs.KernelAtoms Proofs.KernelJets
  Proofs.Loops Proofs.KernelMethods Proofs.Contraction.
Open Scope R_scope.

Lemma ls_atom_l : forall a, ls_ok a -> atom_l a.
Proof. destruct a; simpl; auto. Qed.

Lemma kernel_at_atom : forall nf ad a x y, kernel_at nf (KAtom ad a) x y = fkap nf ad a x y.
Proof. intros. unfold kernel_at. simpl. now rewrite atom_k_kap. Qed.
Lemma kk_at : forall nf k X1 X2 s t, kk nf k X1 X2 s t = kernel_at nf k (X1 s) (X2 t).
Proof.
  intros nf k X1 X2 s t. unfold kernel_at.
  induction k as [ad a|k1 IH1 k2 IH2|k1 IH1 k2 IH2]; simpl.
  - now rewrite !atom_k_kap.
  - now rewrite IH1, IH2.
  - now rewrite IH1, IH2.
Qed.
Lemma kernel_at_sum : forall nf k1 k2 x y,
  kernel_at nf (KSum k1 k2) x y = kernel_at nf k1 x y + kernel_at nf k2 x y.
Proof. reflexivity. Qed.
Lemma kernel_at_prod : forall nf k1 k2 x y,
  kernel_at nf (KProd k1 k2) x y = kernel_at nf k1 x y * kernel_at nf k2 x y.
Proof. reflexivity. Qed.

(** ** closure of partials *)
Lemma partial0_sum : forall k1 k2 x y f d1 d2, partial0 k1 x y f d1 -> partial0 k2 x y f d2 ->
  partial0 (fun a b => k1 a b + k2 a b) x y f (d1 + d2).
Proof. intros. unfold partial0 in *. apply @is_derive_plus; auto. Qed.
Lemma partial1_sum : forall k1 k2 x y f d1 d2, partial1 k1 x y f d1 -> partial1 k2 x y f d2 ->
  partial1 (fun a b => k1 a b + k2 a b) x y f (d1 + d2).
Proof. intros. unfold partial1 in *. apply @is_derive_plus; auto. Qed.
Lemma partial0_prod : forall k1 k2 x y f d1 d2, partial0 k1 x y f d1 -> partial0 k2 x y f d2 ->
  partial0 (fun a b => k1 a b * k2 a b) x y f (k1 x y * d2 + d1 * k2 x y).
Proof.
  intros. unfold partial0 in *.
  eapply is_derive_eq; [apply (is_derive_mult _ _ _ _ _ H H0 Rmult_comm)|].
  rewrite upd_eta. unfold plus, mult; simpl. ring.
Qed.
Lemma partial1_prod : forall k1 k2 x y f d1 d2, partial1 k1 x y f d1 -> partial1 k2 x y f d2 ->
  partial1 (fun a b => k1 a b * k2 a b) x y f (k1 x y * d2 + d1 * k2 x y).
Proof.
  intros. unfold partial1 in *.
  eapply is_derive_eq; [apply (is_derive_mult _ _ _ _ _ H H0 Rmult_comm)|].
  rewrite upd_eta. unfold plus, mult; simpl. ring.
Qed.
Lemma partial01_sum : forall k1 k2 x y f e d1 d2, partial01 k1 x y f e d1 -> partial01 k2 x y f e d2 ->
  partial01 (fun a b => k1 a b + k2 a b) x y f e (d1 + d2).
Proof.
  intros k1 k2 x y f e d1 d2 [g1 [L1 D1]] [g2 [L2 D2]].
  exists (fun t => g1 t + g2 t). split.
  - generalize (filter_and _ _ L1 L2). apply filter_imp. intros t [A B]. now apply partial0_sum.
  - apply @is_derive_plus; auto.
Qed.
Lemma partial01_prod : forall k1 k2 x y f e d1 d2 p0 p1 q0 q1,
  partial01 k1 x y f e d1 -> partial01 k2 x y f e d2 ->
  partial0 k1 x y f p0 -> partial0 k2 x y f q0 ->
  partial1 k1 x y e p1 -> partial1 k2 x y e q1 ->
  partial01 (fun a b => k1 a b * k2 a b) x y f e
    (k1 x y * d2 + p0 * q1 + p1 * q0 + d1 * k2 x y).
Proof.
  intros k1 k2 x y f e d1 d2 p0 p1 q0 q1 [g1 [L1 D1]] [g2 [L2 D2]] P0 Q0 P1 Q1.
  assert (G1 : g1 (y e) = p0).
  { apply locally_singleton in L1. rewrite upd_eta in L1. eapply partial0_unique; eauto. }
  assert (G2 : g2 (y e) = q0).
  { apply locally_singleton in L2. rewrite upd_eta in L2. eapply partial0_unique; eauto. }
  exists (fun t => k1 x (upd y e t) * g2 t + g1 t * k2 x (upd y e t)). split.
  - generalize (filter_and _ _ L1 L2). apply filter_imp. intros t [A B]. now apply partial0_prod.
  - unfold partial1 in P1, Q1.
    eapply is_derive_eq.
    + apply @is_derive_plus.
      * apply (is_derive_mult (fun t => k1 x (upd y e t)) g2 _ _ _ P1 D2 Rmult_comm).
      * apply (is_derive_mult g1 (fun t => k2 x (upd y e t)) _ _ _ D1 Q1 Rmult_comm).
    + rewrite upd_eta, G1, G2. unfold plus, mult; simpl. ring.
Qed.

(** ** atoms for which the derivative kernels are exact derivatives of the batched kernel *)
Lemma exact0 : forall a u, exact_atom a -> mult0 a u = fphi' a u.
Proof. destruct a; simpl; intros; try contradiction; auto. Qed.
Lemma exact01' : forall a u, exact_atom a -> mult01' a u = fphi' a u.
Proof. destruct a; simpl; intros; try contradiction; auto. Qed.
Lemma exact01'' : forall a u, exact_atom a -> mult01'' a u = fphi'' a u.
Proof. destruct a; simpl; intros; try contradiction; auto. Qed.
Lemma exact_cond0 : forall a u, exact_atom a -> cond0 a u.
Proof. destruct a; simpl; intros; try contradiction; auto. Qed.
Lemma exact_cond01 : forall a u, exact_atom a -> cond01 a u.
Proof. destruct a; simpl; intros; try contradiction; auto. Qed.

Lemma d0k_partial : forall nf k X1 X2 s f t,
  wf nf k -> ls_nonzero k -> exact k -> (f < nf)%nat ->
  partial0 (kernel_at nf k) (X1 s) (X2 t) f (d0k nf k X1 X2 (s * nf + f)%nat t).
Proof.
  intros nf k X1 X2 s f t.
  induction k as [ad a|k1 IH1 k2 IH2|k1 IH1 k2 IH2]; intros W L E Hf; simpl.
  - rewrite atom_d0k_entry; auto using ls_atom_l, ad_ok_nodup, exact_cond0.
    rewrite exact0 by auto.
    apply (partial0_ext (fkap nf ad a)); [intros; symmetry; apply kernel_at_atom|].
    apply fast_partial0.
  - destruct W, L, E. apply partial0_sum; auto.
  - destruct W, L, E. unfold rep_row. rewrite !blk_div by auto. rewrite !kk_at.
    apply partial0_prod; auto.
Qed.
Lemma d1k_partial : forall nf k X1 X2 s f t,
  wf nf k -> ls_nonzero k -> exact k -> (f < nf)%nat ->
  partial1 (kernel_at nf k) (X1 s) (X2 t) f (d1k nf k X1 X2 s (t * nf + f)%nat).
Proof.
  intros nf k X1 X2 s f t.
  induction k as [ad a|k1 IH1 k2 IH2|k1 IH1 k2 IH2]; intros W L E Hf; simpl.
  - rewrite atom_d1k_entry; auto using ls_atom_l, ad_ok_nodup, exact_cond0.
    rewrite exact0 by auto.
    apply (partial1_ext (fkap nf ad a)); [intros; symmetry; apply kernel_at_atom|].
    apply fast_partial1.
  - destruct W, L, E. apply partial1_sum; auto.
  - destruct W, L, E. unfold rep_col. rewrite !blk_div by auto. rewrite !kk_at.
    apply partial1_prod; auto.
Qed.
Lemma d01k_partial : forall nf k X1 X2 s f t e,
  wf nf k -> ls_nonzero k -> exact k -> (f < nf)%nat -> (e < nf)%nat ->
  partial01 (kernel_at nf k) (X1 s) (X2 t) f e (d01k nf k X1 X2 (s * nf + f)%nat (t * nf + e)%nat).
Proof.
  intros nf k X1 X2 s f t e.
  induction k as [ad a|k1 IH1 k2 IH2|k1 IH1 k2 IH2]; intros W L E Hf He; simpl.
  - rewrite atom_d01k_entry; auto using ls_atom_l, ad_ok_nodup, exact_cond01.
    rewrite exact01', exact01'' by auto.
    apply (partial01_ext (fkap nf ad a)); [intros; symmetry; apply kernel_at_atom|].
    apply fast_partial01. now apply ls_atom_l.
  - destruct W, L, E. apply partial01_sum; auto.
  - destruct W as [W1 W2], L as [L1 L2], E as [E1 E2].
    unfold rep_row, rep_col. rewrite !blk_div by auto. rewrite !kk_at.
    apply partial01_prod; try (apply d0k_partial; assumption); try (apply d1k_partial; assumption); auto.
Qed.

(** ** atoms against the single-sample kernel *)
Definition base_exact0 (a : atom) : Prop := match a with AM52 _ => False | _ => True end.
Definition base_exact01 (a : atom) : Prop := match a with ASE _ | AM52 _ => False | _ => True end.

Lemma atom_d0k_base : forall nf ad a X1 X2 s f t,
  ad_ok nf ad -> ls_ok a -> is_m52 a = false -> aP a (au nf ad a (X1 s) (X2 t)) -> (f < nf)%nat ->
  partial0 (kernel_base nf ad a) (X1 s) (X2 t) f (atom_d0k nf ad a X1 X2 (s * nf + f)%nat t).
Proof.
  intros nf ad a X1 X2 s f t W L M P Hf.
  rewrite atom_d0k_entry; auto using ls_atom_l, ad_ok_nodup, aP_cond0.
  replace (mult0 a (au nf ad a (X1 s) (X2 t))) with (aphi' a (au nf ad a (X1 s) (X2 t))).
  - now apply base_partial0.
  - destruct a; try discriminate; symmetry; apply gphi'_P; auto.
Qed.
Lemma atom_d1k_base : forall nf ad a X1 X2 s f t,
  ad_ok nf ad -> ls_ok a -> is_m52 a = false -> aP a (au nf ad a (X1 s) (X2 t)) -> (f < nf)%nat ->
  partial1 (kernel_base nf ad a) (X1 s) (X2 t) f (atom_d1k nf ad a X1 X2 s (t * nf + f)%nat).
Proof.
  intros nf ad a X1 X2 s f t W L M P Hf.
  rewrite atom_d1k_entry; auto using ls_atom_l, ad_ok_nodup, aP_cond0.
  replace (mult0 a (au nf ad a (X1 s) (X2 t))) with (aphi' a (au nf ad a (X1 s) (X2 t))).
  - now apply base_partial1.
  - destruct a; try discriminate; symmetry; apply gphi'_P; auto.
Qed.
Lemma atom_d01k_base : forall nf ad a X1 X2 s f t e,
  ad_ok nf ad -> ls_ok a -> is_m52 a = false -> is_se a = false ->
  aP a (au nf ad a (X1 s) (X2 t)) -> (f < nf)%nat -> (e < nf)%nat ->
  partial01 (kernel_base nf ad a) (X1 s) (X2 t) f e
    (atom_d01k nf ad a X1 X2 (s * nf + f)%nat (t * nf + e)%nat).
Proof.
  intros nf ad a X1 X2 s f t e W L M S P Hf He.
  rewrite atom_d01k_entry; auto using ls_atom_l, ad_ok_nodup.
  - assert (E1 : mult01' a (au nf ad a (X1 s) (X2 t)) = aphi' a (au nf ad a (X1 s) (X2 t)))
      by (destruct a; try discriminate; reflexivity).
    assert (E2 : mult01'' a (au nf ad a (X1 s) (X2 t)) = aphi'' a (au nf ad a (X1 s) (X2 t)))
      by (destruct a; try discriminate; reflexivity).
    rewrite E1, E2. apply base_partial01; auto using ls_atom_l.
  - destruct a; simpl; auto.
Qed.
(** SE: the mixed derivative kernel is exactly exp(-1e-12) times the mixed derivative of the
    single-sample kernel *)
Lemma se_d01k_base : forall nf ad l X1 X2 s f t e,
  ad_ok nf ad -> l <> 0 -> (f < nf)%nat -> (e < nf)%nat ->
  partial01 (fun x y => exp (- jit12) * kernel_base nf ad (ASE l) x y) (X1 s) (X2 t) f e
    (atom_d01k nf ad (ASE l) X1 X2 (s * nf + f)%nat (t * nf + e)%nat).
Proof.
  intros nf ad l X1 X2 s f t e W L Hf He.
  rewrite (atom_d01k_entry nf ad (ASE l)) by (simpl; auto using ad_ok_nodup).
  apply (partial01_ext (fkap nf ad (ASE l))).
  - intros. rewrite base_kap. unfold fkap, kap. simpl.
    rewrite <- exp_plus. f_equal. ring.
  - apply fast_partial01. exact L.
Qed.
