(** Gram matrices of values and directional derivatives of a kernel are positive semidefinite. *)
From Coq Require Import Reals Arith Lia Lra List FunctionalExtensionality.
From Coquelicot Require Import Coquelicot.
From Verif Require Import Base.Sums Base.Mat Base.PSD Model.Arrays Model.Distances Model.Kernelizers Model.Kernels Spec.Partial Spec.KernelSpec
  Proofs.Deriv Proofs.KernelAtoms Proofs.KernelJets Proofs.Loops Proofs.KernelMethods Proofs.Contraction
  Proofs.KernelDerivs Proofs.KernelSym Proofs.KernelPSD Proofs.KernelPropLemmas Proofs.Local Proofs.Jet2.
Open Scope R_scope.

(** directional first and mixed derivatives of the kernel, from the derivative methods *)
Definition E0 (nf : nat) (k : kexp) (x y u : Vec) : R := sum nf (fun f => u f * D0 nf k x y f).
Definition E01 (nf : nat) (k : kexp) (x y u v : Vec) : R :=
  sum nf (fun f => sum nf (fun e => u f * D01 nf k x y f e * v e)).
Definition line (x u : Vec) (s : R) : Vec := fun f => x f + s * u f.

Lemma S0_dir : forall ds hx nf x y u, (forall d, In d ds -> (d < nf)%nat) ->
  sum nf (fun f => u f * S0 ds hx x y f) = sum (length ds) (fun a => hx (gather ds x a) (gather ds y a) * gather ds u a).
Proof.
  intros ds hx nf x y u H. unfold S0.
  erewrite sum_ext; [|intros f _; rewrite <- sum_scal_l; reflexivity].
  rewrite sum_swap. apply sum_ext. intros a Ha.
  assert (Hd : (nth a ds O < nf)%nat) by (apply H; now apply nth_In).
  erewrite sum_ext; [|intros f Hf]; cycle 1.
  { instantiate (1 := fun f => delta (nth a ds O) f * (u f * hx (gather ds x a) (gather ds y a))). simpl; ring. }
  rewrite (sum_delta_l nf _ (fun f => u f * hx (gather ds x a) (gather ds y a)) Hd). unfold gather at 5. ring.
Qed.
Lemma S1_dir : forall ds hy nf x y u, (forall d, In d ds -> (d < nf)%nat) ->
  sum nf (fun f => S1 ds hy x y f * u f) = sum (length ds) (fun a => hy (gather ds x a) (gather ds y a) * gather ds u a).
Proof.
  intros ds hy nf x y u H. rewrite <- (S0_dir ds hy nf x y u H). apply sum_ext. intros. unfold S0, S1. ring.
Qed.
Lemma S01_dir : forall ds hxy nf x y u v, (forall d, In d ds -> (d < nf)%nat) ->
  sum nf (fun f => sum nf (fun e => u f * S01 ds hxy x y f e * v e))
  = sum (length ds) (fun a => hxy (gather ds x a) (gather ds y a) * gather ds u a * gather ds v a).
Proof.
  intros ds hxy nf x y u v H.
  transitivity (sum nf (fun f => u f * S0 ds (fun p q => hxy p q) x y f * 0
     + sum (length ds) (fun a => delta (nth a ds O) f * (u f * (hxy (gather ds x a) (gather ds y a) * gather ds v a))))).
  - apply sum_ext. intros f Hf. rewrite Rmult_0_r, Rplus_0_l. unfold S01.
    erewrite sum_ext; [|intros e _; rewrite <- sum_scal_l, <- sum_scal_r; reflexivity].
    rewrite sum_swap. apply sum_ext. intros a Ha.
    assert (Hd : (nth a ds O < nf)%nat) by (apply H; now apply nth_In).
    rewrite (sum_ext nf _ (fun e => delta (nth a ds O) e * (u f * (delta (nth a ds O) f * hxy (gather ds x a) (gather ds y a)) * v e))).
    + rewrite (sum_delta_l nf _ (fun e => u f * (delta (nth a ds O) f * hxy (gather ds x a) (gather ds y a)) * v e) Hd).
      change (gather ds v a) with (v (nth a ds O)). ring.
    + intros e He. ring.
  - erewrite sum_ext; [|intros f _; rewrite Rmult_0_r, Rplus_0_l; reflexivity].
    rewrite sum_swap. apply sum_ext. intros a Ha.
    assert (Hd : (nth a ds O < nf)%nat) by (apply H; now apply nth_In).
    rewrite (sum_delta_l nf _ (fun f => u f * (hxy (gather ds x a) (gather ds y a) * gather ds v a)) Hd).
    change (gather ds u a) with (u (nth a ds O)). ring.
Qed.
Lemma dims_lt : forall nf ad, ad_ok nf ad -> forall d, In d (dims nf ad) -> (d < nf)%nat.
Proof.
  intros nf ad H d Hd. destruct (In_nth (dims nf ad) d O Hd) as [a [Ha <-]]. now apply ad_ok_lt.
Qed.

Lemma ah_jet : forall a p u q v, atom_l a ->
  jet2 (fun s t => ah a (p + s * u) (q + t * v)) (fun s t => ahx a (p + s * u) (q + t * v) * u)
    (fun s t => ahy a (p + s * u) (q + t * v) * v) (fun s t => ahxy a (p + s * u) (q + t * v) * u * v).
Proof.
  intros a p u q v Hl.
  assert (Lx : cont2 (fun s t => p + s * u)).
  { apply (cont2_fst (fun s => p + s * u)). intro s. apply @ex_derive_continuous. auto_derive; auto. }
  assert (Ly : cont2 (fun s t => q + t * v)).
  { apply (cont2_snd (fun t => q + t * v)). intro s. apply @ex_derive_continuous. auto_derive; auto. }
  assert (Dx : forall s : R, is_derive (fun s => p + s * u) s u) by (intro; auto_derive; auto; ring).
  assert (Dy : forall s : R, is_derive (fun s => q + s * v) s v) by (intro; auto_derive; auto; ring).
  assert (D0 : forall s t, is_derive (fun s => ah a (p + s * u) (q + t * v)) s (ahx a (p + s * u) (q + t * v) * u)).
  { intros s t. eapply is_derive_eq; [apply (is_derive_comp (fun z => ah a z (q + t * v)) (fun s => p + s * u)); auto; apply ah_dx|].
    unfold scal; simpl; unfold mult; simpl; ring. }
  assert (D1 : forall s t, is_derive (fun t => ah a (p + s * u) (q + t * v)) t (ahy a (p + s * u) (q + t * v) * v)).
  { intros s t. eapply is_derive_eq; [apply (is_derive_comp (fun z => ah a (p + s * u) z) (fun s => q + s * v)); auto; apply ah_dy|].
    unfold scal; simpl; unfold mult; simpl; ring. }
  assert (D01 : forall s t, is_derive (fun t => ahx a (p + s * u) (q + t * v) * u) t (ahxy a (p + s * u) (q + t * v) * u * v)).
  { intros s t. eapply is_derive_eq.
    - apply (is_derive_mult (fun t => ahx a (p + s * u) (q + t * v)) (fun _ => u)); [|apply @is_derive_const|exact Rmult_comm].
      apply (is_derive_comp (fun z => ahx a (p + s * u) z) (fun s => q + s * v)); auto. now apply ah_dxy.
    - unfold plus, zero, mult, scal; simpl; unfold mult; simpl; ring. }
  assert (Lq : forall l : R, cont2 (fun s t => 2 / l * ((p + s * u) / l - (q + t * v) / l))).
  { intro l. apply (cont2_mult (fun _ _ => 2 / l)); [apply cont2_const|].
    apply (cont2_plus (fun s t => (p + s * u) / l) (fun s t => - ((q + t * v) / l))).
    - apply (cont2_mult (fun s t => p + s * u) (fun _ _ => / l)); auto using cont2_const.
    - apply (cont2_ext (fun s t => (q + t * v) * (- / l))); [intros; unfold Rdiv; ring|].
      apply (cont2_mult (fun s t => q + t * v)); auto using cont2_const. }
  assert (Ls : forall l : R, cont2 (fun s t => (p + s * u) / l - (q + t * v) / l)).
  { intro l.
    apply (cont2_plus (fun s t => (p + s * u) / l) (fun s t => - ((q + t * v) / l))).
    - apply (cont2_mult (fun s t => p + s * u) (fun _ _ => / l)); auto using cont2_const.
    - apply (cont2_ext (fun s t => (q + t * v) * (- / l))); [intros; unfold Rdiv; ring|].
      apply (cont2_mult (fun s t => q + t * v)); auto using cont2_const. }
  assert (Pg : forall P : R, cont2 (fun s t => PI * ((p + s * u) - (q + t * v)) / P)).
  { intro P. apply (cont2_ext (fun s t => (PI / P) * (p + s * u) + (- (PI / P)) * (q + t * v)));
      [intros; unfold Rdiv; ring|].
    apply cont2_plus; apply cont2_mult; auto using cont2_const. }
  assert (Psin : forall P : R, cont2 (fun s t => sin (PI * ((p + s * u) - (q + t * v)) / P))).
  { intro P. apply (cont2_comp sin); auto. intros; apply continuous_sin. }
  assert (Pcos : forall P : R, cont2 (fun s t => cos (PI * ((p + s * u) - (q + t * v)) / P))).
  { intro P. apply (cont2_comp cos); auto. intros; apply continuous_cos. }
  constructor; auto.
  - destruct a; simpl; unfold h_mul, h_sq; auto using cont2_mult;
      try (apply (cont2_ext (fun s t => ((p + s * u) / l - (q + t * v) / l) * ((p + s * u) / l - (q + t * v) / l)));
        [intros; ring|]; apply cont2_mult; apply Ls).
    apply (cont2_ext (fun s t => sin (PI * (p + s * u - (q + t * v)) / p0) * sin (PI * (p + s * u - (q + t * v)) / p0) * / l)).
    { intros; rewrite h_per_eq; unfold Rdiv; ring. }
    auto using cont2_mult, cont2_const.
  - destruct a; simpl; unfold h_sq_x; auto using cont2_mult, cont2_const.
    unfold h_per_x, Rdiv. unfold Rdiv in Psin, Pcos. auto 12 using cont2_mult, cont2_const.
  - destruct a; simpl; unfold h_sq_y; auto using cont2_mult, cont2_const;
      try (apply (cont2_ext (fun s t => (-1 * (2 / l * ((p + s * u) / l - (q + t * v) / l))) * v)); [intros; ring|];
        auto using cont2_mult, cont2_const).
    unfold h_per_y, h_per_x, Rdiv. unfold Rdiv in Psin, Pcos.
    apply (cont2_ext (fun s t => (-1 * (2 * sin (PI * (p + s * u - (q + t * v)) * / p0) *
      cos (PI * (p + s * u - (q + t * v)) * / p0) * (PI * / p0) * / l)) * v)); [intros; ring|].
    auto 14 using cont2_mult, cont2_const.
  - destruct a; simpl; unfold h_sq_xy; auto using cont2_const.
    unfold h_per_xy, Rdiv. unfold Rdiv in Psin, Pcos.
    apply (cont2_ext (fun s t => (-1 * (2 * (PI * / p0) * (PI * / p0) * / l)) * u * v *
      (cos (PI * (p + s * u - (q + t * v)) * / p0) * cos (PI * (p + s * u - (q + t * v)) * / p0)
       + -1 * (sin (PI * (p + s * u - (q + t * v)) * / p0) * sin (PI * (p + s * u - (q + t * v)) * / p0)))));
      [intros; ring|].
    apply cont2_mult; auto using cont2_const. apply cont2_plus; auto 8 using cont2_mult, cont2_const.
Qed.
Lemma fphi''_cont : forall a u, fP a u -> continuous (fphi'' a) u.
Proof.
  intros a u H. apply @ex_derive_continuous. pose proof tiny36_pos. pose proof jit12_pos as J.
  assert (DD : forall c, 0 < c -> - jit12 < u -> ex_derive (dd c jit12) u /\ 0 < dd c jit12 u).
  { intros c Hc Hu. assert (0 < c * (u + jit12)) by (apply Rmult_lt_0_compat; lra).
    split; [now apply dd_ex|now apply dd_pos]. }
  destruct a; simpl in *;
    try (change (ex_derive (fun u : R => 0) u); auto_derive; auto; fail);
    try (change (ex_derive (fun u => INR degree * (INR degree - 1) * (offset + u) ^ (degree - 2)) u);
         auto_derive; auto; fail).
  - change (ex_derive (fun u => exp (- (u + jit12))) u). auto_derive; auto.
  - destruct (DD 1) as [E P]; try lra. change (ex_derive (fun u => 1 * 1 / (4 * (dd 1 jit12 u) ^ 2) * (1 + / dd 1 jit12 u) * exp (- dd 1 jit12 u)) u).
    auto_derive. repeat split; auto; try lra.
    apply Rgt_not_eq. assert (0 < dd 1 jit12 u * (dd 1 jit12 u * 1)); [|lra].
    rewrite Rmult_1_r. now apply Rmult_lt_0_compat.
  - destruct (DD 3) as [E P]; try lra. change (ex_derive (fun u => 3 * 3 / (4 * dd 3 jit12 u) * exp (- dd 3 jit12 u)) u). auto_derive. repeat split; auto; lra.
  - destruct (DD 5) as [E P]; try lra. change (ex_derive (fun u => 5 * 5 / 12 * exp (- dd 5 jit12 u)) u). auto_derive. repeat split; auto; lra.
  - change (ex_derive (fun u => 16 * exp (-4 * u)) u). auto_derive; auto.
Qed.

(** the jet of the batched atom along two lines *)
Definition G0 (ds : list nat) (h : R -> R -> R) (x y u : Vec) : R :=
  sum (length ds) (fun a => h (gather ds x a) (gather ds y a) * gather ds u a).
Definition G01 (ds : list nat) (h : R -> R -> R) (x y u v : Vec) : R :=
  sum (length ds) (fun a => h (gather ds x a) (gather ds y a) * gather ds u a * gather ds v a).
Lemma atom_jet : forall nf ad a x u y v, atom_l a ->
  let U := fun s t => au nf ad a (line x u s) (line y v t) in
  let U0 := fun s t => G0 (dims nf ad) (ahx a) (line x u s) (line y v t) u in
  let U1 := fun s t => G0 (dims nf ad) (ahy a) (line x u s) (line y v t) v in
  let U01 := fun s t => G01 (dims nf ad) (ahxy a) (line x u s) (line y v t) u v in
  jet2 (fun s t => fphi a (U s t)) (fun s t => fphi' a (U s t) * U0 s t) (fun s t => fphi' a (U s t) * U1 s t)
    (fun s t => fphi'' a (U s t) * U1 s t * U0 s t + fphi' a (U s t) * U01 s t).
Proof.
  intros nf ad a x u y v Hl U U0 U1 U01.
  apply (jet2_comp (fphi a) (fphi' a) (fphi'' a) (fP a)).
  - apply fphi_d.
  - apply fphi'_d.
  - apply fphi''_cont.
  - intros s t. apply fP_au.
  - apply (jet2_sum (length (dims nf ad))
      (fun b s t => ah a (gather (dims nf ad) x b + s * gather (dims nf ad) u b) (gather (dims nf ad) y b + t * gather (dims nf ad) v b))
      (fun b s t => ahx a (gather (dims nf ad) x b + s * gather (dims nf ad) u b) (gather (dims nf ad) y b + t * gather (dims nf ad) v b) * gather (dims nf ad) u b)
      (fun b s t => ahy a (gather (dims nf ad) x b + s * gather (dims nf ad) u b) (gather (dims nf ad) y b + t * gather (dims nf ad) v b) * gather (dims nf ad) v b)
      (fun b s t => ahxy a (gather (dims nf ad) x b + s * gather (dims nf ad) u b) (gather (dims nf ad) y b + t * gather (dims nf ad) v b) * gather (dims nf ad) u b * gather (dims nf ad) v b)).
    intros b _. now apply ah_jet.
Qed.

Lemma E0_atom : forall nf ad a x y u, ad_ok nf ad -> ls_ok a -> exact_atom a ->
  E0 nf (KAtom ad a) x y u = fphi' a (au nf ad a x y) * G0 (dims nf ad) (ahx a) x y u.
Proof.
  intros nf ad a x y u Had Hl He. unfold E0, G0. rewrite <- (S0_dir (dims nf ad) (ahx a) nf) by now apply dims_lt.
  rewrite <- sum_scal_l. apply sum_ext. intros f Hf. unfold D0. simpl.
  replace f with (0 * nf + f)%nat at 2 by lia.
  rewrite atom_d0k_entry; auto using ls_atom_l, ad_ok_nodup, exact_cond0. rewrite exact0 by auto.
  unfold pt, aS0. ring.
Qed.
Lemma ahx_ahy : forall a x y, ahx a y x = ahy a x y.
Proof.
  destruct a; intros; simpl; auto; unfold h_sq_x, h_sq_y, h_per_y, h_per_x; try (unfold Rdiv; ring).
  replace (PI * (y - x) / p) with (- (PI * (x - y) / p)) by (unfold Rdiv; ring).
  rewrite sin_neg, cos_neg. unfold Rdiv. ring.
Qed.
Lemma ah_sym : forall a x y, ah a y x = ah a x y.
Proof.
  destruct a; intros; simpl; unfold h_mul, h_sq; try (unfold Rdiv; ring).
  unfold h_per. now rewrite Rabs_minus_sym.
Qed.
Lemma au_sym : forall nf ad a x y, au nf ad a y x = au nf ad a x y.
Proof. intros. apply sum_ext. intros. apply ah_sym. Qed.
Lemma E1_atom : forall nf ad a x y v, ad_ok nf ad -> ls_ok a -> exact_atom a ->
  E0 nf (KAtom ad a) y x v = fphi' a (au nf ad a x y) * G0 (dims nf ad) (ahy a) x y v.
Proof.
  intros nf ad a x y v Had Hl He. rewrite E0_atom by auto. rewrite au_sym. f_equal.
  unfold G0. apply sum_ext. intros. now rewrite ahx_ahy.
Qed.
Lemma E01_atom : forall nf ad a x y u v, ad_ok nf ad -> ls_ok a -> exact_atom a ->
  E01 nf (KAtom ad a) x y u v
  = fphi'' a (au nf ad a x y) * G0 (dims nf ad) (ahy a) x y v * G0 (dims nf ad) (ahx a) x y u
    + fphi' a (au nf ad a x y) * G01 (dims nf ad) (ahxy a) x y u v.
Proof.
  intros nf ad a x y u v Had Hl He. unfold E01, G0, G01.
  rewrite <- (S0_dir (dims nf ad) (ahx a) nf) by now apply dims_lt.
  rewrite <- (S1_dir (dims nf ad) (ahy a) nf) by now apply dims_lt.
  rewrite <- (S01_dir (dims nf ad) (ahxy a) nf) by now apply dims_lt.
  set (p2 := fphi'' a (au nf ad a x y)). set (p1 := fphi' a (au nf ad a x y)).
  transitivity (sum nf (fun f => sum nf (fun e =>
     p2 * (S1 (dims nf ad) (ahy a) x y e * v e) * (u f * S0 (dims nf ad) (ahx a) x y f)
     + p1 * (u f * S01 (dims nf ad) (ahxy a) x y f e * v e)))).
  2:{ set (s1 := sum nf (fun f => S1 (dims nf ad) (ahy a) x y f * v f)).
      rewrite <- sum_scal_l, <- sum_scal_l, <- sum_plus. apply sum_ext. intros f Hf. unfold s1.
      rewrite sum_plus, sum_scal_r, sum_scal_l, sum_scal_l. reflexivity. }
  apply sum_ext. intros f Hf. apply sum_ext. intros e Hee.
  pose proof (atom_d01k_entry nf ad a (pt x) (pt y) 0 f 0 e (ls_atom_l a Hl) (ad_ok_nodup nf ad Had) Hf Hee
    (exact_cond01 a _ He)) as Q.
  simpl Nat.mul in Q. simpl Nat.add in Q. unfold D01. simpl. rewrite Q.
  rewrite exact01', exact01'' by auto. unfold pt, aS0, aS1, aS01. unfold p1, p2. ring.
Qed.

(** the kernel along two lines: its jet is given by the derivative methods *)
Lemma E0_sum : forall nf k1 k2 x y u, E0 nf (KSum k1 k2) x y u = E0 nf k1 x y u + E0 nf k2 x y u.
Proof. intros. unfold E0. rewrite <- sum_plus. apply sum_ext. intros. unfold D0. simpl. ring. Qed.
Lemma E01_sum : forall nf k1 k2 x y u v, E01 nf (KSum k1 k2) x y u v = E01 nf k1 x y u v + E01 nf k2 x y u v.
Proof.
  intros. unfold E01. rewrite <- sum_plus. apply sum_ext. intros. rewrite <- sum_plus. apply sum_ext. intros.
  unfold D01. simpl. ring.
Qed.
Lemma E0_prod : forall nf k1 k2 x y u, E0 nf (KProd k1 k2) x y u
  = kernel_at nf k1 x y * E0 nf k2 x y u + E0 nf k1 x y u * kernel_at nf k2 x y.
Proof.
  intros. unfold E0. rewrite <- sum_scal_l, <- sum_scal_r, <- sum_plus. apply sum_ext. intros f Hf.
  unfold D0. simpl. unfold rep_row. rewrite blk0_div, !kk_at by auto. unfold pt. ring.
Qed.
Lemma E01_prod : forall nf k1 k2 x y u v, E01 nf (KProd k1 k2) x y u v
  = kernel_at nf k1 x y * E01 nf k2 x y u v + E0 nf k1 x y u * E0 nf k2 y x v
    + E0 nf k1 y x v * E0 nf k2 x y u + E01 nf k1 x y u v * kernel_at nf k2 x y.
Proof.
  intros. unfold E01, E0.
  transitivity (sum nf (fun f => sum nf (fun e =>
    kernel_at nf k1 x y * (u f * D01 nf k2 x y f e * v e) + (u f * D0 nf k1 x y f) * (v e * D0 nf k2 y x e)
    + (v e * D0 nf k1 y x e) * (u f * D0 nf k2 x y f) + u f * D01 nf k1 x y f e * v e * kernel_at nf k2 x y))).
  - apply sum_ext. intros f Hf. apply sum_ext. intros e He.
    unfold D01, D0. simpl. unfold rep_row, rep_col. rewrite !blk0_div, !kk_at by auto. rewrite !d1k_tr. unfold pt. ring.
  - set (A := sum nf (fun f => v f * D0 nf k2 y x f)). set (B := sum nf (fun f => v f * D0 nf k1 y x f)).
    rewrite <- sum_scal_r, <- sum_scal_l, <- sum_scal_l, <- sum_scal_r, <- !sum_plus.
    apply sum_ext. intros f Hf. rewrite !sum_plus, !sum_scal_l, !sum_scal_r. reflexivity.
Qed.
Lemma kernel_jet : forall nf k x u y v, wf nf k -> ls_nonzero k -> exact k ->
  jet2 (fun s t => kernel_at nf k (line x u s) (line y v t))
    (fun s t => E0 nf k (line x u s) (line y v t) u)
    (fun s t => E0 nf k (line y v t) (line x u s) v)
    (fun s t => E01 nf k (line x u s) (line y v t) u v).
Proof.
  intros nf k x u y v. induction k as [ad a|k1 IH1 k2 IH2|k1 IH1 k2 IH2]; intros W L E.
  - eapply jet2_ext; [..|apply (atom_jet nf ad a x u y v); now apply ls_atom_l]; intros s t; simpl.
    + now rewrite kernel_at_atom.
    + now rewrite E0_atom by auto.
    + now rewrite (E1_atom nf ad a (line x u s)) by auto.
    + now rewrite E01_atom by auto.
  - destruct W, L, E. eapply jet2_ext; [..|apply jet2_plus; [apply IH1|apply IH2]]; auto; intros s t; simpl.
    + now rewrite E0_sum. + now rewrite E0_sum. + now rewrite E01_sum.
  - destruct W, L, E. eapply jet2_ext; [..|apply jet2_mult; [apply IH1|apply IH2]]; auto; intros s t; simpl.
    + now rewrite E0_prod. 
    + rewrite E0_prod. rewrite (kernel_at_sym nf k1 (line x u s)), (kernel_at_sym nf k2 (line x u s)). reflexivity.
    + now rewrite E01_prod.
Qed.

(** joint Gram matrix of functionals: the i-th one is evaluation at (X i), or the derivative at (X i)
    in direction (U i) *)
Definition jgram (nf : nat) (k : kexp) (X U : Mat) (isd : nat -> bool) : Mat := fun i j =>
  match isd i, isd j with
  | false, false => kernel_at nf k (X i) (X j)
  | true, false => E0 nf k (X i) (X j) (U i)
  | false, true => E0 nf k (X j) (X i) (U j)
  | true, true => E01 nf k (X i) (X j) (U i) (U j)
  end.

Lemma line_0 : forall x u, line x u 0 = x.
Proof. intros. extensionality f. unfold line. ring. Qed.

Lemma gram_pairs : forall nf k n (P Q : Mat) (al be : Vec), all_atoms (fun _ a => psd_atom a) k ->
  0 <= sum n (fun i => sum n (fun j =>
    al i * kernel_at nf k (P i) (P j) * al j + al i * kernel_at nf k (P i) (Q j) * be j
    + be i * kernel_at nf k (Q i) (P j) * al j + be i * kernel_at nf k (Q i) (Q j) * be j)).
Proof.
  intros nf k n P Q al be H.
  pose proof (gram_psd_kk nf (n + n) (fun i => if Nat.ltb i n then P i else Q (i - n)%nat) k H
    (fun i => if Nat.ltb i n then al i else be (i - n)%nat)) as G.
  eapply Rle_trans; [exact G|]. apply Req_le.
  rewrite sum_app.
  assert (L1 : forall i, (i < n)%nat -> Nat.ltb i n = true) by (intros; now apply Nat.ltb_lt).
  assert (L2 : forall i, Nat.ltb (n + i) n = false) by (intros; apply Nat.ltb_ge; lia).
  assert (L3 : forall i, (n + i - n)%nat = i) by (intros; lia).
  rewrite <- sum_plus. apply sum_ext. intros i Hi.
  rewrite !sum_app, <- !sum_plus. apply sum_ext. intros j Hj.
  rewrite !kk_at. rewrite !L1, !L2, !L3 by auto. ring.
Qed.

Theorem jgram_psd : forall nf k n X U isd,
  all_atoms (fun _ a => psd_atom a) k -> wf nf k -> ls_nonzero k -> exact k ->
  psd n (jgram nf k X U isd).
Proof.
  intros nf k n X U isd HP W L E c. unfold qf.
  set (P := fun (h : R) i => if isd i then line (X i) (U i) h else X i).
  set (al := fun (h : R) i => if isd i then c i / h else c i).
  set (be := fun (h : R) i => if isd i then - (c i / h) else 0).
  set (l := sum n (fun i => sum n (fun j => c i * jgram nf k X U isd i j * c j))).
  change (Rbar_le (Finite 0) (Finite l)). unfold l.
  apply (is_lim_seq_le (fun _ => 0) (fun m => sum n (fun i => sum n (fun j =>
      al (hseq m) i * kernel_at nf k (P (hseq m) i) (P (hseq m) j) * al (hseq m) j
    + al (hseq m) i * kernel_at nf k (P (hseq m) i) (X j) * be (hseq m) j
    + be (hseq m) i * kernel_at nf k (X i) (P (hseq m) j) * al (hseq m) j
    + be (hseq m) i * kernel_at nf k (X i) (X j) * be (hseq m) j)))).
  - intro m. now apply gram_pairs.
  - apply is_lim_seq_const.
  - apply lim_sum. intros i Hi. apply lim_sum. intros j Hj.
    pose proof (kernel_jet nf k (X i) (U i) (X j) (U j) W L E) as J.
    assert (Hh : forall m, hseq m <> 0) by (intro m; apply Rgt_not_eq, hseq_pos).
    unfold jgram, P, al, be. destruct (isd i), (isd j).
    + pose proof (mixed_lim _ _ _ _ J) as M. cbv beta in M. rewrite !line_0 in M.
      apply (is_lim_seq_scal_l _ (c i * c j)) in M. simpl in M.
      replace (c i * E01 nf k (X i) (X j) (U i) (U j) * c j) with (c i * c j * E01 nf k (X i) (X j) (U i) (U j)) by ring.
      eapply is_lim_seq_ext; [|exact M]. intro m. simpl. specialize (Hh m). field. auto.
    + pose proof (diff_lim (fun s => kernel_at nf k (line (X i) (U i) s) (line (X j) (U j) 0)) _
        (j_0 _ _ _ _ J 0 0)) as M. cbv beta in M. rewrite !line_0 in M.
      apply (is_lim_seq_scal_l _ (c i * c j)) in M. simpl in M.
      replace (c i * E0 nf k (X i) (X j) (U i) * c j) with (c i * c j * E0 nf k (X i) (X j) (U i)) by ring.
      eapply is_lim_seq_ext; [|exact M]. intro m. simpl. specialize (Hh m). field. auto.
    + pose proof (diff_lim (fun s => kernel_at nf k (line (X i) (U i) 0) (line (X j) (U j) s)) _
        (j_1 _ _ _ _ J 0 0)) as M. cbv beta in M. rewrite !line_0 in M.
      apply (is_lim_seq_scal_l _ (c i * c j)) in M. simpl in M.
      replace (c i * E0 nf k (X j) (X i) (U j) * c j) with (c i * c j * E0 nf k (X j) (X i) (U j)) by ring.
      eapply is_lim_seq_ext; [|exact M]. intro m. simpl. specialize (Hh m). field. auto.
    + eapply is_lim_seq_ext; [|apply is_lim_seq_const]. intro m. simpl. ring.
Qed.

(** mixed derivatives only: also squared exponentials and sums *)
Definition jetable (nf : nat) (k : kexp) : Prop := forall x u y v, exists F0 F1,
  jet2 (fun s t => kernel_at nf k (line x u s) (line y v t)) F0 F1
    (fun s t => E01 nf k (line x u s) (line y v t) u v).
Lemma E01_se : forall nf ad l x y u v, ad_ok nf ad -> l <> 0 ->
  E01 nf (KAtom ad (ASE l)) x y u v
  = fphi'' (ASE l) (au nf ad (ASE l) x y) * G0 (dims nf ad) (ahy (ASE l)) x y v * G0 (dims nf ad) (ahx (ASE l)) x y u
    + fphi' (ASE l) (au nf ad (ASE l) x y) * G01 (dims nf ad) (ahxy (ASE l)) x y u v.
Proof.
  intros nf ad l x y u v Had Hl. unfold E01, G0, G01. set (a := ASE l).
  rewrite <- (S0_dir (dims nf ad) (ahx a) nf) by now apply dims_lt.
  rewrite <- (S1_dir (dims nf ad) (ahy a) nf) by now apply dims_lt.
  rewrite <- (S01_dir (dims nf ad) (ahxy a) nf) by now apply dims_lt.
  set (p2 := fphi'' a (au nf ad a x y)). set (p1 := fphi' a (au nf ad a x y)).
  transitivity (sum nf (fun f => sum nf (fun e =>
     p2 * (S1 (dims nf ad) (ahy a) x y e * v e) * (u f * S0 (dims nf ad) (ahx a) x y f)
     + p1 * (u f * S01 (dims nf ad) (ahxy a) x y f e * v e)))).
  2:{ set (s1 := sum nf (fun f => S1 (dims nf ad) (ahy a) x y f * v f)).
      rewrite <- sum_scal_l, <- sum_scal_l, <- sum_plus. apply sum_ext. intros f Hf. unfold s1.
      rewrite sum_plus, sum_scal_r, sum_scal_l, sum_scal_l. reflexivity. }
  apply sum_ext. intros f Hf. apply sum_ext. intros e Hee.
  pose proof (atom_d01k_entry nf ad a (pt x) (pt y) 0 f 0 e Hl (ad_ok_nodup nf ad Had) Hf Hee I) as Q.
  simpl Nat.mul in Q. simpl Nat.add in Q. unfold D01. unfold d01k. rewrite Q.
  change (mult01'' a) with (fphi'' a). change (mult01' a) with (fphi' a).
  unfold pt, aS0, aS1, aS01, p1, p2. ring.
Qed.
Lemma dgram_jetable : forall nf k, wf nf k -> ls_nonzero k -> dgram_ok k -> jetable nf k.
Proof.
  intros nf k. induction k as [ad a|k1 IH1 k2 IH2|k1 IH1 k2 IH2]; intros W L H x u y v.
  - destruct H as [H|H].
    + do 2 eexists. apply (kernel_jet nf (KAtom ad a) x u y v W L H).
    + destruct a; try contradiction. do 2 eexists.
      eapply jet2_ext; [..|apply (atom_jet nf ad (ASE l) x u y v L)]; intros s t.
      * now rewrite kernel_at_atom.
      * reflexivity.
      * reflexivity.
      * simpl. now rewrite E01_se by auto.
  - destruct H as [H|[H1 H2]].
    + do 2 eexists. apply (kernel_jet nf (KSum k1 k2) x u y v W L H).
    + destruct W, L. destruct (IH1 H H3 H1 x u y v) as [A0 [A1 A]]. destruct (IH2 H0 H4 H2 x u y v) as [B0 [B1 B]].
      do 2 eexists. eapply jet2_ext; [..|apply (jet2_plus _ _ _ _ _ _ _ _ A B)]; intros s t; try reflexivity.
      simpl. now rewrite E01_sum.
  - destruct H as [H|[]]. do 2 eexists. apply (kernel_jet nf (KProd k1 k2) x u y v W L H).
Qed.
Theorem E01_psd : forall nf k n X U,
  all_atoms (fun _ a => psd_atom a) k -> jetable nf k ->
  psd n (fun i j => E01 nf k (X i) (X j) (U i) (U j)).
Proof.
  intros nf k n X U HP HJ c. unfold qf.
  set (l := sum n (fun i => sum n (fun j => c i * E01 nf k (X i) (X j) (U i) (U j) * c j))).
  change (Rbar_le (Finite 0) (Finite l)). unfold l.
  apply (is_lim_seq_le (fun _ => 0) (fun m => sum n (fun i => sum n (fun j =>
      c i / hseq m * kernel_at nf k (line (X i) (U i) (hseq m)) (line (X j) (U j) (hseq m)) * (c j / hseq m)
    + c i / hseq m * kernel_at nf k (line (X i) (U i) (hseq m)) (X j) * - (c j / hseq m)
    + - (c i / hseq m) * kernel_at nf k (X i) (line (X j) (U j) (hseq m)) * (c j / hseq m)
    + - (c i / hseq m) * kernel_at nf k (X i) (X j) * - (c j / hseq m))))).
  - intro m. exact (gram_pairs nf k n (fun i => line (X i) (U i) (hseq m)) X (fun i => c i / hseq m)
      (fun i => - (c i / hseq m)) HP).
  - apply is_lim_seq_const.
  - apply lim_sum. intros i Hi. apply lim_sum. intros j Hj.
    destruct (HJ (X i) (U i) (X j) (U j)) as [F0 [F1 J]].
    assert (Hh : forall m, hseq m <> 0) by (intro m; apply Rgt_not_eq, hseq_pos).
    pose proof (mixed_lim _ _ _ _ J) as M. cbv beta in M. rewrite !line_0 in M.
    apply (is_lim_seq_scal_l _ (c i * c j)) in M. simpl in M.
    replace (c i * E01 nf k (X i) (X j) (U i) (U j) * c j) with (c i * c j * E01 nf k (X i) (X j) (U i) (U j)) by ring.
    eapply is_lim_seq_ext; [|exact M]. intro m. simpl. specialize (Hh m). field. auto.
Qed.

(** entries of the jacobian-contracted matrices *)
Definition jcol (J : Ten) (s v : nat) : Vec := fun f => J s f v.
Lemma d0kj_E0 : forall n m nf nv k X1 X2 J s v t, wf nf k -> (s < n)%nat -> (v < nv)%nat -> (t < m)%nat ->
  d0kj n m nf nv k X1 X2 J (s * nv + v)%nat t = E0 nf k (X1 s) (X2 t) (jcol J s v).
Proof.
  intros. rewrite d0kj_ctr by auto. apply sum_ext. intros f Hf. now rewrite d0k_loc.
Qed.
Lemma d1kj_E0 : forall n m nf nv k X1 X2 J s v t, wf nf k -> (s < n)%nat -> (v < nv)%nat -> (t < m)%nat ->
  d1kj n m nf nv k X1 X2 J s (t * nv + v)%nat = E0 nf k (X2 t) (X1 s) (jcol J t v).
Proof.
  intros. rewrite d1kj_ctr by auto. apply sum_ext. intros f Hf. now rewrite d1k_loc.
Qed.
Lemma d01kj_E01 : forall n m nf nv1 nv2 k X1 X2 J1 J2 s v t u, wf nf k ->
  (s < n)%nat -> (v < nv1)%nat -> (t < m)%nat -> (u < nv2)%nat ->
  d01kj n m nf nv1 nv2 k X1 X2 J1 J2 (s * nv1 + v)%nat (t * nv2 + u)%nat
  = E01 nf k (X1 s) (X2 t) (jcol J1 s v) (jcol J2 t u).
Proof.
  intros. rewrite d01kj_ctr by auto. apply sum_ext. intros f Hf. apply sum_ext. intros e He. now rewrite d01k_loc.
Qed.
Lemma E01_sym : forall nf k x y u v, wf nf k -> ls_nonzero k ->
  all_atoms (fun ad a => regular_pair nf ad a x y) k -> E01 nf k x y u v = E01 nf k y x v u.
Proof.
  intros nf k x y u v W L H. unfold E01. rewrite sum_swap. apply sum_ext. intros e He. apply sum_ext. intros f Hf.
  pose proof (d01k_tr nf k (pt x) (pt y) 0 f 0 e L W Hf He H) as Q. simpl in Q. unfold D01. rewrite Q. ring.
Qed.

Theorem dgram_psd : forall n nf nv k X J,
  all_atoms (fun _ a => psd_atom a) k -> wf nf k -> ls_nonzero k -> dgram_ok k ->
  psd (n * nv) (d01kj n n nf nv nv k X X J J).
Proof.
  intros n nf nv k X J HP W L HD.
  apply (psd_ext (n * nv) (fun i j => E01 nf k (X (i / nv)%nat) (X (j / nv)%nat)
    (jcol J (i / nv)%nat (i mod nv)%nat) (jcol J (j / nv)%nat (j mod nv)%nat))).
  - intros i j Hi Hj. destruct (blk_eq n nv i Hi) as [s [v [Hs [Hv ->]]]].
    destruct (blk_eq n nv j Hj) as [t [u [Ht [Hu ->]]]].
    rewrite !blk_div, !blk_mod, d01kj_E01 by auto. reflexivity.
  - exact (E01_psd nf k (n * nv) (fun i => X (i / nv)%nat) (fun i => jcol J (i / nv)%nat (i mod nv)%nat) HP
      (dgram_jetable nf k W L HD)).
Qed.
