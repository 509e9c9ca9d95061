(** Regression with a kernel object of any origin. *)
From Coq Require Import List String Reals Lia Lra Arith FunctionalExtensionality.
From Coquelicot Require Import Coquelicot.
From Verif Require Import Base.Sums Base.Mat Base.PSD Spec.Det Model.Arrays Model.Kernels Model.PyDict Model.Params Model.Calls Model.LinAlg
  Model.GPR Model.Public Model.KernelObj Model.KernelMethods Model.CustomKernel Model.GPRAny
  Spec.Partial Spec.KernelSpec Spec.KernelMethodsSpec Spec.CustomSpec Spec.SmoothSpec Spec.AnySpec Spec.GPSpec Spec.MVN Spec.TrainingSpec
  Proofs.Deriv Proofs.KernelMethods Proofs.KernelDerivs Proofs.Loops Proofs.Contraction Proofs.Jet2 Proofs.SmoothFacts Proofs.CustomFacts Proofs.DetFacts Proofs.LinAlgFacts Proofs.GPRFacts Proofs.GPRLml
  Proofs.GPRCov.
Import ListNotations.
Open Scope R_scope.

(** ** the equations *)
Section Eq.
  Variables (n o : nat) (G A : Mat) (sigma : R).
  Hypothesis Gs : sym n G.
  Hypothesis Gp : psd n G.
  Hypothesis E : meq n n A G.
  Lemma eq_sym' : sym n A.
  Proof. exact (sym_ext n G A (meq_sym _ _ _ _ E) Gs). Qed.
  Lemma eq_psd : psd n A.
  Proof. exact (psd_ext n G A (meq_sym _ _ _ _ E) Gp). Qed.
  Lemma noisy_sym : sym n (noisy sigma A).
  Proof. apply (sym_add_diag n (sigma ^ 2 + jit10)), eq_sym'. Qed.
  Lemma noisy_pd : pd n (noisy sigma A).
  Proof. apply (pd_add_diag n (sigma ^ 2 + jit10)); [exact eq_psd|apply noise_pos]. Qed.
  Lemma ridge_resid : forall mu y c, ridge n o G sigma mu y c <->
    meq n o (mm n (noisy sigma A) c) (fun i j => y i j - mu).
  Proof.
    intros mu y c.
    assert (S : forall i j, (i < n)%nat -> sum n (fun s => G s i * c s j) = mm n A c i j).
    { intros i j Hi. unfold mm. apply sum_ext. intros s Hs. rewrite E, Gs by auto. reflexivity. }
    split; intro H.
    - apply (solve_of_resid n o (sigma ^ 2 + jit10) A). intros i j Hi Hj. rewrite <- S by auto.
      specialize (H i j Hi Hj). unfold jit10. rewrite <- H. ring.
    - intros i j Hi Hj. rewrite S by auto. pose proof (resid_of_solve n o (sigma ^ 2 + jit10) A c _ H i j Hi Hj) as Q.
      unfold jit10 in Q. rewrite <- Q. ring.
  Qed.
  Lemma ridge_solved : forall la, linalg_ok la -> forall mu y,
    let c := la_solve la n (fun i j => A i j + (sigma ^ 2 + jit10) * eye i j) (fun i j => y i j - mu) in
    ridge n o G sigma mu y c /\ forall c', ridge n o G sigma mu y c' -> meq n o c' c.
  Proof.
    intros la ok mu y c. assert (Hc : meq n o (mm n (noisy sigma A) c) (fun i j => y i j - mu)).
    { apply (ok_solve la ok). apply pd_nonsing, noisy_pd. }
    split; [now apply ridge_resid|]. intros c' H. apply ridge_resid in H.
    apply (solve_unique n o (noisy sigma A)); [apply pd_nonsing, noisy_pd|].
    eapply meq_trans; [exact H|now apply meq_sym].
  Qed.
  Lemma noisy_ext : meq n n (noisy sigma A) (noisy sigma G).
  Proof. intros i j Hi Hj. unfold noisy. now rewrite E. Qed.
  Lemma score : forall la, linalg_ok la -> forall y, (0 < n)%nat ->
    log_density n (noisy sigma G) (fun i => y i O) (lml_of la n 1 (fun i j => A i j + (sigma ^ 2 + jit10) * eye i j) y).
  Proof.
    intros la ok y Hn. set (b := fun i => la_solve la n (noisy sigma A) y i O).
    assert (Hb : veq n (mv n (noisy sigma A) b) (fun i => y i O)).
    { intros i Hi. exact (ok_solve la ok n 1 (noisy sigma A) y (pd_nonsing _ _ noisy_pd) i O Hi (le_n 1)). }
    exists b. split.
    - intros i Hi. rewrite <- Hb by auto. symmetry. apply (mv_ext n n); [exact noisy_ext|intros ? ?; reflexivity|exact Hi].
    - transitivity (ln (mvn_pdf n (noisy sigma A) (fun i => y i O) b)).
      + exact (lml_of_mvn la ok n (noisy sigma A) y b Hn noisy_sym noisy_pd Hb).
      + unfold mvn_pdf. now rewrite (det_ext noisy_ext).
  Qed.
End Eq.

Section Any.
  Variables (la : linalg) (nf : nat) (K : kernel_object) (t : ptree) (sigma : R) (k : Vec -> Vec -> R).
  Hypothesis ok : linalg_ok la.
  Hypothesis D : differentiates (ko K) t nf k.
  Hypothesis C : covariance k.

  Lemma method_k : forall x x', o_k (ko K) nf x x' t = Ok (Some (cov_values k x x')).
  Proof.
    intros x x'. destruct (f_k _ _ _ _ D x x') as [A [-> E]]. do 2 f_equal.
    extensionality i. extensionality j. apply E.
  Qed.
  Lemma cov_values_sym : forall n x, sym n (cov_values k x x).
  Proof. intros n x i j _ _. apply C. Qed.
  Lemma cov_values_psd : forall n x, psd n (cov_values k x x).
  Proof. intros n x c. exact (proj2 C n x c). Qed.

  Lemma any_values : forall m o x y mf, exists c,
    any_fit la nf K t sigma m o x y mf = Ok (Some (c, mf m o y)) /\
    ridge m o (cov_values k x x) sigma (mf m o y) y c /\
    (forall c', ridge m o (cov_values k x x) sigma (mf m o y) y c' -> meq m o c' c) /\
    forall x', exists P, any_predict nf K t sigma m x x' c (mf m o y) = Ok (Some P) /\
      forall s j, P s j = mf m o y + sum m (fun i => k (x i) (x' s) * c i j).
  Proof.
    intros m o x y mf. destruct (ridge_solved m o (cov_values k x x) (cov_values k x x) sigma (cov_values_sym m x) (cov_values_psd m x)
      (meq_refl _ _ _) la ok (mf m o y) y) as [R U].
    eexists. split; [unfold any_fit, any_A_lhs, with1; rewrite method_k; reflexivity|].
    split; [exact R|]. split; [exact U|].
    intro x'. eexists. split; [unfold any_predict, any_A_lhs, with1; rewrite method_k; reflexivity|]. reflexivity.
  Qed.
  Lemma any_score : forall m x y mf, (0 < m)%nat -> exists v, any_lml la nf K t sigma m 1 x y mf = Ok (Some v) /\
    log_density m (noisy sigma (cov_values k x x)) (fun i => y i O - mf m 1%nat y) v.
  Proof.
    intros m x y mf Hm. eexists. split; [unfold any_lml, any_A_lhs, with1; rewrite method_k; reflexivity|].
    exact (score m _ _ sigma (cov_values_sym m x) (cov_values_psd m x) (meq_refl _ _ _) la ok (fun i j => y i j - mf m 1%nat y) Hm).
  Qed.
  Lemma any_cov : forall m n x x', exists V, any_predict_cov la nf K t sigma m x x' = Ok (Some V) /\
    sym n V /\ psd n V /\ psd n (fun i j => k (x' i) (x' j) - V i j) /\
    forall B, meq m n (mm m (noisy sigma (cov_values k x x)) B) (cov_values k x x') ->
      forall i j, (i < n)%nat -> (j < n)%nat -> V i j = k (x' i) (x' j) - sum m (fun a => k (x a) (x' i) * B a j).
  Proof.
    intros m n x x'. eexists. split; [unfold any_predict_cov, any_A_lhs, with1, with3; rewrite !method_k; reflexivity|].
    assert (Hs := noise_pos sigma). set (s := sigma ^ 2 + jit10) in *.
    split; [|split; [|split]].
    - exact (cov_sym la m n (cov_values k x x) (cov_values k x x') (cov_values k x' x') s (cov_values_sym n x')).
    - apply (cov_psd la ok m n (cov_values k x x) (cov_values k x x') (cov_values k x' x') s Hs (cov_values_sym m x) (cov_values_psd m x)).
      apply (joint_of m n (cov_values k (fun i => if Nat.ltb i m then x i else x' (i - m)%nat) (fun i => if Nat.ltb i m then x i else x' (i - m)%nat))).
      + apply cov_values_psd.
      + intros i j Hi Hj. unfold cov_values. now rewrite !(proj2 (Nat.ltb_lt _ m)) by auto.
      + intros i j Hi Hj. unfold cov_values. rewrite (proj2 (Nat.ltb_lt i m)), (proj2 (Nat.ltb_ge (m + j) m)) by lia.
        now replace (m + j - m)%nat with j by lia.
      + intros i j Hi Hj. unfold cov_values. rewrite (proj2 (Nat.ltb_lt i m)), (proj2 (Nat.ltb_ge (m + j) m)) by lia.
        replace (m + j - m)%nat with j by lia. apply C.
      + intros i j Hi Hj. unfold cov_values. rewrite !(proj2 (Nat.ltb_ge _ m)) by lia.
        now replace (m + j - m)%nat with j by lia; replace (m + i - m)%nat with i by lia.
    - exact (cov_le_prior la ok m n (cov_values k x x) (cov_values k x x') (cov_values k x' x') s Hs (cov_values_sym m x) (cov_values_psd m x)).
    - intros B HB i j Hi Hj.
      exact (cov_formula la ok m n (cov_values k x x) (cov_values k x x') (cov_values k x' x') s Hs (cov_values_sym m x) (cov_values_psd m x) B HB i j Hi Hj).
  Qed.

  (** ** derivatives *)
  Variables (g0 g1 : Vec -> Vec -> Vec) (h : Vec -> Vec -> Mat).
  Hypothesis S : smooth nf k g0 g1 h.
  Lemma is_g0 : forall x y f d, (f < nf)%nat -> partial0 k x y f d -> d = g0 x y f.
  Proof. intros x y f d Hf P. eapply partial0_unique; [exact P|]. exact (proj1 (smooth_autodiff _ _ _ _ _ S x y f f Hf Hf)). Qed.
  Lemma is_h : forall x y f e d, (f < nf)%nat -> (e < nf)%nat -> partial01 k x y f e d -> d = h x y f e.
  Proof. intros x y f e d Hf He P. eapply partial01_unique; [exact P|]. exact (proj2 (proj2 (smooth_autodiff _ _ _ _ _ S x y f e Hf He))). Qed.
  Lemma method_d01kj : forall n1 n2 nv1 nv2 x1 x2 J1 J2, exists A, o_d01kj (ko K) n1 n2 nf nv1 nv2 x1 x2 t J1 J2 = Ok (Some A) /\
    meq (n1 * nv1) (n2 * nv2) A (cov_derivs nf nv1 nv2 h x1 J1 x2 J2).
  Proof.
    intros n1 n2 nv1 nv2 x1 x2 J1 J2. destruct (f_d01kj _ _ _ _ D n1 n2 nv1 nv2 x1 x2 J1 J2) as [A [E H]].
    exists A. split; [exact E|]. intros r q Hr Hq.
    destruct (blk_eq n1 nv1 r Hr) as [s [v [Hs [Hv ->]]]]. destruct (blk_eq n2 nv2 q Hq) as [u [w [Hu [Hw ->]]]].
    destruct (H s v u w Hs Hv Hu Hw) as [d [P ->]]. unfold cov_derivs. rewrite !blk_div, !blk_mod by auto. unfold dir2.
    apply sum_ext. intros f Hf. apply sum_ext. intros e He. unfold column. now rewrite (is_h _ _ _ _ _ Hf He (P f e Hf He)).
  Qed.
  Lemma method_d0kj : forall n m nv x1 x2 J, exists A, o_d0kj (ko K) n m nf nv x1 x2 t J = Ok (Some A) /\
    meq (n * nv) m A (cov_derivs_values nf nv g0 x1 J x2).
  Proof.
    intros n m nv x1 x2 J. destruct (f_d0kj _ _ _ _ D n m nv x1 x2 J) as [A [E H]].
    exists A. split; [exact E|]. intros r u Hr Hu. destruct (blk_eq n nv r Hr) as [s [v [Hs [Hv ->]]]].
    destruct (H s v u Hs Hv Hu) as [d [P ->]]. unfold cov_derivs_values. rewrite !blk_div, !blk_mod by auto. unfold dir.
    apply sum_ext. intros f Hf. unfold column. now rewrite (is_g0 _ _ _ _ Hf (P f Hf)).
  Qed.
  Lemma method_d0kjc : forall n m x1 x2 c, exists A, o_d0kjc (ko K) n m nf x1 x2 t c = Ok (Some A) /\
    meq n m A (fun s u => dir nf g0 (x1 s) (x2 u) (c s)).
  Proof.
    intros n m x1 x2 c. destruct (f_d0kjc _ _ _ _ D n m x1 x2 c) as [A [E H]].
    exists A. split; [exact E|]. intros s u Hs Hu. destruct (H s u Hs Hu) as [d [P ->]]. unfold dir.
    apply sum_ext. intros f Hf. now rewrite (is_g0 _ _ _ _ Hf (P f Hf)).
  Qed.
  Lemma method_d01kjc : forall n m nv x1 x2 c J, exists A, o_d01kjc (ko K) n m nf nv x1 x2 t c J = Ok (Some A) /\
    forall s u w, (s < n)%nat -> (u < m)%nat -> (w < nv)%nat -> A s (u * nv + w)%nat = dir2 nf h (x1 s) (x2 u) (c s) (column J u w).
  Proof.
    intros n m nv x1 x2 c J. destruct (f_d01kjc _ _ _ _ D n m nv x1 x2 c J) as [A [E H]].
    exists A. split; [exact E|]. intros s u w Hs Hu Hw. destruct (H s u w Hs Hu Hw) as [d [P ->]]. unfold dir2.
    apply sum_ext. intros f Hf. apply sum_ext. intros e He. unfold column. now rewrite (is_h _ _ _ _ _ Hf He (P f e Hf He)).
  Qed.
  Lemma cov_derivs_sym : forall n nv x J, sym n (cov_derivs nf nv nv h x J x J).
  Proof. intros n nv x J r q _ _. exact (dir01_sym nf k g0 g1 h S (proj1 C) _ _ _ _). Qed.
  Lemma cov_derivs_psd : forall n nv x J, psd n (cov_derivs nf nv nv h x J x J).
  Proof.
    intros n nv x J. exact (mixed_psd nf k g0 g1 h S C n (fun r => x (r / nv)%nat) (fun r => column J (r / nv) (r mod nv))).
  Qed.

  Lemma any_derivs : forall m nv x jac y mf, exists c,
    let mu := mf (m * nv)%nat 1%nat (flat nv y) in
    any_fit_derivs la nf K t sigma m nv x jac y mf = Ok (Some (c, mu)) /\
    ridge (m * nv) 1 (cov_derivs nf nv nv h x jac x jac) sigma mu (flat nv y) c /\
    (forall c', ridge (m * nv) 1 (cov_derivs nf nv nv h x jac x jac) sigma mu (flat nv y) c' -> meq (m * nv) 1 c' c).
  Proof.
    intros m nv x jac y mf. destruct (method_d01kj m m nv nv x x jac jac) as [A [E H]].
    destruct (ridge_solved (m * nv) 1 _ A sigma (cov_derivs_sym (m * nv) nv x jac) (cov_derivs_psd (m * nv) nv x jac) H la ok
      (mf (m * nv)%nat 1%nat (flat nv y)) (flat nv y)) as [R U].
    eexists. cbv zeta. split; [unfold any_fit_derivs, any_A_derivs_lhs, with1; rewrite E; reflexivity|]. split; [exact R|exact U].
  Qed.
  Lemma any_score_derivs : forall m nv x jac y mf, (0 < m * nv)%nat -> exists v,
    any_lml_derivs la nf K t sigma m nv x jac y mf = Ok (Some v) /\
    log_density (m * nv) (noisy sigma (cov_derivs nf nv nv h x jac x jac)) (fun i => flat nv y i O - mf (m * nv)%nat 1%nat (flat nv y)) v.
  Proof.
    intros m nv x jac y mf Hm. destruct (method_d01kj m m nv nv x x jac jac) as [A [E H]].
    eexists. split; [unfold any_lml_derivs, any_A_derivs_lhs, with1; rewrite E; reflexivity|].
    exact (score (m * nv) _ A sigma (cov_derivs_sym (m * nv) nv x jac) (cov_derivs_psd (m * nv) nv x jac) H la ok
      (fun i j => flat nv y i j - mf (m * nv)%nat 1%nat (flat nv y)) Hm).
  Qed.

  (** ** predictions, from the full matrix or from the contracted jacobian *)
  Lemma dir_jaccoef : forall nv c jac s x y, dir nf g0 x y (jaccoef_of nv c jac s) = sum nv (fun v => dir nf g0 x y (column jac s v) * c (s * nv + v)%nat O).
  Proof.
    intros. unfold dir, jaccoef_of, column.
    rewrite (sum_ext nf _ (fun f => sum nv (fun v => c (s * nv + v)%nat O * jac s f v * g0 x y f))) by (intros; now rewrite sum_scal_r).
    rewrite sum_swap. apply sum_ext. intros v _. rewrite <- sum_scal_r. apply sum_ext. intros; ring.
  Qed.
  Lemma dir2_jaccoef : forall nv c jac s x y w, dir2 nf h x y (jaccoef_of nv c jac s) w
    = sum nv (fun v => dir2 nf h x y (column jac s v) w * c (s * nv + v)%nat O).
  Proof.
    intros. unfold dir2, jaccoef_of, column.
    rewrite (sum_ext nf _ (fun f => sum nv (fun v => c (s * nv + v)%nat O * jac s f v * sum nf (fun e => h x y f e * w e)))).
    - rewrite sum_swap. apply sum_ext. intros v _. rewrite <- sum_scal_r. apply sum_ext. intros f _.
      rewrite <- sum_scal_l, <- sum_scal_r. apply sum_ext. intros; ring.
    - intros f _. rewrite sum_scal_r, <- sum_scal_l. apply sum_ext. intros; ring.
  Qed.
  Lemma any_forces : forall mode m n nv nd xt jt x jac c mu, mode_ok K mode -> exists P,
    any_predict_derivs nf K t sigma m n nv nd xt jt x jac c mu (contracted mode nv c jt) = Ok (Some P) /\
    forall s u, (s < n)%nat -> (u < nd)%nat ->
      P s u = mu + sum (m * nv) (fun r => cov_derivs nf nv nd h xt jt x jac r (s * nd + u)%nat * c r O).
  Proof.
    intros mode m n nv nd xt jt x jac c mu M. destruct mode; cbn [contracted any_predict_derivs].
    - destruct (method_d01kjc m n nd xt x (jaccoef_of nv c jt) jac) as [A [E H]].
      eexists. split; [unfold call; rewrite (proj2 (M eq_refl)); unfold with1; rewrite E; reflexivity|].
      intros s u Hs Hu. unfold unflat. f_equal. rewrite sum_block. apply sum_ext. intros i Hi. rewrite H by auto. rewrite dir2_jaccoef.
      apply sum_ext. intros v Hv. unfold cov_derivs. now rewrite !blk_div, !blk_mod by auto.
    - destruct (method_d01kj m n nv nd xt x jt jac) as [A [E H]].
      eexists. split; [unfold any_A_derivs_lhs, with1; rewrite E; reflexivity|].
      intros s u Hs Hu. unfold unflat. f_equal. unfold mm, tr. apply sum_ext. intros r Hr.
      rewrite H by (auto using blk_lt). reflexivity.
  Qed.
  Lemma any_energies : forall mode m n nv xt jt x c mu, mode_ok K mode -> exists P,
    any_predict_y_derivs nf K t m n nv xt jt x c mu (contracted mode nv c jt) = Ok (Some P) /\
    forall s, (s < n)%nat -> P s O = mu + sum (m * nv) (fun r => cov_derivs_values nf nv g0 xt jt x r s * c r O).
  Proof.
    intros mode m n nv xt jt x c mu M. destruct mode; cbn [contracted any_predict_y_derivs].
    - destruct (method_d0kjc m n xt x (jaccoef_of nv c jt)) as [A [E H]].
      eexists. split; [unfold call; rewrite (proj1 (M eq_refl)); unfold with1; rewrite E; reflexivity|].
      intros s Hs. apply Rplus_eq_compat_l. rewrite sum_block. apply sum_ext. intros i Hi. rewrite H by auto. rewrite dir_jaccoef.
      apply sum_ext. intros v Hv. unfold cov_derivs_values. now rewrite !blk_div, !blk_mod by auto.
    - destruct (method_d0kj m n nv xt x jt) as [A [E H]].
      eexists. split; [unfold with1; rewrite E; reflexivity|].
      intros s Hs. apply Rplus_eq_compat_l. unfold mm, tr. apply sum_ext. intros r Hr. rewrite H by auto. reflexivity.
  Qed.
  Lemma any_consistent : forall mode mode' m n nv nd xt jt x jac c mu u, mode_ok K mode -> mode_ok K mode' -> (u < nd)%nat -> exists Y P,
    (forall r, any_predict_y_derivs nf K t m n nv xt jt (fun s => toward (x s) (column jac s u) r) c mu (contracted mode nv c jt) = Ok (Some (Y r))) /\
    any_predict_derivs nf K t sigma m n nv nd xt jt x jac c 0 (contracted mode' nv c jt) = Ok (Some P) /\
    forall s, (s < n)%nat -> is_derive (fun r => Y r s O) 0 (P s u).
  Proof.
    intros mode mode' m n nv nd xt jt x jac c mu u M M' Hu.
    destruct (any_forces mode' m n nv nd xt jt x jac c 0 M') as [P [EP HP]].
    set (out := fun r => any_predict_y_derivs nf K t m n nv xt jt (fun s => toward (x s) (column jac s u) r) c mu (contracted mode nv c jt)).
    exists (fun r => match out r with Ok (Some Y) => Y | _ => fun _ _ => 0 end), P. split; [|split; [exact EP|]].
    - intro r. destruct (any_energies mode m n nv xt jt (fun s => toward (x s) (column jac s u) r) c mu M) as [Y [E H]].
      unfold out. rewrite E. reflexivity.
    - intros s Hs. rewrite HP, Rplus_0_l by auto.
      apply (is_derive_ext (fun r => mu + sum (m * nv) (fun q => cov_derivs_values nf nv g0 xt jt (fun s => toward (x s) (column jac s u) r) q s * c q O))).
      { intro r. destruct (any_energies mode m n nv xt jt (fun s => toward (x s) (column jac s u) r) c mu M) as [Y [E H]].
        unfold out. rewrite E. now rewrite H. }
      eapply is_derive_eq.
      + apply (is_derive_plus (fun _ => mu)); [apply @is_derive_const|].
        apply (is_derive_sum (m * nv) (fun q r => cov_derivs_values nf nv g0 xt jt (fun s => toward (x s) (column jac s u) r) q s * c q O) 0
          (fun q => cov_derivs nf nv nd h xt jt x jac q (s * nd + u)%nat * c q O)).
        intros q Hq. unfold cov_derivs, cov_derivs_values. rewrite blk_div, blk_mod by auto.
        set (X := xt (q / nv)%nat). set (U := column jt (q / nv) (q mod nv)). set (V := column jac s u).
        pose proof (j_01 _ _ _ _ (proj1 (smooth_jet2 nf k g0 g1 h) S X U (x s) V) 0 0) as DD. cbv beta in DD. rewrite !toward_0 in DD.
        eapply is_derive_eq; [apply (is_derive_mult (fun r => dir nf g0 X (toward (x s) V r) U) (fun _ => c q O));
          [exact DD|apply @is_derive_const|exact Rmult_comm]|].
        unfold plus, mult, zero; simpl. ring.
      + unfold plus, zero; simpl. ring.
  Qed.
End Any.

(** ** which kernels work with the default options *)
Lemma user_mode : forall u ad mode, mode_ok (user_object u ad) mode.
Proof. intros u ad mode _. split; reflexivity. Qed.
Lemma prod_mode : forall p q mode, mode_ok (prod_object p q) mode.
Proof. intros p q mode _. split; reflexivity. Qed.
Lemma sum_raises : forall nf p q t sigma m n nv nd xt jt x jac c mu jc,
  any_predict_derivs nf (sum_object p q) t sigma m n nv nd xt jt x jac c mu (Some jc) = Err TypeError /\
  any_predict_y_derivs nf (sum_object p q) t m n nv xt jt x c mu (Some jc) = Err TypeError.
Proof. intros. split; reflexivity. Qed.

(** ** kernels of the library: the routines of Model/GPR.v *)
Lemma library_methods : forall o, ko (library_object o) = build o.
Proof. induction o as [c ad|a IA b IB|a IA b IB]; cbn [library_object sum_object prod_object ko build]; [reflexivity| |]; now rewrite IA, IB. Qed.
Lemma library_any : forall la K t k, computes (ko K) t k -> forall nf sigma,
  (forall m o x y mf, any_fit la nf K t sigma m o x y mf = Ok (Some (fit_dense la m o nf k sigma x y mf))) /\
  (forall m xt x c mu, any_predict nf K t sigma m xt x c mu = Ok (Some (predict_dense m nf k sigma xt x c mu))) /\
  (forall m xt x, any_predict_cov la nf K t sigma m xt x = Ok (Some (predict_cov la m nf k sigma xt x))) /\
  (forall m nv x jac y mf, any_fit_derivs la nf K t sigma m nv x jac y mf = Ok (Some (fit_derivs_dense la m nf nv k sigma x jac y mf))) /\
  (forall m n nv nd xt jt x jac c mu, any_predict_derivs nf K t sigma m n nv nd xt jt x jac c mu None
    = Ok (Some (predict_derivs_dense m n nf nv nd k sigma xt jt x jac c mu))) /\
  (forall m n nv xt jt x c mu, any_predict_y_derivs nf K t m n nv xt jt x c mu None
    = Ok (Some (predict_y_derivs_dense m n nf nv k xt jt x c mu))) /\
  (mode_ok K true ->
    (forall m n nv nd xt jt x jac c mu jc, any_predict_derivs nf K t sigma m n nv nd xt jt x jac c mu (Some jc)
      = Ok (Some (predict_derivs_jaccoef m n nf nd k xt x jac mu jc))) /\
    (forall m n nv xt jt x c mu jc, any_predict_y_derivs nf K t m n nv xt jt x c mu (Some jc)
      = Ok (Some (predict_y_derivs_jaccoef m n nf k xt x mu jc)))) /\
  (forall m o x y mf, any_lml la nf K t sigma m o x y mf = Ok (Some (lml_dense la m o nf k sigma x y mf))) /\
  (forall m nv x jac y mf, any_lml_derivs la nf K t sigma m nv x jac y mf = Ok (Some (lml_derivs_dense la m nf nv k sigma x jac y mf))).
Proof.
  intros la K t k C nf sigma.
  refine (conj _ (conj _ (conj _ (conj _ (conj _ (conj _ (conj _ (conj _ _)))))))); intros.
  - unfold any_fit, any_A_lhs, with1. rewrite (c_k _ _ _ C). reflexivity.
  - unfold any_predict, any_A_lhs, with1. rewrite (c_k _ _ _ C). reflexivity.
  - unfold any_predict_cov, any_A_lhs, with1, with3. rewrite !(c_k _ _ _ C). reflexivity.
  - unfold any_fit_derivs, any_A_derivs_lhs, with1. rewrite (c_d01kj _ _ _ C). reflexivity.
  - unfold any_predict_derivs, any_A_derivs_lhs, with1. rewrite (c_d01kj _ _ _ C). reflexivity.
  - unfold any_predict_y_derivs, with1. rewrite (c_d0kj _ _ _ C). reflexivity.
  - destruct (H eq_refl) as [H0 H1]. split; intros.
    + unfold any_predict_derivs, call, with1. rewrite H1, (c_d01kjc _ _ _ C). reflexivity.
    + unfold any_predict_y_derivs, call, with1. rewrite H0, (c_d0kjc _ _ _ C). reflexivity.
  - unfold any_lml, any_A_lhs, with1. rewrite (c_k _ _ _ C). reflexivity.
  - unfold any_lml_derivs, any_A_derivs_lhs, with1. rewrite (c_d01kj _ _ _ C). reflexivity.
Qed.
