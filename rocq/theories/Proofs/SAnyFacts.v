(** Sparse regression with a kernel object of any origin. *)
From Coq Require Import List String Reals Lia Lra Arith FunctionalExtensionality.
From Coquelicot Require Import Coquelicot.
From Verif Require Import Base.Sums Base.Mat Base.PSD Spec.Det Model.Arrays Model.Kernels Model.PyDict Model.Params Model.Calls Model.LinAlg
  Model.GPR Model.SGPR Model.SGPRMore Model.Public Model.KernelObj Model.KernelMethods Model.CustomKernel Model.GPRAny Model.SGPRAny
  Spec.Partial Spec.KernelSpec Spec.KernelMethodsSpec Spec.CustomSpec Spec.SmoothSpec Spec.AnySpec Spec.GPSpec Spec.SparseSpec Spec.MVN Spec.TrainingSpec
  Proofs.Deriv Proofs.KernelMethods Proofs.KernelDerivs Proofs.Loops Proofs.Contraction Proofs.Jet2 Proofs.SmoothFacts Proofs.CustomFacts Proofs.DetFacts Proofs.LinAlgFacts Proofs.GPRFacts Proofs.GPRLml
  Proofs.GPRCov Proofs.SGPRFacts Proofs.SGPRIter Proofs.SGPRCov Proofs.SGPRMoreFacts Proofs.AnyFacts.
Import ListNotations.
Open Scope R_scope.

Lemma sparse_ext : forall m n sigma A G B H r c, meq m m A G -> meq m n B H ->
  sparse_objective m n sigma A B r c = sparse_objective m n sigma G H r c.
Proof.
  intros m n sigma A G B H r c E1 E2. unfold sparse_objective. f_equal. f_equal.
  - apply sum_ext. intros i Hi. do 2 f_equal. apply sum_ext. intros a Ha. now rewrite E2.
  - f_equal. apply sum_ext. intros a Ha. apply sum_ext. intros b Hb. now rewrite E1.
Qed.
Lemma nystrom_ext : forall m n A G B H M, meq m m A G -> meq m n B H -> nystrom m n G H M -> nystrom m n A B M.
Proof.
  intros m n A G B H M E1 E2 [W [HW HM]]. exists W. split.
  - intros i j Hi Hj. rewrite (E2 i j Hi Hj), <- (HW i j Hi Hj). f_equal. apply sum_ext. intros b Hb. now rewrite E1.
  - intros i j Hi Hj. rewrite (HM i j Hi Hj). apply sum_ext. intros a Ha. now rewrite E2.
Qed.
Section Eq.
  Variables (la : linalg) (m n o : nat) (G A H B : Mat) (sigma : R).
  Hypothesis ok : linalg_ok la.
  Hypothesis Gs : sym m G.
  Hypothesis Gp : psd m G.
  Hypothesis EA : meq m m A G.
  Hypothesis EB : meq m n B H.
  Let As := eq_sym' m G A Gs EA.
  Let Ap := eq_psd m G A Gp EA.
  Lemma sparse_min : forall Y j, (j < o)%nat -> forall c',
    let c := la_solve la m (sg_lhs n sigma A B) (mm n B Y) in
    sparse_objective m n sigma G H (fun i => Y i j) (fun a => c a j) + / 10 ^ 10 * sum m (fun a => (c' a - c a j) ^ 2)
    <= sparse_objective m n sigma G H (fun i => Y i j) c'.
  Proof.
    intros Y j Hj c' c. rewrite <- !(sparse_ext m n sigma A G B H _ _ EA EB). apply obj_min; auto.
    intros i Hi. pose proof (sg_solves la ok m n o sigma A B Y Ap i j Hi Hj) as Q. rewrite !mm_col in Q. exact Q.
  Qed.
  Lemma nystrom_exists : exists M, nystrom m n G H M.
  Proof.
    set (W := la_solve la m (add_diag jit10 G) H). exists (fun i j => sum m (fun a => H a i * W a j)), W. split; [|apply meq_refl].
    assert (P : pd m (add_diag jit10 G)) by (apply pd_add_diag; [exact Gp|apply jit10_pos]).
    intros i j Hi Hj. rewrite <- (ok_solve la ok m n _ H (pd_nonsing _ _ P) i j Hi Hj). fold W. unfold mm.
    rewrite (sum_ext m (fun l => add_diag jit10 G i l * W l j) (fun l => G i l * W l j + delta i l * (jit10 * W l j))) by (intros; rewrite add_diag_entry; ring).
    rewrite sum_plus, sum_delta_l by auto. reflexivity.
  Qed.
  Lemma sparse_lml : forall Y, (0 < n)%nat -> exists M, nystrom m n G H M /\
    log_density n (noisy sigma M) (fun i => Y i O) (sg_lml_of la m n 1 sigma A B Y).
  Proof.
    intros Y Hn. destruct nystrom_exists as [M HM]. exists M. split; [exact HM|].
    destruct (nystrom_psd m n G H M Gs Gp HM) as [SM PM]. destruct (noisy_sp n sigma M SM PM) as [SN PN].
    exists (fun i => la_solve la n (noisy sigma M) Y i O).
    assert (Hb : veq n (mv n (noisy sigma M) (fun i => la_solve la n (noisy sigma M) Y i O)) (fun i => Y i O)).
    { intros i Hi. exact (ok_solve la ok n 1 (noisy sigma M) Y (pd_nonsing _ _ PN) i O Hi (le_n 1)). }
    split; [exact Hb|]. exact (sg_of_mvn la ok m n sigma A B Y M _ Hn As Ap (nystrom_ext m n A G B H M EA EB HM) Hb).
  Qed.
End Eq.

Section SAny.
  Variables (la : linalg) (nf : nat) (K : kernel_object) (t : ptree) (sigma : R) (k : Vec -> Vec -> R).
  Hypothesis ok : linalg_ok la.
  Hypothesis D : differentiates (ko K) t nf k.
  Hypothesis C : covariance k.
  Let mk := method_k nf K t k D.
  Lemma sany_values : forall m n o xl x y mf, exists c,
    any_sg_fit la nf K t sigma m n o xl x y mf = Ok (Some (c, mf n o y)) /\
    (forall j, (j < o)%nat -> forall c',
      let J := sparse_objective m n sigma (cov_values k xl xl) (cov_values k xl x) (fun i => y i j - mf n o y) in
      J (fun a => c a j) + / 10 ^ 10 * sum m (fun a => (c' a - c a j) ^ 2) <= J c') /\
    forall x', exists P, any_sg_predict nf K t m xl x' c (mf n o y) = Ok (Some P) /\
      forall s j, P s j = mf n o y + sum m (fun i => k (x' s) (xl i) * c i j).
  Proof.
    intros m n o xl x y mf. eexists. split; [unfold any_sg_fit, any_sg_A_lhs, with_pair, with2; rewrite !mk; reflexivity|]. split.
    - intros j Hj c'. exact (sparse_min la m n o _ (cov_values k xl xl) _ (cov_values k xl x) sigma ok (cov_values_sym k C m xl) (cov_values_psd k C m xl)
        (meq_refl _ _ _) (meq_refl _ _ _) (fun i j => y i j - mf n o y) j Hj c').
    - intro x'. eexists. split; [unfold any_sg_predict, with1; rewrite mk; reflexivity|]. reflexivity.
  Qed.
  Lemma cov_joint : forall m n xl x b v, 0 <= qf m (cov_values k xl xl) b + 2 * dot m b (wv n (cov_values k xl x) v) + qf n (cov_values k x x) v.
  Proof.
    intros m n xl x.
    apply (joint_of m n (cov_values k (fun i => if Nat.ltb i m then xl i else x (i - m)%nat) (fun i => if Nat.ltb i m then xl i else x (i - m)%nat))).
    - now apply cov_values_psd.
    - intros i j Hi Hj. unfold cov_values. now rewrite !(proj2 (Nat.ltb_lt _ m)) by auto.
    - intros i j Hi Hj. unfold cov_values. rewrite (proj2 (Nat.ltb_lt i m)), (proj2 (Nat.ltb_ge (m + j) m)) by lia.
      now replace (m + j - m)%nat with j by lia.
    - intros i j Hi Hj. unfold cov_values. rewrite (proj2 (Nat.ltb_lt i m)), (proj2 (Nat.ltb_ge (m + j) m)) by lia.
      replace (m + j - m)%nat with j by lia. apply C.
    - intros i j Hi Hj. unfold cov_values. rewrite !(proj2 (Nat.ltb_ge _ m)) by lia.
      now replace (m + j - m)%nat with j by lia; replace (m + i - m)%nat with i by lia.
  Qed.
  Lemma sany_cov : forall m n xl x, exists V, any_sg_predict_cov la nf K t sigma m n xl x = Ok (Some V) /\
    sym n V /\ psd n V /\ (sigma ^ 2 <= 1 -> psd n (fun i j => k (x i) (x j) - V i j)) /\
    forall B1 B2, meq m n (fun a j => sum m (fun b => k (xl a) (xl b) * B1 b j) + / 10 ^ 10 * B1 a j) (cov_values k xl x) ->
      meq m n (fun a j => sum m (fun b => (sigma ^ 2 * k (xl a) (xl b) + sum n (fun i => k (xl a) (x i) * k (xl b) (x i))) * B2 b j) + / 10 ^ 10 * B2 a j) (cov_values k xl x) ->
      forall i j, (i < n)%nat -> (j < n)%nat ->
      V i j = k (x i) (x j) - sum m (fun a => k (xl a) (x i) * B1 a j) + sigma ^ 2 * sum m (fun a => k (xl a) (x i) * B2 a j).
  Proof.
    intros m n xl x. eexists. split; [unfold any_sg_predict_cov, any_sg_A_lhs, with2; rewrite !mk; reflexivity|].
    pose proof (cov_values_sym k C m xl) as S. pose proof (cov_values_psd k C m xl) as P. pose proof (cov_values_sym k C n x) as Sn.
    split; [|split; [|split]].
    - exact (sg_cov_sym la m n sigma _ _ _ Sn).
    - exact (sg_cov_psd la ok m n sigma _ (cov_values k xl x) _ S P (cov_joint m n xl x)).
    - intro Hs. exact (sg_cov_le_prior la ok m n sigma _ (cov_values k xl x) (cov_values k x x) S P Hs).
    - intros B1 B2 H1 H2 i j Hi Hj.
      refine (sg_cov_formula la ok m n sigma _ (cov_values k xl x) (cov_values k x x) S P B1 B2 _ _ i j Hi Hj).
      + intros a b Ha Hb. rewrite <- (H1 a b Ha Hb). unfold mm.
        rewrite (sum_ext m _ (fun l => cov_values k xl xl a l * B1 l b + delta a l * (jit10 * B1 l b))) by (intros; unfold eye; ring).
        rewrite sum_plus, sum_delta_l by auto. reflexivity.
      + intros a b Ha Hb. rewrite <- (H2 a b Ha Hb). unfold mm at 1.
        rewrite (sum_ext m _ (fun l => (sigma ^ 2 * k (xl a) (xl l) + sum n (fun i => k (xl a) (x i) * k (xl l) (x i))) * B2 l b + delta a l * (jit10 * B2 l b)))
          by (intros; unfold sg_lhs, eye, mm, tr, cov_values; ring).
        rewrite sum_plus, sum_delta_l by auto. reflexivity.
  Qed.
  Lemma sany_score : forall m n xl x y mf, (0 < n)%nat -> exists v M, any_sg_lml la nf K t sigma m n 1 xl x y mf = Ok (Some v) /\
    nystrom m n (cov_values k xl xl) (cov_values k xl x) M /\ log_density n (noisy sigma M) (fun i => y i O - mf n 1%nat y) v.
  Proof.
    intros m n xl x y mf Hn.
    destruct (sparse_lml la m n (cov_values k xl xl) (cov_values k xl xl) (cov_values k xl x) (cov_values k xl x) sigma ok
      (cov_values_sym k C m xl) (cov_values_psd k C m xl) (meq_refl _ _ _) (meq_refl _ _ _) (fun i j => y i j - mf n 1%nat y) Hn) as [M [HM HL]].
    eexists. exists M. split; [unfold any_sg_lml, with2; rewrite !mk; reflexivity|]. split; [exact HM|exact HL].
  Qed.
  (** inducing points = training points *)
  Lemma sany_same : forall m o x y mf xs, exists cs cg Ps Pg,
    any_sg_fit la nf K t sigma m m o x x y mf = Ok (Some (cs, mf m o y)) /\ any_fit la nf K t sigma m o x y mf = Ok (Some (cg, mf m o y)) /\
    any_sg_predict nf K t m x xs cs (mf m o y) = Ok (Some Ps) /\ any_predict nf K t sigma m x xs cg (mf m o y) = Ok (Some Pg) /\
    forall s j, (j < o)%nat -> sigma ^ 2 * (sigma ^ 2 + / 10 ^ 10) ^ 2 * (Ps s j - Pg s j) ^ 2
      <= k (xs s) (xs s) * (/ 10 ^ 10 * (1 + / 10 ^ 10) / 4) * sum m (fun i => (y i j - mf m o y) ^ 2).
  Proof.
    intros m o x y mf xs. do 4 eexists.
    split; [unfold any_sg_fit, any_sg_A_lhs, with_pair, with2; rewrite !mk; reflexivity|].
    split; [unfold any_fit, any_A_lhs, with1; rewrite !mk; reflexivity|].
    split; [unfold any_sg_predict, with1; rewrite !mk; reflexivity|].
    split; [unfold any_predict, any_A_lhs, with1; rewrite !mk; reflexivity|].
    intros s j Hj. cbv beta. set (mu := mf m o y). set (Y := fun i j => y i j - mu).
    pose proof (cov_values_sym k C m x) as S. pose proof (cov_values_psd k C m x) as P.
    set (cs := la_solve la m (sg_lhs m sigma (cov_values k x x) (cov_values k x x)) (mm m (cov_values k x x) Y)).
    set (cg := la_solve la m (fun i j0 => cov_values k x x i j0 + (sigma ^ 2 + jit10) * eye i j0) Y).
    set (kx := fun i => k (xs s) (x i)).
    change (sigma ^ 2 * (sigma ^ 2 + jit10) ^ 2 * (mu + mm m (cov_values k xs x) cs s j - (mu + mm m (tr (cov_values k x xs)) cg s j)) ^ 2
      <= k (xs s) (xs s) * (jit10 * (1 + jit10) / 4) * sum m (fun i => (y i j - mu) ^ 2)).
    replace (mu + mm m (cov_values k xs x) cs s j - (mu + mm m (tr (cov_values k x xs)) cg s j)) with (dot m kx (fun i => cs i j) - dot m kx (fun i => cg i j)).
    2:{ unfold dot, mm, tr, cov_values, kx. rewrite (sum_ext m (fun l => k (x l) (xs s) * cg l j) (fun i => k (xs s) (x i) * cg i j)) by (intros; now rewrite (proj1 C (x _) (xs s))). ring. }
    replace (sum m (fun i => (y i j - mu) ^ 2)) with (dot m (fun i => Y i j) (fun i => Y i j)) by (unfold dot, Y; apply sum_ext; intros; ring).
    apply (same_close m (cov_values k x x) sigma _ _ _ S P).
    - intros i Hi. pose proof (sg_solves la ok m m o sigma (cov_values k x x) (cov_values k x x) Y P i j Hi Hj) as Q. rewrite !mm_col in Q. exact Q.
    - intros i Hi. pose proof (ok_solve la ok m o (noisy sigma (cov_values k x x)) Y (pd_nonsing _ _ (noisy_pd m _ _ sigma P (meq_refl _ _ _))) i j Hi Hj) as Q.
      rewrite mm_col in Q. rewrite <- Q. unfold mv. apply sum_ext. intros l _. rewrite add_diag_entry. reflexivity.
    - pose proof (proj2 C 1%nat (fun _ => xs s) (fun _ => 1)) as Q. cbn [sum] in Q. lra.
    - intros b u. pose proof (cov_joint m 1 x (fun _ => xs s) b (fun _ => u)) as Jn. unfold wv, mv, qf in Jn. cbn [sum] in Jn.
      rewrite (dot_ext m b _ b (fun i => u * kx i)) in Jn; [|intros i _; reflexivity|].
      2:{ intros i _. unfold kx, cov_values. rewrite (proj1 C (x i) (xs s)). ring. }
      replace (dot m b (fun i => u * kx i)) with (u * dot m b kx) in Jn by (unfold dot; rewrite <- sum_scal_l; apply sum_ext; intros; ring).
      change (cov_values k (fun _ => xs s) (fun _ => xs s) 0%nat 0%nat) with (k (xs s) (xs s)) in Jn. unfold qf. lra.
  Qed.

  (** ** derivatives *)
  Variables (g0 g1 : Vec -> Vec -> Vec) (h : Vec -> Vec -> Mat).
  Hypothesis S : smooth nf k g0 g1 h.
  Let md01 := method_d01kj nf K t k D g0 g1 h S.
  Lemma sany_derivs : forall m n nv nd xl jl x y jac mf, exists c,
    let mu := mf (n * nd)%nat 1%nat (flat nd y) in
    any_sg_fit_derivs la nf K t sigma m n nv nd xl jl x y jac mf = Ok (Some (c, mu)) /\
    forall c', let J := sparse_objective (m * nv) (n * nd) sigma (cov_derivs nf nv nv h xl jl xl jl) (cov_derivs nf nv nd h xl jl x jac) (fun i => flat nd y i O - mu) in
      J (fun a => c a O) + / 10 ^ 10 * sum (m * nv) (fun a => (c' a - c a O) ^ 2) <= J c'.
  Proof.
    intros m n nv nd xl jl x y jac mf. destruct (md01 m n nv nd xl x jl jac) as [B [EB HB]]. destruct (md01 m m nv nv xl xl jl jl) as [A [EA HA]].
    eexists. cbv zeta. split; [unfold any_sg_fit_derivs, any_sg_A_derivs_lhs, with_pair, with2; rewrite EB, EA; reflexivity|].
    intros c'. exact (sparse_min la (m * nv) (n * nd) 1 _ A _ B sigma ok (cov_derivs_sym nf k C g0 g1 h S (m * nv) nv xl jl)
      (cov_derivs_psd nf k C g0 g1 h S (m * nv) nv xl jl) HA HB (fun i j => flat nd y i j - mf (n * nd)%nat 1%nat (flat nd y)) O (le_n 1) c').
  Qed.
  Lemma sany_score_derivs : forall m n xl jl x y jac mf, (0 < n)%nat -> exists v M,
    any_sg_lml_derivs la nf K t sigma m n 1 1 xl jl x y jac mf = Ok (Some v) /\
    nystrom m n (cov_derivs nf 1 1 h xl jl xl jl) (cov_derivs nf 1 1 h xl jl x jac) M /\
    log_density n (noisy sigma M) (fun i => y i O - mf n 1%nat y) v.
  Proof.
    intros m n xl jl x y jac mf Hn. destruct (md01 m n 1%nat 1%nat xl x jl jac) as [B [EB HB]]. destruct (md01 m m 1%nat 1%nat xl xl jl jl) as [A [EA HA]].
    rewrite ?(Nat.mul_1_r m), ?(Nat.mul_1_r n) in HA. rewrite (Nat.mul_1_r m), (Nat.mul_1_r n) in HB.
    destruct (sparse_lml la m n _ A _ B sigma ok (cov_derivs_sym nf k C g0 g1 h S m 1 xl jl) (cov_derivs_psd nf k C g0 g1 h S m 1 xl jl) HA HB
      (fun i j => y i j - mf n 1%nat y) Hn) as [M [HM HL]].
    eexists. exists M. split; [|split; [exact HM|exact HL]].
    unfold any_sg_lml_derivs, with2. rewrite EA, EB. cbn [bind Nat.eqb andb orb option_map fst snd]. rewrite Nat.mul_1_r. reflexivity.
  Qed.
  Lemma sany_score_derivs_raises : forall m n xl jl x y jac mf, any_sg_lml_derivs la nf K t sigma m n 2 2 xl jl x y jac mf = Err ValueError.
  Proof.
    intros. destruct (md01 m n 2%nat 2%nat xl x jl jac) as [B [EB _]]. destruct (md01 m m 2%nat 2%nat xl xl jl jl) as [A [EA _]].
    unfold any_sg_lml_derivs, with2. rewrite EA, EB. reflexivity.
  Qed.
  Lemma sany_forces : forall mode m n nv nd xl jl x jac c mu, exists P,
    any_sg_predict_derivs nf K t m n nv nd xl jl x jac c mu (contracted mode nv c jl) = Ok (Some P) /\
    forall s u, (s < n)%nat -> (u < nd)%nat ->
      P s u = mu + sum (m * nv) (fun r => cov_derivs nf nv nd h xl jl x jac r (s * nd + u)%nat * c r O).
  Proof.
    intros mode m n nv nd xl jl x jac c mu. destruct mode; cbn [contracted any_sg_predict_derivs].
    - destruct (method_d01kjc nf K t k D g0 g1 h S m n nd xl x (jaccoef_of nv c jl) jac) as [A [E H]].
      eexists. split; [unfold with1; rewrite E; reflexivity|].
      intros s u Hs Hu. unfold unflat. f_equal. rewrite sum_block. apply sum_ext. intros i Hi. rewrite H by auto. rewrite dir2_jaccoef.
      apply sum_ext. intros v Hv. unfold cov_derivs. now rewrite !blk_div, !blk_mod by auto.
    - destruct (md01 n m nd nv x xl jac jl) as [A [E H]].
      eexists. split; [unfold with1; rewrite E; reflexivity|].
      intros s u Hs Hu. unfold unflat. f_equal. unfold mm. apply sum_ext. intros r Hr.
      rewrite H by (auto using blk_lt). unfold cov_derivs. rewrite !blk_div, !blk_mod by auto.
      now rewrite (dir01_sym nf k g0 g1 h S (proj1 C)).
  Qed.
  Lemma sany_energies : forall mode m n nv xl jl x c mu, exists P,
    any_sg_predict_y_derivs nf K t m n nv xl jl x c mu (contracted mode nv c jl) = Ok (Some P) /\
    forall s, (s < n)%nat -> P s O = mu + sum (m * nv) (fun r => cov_derivs_values nf nv g0 xl jl x r s * c r O).
  Proof.
    intros mode m n nv xl jl x c mu. destruct mode; cbn [contracted any_sg_predict_y_derivs].
    - destruct (method_d0kjc nf K t k D g0 g1 h S m n xl x (jaccoef_of nv c jl)) as [A [E H]].
      eexists. split; [unfold with1; rewrite E; reflexivity|].
      intros s Hs. apply Rplus_eq_compat_l. rewrite sum_block. apply sum_ext. intros i Hi. rewrite H by auto. rewrite dir_jaccoef.
      apply sum_ext. intros v Hv. unfold cov_derivs_values. now rewrite !blk_div, !blk_mod by auto.
    - destruct (method_d0kj nf K t k D g0 g1 h S m n nv xl x jl) as [A [E H]].
      eexists. split; [unfold with1; rewrite E; reflexivity|].
      intros s Hs. apply Rplus_eq_compat_l. unfold mm, tr. apply sum_ext. intros r Hr. rewrite H by auto. reflexivity.
  Qed.
  Lemma formula_derive : forall m nv nd xl jl x jac c mu u s, (u < nd)%nat ->
    is_derive (fun r => mu + sum (m * nv) (fun q => cov_derivs_values nf nv g0 xl jl (fun s => toward (x s) (column jac s u) r) q s * c q O)) 0
      (sum (m * nv) (fun q => cov_derivs nf nv nd h xl jl x jac q (s * nd + u)%nat * c q O)).
  Proof.
    intros m nv nd xl jl x jac c mu u s Hu. eapply is_derive_eq.
    - apply (is_derive_plus (fun _ => mu)); [apply @is_derive_const|].
      apply (is_derive_sum (m * nv) (fun q r => cov_derivs_values nf nv g0 xl jl (fun s => toward (x s) (column jac s u) r) q s * c q O) 0
        (fun q => cov_derivs nf nv nd h xl jl x jac q (s * nd + u)%nat * c q O)).
      intros q Hq. unfold cov_derivs, cov_derivs_values. rewrite blk_div, blk_mod by auto.
      set (X := xl (q / nv)%nat). set (U := column jl (q / nv) (q mod nv)). set (V := column jac s u).
      pose proof (j_01 _ _ _ _ (proj1 (smooth_jet2 nf k g0 g1 h) S X U (x s) V) 0 0) as DD. cbv beta in DD. rewrite !toward_0 in DD.
      eapply is_derive_eq; [apply (is_derive_mult (fun r => dir nf g0 X (toward (x s) V r) U) (fun _ => c q O));
        [exact DD|apply @is_derive_const|exact Rmult_comm]|].
      unfold plus, mult, zero; simpl. ring.
    - unfold plus, zero; simpl. ring.
  Qed.
  Lemma sany_consistent : forall mode mode' m n nv nd xl jl x jac c mu u, (u < nd)%nat -> exists Y P,
    (forall r, any_sg_predict_y_derivs nf K t m n nv xl jl (fun s => toward (x s) (column jac s u) r) c mu (contracted mode nv c jl) = Ok (Some (Y r))) /\
    any_sg_predict_derivs nf K t m n nv nd xl jl x jac c 0 (contracted mode' nv c jl) = Ok (Some P) /\
    forall s, (s < n)%nat -> is_derive (fun r => Y r s O) 0 (P s u).
  Proof.
    intros mode mode' m n nv nd xl jl x jac c mu u Hu.
    destruct (sany_forces mode' m n nv nd xl jl x jac c 0) as [P [EP HP]].
    set (out := fun r => any_sg_predict_y_derivs nf K t m n nv xl jl (fun s => toward (x s) (column jac s u) r) c mu (contracted mode nv c jl)).
    exists (fun r => match out r with Ok (Some Y) => Y | _ => fun _ _ => 0 end), P. split; [|split; [exact EP|]].
    - intro r. destruct (sany_energies mode m n nv xl jl (fun s => toward (x s) (column jac s u) r) c mu) as [Y [E H]].
      unfold out. rewrite E. reflexivity.
    - intros s Hs. rewrite HP, Rplus_0_l by auto.
      apply (is_derive_ext (fun r => mu + sum (m * nv) (fun q => cov_derivs_values nf nv g0 xl jl (fun s => toward (x s) (column jac s u) r) q s * c q O))).
      { intro r. destruct (sany_energies mode m n nv xl jl (fun s => toward (x s) (column jac s u) r) c mu) as [Y [E H]].
        unfold out. rewrite E. now rewrite H. }
      now apply formula_derive.
  Qed.
End SAny.

Lemma library_sany : forall la K t k, computes (ko K) t k -> forall nf sigma,
  (forall m n o xl x y mf, any_sg_fit la nf K t sigma m n o xl x y mf = Ok (Some (sg_fit_dense la m n o nf k sigma xl x y mf))) /\
  (forall m xl x c mu, any_sg_predict nf K t m xl x c mu = Ok (Some (sg_predict_dense m nf k xl x c mu))) /\
  (forall m n xl x, any_sg_predict_cov la nf K t sigma m n xl x = Ok (Some (sg_predict_cov la m n nf k sigma xl x))) /\
  (forall m n nv nd xl jl x y jac mf, any_sg_fit_derivs la nf K t sigma m n nv nd xl jl x y jac mf
    = Ok (Some (sg_fit_derivs_dense la m n nf nv nd k sigma xl jl x y jac mf))) /\
  (forall m n nv nd xl jl x jac c mu, any_sg_predict_derivs nf K t m n nv nd xl jl x jac c mu None
    = Ok (Some (sg_predict_derivs_dense m n nf nv nd k xl jl x jac c mu))) /\
  (forall m n nv nd xl jl x jac c mu jc, any_sg_predict_derivs nf K t m n nv nd xl jl x jac c mu (Some jc)
    = Ok (Some (sg_predict_derivs_jaccoef m n nf nd k xl x jac mu jc))) /\
  (forall m n nv xl jl x c mu, any_sg_predict_y_derivs nf K t m n nv xl jl x c mu None
    = Ok (Some (sg_predict_y_derivs_dense m n nf nv k xl jl x c mu))) /\
  (forall m n nv xl jl x c mu jc, any_sg_predict_y_derivs nf K t m n nv xl jl x c mu (Some jc)
    = Ok (Some (sg_predict_y_derivs_jaccoef m n nf k xl x mu jc))) /\
  (forall m n o xl x y mf, any_sg_lml la nf K t sigma m n o xl x y mf = Ok (Some (sg_lml_dense la m n o nf k sigma xl x y mf))) /\
  (forall m n nv nd xl jl x y jac mf, any_sg_lml_derivs la nf K t sigma m n nv nd xl jl x y jac mf
    = match sg_lml_derivs_dense la m n nf nv nd k sigma xl jl x y jac mf with Some v => Ok (Some v) | None => Err ValueError end).
Proof.
  intros la K t k C nf sigma.
  refine (conj _ (conj _ (conj _ (conj _ (conj _ (conj _ (conj _ (conj _ (conj _ _))))))))); intros.
  - unfold any_sg_fit, any_sg_A_lhs, with_pair, with2. rewrite !(c_k _ _ _ C). reflexivity.
  - unfold any_sg_predict, with1. rewrite (c_k _ _ _ C). reflexivity.
  - unfold any_sg_predict_cov, any_sg_A_lhs, with2. rewrite !(c_k _ _ _ C). reflexivity.
  - unfold any_sg_fit_derivs, any_sg_A_derivs_lhs, with_pair, with2. rewrite !(c_d01kj _ _ _ C). reflexivity.
  - unfold any_sg_predict_derivs, with1. rewrite (c_d01kj _ _ _ C). reflexivity.
  - unfold any_sg_predict_derivs, with1. rewrite (c_d01kjc _ _ _ C). reflexivity.
  - unfold any_sg_predict_y_derivs, with1. rewrite (c_d0kj _ _ _ C). reflexivity.
  - unfold any_sg_predict_y_derivs, with1. rewrite (c_d0kjc _ _ _ C). reflexivity.
  - unfold any_sg_lml, with2. rewrite !(c_k _ _ _ C). reflexivity.
  - unfold any_sg_lml_derivs, sg_lml_derivs_dense, with2. rewrite !(c_d01kj _ _ _ C). cbn [bind].
    now destruct (Nat.eqb nd 1 && (Nat.eqb nv 1 || Nat.eqb m 1))%bool.
Qed.
