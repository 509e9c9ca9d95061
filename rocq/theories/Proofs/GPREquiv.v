(** How the predictions change with the data. *)
From Coq Require Import Reals Arith Lia Lra List.
From Coquelicot Require Import Coquelicot.
From Verif Require Import Base.Sums Base.Mat Base.PSD Model.Arrays Model.Kernels Model.LinAlg Model.Operations
  Model.RPCholesky Model.GPR Model.SGPR Spec.KernelSpec Spec.GPSpec Spec.EquivSpec Proofs.KernelDerivs Proofs.KernelSym Proofs.KernelPropLemmas
  Proofs.Loops Proofs.Deriv Proofs.KernelAtoms Proofs.KernelJets Proofs.JetPSD Proofs.LinAlgFacts Proofs.Matvec Proofs.GPRFacts Proofs.GPRCov Proofs.DetFacts Proofs.GPRLml Proofs.SGPRFacts Proofs.CurveDeriv Proofs.GPRPack.
Open Scope R_scope.

(** ** mean functions *)
Lemma nat_prod_nz : forall m o, (0 < m)%nat -> (0 < o)%nat -> INR m * INR o <> 0.
Proof. intros m o Hm Ho. apply lt_0_INR in Hm. apply lt_0_INR in Ho. apply Rgt_not_eq. nra. Qed.
Lemma mean_lin : forall mf m o y1 y2 a b, mf = zero_mean \/ mf = data_mean ->
  mf m o (fun i j => a * y1 i j + b * y2 i j) = a * mf m o y1 + b * mf m o y2.
Proof.
  intros mf m o y1 y2 a b [->| ->]; [unfold zero_mean; ring|]. unfold data_mean.
  rewrite (sum_ext m _ (fun i => a * sum o (fun j => y1 i j) + b * sum o (fun j => y2 i j))).
  - rewrite sum_plus, !sum_scal_l. unfold Rdiv. ring.
  - intros i _. now rewrite sum_plus, !sum_scal_l.
Qed.
Lemma data_mean_const : forall m o b, (0 < m)%nat -> (0 < o)%nat -> data_mean m o (fun _ _ => b) = b.
Proof.
  intros m o b Hm Ho. unfold data_mean. rewrite (sum_ext m _ (fun _ => INR o * b)) by (intros; apply sum_const).
  rewrite sum_const. pose proof (nat_prod_nz m o Hm Ho). field. split; intro E; apply H; rewrite E; ring.
Qed.
Lemma data_mean_shift : forall m o y b, (0 < m)%nat -> (0 < o)%nat ->
  data_mean m o (fun i j => y i j + b) = data_mean m o y + b.
Proof.
  intros m o y b Hm Ho. pose proof (mean_lin data_mean m o y (fun _ _ => b) 1 1 (or_intror eq_refl)) as E.
  rewrite data_mean_const in E by auto. replace (data_mean m o y + b) with (1 * data_mean m o y + 1 * b) by ring.
  rewrite <- E. unfold data_mean. f_equal. apply sum_ext. intros i _. apply sum_ext. intros j _. ring.
Qed.

(** ** solutions depend linearly on the right-hand side *)
Lemma mm_lin : forall n A X1 X2 a b i j, mm n A (fun i j => a * X1 i j + b * X2 i j) i j = a * mm n A X1 i j + b * mm n A X2 i j.
Proof. intros. unfold mm. rewrite <- !sum_scal_l, <- sum_plus. apply sum_ext. intros; ring. Qed.
Lemma mm_arg : forall n o A X Y i j, meq n o X Y -> (j < o)%nat -> mm n A X i j = mm n A Y i j.
Proof. intros n o A X Y i j H Hj. unfold mm. apply sum_ext. intros l Hl. now rewrite (H l j Hl Hj). Qed.

Section La.
  Variable la : linalg.
  Hypothesis ok : linalg_ok la.
  Lemma solve_lin : forall n o A B B1 B2 a b, nonsing n A -> meq n o B (fun i j => a * B1 i j + b * B2 i j) ->
    meq n o (la_solve la n A B) (fun i j => a * la_solve la n A B1 i j + b * la_solve la n A B2 i j).
  Proof.
    intros n o A B B1 B2 a b H HB. apply (solve_unique n o A); auto. intros i j Hi Hj.
    rewrite mm_lin. rewrite (ok_solve la ok n o A B H i j Hi Hj), (ok_solve la ok n o A B1 H i j Hi Hj), (ok_solve la ok n o A B2 H i j Hi Hj).
    now apply HB.
  Qed.
  Lemma solve_ext : forall n o A A' B B', nonsing n A -> nonsing n A' -> meq n n A A' -> meq n o B B' ->
    meq n o (la_solve la n A B) (la_solve la n A' B').
  Proof.
    intros n o A A' B B' H H' HA HB. apply (solve_unique n o A); auto. intros i j Hi Hj.
    rewrite (ok_solve la ok n o A B H i j Hi Hj). rewrite (HB i j Hi Hj). rewrite <- (ok_solve la ok n o A' B' H' i j Hi Hj).
    unfold mm. apply sum_ext. intros l Hl. now rewrite (HA i l Hi Hl).
  Qed.
  (** renumbering the unknowns *)
  Lemma solve_perm : forall n o A A' B B' p, nonsing n A -> nonsing n A' -> permutes n p ->
    meq n n A' (fun i j => A (p i) (p j)) -> meq n o B' (fun i j => B (p i) j) ->
    meq n o (la_solve la n A' B') (fun i j => la_solve la n A B (p i) j).
  Proof.
    intros n o A A' B B' p H H' [P1 P2] HA HB. apply (solve_unique n o A'); auto. intros i j Hi Hj.
    rewrite (ok_solve la ok n o A' B' H' i j Hi Hj). rewrite (HB i j Hi Hj). rewrite <- (ok_solve la ok n o A B H (p i) j (P1 i Hi) Hj).
    unfold mm. rewrite <- (sum_reindex_perm P1 P2 (fun l => A (p i) l * la_solve la n A B l j)).
    apply sum_ext. intros l Hl. now rewrite (HA i l Hi Hl).
  Qed.

  (** ** GPR *)
  Section GP.
  Variables (nf : nat) (k : kexp).
  Hypothesis HP : all_atoms (fun _ a => psd_atom a) k.
  Lemma gpr_at : forall m o sigma mf x y xs t j, gpr la m o nf k sigma mf x y xs t j
    = mf m o y + sum m (fun s => kernel_at nf k (x s) (xs t) * la_solve la m (A_lhs nf k sigma x x true) (fun i j => y i j - mf m o y) s j).
  Proof.
    intros. unfold gpr, fit_dense, predict_dense, mm, tr. cbn [fst snd]. f_equal. apply sum_ext. intros s _.
    unfold A_lhs at 1. now rewrite kk_at.
  Qed.
  Lemma A_ns : forall m sigma x, nonsing m (A_lhs nf k sigma x x true).
  Proof. intros. now apply pd_nonsing, A_pd. Qed.
  Lemma gpr_lin : forall m o sigma mf x y1 y2 a b xs t j, mf = zero_mean \/ mf = data_mean -> (j < o)%nat ->
    gpr la m o nf k sigma mf x (fun i j => a * y1 i j + b * y2 i j) xs t j
    = a * gpr la m o nf k sigma mf x y1 xs t j + b * gpr la m o nf k sigma mf x y2 xs t j.
  Proof.
    intros m o sigma mf x y1 y2 a b xs t j Hf Hj. rewrite !gpr_at. rewrite (mean_lin mf m o y1 y2 a b Hf).
    rewrite (sum_ext m _ (fun s => a * (kernel_at nf k (x s) (xs t) * la_solve la m (A_lhs nf k sigma x x true) (fun i j => y1 i j - mf m o y1) s j)
      + b * (kernel_at nf k (x s) (xs t) * la_solve la m (A_lhs nf k sigma x x true) (fun i j => y2 i j - mf m o y2) s j))).
    - rewrite sum_plus, !sum_scal_l. ring.
    - intros s Hs. rewrite (solve_lin m o _ _ (fun i j => y1 i j - mf m o y1) (fun i j => y2 i j - mf m o y2) a b (A_ns m sigma x)); auto; [ring|].
      intros i l _ _. ring.
  Qed.
  Lemma gpr_shift : forall m o sigma x y b xs t j, (0 < m)%nat -> (j < o)%nat ->
    gpr la m o nf k sigma data_mean x (fun i j => y i j + b) xs t j = gpr la m o nf k sigma data_mean x y xs t j + b.
  Proof.
    intros m o sigma x y b xs t j Hm Hj. rewrite !gpr_at. rewrite data_mean_shift by lia.
    rewrite (sum_ext m _ (fun s => kernel_at nf k (x s) (xs t) * la_solve la m (A_lhs nf k sigma x x true) (fun i j => y i j - data_mean m o y) s j)); [ring|].
    intros s Hs. f_equal. apply (solve_ext m o); auto using A_ns; [intros ? ? _ _; reflexivity|]. intros i l _ _. ring.
  Qed.
  Lemma gpr_const : forall m o sigma x b xs t j, (0 < m)%nat -> (j < o)%nat ->
    gpr la m o nf k sigma data_mean x (fun _ _ => b) xs t j = b.
  Proof.
    intros m o sigma x b xs t j Hm Hj. rewrite !gpr_at. rewrite data_mean_const by lia.
    rewrite (sum_zero_ext m); [ring|]. intros s Hs.
    rewrite (solve_lin m o _ _ (fun _ _ => 0) (fun _ _ => 0) 0 0 (A_ns m sigma x)); auto; [ring|]. intros i l _ _. ring.
  Qed.
  Lemma gpr_perm : forall m o sigma mf x y p xs t j, mf = zero_mean \/ mf = data_mean -> permutes m p -> (j < o)%nat ->
    gpr la m o nf k sigma mf (fun i => x (p i)) (fun i => y (p i)) xs t j = gpr la m o nf k sigma mf x y xs t j.
  Proof.
    intros m o sigma mf x y p xs t j Hf [P1 P2] Hj. rewrite !gpr_at.
    assert (E : mf m o (fun i => y (p i)) = mf m o y).
    { destruct Hf as [->| ->]; [now apply zero_mean_perm|now apply data_mean_perm]. }
    rewrite E. f_equal.
    rewrite <- (sum_reindex_perm P1 P2 (fun s => kernel_at nf k (x s) (xs t) * la_solve la m (A_lhs nf k sigma x x true) (fun i j => y i j - mf m o y) s j)).
    apply sum_ext. intros s Hs. f_equal.
    apply (solve_perm m o (A_lhs nf k sigma x x true) (A_lhs nf k sigma (fun i => x (p i)) (fun i => x (p i)) true)
      (fun i j => y i j - mf m o y)); auto using A_ns; [split; auto| |intros ? ? _ _; reflexivity].
    intros i l Hi Hl. unfold A_lhs. rewrite !kk_at. now rewrite (eye_perm m p).
  Qed.
  Lemma cov_perm : forall m n sigma x p xs, permutes m p ->
    meq n n (predict_cov la m nf k sigma (fun i => x (p i)) xs) (predict_cov la m nf k sigma x xs).
  Proof.
    intros m n sigma x p xs [P1 P2] i j Hi Hj.
    set (B := la_solve la m (A_lhs nf k sigma x x true) (kk nf k x xs)).
    assert (HB : meq m n (mm m (A_lhs nf k sigma x x true) B) (kk nf k x xs)) by (apply (ok_solve la ok), A_ns).
    change (cov_of la m (add_diag (sigma ^ 2 + jit10) (kk nf k (fun i => x (p i)) (fun i => x (p i)))) (kk nf k (fun i => x (p i)) xs) (kk nf k xs xs) i j
      = cov_of la m (add_diag (sigma ^ 2 + jit10) (kk nf k x x)) (kk nf k x xs) (kk nf k xs xs) i j).
    rewrite (cov_formula la ok m n (kk nf k (fun i => x (p i)) (fun i => x (p i))) _ (kk nf k xs xs) (sigma ^ 2 + jit10)
      (noise_pos sigma) (kk_symm nf k m _) (kk_psd nf k m _ HP) (fun i j => B (p i) j)); auto.
    - rewrite (cov_formula la ok m n (kk nf k x x) _ (kk nf k xs xs) (sigma ^ 2 + jit10)
        (noise_pos sigma) (kk_symm nf k m _) (kk_psd nf k m _ HP) B); auto.
      f_equal. unfold mm, tr. rewrite <- (sum_reindex_perm P1 P2 (fun l => kk nf k x xs l i * B l j)).
      apply sum_ext. intros l _. now rewrite !kk_at.
    - intros a b Ha Hb. rewrite kk_at. rewrite <- (kk_at nf k x xs (p a) b). rewrite <- (HB (p a) b (P1 a Ha) Hb).
      unfold mm. rewrite <- (sum_reindex_perm P1 P2 (fun l => A_lhs nf k sigma x x true (p a) l * B l b)).
      apply sum_ext. intros l Hl. f_equal. unfold add_diag, A_lhs. rewrite !kk_at.
      change (kernel_at nf k (x (p a)) (x (p l)) + (sigma ^ 2 + jit10) * eye a l = kernel_at nf k (x (p a)) (x (p l)) + (sigma ^ 2 + jit10) * eye (p a) (p l)).
      now rewrite (eye_perm m p).
  Qed.
  (** with the zero mean, every output is fitted on its own *)
  Lemma gpr_column : forall m o sigma x y xs t j, (j < o)%nat ->
    gpr la m o nf k sigma zero_mean x y xs t j = gpr la m 1 nf k sigma zero_mean x (fun i _ => y i j) xs t O.
  Proof.
    intros m o sigma x y xs t j Hj. rewrite !gpr_at. unfold zero_mean. f_equal. apply sum_ext. intros s Hs. f_equal.
    assert (U : meq m 1 (fun i _ => la_solve la m (A_lhs nf k sigma x x true) (fun i j => y i j - 0) i j)
      (la_solve la m (A_lhs nf k sigma x x true) (fun i _ => y i j - 0))).
    { apply (solve_unique m 1 _ _ _ (A_ns m sigma x)). intros i l Hi Hl.
      rewrite (ok_solve la ok m 1 _ (fun i _ => y i j - 0) (A_ns m sigma x) i l Hi Hl).
      exact (ok_solve la ok m o _ (fun i j => y i j - 0) (A_ns m sigma x) i j Hi Hj). }
    exact (U s O Hs (le_n 1)).
  Qed.
  (** moving all inputs *)
  Lemma gpr_inputs : forall m o sigma mf x x' y xs xs' t j, (j < o)%nat ->
    (forall i l, (i < m)%nat -> (l < m)%nat -> kernel_at nf k (x' i) (x' l) = kernel_at nf k (x i) (x l)) ->
    (forall i, (i < m)%nat -> kernel_at nf k (x' i) (xs' t) = kernel_at nf k (x i) (xs t)) ->
    gpr la m o nf k sigma mf x' y xs' t j = gpr la m o nf k sigma mf x y xs t j.
  Proof.
    intros m o sigma mf x x' y xs xs' t j Hj H1 H2. rewrite !gpr_at. f_equal. apply sum_ext. intros s Hs. rewrite H2 by auto. f_equal.
    apply (solve_ext m o); auto using A_ns; [|intros ? ? _ _; reflexivity].
    intros i l Hi Hl. unfold A_lhs. rewrite !kk_at. now rewrite H1.
  Qed.
  Lemma gpr_iter_eq : forall choose np n m o sigma mf x y xs t j, sigma <> 0 -> (t < n)%nat -> (j < o)%nat ->
    gpr_iter la choose np n m o nf k sigma mf x y xs t j = gpr la m o nf k sigma mf x y xs t j.
  Proof.
    intros choose np n m o sigma mf x y xs t j Hs Ht Hj. unfold gpr_iter, gpr.
    destruct (fit_iter_eq la ok choose m o nf k sigma x y mf np HP Hs) as [E1 E2].
    rewrite predict_iter_eq by auto. rewrite E2. unfold predict_dense. f_equal.
    now apply (mm_arg m o).
  Qed.
  Lemma lml_shift : forall m o sigma x y b, (0 < m)%nat -> (0 < o)%nat ->
    lml_dense la m o nf k sigma x (fun i j => y i j + b) data_mean = lml_dense la m o nf k sigma x y data_mean.
  Proof.
    intros m o sigma x y b Hm Ho. unfold lml_dense. rewrite data_mean_shift by auto.
    pose proof (lml_of_perm la ok m o (A_lhs nf k sigma x x true) (A_lhs nf k sigma x x true)
      (fun i j => y i j - data_mean m o y) (fun i => i) Hm (A_sym nf k sigma x m) (A_pd nf k sigma x m HP) (A_pd nf k sigma x m HP)) as E.
    assert (F : (fun i j => y i j + b - (data_mean m o y + b)) = (fun i j => y i j - data_mean m o y)).
    { apply FunctionalExtensionality.functional_extensionality. intro i. apply FunctionalExtensionality.functional_extensionality. intro j. ring. }
    now rewrite F.
  Qed.
  End GP.
End La.

(** ** stationary kernels, order of the features *)
Lemma kernel_at_shift : forall nf k (v x y : Vec), stationary k ->
  kernel_at nf k (fun d => x d + v d) (fun d => y d + v d) = kernel_at nf k x y.
Proof.
  intros nf k v x y. induction k as [ad a|k1 I1 k2 I2|k1 I1 k2 I2]; intro S.
  - rewrite !kernel_at_atom. unfold fkap, kap, usum, gather.
    destruct a as [v0| |d off|d off|l|l|l|l|l p]; try contradiction S; [reflexivity|..];
      f_equal; apply sum_ext; intros i _; cbn [ah].
    1-4: unfold h_sq, Rdiv; ring.
    unfold h_per. do 6 f_equal. ring.
  - destruct S. rewrite !kernel_at_sum. now rewrite I1, I2.
  - destruct S. rewrite !kernel_at_prod. now rewrite I1, I2.
Qed.
Lemma kernel_at_features : forall nf k (p : nat -> nat) (x y : Vec), all_atoms (fun ad _ => ad = None) k -> permutes nf p ->
  kernel_at nf k (fun d => x (p d)) (fun d => y (p d)) = kernel_at nf k x y.
Proof.
  intros nf k p x y H [P1 P2]. induction k as [ad a|k1 I1 k2 I2|k1 I1 k2 I2].
  - rewrite !kernel_at_atom. simpl in H. subst ad. unfold fkap, kap, usum. f_equal. unfold dims. rewrite seq_length.
    transitivity (sum nf (fun i => ah a (x (p i)) (y (p i)))).
    { apply sum_ext. intros i Hi. unfold gather. now rewrite seq_nth. }
    rewrite (sum_reindex_perm P1 P2 (fun i => ah a (x i) (y i))).
    apply sum_ext. intros i Hi. unfold gather. now rewrite seq_nth.
  - destruct H. rewrite !kernel_at_sum. now rewrite I1, I2.
  - destruct H. rewrite !kernel_at_prod. now rewrite I1, I2.
Qed.
Lemma pd_perm : forall n A p, permutes n p -> pd n A -> pd n (fun i j => A (p i) (p j)).
Proof.
  intros n A p [P1 P2] H v [l [Hl Hv]].
  set (w := fun j => sum n (fun r => delta (p r) j * v r)).
  assert (E : forall r, (r < n)%nat -> w (p r) = v r).
  { intros r Hr. unfold w. rewrite (sum_ext n _ (fun q => delta r q * v q)); [now apply sum_delta_l|].
    intros q Hq. f_equal. rewrite delta_sym. now apply (eye_perm n p). }
  replace (qf n (fun i j => A (p i) (p j)) v) with (qf n A w).
  - apply H. exists (p l). split; auto. now rewrite E.
  - unfold qf. rewrite <- (sum_reindex_perm P1 P2 (fun i => sum n (fun j => w i * A i j * w j))).
    apply sum_ext. intros i Hi. rewrite <- (sum_reindex_perm P1 P2 (fun j => w (p i) * A (p i) j * w j)).
    apply sum_ext. intros j Hj. now rewrite !E.
Qed.
Section Moves.
  Variable la : linalg.
  Hypothesis ok : linalg_ok la.
  Lemma gpr_translate : forall nf k m o sigma mf x y xs v t j, all_atoms (fun _ a => psd_atom a) k -> stationary k -> (j < o)%nat ->
    gpr la m o nf k sigma mf (fun i d => x i d + v d) y (fun i d => xs i d + v d) t j = gpr la m o nf k sigma mf x y xs t j.
  Proof.
    intros nf k m o sigma mf x y xs v t j HP S Hj. apply gpr_inputs; auto.
    - intros i l _ _. now apply (kernel_at_shift nf k v (x i) (x l)).
    - intros i _. now apply (kernel_at_shift nf k v (x i) (xs t)).
  Qed.
  Lemma gpr_features : forall nf k m o sigma mf x y xs p t j, all_atoms (fun _ a => psd_atom a) k ->
    all_atoms (fun ad _ => ad = None) k -> permutes nf p -> (j < o)%nat ->
    gpr la m o nf k sigma mf (fun i d => x i (p d)) y (fun i d => xs i (p d)) t j = gpr la m o nf k sigma mf x y xs t j.
  Proof.
    intros nf k m o sigma mf x y xs p t j HP S Hp Hj. apply gpr_inputs; auto.
    - intros i l _ _. now apply (kernel_at_features nf k p (x i) (x l)).
    - intros i _. now apply (kernel_at_features nf k p (x i) (xs t)).
  Qed.

  (** ** SGPR *)
  Section SG.
  Variables (nf : nat) (k : kexp).
  Hypothesis HP : all_atoms (fun _ a => psd_atom a) k.
  Lemma sgpr_at : forall m n o sigma mf xl x y xs t j, sgpr la m n o nf k sigma mf xl x y xs t j
    = mf n o y + sum m (fun s => kernel_at nf k (xs t) (xl s) *
        la_solve la m (sg_lhs n sigma (kk nf k xl xl) (kk nf k xl x)) (mm n (kk nf k xl x) (fun i j => y i j - mf n o y)) s j).
  Proof.
    intros. unfold sgpr, sg_fit_dense, sg_predict_dense, sg_A_lhs. cbn [fst snd]. f_equal. unfold mm at 1. apply sum_ext. intros s _. now rewrite kk_at.
  Qed.
  Lemma sg_ns : forall m n sigma xl x, nonsing m (sg_lhs n sigma (kk nf k xl xl) (kk nf k xl x)).
  Proof. intros. apply pd_nonsing, sg_lhs_pd. now apply kk_psd. Qed.
  Lemma sgpr_lin : forall m n o sigma mf xl x y1 y2 a b xs t j, mf = zero_mean \/ mf = data_mean -> (j < o)%nat ->
    sgpr la m n o nf k sigma mf xl x (fun i j => a * y1 i j + b * y2 i j) xs t j
    = a * sgpr la m n o nf k sigma mf xl x y1 xs t j + b * sgpr la m n o nf k sigma mf xl x y2 xs t j.
  Proof.
    intros m n o sigma mf xl x y1 y2 a b xs t j Hf Hj. rewrite !sgpr_at. rewrite (mean_lin mf n o y1 y2 a b Hf).
    set (A := sg_lhs n sigma (kk nf k xl xl) (kk nf k xl x)).
    rewrite (sum_ext m _ (fun s => a * (kernel_at nf k (xs t) (xl s) * la_solve la m A (mm n (kk nf k xl x) (fun i j => y1 i j - mf n o y1)) s j)
      + b * (kernel_at nf k (xs t) (xl s) * la_solve la m A (mm n (kk nf k xl x) (fun i j => y2 i j - mf n o y2)) s j))).
    - rewrite sum_plus, !sum_scal_l. ring.
    - intros s Hs. rewrite (solve_lin la ok m o A _ (mm n (kk nf k xl x) (fun i j => y1 i j - mf n o y1)) (mm n (kk nf k xl x) (fun i j => y2 i j - mf n o y2)) a b (sg_ns m n sigma xl x)); auto; [ring|].
      intros i l _ _. rewrite <- mm_lin. unfold mm. apply sum_ext. intros; ring.
  Qed.
  Lemma sgpr_shift : forall m n o sigma xl x y b xs t j, (0 < n)%nat -> (j < o)%nat ->
    sgpr la m n o nf k sigma data_mean xl x (fun i j => y i j + b) xs t j = sgpr la m n o nf k sigma data_mean xl x y xs t j + b.
  Proof.
    intros m n o sigma xl x y b xs t j Hm Hj. rewrite !sgpr_at. rewrite data_mean_shift by lia.
    rewrite Rplus_assoc, (Rplus_comm b), <- Rplus_assoc. f_equal. f_equal. apply sum_ext.
    intros s Hs. f_equal. apply (solve_ext la ok m o); auto using sg_ns; [intros ? ? _ _; reflexivity|].
    intros i l _ _. unfold mm. apply sum_ext. intros; ring.
  Qed.
  (** renumbering the training samples, the inducing points *)
  Lemma sgpr_perm : forall m n o sigma mf xl x y p xs t j, mf = zero_mean \/ mf = data_mean -> permutes n p -> (j < o)%nat ->
    sgpr la m n o nf k sigma mf xl (fun i => x (p i)) (fun i => y (p i)) xs t j = sgpr la m n o nf k sigma mf xl x y xs t j.
  Proof.
    intros m n o sigma mf xl x y p xs t j Hf [P1 P2] Hj. rewrite !sgpr_at.
    assert (E : mf n o (fun i => y (p i)) = mf n o y).
    { destruct Hf as [->| ->]; [now apply zero_mean_perm|now apply data_mean_perm]. }
    rewrite E. f_equal. apply sum_ext. intros s Hs. f_equal. apply (solve_ext la ok m o); auto using sg_ns.
    - intros i l _ _. unfold sg_lhs. f_equal. f_equal. unfold mm, tr.
      rewrite <- (sum_reindex_perm P1 P2 (fun q => kk nf k xl x i q * kk nf k xl x l q)). apply sum_ext. intros q _. now rewrite !kk_at.
    - intros i l _ _. unfold mm.
      rewrite <- (sum_reindex_perm P1 P2 (fun q => kk nf k xl x i q * (y q l - mf n o y))). apply sum_ext. intros q _. now rewrite !kk_at.
  Qed.
  Lemma sgpr_perm_inducing : forall m n o sigma mf xl x y p xs t j, permutes m p -> (j < o)%nat ->
    sgpr la m n o nf k sigma mf (fun i => xl (p i)) x y xs t j = sgpr la m n o nf k sigma mf xl x y xs t j.
  Proof.
    intros m n o sigma mf xl x y p xs t j [P1 P2] Hj. rewrite !sgpr_at. f_equal.
    set (A := sg_lhs n sigma (kk nf k xl xl) (kk nf k xl x)).
    rewrite <- (sum_reindex_perm P1 P2 (fun s => kernel_at nf k (xs t) (xl s) * la_solve la m A (mm n (kk nf k xl x) (fun i j => y i j - mf n o y)) s j)).
    apply sum_ext. intros s Hs. f_equal.
    apply (solve_perm la ok m o A _ (mm n (kk nf k xl x) (fun i j => y i j - mf n o y))); auto.
    - apply sg_ns.
    - apply (sg_ns m n sigma (fun i => xl (p i)) x).
    - split; auto.
    - intros i l Hi Hl. unfold A, sg_lhs, mm, tr. rewrite (eye_perm m p) by auto. rewrite !kk_at.
      f_equal. f_equal. apply sum_ext. intros q _. now rewrite !kk_at.
    - intros i l _ _. unfold mm. apply sum_ext. intros q _. now rewrite !kk_at.
  Qed.
  End SG.

  (** ** GPR fitted to derivatives *)
  Section Derivs.
  Variables (m nf nv : nat) (k : kexp) (sigma : R) (x : Mat) (jac : Ten).
  Let A := A_derivs_lhs m m nf nv nv k sigma x jac x jac true.
  Hypothesis HA : pd (m * nv) (noisy sigma (d01kj m m nf nv nv k x x jac jac)).
  Lemma Ad_ns : nonsing (m * nv) A.
  Proof. exact (pd_nonsing _ _ HA). Qed.
  Lemma dcoef_lin : forall mf y1 y2 a b, mf = zero_mean \/ mf = data_mean ->
    let fit y := fit_derivs_dense la m nf nv k sigma x jac y mf in
    meq (m * nv) 1 (fst (fit (fun i j => a * y1 i j + b * y2 i j))) (fun i j => a * fst (fit y1) i j + b * fst (fit y2) i j) /\
    snd (fit (fun i j => a * y1 i j + b * y2 i j)) = a * snd (fit y1) + b * snd (fit y2).
  Proof.
    intros mf y1 y2 a b Hf fit.
    assert (E : mf (m * nv)%nat 1%nat (flat nv (fun i j => a * y1 i j + b * y2 i j)) = a * mf (m * nv)%nat 1%nat (flat nv y1) + b * mf (m * nv)%nat 1%nat (flat nv y2))
      by exact (mean_lin mf (m * nv) 1 (flat nv y1) (flat nv y2) a b Hf).
    split; [|exact E]. unfold fit, fit_derivs_dense. cbn [fst].
    apply (solve_lin la ok (m * nv) 1 A); [exact Ad_ns|].
    intros i j _ _. rewrite E. unfold flat. ring.
  Qed.
  Lemma mm_coef : forall n K c c1 c2 a b i j, meq n 1 c (fun i j => a * c1 i j + b * c2 i j) -> j = O ->
    mm n K c i j = a * mm n K c1 i j + b * mm n K c2 i j.
  Proof.
    intros n K c c1 c2 a b i j H ->. rewrite <- mm_lin. exact (mm_arg n 1 K c _ i O H Nat.lt_0_1).
  Qed.
  Lemma gpr_derivs_lin : forall y1 y2 a b n nd xs jacs t u,
    gpr_derivs la m nf nv k sigma x jac (fun i j => a * y1 i j + b * y2 i j) n nd xs jacs t u
    = a * gpr_derivs la m nf nv k sigma x jac y1 n nd xs jacs t u + b * gpr_derivs la m nf nv k sigma x jac y2 n nd xs jacs t u.
  Proof.
    intros y1 y2 a b n nd xs jacs t u. destruct (dcoef_lin zero_mean y1 y2 a b (or_introl eq_refl)) as [E1 E2].
    unfold gpr_derivs, predict_derivs_dense, unflat. cbv zeta.
    rewrite (mm_coef (m * nv) _ _ _ _ a b _ _ E1 eq_refl). ring.
  Qed.
  Lemma gpr_y_derivs_lin : forall y1 y2 a b n xs t,
    gpr_y_derivs la m nf nv k sigma x jac (fun i j => a * y1 i j + b * y2 i j) n xs t O
    = a * gpr_y_derivs la m nf nv k sigma x jac y1 n xs t O + b * gpr_y_derivs la m nf nv k sigma x jac y2 n xs t O.
  Proof.
    intros y1 y2 a b n xs t. destruct (dcoef_lin zero_mean y1 y2 a b (or_introl eq_refl)) as [E1 E2].
    unfold gpr_y_derivs, predict_y_derivs_dense. cbv zeta. rewrite E2.
    rewrite (mm_coef (m * nv) _ _ _ _ a b _ _ E1 eq_refl). ring.
  Qed.
  End Derivs.

  (** renumbering the samples of a model fitted to derivatives *)
  Definition bperm (nv : nat) (p : nat -> nat) (i : nat) : nat := (p (i / nv) * nv + i mod nv)%nat.
  Lemma bperm_blk : forall nv p s v, (v < nv)%nat -> bperm nv p (s * nv + v) = (p s * nv + v)%nat.
  Proof. intros. unfold bperm. now rewrite blk_div, blk_mod. Qed.
  Lemma bperm_permutes : forall m nv p, permutes m p -> permutes (m * nv) (bperm nv p).
  Proof.
    intros m nv p [P1 P2]. split.
    - intros i Hi. destruct (blk_eq m nv i Hi) as [s [v [Hs [Hv ->]]]]. rewrite bperm_blk by auto. apply blk_lt; auto.
    - intros i j Hi Hj E. destruct (blk_eq m nv i Hi) as [s [v [Hs [Hv ->]]]]. destruct (blk_eq m nv j Hj) as [t [u [Ht [Hu ->]]]].
      rewrite !bperm_blk in E by auto.
      assert (E1 : p s = p t) by (rewrite <- (blk_div (p s) nv v), <- (blk_div (p t) nv u) by auto; now rewrite E).
      assert (E2 : v = u) by (rewrite <- (blk_mod (p s) nv v), <- (blk_mod (p t) nv u) by auto; now rewrite E).
      now rewrite (P2 s t Hs Ht E1), E2.
  Qed.
  Lemma flat_bperm : forall m nv p (y : Mat) i j, (i < m * nv)%nat -> flat nv (fun i => y (p i)) i j = flat nv y (bperm nv p i) j.
  Proof.
    intros m nv p y i j Hi. destruct (blk_eq m nv i Hi) as [s [v [Hs [Hv ->]]]]. rewrite bperm_blk by auto.
    unfold flat. now rewrite !blk_div, !blk_mod.
  Qed.
  Lemma dcoef_perm : forall m nf nv k sigma x jac mf y p, wf nf k -> mf = zero_mean \/ mf = data_mean -> permutes m p ->
    pd (m * nv) (noisy sigma (d01kj m m nf nv nv k x x jac jac)) ->
    let fit := fit_derivs_dense la m nf nv k sigma x jac y mf in
    let fit' := fit_derivs_dense la m nf nv k sigma (fun i => x (p i)) (fun i => jac (p i)) (fun i => y (p i)) mf in
    (forall s v, (s < m)%nat -> (v < nv)%nat -> fst fit' (s * nv + v)%nat O = fst fit (p s * nv + v)%nat O) /\ snd fit' = snd fit.
  Proof.
    intros m nf nv k sigma x jac mf y p W Hf Hp HA fit fit'. pose proof (bperm_permutes m nv p Hp) as [B1 B2].
    assert (EA : meq (m * nv) (m * nv) (A_derivs_lhs m m nf nv nv k sigma (fun i => x (p i)) (fun i => jac (p i)) (fun i => x (p i)) (fun i => jac (p i)) true)
      (fun i j => A_derivs_lhs m m nf nv nv k sigma x jac x jac true (bperm nv p i) (bperm nv p j))).
    { intros i j Hi Hj. unfold A_derivs_lhs. rewrite (eye_perm (m * nv) (bperm nv p)) by auto. f_equal.
      destruct Hp as [P1 P2].
      destruct (blk_eq m nv i Hi) as [s [v [Hs [Hv ->]]]]. destruct (blk_eq m nv j Hj) as [t [u [Ht [Hu ->]]]].
      rewrite !bperm_blk by auto. rewrite !d01kj_E01 by auto. reflexivity. }
    assert (HA' : pd (m * nv) (A_derivs_lhs m m nf nv nv k sigma (fun i => x (p i)) (fun i => jac (p i)) (fun i => x (p i)) (fun i => jac (p i)) true)).
    { apply (pd_ext (m * nv) (fun i j => A_derivs_lhs m m nf nv nv k sigma x jac x jac true (bperm nv p i) (bperm nv p j))); [now apply meq_sym|]. now apply (pd_perm (m * nv)). }
    assert (EM : mf (m * nv)%nat 1%nat (flat nv (fun i => y (p i))) = mf (m * nv)%nat 1%nat (flat nv y)).
    { destruct Hf as [->| ->]; [reflexivity|]. rewrite <- (data_mean_perm (m * nv)%nat 1%nat (bperm nv p) (flat nv y) B1 B2).
      unfold data_mean. f_equal. apply sum_ext. intros i Hi. apply sum_ext. intros j _. now apply (flat_bperm m). }
    split; [|exact EM]. intros s v Hs Hv.
    pose proof (solve_perm la ok (m * nv) 1 (A_derivs_lhs m m nf nv nv k sigma x jac x jac true) _
      (fun i j => flat nv y i j - mf (m * nv)%nat 1%nat (flat nv y)) (fun i j => flat nv (fun i => y (p i)) i j - mf (m * nv)%nat 1%nat (flat nv (fun i => y (p i)))) (bperm nv p)
      (pd_nonsing _ _ HA) (pd_nonsing _ _ HA') (conj B1 B2) EA) as Q.
    assert (EB : meq (m * nv) 1 (fun i j => flat nv (fun i => y (p i)) i j - mf (m * nv)%nat 1%nat (flat nv (fun i => y (p i))))
      (fun i j => flat nv y (bperm nv p i) j - mf (m * nv)%nat 1%nat (flat nv y))).
    { intros i j Hi Hj. rewrite EM. now rewrite (flat_bperm m) by auto. }
    specialize (Q EB (s * nv + v)%nat O (blk_lt _ _ _ _ Hs Hv) (le_n 1)). cbv beta in Q. rewrite bperm_blk in Q by auto. exact Q.
  Qed.
  Lemma gpr_derivs_perm : forall m nf nv k sigma x jac y p n nd xs jacs t u, wf nf k -> permutes m p ->
    pd (m * nv) (noisy sigma (d01kj m m nf nv nv k x x jac jac)) -> (t < n)%nat -> (u < nd)%nat ->
    gpr_derivs la m nf nv k sigma (fun i => x (p i)) (fun i => jac (p i)) (fun i => y (p i)) n nd xs jacs t u
    = gpr_derivs la m nf nv k sigma x jac y n nd xs jacs t u.
  Proof.
    intros m nf nv k sigma x jac y p n nd xs jacs t u W Hp HA Ht Hu.
    destruct (dcoef_perm m nf nv k sigma x jac zero_mean y p W (or_introl eq_refl) Hp HA) as [E1 E2]. destruct Hp as [P1 P2].
    unfold gpr_derivs, predict_derivs_dense, unflat. cbv zeta. f_equal. unfold mm, tr. rewrite !sum_block.
    rewrite <- (sum_reindex_perm P1 P2 (fun s => sum nv (fun v => A_derivs_lhs m n nf nv nd k sigma x jac xs jacs false (s * nv + v)%nat (t * nd + u)%nat *
      fst (fit_derivs_dense la m nf nv k sigma x jac y zero_mean) (s * nv + v)%nat O))).
    apply sum_ext. intros s Hs. apply sum_ext. intros v Hv. rewrite E1 by auto. f_equal.
    unfold A_derivs_lhs. rewrite !d01kj_E01 by auto. reflexivity.
  Qed.
  Lemma gpr_y_derivs_perm : forall m nf nv k sigma x jac y p n xs t, wf nf k -> permutes m p ->
    pd (m * nv) (noisy sigma (d01kj m m nf nv nv k x x jac jac)) -> (t < n)%nat ->
    gpr_y_derivs la m nf nv k sigma (fun i => x (p i)) (fun i => jac (p i)) (fun i => y (p i)) n xs t O
    = gpr_y_derivs la m nf nv k sigma x jac y n xs t O.
  Proof.
    intros m nf nv k sigma x jac y p n xs t W Hp HA Ht.
    destruct (dcoef_perm m nf nv k sigma x jac zero_mean y p W (or_introl eq_refl) Hp HA) as [E1 E2]. destruct Hp as [P1 P2].
    unfold gpr_y_derivs, predict_y_derivs_dense. cbv zeta. rewrite E2. f_equal. unfold mm, tr. rewrite !sum_block.
    rewrite <- (sum_reindex_perm P1 P2 (fun s => sum nv (fun v => d0kj m n nf nv k x xs jac (s * nv + v)%nat t *
      fst (fit_derivs_dense la m nf nv k sigma x jac y zero_mean) (s * nv + v)%nat O))).
    apply sum_ext. intros s Hs. apply sum_ext. intros v Hv. rewrite E1 by auto. f_equal.
    rewrite !d0kj_E0 by auto. reflexivity.
  Qed.
End Moves.

(** ** one mean for all outputs *)
Lemma pooled_mean : forall la, linalg_ok la ->
  ~ (forall m o nf k sigma x y xs t j, (0 < m)%nat -> (j < o)%nat -> all_atoms (fun _ a => psd_atom a) k ->
     gpr la m o nf k sigma data_mean x y xs t j = gpr la m 1 nf k sigma data_mean x (fun i _ => y i j) xs t O).
Proof.
  intros la ok H.
  set (k := KAtom None (AConst 1)). set (z := (fun _ _ => 0) : Mat).
  set (y := fun (_ j : nat) => INR j).
  assert (HP : all_atoms (fun _ a => psd_atom a) k) by (simpl; lra).
  specialize (H 1%nat 2%nat 1%nat k 1 z y z O O Nat.lt_0_1 Nat.lt_0_2 HP).
  change (fun (i _ : nat) => y i 0%nat) with (fun _ _ : nat => 0) in H.
  rewrite (gpr_const la ok 1 k HP 1 1 1 z 0 z O O Nat.lt_0_1 Nat.lt_0_1) in H.
  rewrite gpr_at in H. cbn [sum] in H.
  pose proof (ok_solve la ok 1 2 _ (fun i j => y i j - data_mean 1 2 y) (A_ns 1 k HP 1 1 z) O O Nat.lt_0_1 Nat.lt_0_2) as Q.
  cbv beta in Q. unfold mm in Q. cbn [sum] in Q. unfold A_lhs at 1 in Q. rewrite kk_at in Q.
  replace (kernel_at 1 k (z 0%nat) (z 0%nat)) with 1 in *.
  2:{ unfold k. rewrite kernel_at_atom. reflexivity. }
  assert (M : data_mean 1 2 y = / 2) by (unfold data_mean, y; simpl; field).
  rewrite M in H, Q. unfold eye in Q. rewrite delta_same in Q.
  set (c := la_solve la 1 (A_lhs 1 k 1 z z true) (fun i j => y i j - / 2) O O) in *.
  pose proof jit10_pos. unfold y in Q. simpl (INR 0) in Q. nra.
Qed.
