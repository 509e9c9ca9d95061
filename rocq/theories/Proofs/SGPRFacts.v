(** Facts about sparse regression. *)
From Coq Require Import Reals Arith Lia Lra List.
From Verif Require Import Base.Sums Base.Mat Base.PSD Model.Arrays Model.Kernels Model.LinAlg Model.Operations
  Model.RPCholesky Model.GPR Model.SGPR Spec.KernelSpec Spec.Det Spec.MVN Spec.GPSpec Spec.SparseSpec
  Proofs.KernelSym Proofs.KernelDerivs Proofs.LinAlgFacts Proofs.Matvec Proofs.JetPSD Proofs.GPRFacts Proofs.GPRCov Proofs.GPRPack.
Open Scope R_scope.

Lemma sg_lhs_add_diag : forall n sigma Kmm Kmn i j, sg_lhs n sigma Kmm Kmn i j = add_diag jit10 (madd (mscal (sigma ^ 2) Kmm) (gram n Kmn)) i j.
Proof. intros. rewrite add_diag_entry. unfold sg_lhs, madd, mscal, gram, mm, tr, eye. reflexivity. Qed.
Lemma sg_lhs_sym : forall m n sigma Kmm Kmn, sym m Kmm -> sym m (sg_lhs n sigma Kmm Kmn).
Proof.
  intros m n sigma Kmm Kmn H i j Hi Hj. unfold sg_lhs. rewrite (H i j Hi Hj). unfold eye. rewrite (delta_sym i j). f_equal. f_equal.
  unfold mm, tr. apply sum_ext. intros. ring.
Qed.
Lemma sg_lhs_qf : forall m n sigma Kmm Kmn v,
  qf m (sg_lhs n sigma Kmm Kmn) v = sigma ^ 2 * qf m Kmm v + dot n (mv m (tr Kmn) v) (mv m (tr Kmn) v) + jit10 * dot m v v.
Proof.
  intros. rewrite (qf_ext m _ (add_diag jit10 (madd (mscal (sigma ^ 2) Kmm) (gram n Kmn))) v v).
  - rewrite qf_add_diag, qf_madd, qf_mscal, qf_gram. f_equal. f_equal. unfold dot. apply sum_ext. intros l _. unfold mv, tr.
    f_equal; apply sum_ext; intros; ring.
  - intros i j _ _. apply sg_lhs_add_diag.
  - intros i _. reflexivity.
Qed.
Lemma sg_lhs_pd : forall m n sigma Kmm Kmn, psd m Kmm -> pd m (sg_lhs n sigma Kmm Kmn).
Proof.
  intros m n sigma Kmm Kmn H v Hv. rewrite sg_lhs_qf. pose proof (H v). pose proof (dot_nonneg n (mv m (tr Kmn) v)).
  pose proof (dot_pos m v Hv). pose proof jit10_pos. pose proof (pow2_ge_0 sigma). nra.
Qed.

(** ** the minimiser *)
Lemma obj_expand : forall m n sigma Kmm Kmn y c, sparse_objective m n sigma Kmm Kmn y c
  = dot n y y + (qf m (sg_lhs n sigma Kmm Kmn) c - 2 * dot m c (mv n Kmn y)).
Proof.
  intros. rewrite sg_lhs_qf. unfold sparse_objective.
  assert (E1 : sum n (fun i => (y i - sum m (fun a => Kmn a i * c a)) ^ 2) = dot n y y - 2 * dot n y (mv m (tr Kmn) c) + dot n (mv m (tr Kmn) c) (mv m (tr Kmn) c)).
  { unfold dot. rewrite <- sum_scal_l, <- sum_minus, <- sum_plus. apply sum_ext. intros i _. unfold mv, tr. ring. }
  rewrite E1. rewrite dot_mv_tr. change (mv n (tr (tr Kmn)) y) with (mv n Kmn y). rewrite (dot_comm m (mv n Kmn y) c).
  replace (sum m (fun a => c a ^ 2)) with (dot m c c) by (unfold dot; apply sum_ext; intros; ring).
  replace (sum m (fun a => sum m (fun b => c a * Kmm a b * c b))) with (qf m Kmm c).
  2:{ unfold qf. apply sum_ext. intros. apply sum_ext. intros. ring. }
  unfold jit10. ring.
Qed.
Lemma obj_min : forall m n sigma Kmm Kmn y c, sym m Kmm -> psd m Kmm -> veq m (mv m (sg_lhs n sigma Kmm Kmn) c) (mv n Kmn y) ->
  forall c', sparse_objective m n sigma Kmm Kmn y c + / 10 ^ 10 * sum m (fun a => (c' a - c a) ^ 2) <= sparse_objective m n sigma Kmm Kmn y c'.
Proof.
  intros m n sigma Kmm Kmn y c HS HP HC c'. rewrite !obj_expand. set (C := sg_lhs n sigma Kmm Kmn) in *.
  assert (SC : sym m C) by (now apply sg_lhs_sym).
  assert (Q : qf m C (fun i => c' i - c i) = qf m C c' - 2 * dot m c' (mv n Kmn y) + qf m C c).
  { rewrite (qf_ext m C C _ (fun i => c' i + -1 * c i)) by (try apply meq_refl; intros i _; ring).
    rewrite (qf_plus m C c' (fun i => -1 * c i) SC). rewrite qf_scal. rewrite bf_scal_r, bf_dot.
    rewrite (dot_ext m c' (mv m C c) c' (mv n Kmn y)) by (auto; intros i _; reflexivity). ring. }
  assert (D : qf m C c = dot m c (mv n Kmn y)) by (now apply qf_at_min).
  assert (L : jit10 * dot m (fun i => c' i - c i) (fun i => c' i - c i) <= qf m C (fun i => c' i - c i)).
  { unfold C. rewrite sg_lhs_qf. pose proof (HP (fun i => c' i - c i)). pose proof (dot_nonneg n (mv m (tr Kmn) (fun i => c' i - c i))). pose proof (pow2_ge_0 sigma). nra. }
  replace (sum m (fun a => (c' a - c a) ^ 2)) with (dot m (fun i => c' i - c i) (fun i => c' i - c i)) by (unfold dot; apply sum_ext; intros; ring).
  unfold jit10 in L. lra.
Qed.

Section Fit.
  Variable la : linalg.
  Hypothesis ok : linalg_ok la.
  Lemma sg_solves : forall m n o sigma Kmm Kmn Y, psd m Kmm -> meq m o (mm m (sg_lhs n sigma Kmm Kmn) (la_solve la m (sg_lhs n sigma Kmm Kmn) (mm n Kmn Y))) (mm n Kmn Y).
  Proof. intros. apply (ok_solve la ok). apply pd_nonsing. now apply sg_lhs_pd. Qed.
  Lemma sg_fit_solves : forall m n o nf k sigma xl x y mf, all_atoms (fun _ a => psd_atom a) k ->
    meq m o (mm m (sg_lhs n sigma (kk nf k xl xl) (kk nf k xl x)) (fst (sg_fit_dense la m n o nf k sigma xl x y mf)))
      (mm n (kk nf k xl x) (fun i j => y i j - mf n o y)).
  Proof. intros. apply sg_solves. now apply kk_psd. Qed.
  Lemma sg_fit_min : forall m n o nf k sigma xl x y mf, all_atoms (fun _ a => psd_atom a) k -> forall j, (j < o)%nat -> forall c',
    let c := fst (sg_fit_dense la m n o nf k sigma xl x y mf) in
    let r := fun i => y i j - mf n o y in
    sparse_objective m n sigma (kk nf k xl xl) (kk nf k xl x) r (fun a => c a j) + / 10 ^ 10 * sum m (fun a => (c' a - c a j) ^ 2)
    <= sparse_objective m n sigma (kk nf k xl xl) (kk nf k xl x) r c'.
  Proof.
    intros m n o nf k sigma xl x y mf HP j Hj c' c r. apply (obj_min m n sigma (kk nf k xl xl) (kk nf k xl x) r (fun a => c a j)).
    - now apply kk_symm.
    - now apply kk_psd.
    - intros i Hi. exact (sg_fit_solves m n o nf k sigma xl x y mf HP i j Hi Hj).
  Qed.
  Lemma sg_fit_derivs_min : forall m n nf nv nd k sigma xl jl x y jac mf, all_atoms (fun _ a => psd_atom a) k -> wf nf k -> ls_nonzero k -> dgram_ok k -> forall c',
    let c := fst (sg_fit_derivs_dense la m n nf nv nd k sigma xl jl x y jac mf) in
    let r := fun i => flat nd y i O - mf (n * nd)%nat 1%nat (flat nd y) in
    let Kmm := d01kj m m nf nv nv k xl xl jl jl in
    let Kmn := d01kj m n nf nv nd k xl x jl jac in
    sparse_objective (m * nv) (n * nd) sigma Kmm Kmn r (fun a => c a O) + / 10 ^ 10 * sum (m * nv) (fun a => (c' a - c a O) ^ 2)
    <= sparse_objective (m * nv) (n * nd) sigma Kmm Kmn r c'.
  Proof.
    intros m n nf nv nd k sigma xl jl x y jac mf HP W L D c' c r Kmm Kmn. apply (obj_min (m * nv) (n * nd) sigma Kmm Kmn r (fun a => c a O)).
    - now apply dd_symm.
    - now apply dgram_psd.
    - intros i Hi. exact (sg_solves (m * nv) (n * nd) 1 sigma Kmm Kmn (fun i j => flat nd y i j - mf (n * nd)%nat 1%nat (flat nd y)) (dgram_psd m nf nv k xl jl HP W L D) i O Hi (le_n 1)).
  Qed.
End Fit.

(** ** inducing points = training points *)
Lemma discriminant : forall q p r, 0 <= r -> (forall t, 0 <= q + 2 * t * p + t * t * r) -> p * p <= q * r.
Proof.
  intros q p r Hr H. destruct (Req_dec r 0) as [->|N].
  - destruct (Req_dec p 0) as [->|Np]; [lra|]. specialize (H (- (q + 1) / (2 * p))).
    replace (q + 2 * (- (q + 1) / (2 * p)) * p + - (q + 1) / (2 * p) * (- (q + 1) / (2 * p)) * 0) with (-1) in H by (field; auto). lra.
  - assert (0 < r) by lra. specialize (H (- p / r)).
    replace (q + 2 * (- p / r) * p + - p / r * (- p / r) * r) with ((q * r - p * p) / r) in H by (field; auto).
    assert (0 <= (q * r - p * p) / r * r) by (apply Rmult_le_pos; lra). replace ((q * r - p * p) / r * r) with (q * r - p * p) in H1 by (field; auto). lra.
Qed.
Section Same.
  Variables (m : nat) (K : Mat) (sigma : R) (y cs cg : Vec).
  Hypothesis HS : sym m K.
  Hypothesis HP : psd m K.
  Let s := sigma ^ 2 + jit10.
  Hypothesis Hcs : veq m (mv m (sg_lhs m sigma K K) cs) (mv m K y).
  Hypothesis Hcg : veq m (mv m (add_diag s K) cg) y.
  Lemma cg_bound : s ^ 2 * dot m cg cg <= dot m y y.
  Proof.
    assert (E : dot m y y = dot m (mv m K cg) (mv m K cg) + 2 * s * qf m K cg + s ^ 2 * dot m cg cg).
    { rewrite <- (dot_ext m (mv m (add_diag s K) cg) (mv m (add_diag s K) cg) y y Hcg Hcg).
      rewrite (dot_ext m _ _ (fun i => mv m K cg i + s * cg i) (fun i => mv m K cg i + s * cg i)).
      - rewrite qf_dot. unfold dot. rewrite <- !sum_scal_l, <- !sum_plus. apply sum_ext. intros. ring.
      - intros i Hi. unfold mv. rewrite (sum_ext m _ (fun j => K i j * cg j + delta i j * (s * cg j))) by (intros; rewrite add_diag_entry; ring). now rewrite sum_plus, sum_delta_l.
      - intros i Hi. unfold mv. rewrite (sum_ext m _ (fun j => K i j * cg j + delta i j * (s * cg j))) by (intros; rewrite add_diag_entry; ring). now rewrite sum_plus, sum_delta_l. }
    pose proof (dot_nonneg m (mv m K cg)). pose proof (HP cg). pose proof (noise_pos sigma). change (0 < s) in H1. nra.
  Qed.
  Let d : Vec := fun i => cs i - cg i.
  Lemma sg_lhs_sq : forall v i, (i < m)%nat -> mv m (sg_lhs m sigma K K) v i = mv m K (mv m K v) i + sigma ^ 2 * mv m K v i + jit10 * v i.
  Proof.
    intros v i Hi. unfold mv at 1. rewrite (sum_ext m _ (fun j => mm m K (tr K) i j * v j + sigma ^ 2 * (K i j * v j) + jit10 * (delta i j * v j))) by (intros; unfold sg_lhs, eye; ring).
    rewrite !sum_plus, !sum_scal_l, sum_delta_l by auto. rewrite <- mv_mm. f_equal. f_equal. unfold mv. apply sum_ext. intros j Hj. f_equal. unfold mm, tr. apply sum_ext. intros l Hl. f_equal. now apply HS.
  Qed.
  Lemma d_eq : forall i, (i < m)%nat -> mv m (sg_lhs m sigma K K) d i = jit10 * (mv m K cg i - cg i).
  Proof.
    intros i Hi. unfold d. rewrite mv_sub. rewrite (Hcs i Hi). rewrite sg_lhs_sq by auto.
    assert (E : mv m K y i = mv m K (mv m K cg) i + s * mv m K cg i).
    { transitivity (mv m K (fun j => mv m K cg j + s * cg j) i).
      - unfold mv at 1 2. apply sum_ext. intros j Hj. f_equal. rewrite <- (Hcg j Hj). unfold mv.
        rewrite (sum_ext m _ (fun l => K j l * cg l + delta j l * (s * cg l))) by (intros; rewrite add_diag_entry; ring). now rewrite sum_plus, sum_delta_l.
      - rewrite mv_add, mv_scal. reflexivity. }
    rewrite E. unfold s. ring.
  Qed.
  Lemma d_energy : sigma ^ 2 * qf m K d <= jit10 * (1 + jit10) / 4 * dot m cg cg.
  Proof.
    assert (E : dot m d (mv m (sg_lhs m sigma K K) d) = jit10 * (dot m cg (mv m K d) - dot m cg d)).
    { rewrite (dot_ext m d (mv m (sg_lhs m sigma K K) d) d (fun i => jit10 * (mv m K cg i - cg i))) by (try (intros i _; reflexivity); exact d_eq).
      transitivity (jit10 * (dot m d (mv m K cg) - dot m d cg)).
      - unfold dot. rewrite <- sum_minus, <- sum_scal_l. apply sum_ext. intros. ring.
      - rewrite <- (bf_dot m K d cg), (bf_sym m K d cg HS), bf_dot, (dot_comm m d cg). reflexivity. }
    rewrite <- qf_dot, sg_lhs_qf in E.
    assert (T : dot m (mv m (tr K) d) (mv m (tr K) d) = dot m (mv m K d) (mv m K d)).
    { assert (V : veq m (mv m (tr K) d) (mv m K d)) by (intros i Hi; unfold mv, tr; apply sum_ext; intros j Hj; f_equal; now apply HS). apply dot_ext; auto. }
    rewrite T in E. pose proof jit10_pos as JP.
    assert (A1 : jit10 * dot m cg (mv m K d) <= jit10 ^ 2 / 4 * dot m cg cg + dot m (mv m K d) (mv m K d)).
    { assert (0 <= dot m (fun i => jit10 / 2 * cg i - mv m K d i) (fun i => jit10 / 2 * cg i - mv m K d i)) by apply dot_nonneg.
      replace (dot m (fun i => jit10 / 2 * cg i - mv m K d i) (fun i => jit10 / 2 * cg i - mv m K d i))
        with (jit10 ^ 2 / 4 * dot m cg cg - jit10 * dot m cg (mv m K d) + dot m (mv m K d) (mv m K d)) in H; [lra|].
      unfold dot. rewrite <- !sum_scal_l, <- sum_minus, <- sum_plus. apply sum_ext. intros. field. }
    assert (A2 : - dot m cg d <= / 4 * dot m cg cg + dot m d d).
    { assert (0 <= dot m (fun i => / 2 * cg i + d i) (fun i => / 2 * cg i + d i)) by apply dot_nonneg.
      replace (dot m (fun i => / 2 * cg i + d i) (fun i => / 2 * cg i + d i)) with (/ 4 * dot m cg cg + dot m cg d + dot m d d) in H; [lra|].
      unfold dot. rewrite <- !sum_scal_l, <- !sum_plus. apply sum_ext. intros. field. }
    assert (jit10 * - dot m cg d <= jit10 * (/ 4 * dot m cg cg + dot m d d)) by (apply Rmult_le_compat_l; lra). nra.
  Qed.
  (** the difference of the predictions at a point whose kernel row is kx and variance kxx *)
  Lemma same_close : forall kx kxx, 0 <= kxx -> (forall b t, 0 <= qf m K b + 2 * t * dot m b kx + t * t * kxx) ->
    sigma ^ 2 * s ^ 2 * (dot m kx cs - dot m kx cg) ^ 2 <= kxx * (jit10 * (1 + jit10) / 4) * dot m y y.
  Proof.
    intros kx kxx Hk J. replace (dot m kx cs - dot m kx cg) with (dot m d kx).
    2:{ rewrite dot_comm. unfold d, dot. rewrite <- sum_minus. apply sum_ext. intros. ring. }
    pose proof (discriminant (qf m K d) (dot m d kx) kxx Hk (J d)) as D. pose proof d_energy as En. pose proof cg_bound as B. pose proof jit10_pos as JP.
    pose proof (HP d) as Qd. pose proof (pow2_ge_0 sigma) as S2. pose proof (pow2_ge_0 s) as SS. pose proof (dot_nonneg m cg) as Cg.
    assert (X1 : sigma ^ 2 * (dot m d kx * dot m d kx) <= jit10 * (1 + jit10) / 4 * dot m cg cg * kxx).
    { apply Rle_trans with (sigma ^ 2 * (qf m K d * kxx)); [apply Rmult_le_compat_l; auto|]. rewrite <- Rmult_assoc. apply Rmult_le_compat_r; auto. }
    apply Rle_trans with (s ^ 2 * (jit10 * (1 + jit10) / 4 * dot m cg cg * kxx)).
    - replace (sigma ^ 2 * s ^ 2 * dot m d kx ^ 2) with (s ^ 2 * (sigma ^ 2 * (dot m d kx * dot m d kx))) by ring. apply Rmult_le_compat_l; auto.
    - replace (s ^ 2 * (jit10 * (1 + jit10) / 4 * dot m cg cg * kxx)) with (kxx * (jit10 * (1 + jit10) / 4) * (s ^ 2 * dot m cg cg)) by ring.
      apply Rmult_le_compat_l; auto. apply Rmult_le_pos; auto. nra.
  Qed.
End Same.
Section SameFit.
  Variable la : linalg.
  Hypothesis ok : linalg_ok la.
  Lemma sg_vs_gpr : forall m o nf k sigma x y mf xs t j, all_atoms (fun _ a => psd_atom a) k -> (j < o)%nat ->
    let cs := fst (sg_fit_dense la m m o nf k sigma x x y mf) in
    let cg := fst (fit_dense la m o nf k sigma x y mf) in
    let mu := mf m o y in
    sigma ^ 2 * (sigma ^ 2 + / 10 ^ 10) ^ 2 * (sg_predict_dense m nf k x xs cs mu t j - predict_dense m nf k sigma x xs cg mu t j) ^ 2
    <= kernel_at nf k (xs t) (xs t) * (/ 10 ^ 10 * (1 + / 10 ^ 10) / 4) * sum m (fun i => (y i j - mu) ^ 2).
  Proof.
    intros m o nf k sigma x y mf xs t j HP Hj cs cg mu. rewrite predict_dense_mm. unfold sg_predict_dense. rewrite !mm_col. unfold mv.
    set (kx := fun s => kk nf k xs x t s).
    change (sigma ^ 2 * (sigma ^ 2 + jit10) ^ 2 * (mu + dot m kx (fun s => cs s j) - (mu + dot m kx (fun s => cg s j))) ^ 2 <= kernel_at nf k (xs t) (xs t) * (jit10 * (1 + jit10) / 4) * sum m (fun i => (y i j - mu) ^ 2)).
    replace (mu + dot m kx (fun s => cs s j) - (mu + dot m kx (fun s => cg s j))) with (dot m kx (fun s => cs s j) - dot m kx (fun s => cg s j)) by ring.
    replace (sum m (fun i => (y i j - mu) ^ 2)) with (dot m (fun i => y i j - mu) (fun i => y i j - mu)) by (unfold dot; apply sum_ext; intros; ring).
    apply (same_close m (kk nf k x x) sigma).
    - now apply kk_symm.
    - now apply kk_psd.
    - intros i Hi. exact (sg_fit_solves la ok m m o nf k sigma x x y mf HP i j Hi Hj).
    - intros i Hi. transitivity (mm m (A_lhs nf k sigma x x true) cg i j); [|exact (fit_dense_solves la ok m o nf k sigma x y mf HP i j Hi Hj)].
      rewrite mm_col. unfold mv. apply sum_ext. intros l _. apply (f_equal (fun z => z * cg l j)). exact (add_diag_entry (sigma ^ 2 + jit10) (kk nf k x x) i l).
    - rewrite <- (kk_at nf k xs xs t t). pose proof (kk_psd nf k (S t) xs HP) as P. apply (psd_diag (S t) (kk nf k xs xs) P). lia.
    - intros b u. pose proof (kk_joint nf k HP m 1 x (fun _ => xs t) b (fun _ => u)) as Jn. unfold wv, mv, qf in Jn. cbn [sum] in Jn.
      rewrite (dot_ext m b _ b (fun s => u * kx s)) in Jn; [| intros i _; reflexivity|].
      2:{ intros i _. unfold kx. rewrite (kk_sym nf k xs x). rewrite (kk_at nf k x xs), kk_at. ring. }
      replace (dot m b (fun s => u * kx s)) with (u * dot m b kx) in Jn by (unfold dot; rewrite <- sum_scal_l; apply sum_ext; intros; ring).
      rewrite (kk_at nf k (fun _ => xs t)) in Jn. unfold qf. lra.
  Qed.
End SameFit.
