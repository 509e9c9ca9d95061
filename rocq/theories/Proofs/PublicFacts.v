(** The public functions of GPR and SGPR: all modes of fitting and predicting agree. *)
From Coq Require Import Reals Arith Lia Lra List Bool String.
From Coquelicot Require Import Coquelicot.
From Verif Require Import Base.Sums Base.Mat Base.PSD Model.Arrays Model.Kernels Model.LinAlg Model.Operations
  Model.RPCholesky Model.GPR Model.SGPR Model.SGPRMore Model.PyDict Model.Calls Model.Public Spec.KernelSpec Spec.GPSpec Spec.EquivSpec Spec.PublicSpec
  Proofs.LinAlgFacts Proofs.GPRFacts Proofs.GPRPack Proofs.GPREquiv Proofs.GPRCov Proofs.SGPRFacts Proofs.SGPRIter Proofs.SGPRPack Proofs.SGPRMoreFacts Proofs.GPRTDFit Proofs.Loops.
Open Scope R_scope.

Lemma accepts_d0kjc : forall k, accepts (sig_d0kjc k) 0 ("x1" :: "x2" :: "params" :: "jaccoef" :: nil)%string = negb (is_sum k).
Proof. intros [ad a|k1 k2|k1 k2]; reflexivity. Qed.
Lemma accepts_d01kjc : forall k, accepts (sig_d01kjc k) 0 ("x1" :: "x2" :: "params" :: "jaccoef" :: "jacobian" :: nil)%string = negb (is_sum k).
Proof. intros [ad a|k1 k2|k1 k2]; reflexivity. Qed.
Lemma accepts_pos_d0kjc : forall k, accepts (sig_d0kjc k) 4 nil = true.
Proof. intros [ad a|k1 k2|k1 k2]; reflexivity. Qed.
Lemma accepts_pos_d01kjc : forall k, accepts (sig_d01kjc k) 5 nil = true.
Proof. intros [ad a|k1 k2|k1 k2]; reflexivity. Qed.

Section La.
  Variable la : linalg.
  Hypothesis ok : linalg_ok la.
  Variables (choose : nat -> Vec -> nat) (nf : nat) (k : kexp) (sigma : R) (mf : nat -> nat -> Mat -> R).
  Hypothesis HP : all_atoms (fun _ a => psd_atom a) k.
  Hypothesis Hs : sigma <> 0.

  Lemma pub_coef : forall s m o x y it np,
    let st := gpr_fit la choose nf k sigma mf s m o x y it np in
    meq m o (g_c st) (fst (fit_dense la m o nf k sigma x y mf)) /\ g_mu st = mf m o y.
  Proof.
    intros s m o x y it np. cbv zeta. unfold gpr_fit. destruct it; cbn [g_c g_mu].
    - split; [now apply fit_iter_eq|reflexivity].
    - split; [intros i j _ _; reflexivity|reflexivity].
  Qed.
  Lemma pub_predict : forall s m o x y it np n xs full iter, compatible full iter ->
    exists out, gpr_predict la nf k sigma (gpr_fit la choose nf k sigma mf s m o x y it np) n xs full iter = Ok out /\
    (forall t j, (t < n)%nat -> (j < o)%nat -> mean_of out t j = gpr la m o nf k sigma mf x y xs t j) /\
    (full = true -> exists M, out = MeanCov M (predict_cov la m nf k sigma x xs)).
  Proof.
    intros s m o x y it np n xs full iter Hc. pose proof (pub_coef s m o x y it np) as [Ec Em].
    unfold gpr_predict, guarded. unfold compatible in Hc. unfold gpr_fit in *. cbn [g_fitted g_fitted_derivs negb g_m g_x g_c g_mu] in *.
    rewrite Hc. eexists. split; [reflexivity|]. split.
    - intros t j Ht Hj. destruct iter; cbn [mean_of].
      + rewrite predict_iter_eq by auto. unfold gpr, predict_dense. cbv zeta. rewrite Em. f_equal. now apply (mm_arg m o).
      + transitivity (predict_dense m nf k sigma x xs (fst (if it then fit_iter la choose m o nf k sigma x y mf np else fit_dense la m o nf k sigma x y mf))
          (snd (if it then fit_iter la choose m o nf k sigma x y mf np else fit_dense la m o nf k sigma x y mf)) t j); [now destruct full|].
        unfold gpr, predict_dense. cbv zeta. rewrite Em. f_equal. now apply (mm_arg m o).
    - intros ->. destruct iter; [discriminate|]. eauto.
  Qed.

  Hypothesis W : wf nf k.
  Hypothesis L : ls_nonzero k.
  Hypothesis HD : dgram_ok k.
  Lemma pub_dcoef : forall m nv x y jac it np,
    let st := gpr_fit_derivs la choose nf k sigma m nv x y jac it np in
    meq (m * nv) 1 (g_c st) (fst (fit_derivs_dense la m nf nv k sigma x jac y zero_mean)) /\ g_mu st = 0.
  Proof.
    intros m nv x y jac it np. cbv zeta. unfold gpr_fit_derivs. destruct it; cbn [g_c g_mu].
    - split; [now apply fit_derivs_iter_eq|reflexivity].
    - split; [intros i j _ _; reflexivity|reflexivity].
  Qed.
  Lemma pub_derivs : forall m nv x y jac it np n nd xs jacs full iter, compatible full iter ->
    (default_mode full iter -> is_sum k = false /\ no_m52 k) ->
    exists out, gpr_predict_derivs la nf k sigma (gpr_fit_derivs la choose nf k sigma m nv x y jac it np) n nd xs jacs full iter = Ok out /\
    (forall t u, (t < n)%nat -> (u < nd)%nat ->
      derivative_at full nd (mean_of out) t u = gpr_derivs la m nf nv k sigma x jac y n nd xs jacs t u) /\
    (full = true -> exists M, out = MeanCov M (predict_derivs_cov la m n nf nv nd k sigma x jac xs jacs)).
  Proof.
    intros m nv x y jac it np n nd xs jacs full iter Hc Hd. pose proof (pub_dcoef m nv x y jac it np) as [Ec Em].
    assert (E : forall t u, predict_derivs_dense m n nf nv nd k sigma x jac xs jacs
        (g_c (gpr_fit_derivs la choose nf k sigma m nv x y jac it np)) 0 t u = gpr_derivs la m nf nv k sigma x jac y n nd xs jacs t u).
    { intros t u. unfold gpr_derivs, predict_derivs_dense, unflat. cbv zeta. f_equal. apply (mm_arg (m * nv) 1); auto. }
    unfold gpr_predict_derivs, guarded, compatible in *. cbn [g_fitted g_fitted_derivs negb gpr_fit_derivs].
    unfold gpr_fit_derivs at 1 2. cbn [g_fitted g_fitted_derivs negb]. rewrite Hc. destruct iter.
    - eexists. split; [reflexivity|]. split; [|intros ->; discriminate]. destruct full; [discriminate|].
      intros t u Ht Hu. unfold derivative_at. cbn [mean_of]. rewrite <- E.
      apply predict_derivs_iter_eq; auto. intros a b _ _. now apply dgram_regular.
    - destruct full.
      + eexists. split; [reflexivity|]. split; [|intros _; eauto]. intros t u Ht Hu. rewrite <- E. reflexivity.
      + destruct (Hd (conj eq_refl eq_refl)) as [D1 D2]. unfold call. rewrite accepts_d01kjc, D1. cbn [negb].
        eexists. split; [reflexivity|]. split; [|discriminate]. intros t u Ht Hu. unfold derivative_at. cbn [mean_of]. rewrite <- E.
        unfold gpr_fit_derivs. cbn [g_m g_nv g_x g_jac g_c g_jaccoef].
        now apply (predict_derivs_jaccoef_eq m n nf nv nd k sigma x jac xs jacs).
  Qed.
  Lemma pub_y_derivs : forall m nv x y jac it np n xs full iter, compatible full iter ->
    (default_mode full iter -> is_sum k = false /\ no_m52 k) ->
    exists out, gpr_predict_y_derivs la nf k sigma (gpr_fit_derivs la choose nf k sigma m nv x y jac it np) n xs full iter = Ok out /\
    (forall t, (t < n)%nat -> mean_of out t O = gpr_y_derivs la m nf nv k sigma x jac y n xs t O) /\
    (full = true -> exists M, out = MeanCov M (predict_y_derivs_cov la m n nf nv k sigma x jac xs)).
  Proof.
    intros m nv x y jac it np n xs full iter Hc Hd. pose proof (pub_dcoef m nv x y jac it np) as [Ec Em].
    assert (E : forall t, predict_y_derivs_dense m n nf nv k x jac xs
        (g_c (gpr_fit_derivs la choose nf k sigma m nv x y jac it np)) (g_mu (gpr_fit_derivs la choose nf k sigma m nv x y jac it np)) t O
        = gpr_y_derivs la m nf nv k sigma x jac y n xs t O).
    { intros t. unfold gpr_y_derivs, predict_y_derivs_dense. cbv zeta. rewrite Em.
      change (snd (fit_derivs_dense la m nf nv k sigma x jac y zero_mean)) with 0. f_equal. apply (mm_arg (m * nv) 1); auto. }
    unfold gpr_predict_y_derivs, guarded, compatible in *.
    unfold gpr_fit_derivs at 1 2. cbn [g_fitted g_fitted_derivs negb]. rewrite Hc. destruct iter.
    - eexists. split; [reflexivity|]. split; [|intros ->; discriminate].
      intros t Ht. cbn [mean_of]. rewrite <- E. now apply predict_y_derivs_iter_eq.
    - destruct full.
      + eexists. split; [reflexivity|]. split; [|intros _; eauto]. intros t Ht. rewrite <- E. reflexivity.
      + destruct (Hd (conj eq_refl eq_refl)) as [D1 D2]. unfold call. rewrite accepts_d0kjc, D1. cbn [negb].
        eexists. split; [reflexivity|]. split; [|discriminate]. intros t Ht. cbn [mean_of]. rewrite <- E.
        unfold gpr_fit_derivs. cbn [g_m g_nv g_x g_jac g_c g_jaccoef g_mu].
        now apply (predict_y_derivs_jaccoef_eq m n nf nv k x jac xs).
  Qed.
End La.

(** a sum of kernels: the default prediction of a GPR fitted to derivatives always raises *)
Lemma pub_sum_fails : forall la choose nf k1 k2 sigma m nv x y jac it np n nd xs jacs,
  let s := gpr_fit_derivs la choose nf (KSum k1 k2) sigma m nv x y jac it np in
  gpr_predict_derivs la nf (KSum k1 k2) sigma s n nd xs jacs false false = Err TypeError /\
  gpr_predict_y_derivs la nf (KSum k1 k2) sigma s n xs false false = Err TypeError.
Proof. intros. split; reflexivity. Qed.
(** which calls succeed *)
Lemma pub_derivs_ok : forall la choose nf k sigma m nv x y jac it np n nd xs jacs full iter,
  let s := gpr_fit_derivs la choose nf k sigma m nv x y jac it np in
  ((exists out, gpr_predict_derivs la nf k sigma s n nd xs jacs full iter = Ok out) <->
   compatible full iter /\ (default_mode full iter -> is_sum k = false)) /\
  ((exists out, gpr_predict_y_derivs la nf k sigma s n xs full iter = Ok out) <->
   compatible full iter /\ (default_mode full iter -> is_sum k = false)) /\
  gpr_predict la nf k sigma s n xs full iter = Err RuntimeError.
Proof.
  intros. unfold gpr_predict_derivs, gpr_predict_y_derivs, gpr_predict, guarded, compatible, default_mode.
  unfold s, gpr_fit_derivs. cbn [g_fitted g_fitted_derivs negb].
  destruct full, iter; cbn [andb]; (split; [|split; [|reflexivity]]); split; try (intros [out E]; discriminate); try (intros [E _]; discriminate);
    try (intros _; split; [reflexivity|intros [? ?]; discriminate]); try (intros _; eexists; reflexivity).
  - intros [out E]. split; [reflexivity|]. intros _. unfold call in E. rewrite accepts_d01kjc in E. destruct (is_sum k); [discriminate|reflexivity].
  - intros [_ E]. unfold call. rewrite accepts_d01kjc, E by auto. eexists. reflexivity.
  - intros [out E]. split; [reflexivity|]. intros _. unfold call in E. rewrite accepts_d0kjc in E. destruct (is_sum k); [discriminate|reflexivity].
  - intros [_ E]. unfold call. rewrite accepts_d0kjc, E by auto. eexists. reflexivity.
Qed.

(** predicted derivatives are derivatives of predicted values, in every mode *)
Section Curve.
  Variables (la : linalg) (nf : nat) (k : kexp) (sigma : R).
  Hypothesis W : wf nf k.
  Hypothesis L : ls_nonzero k.
  Hypothesis HE : exact k.
  Lemma pub_derivs_dense : forall s n nd xs jacs full iter out t u, g_fitted s = false -> g_fitted_derivs s = true ->
    g_jaccoef s = jaccoef_of (g_nv s) (g_c s) (g_jac s) -> (default_mode full iter -> no_m52 k) -> (t < n)%nat -> (u < nd)%nat ->
    gpr_predict_derivs la nf k sigma s n nd xs jacs full iter = Ok out ->
    derivative_at full nd (mean_of out) t u
    = predict_derivs_dense (g_m s) n nf (g_nv s) nd k sigma (g_x s) (g_jac s) xs jacs (g_c s) 0 t u.
  Proof.
    intros s n nd xs jacs full iter out t u F1 F2 EJ Hd Ht Hu. unfold gpr_predict_derivs, guarded. rewrite F1, F2. cbn [negb].
    destruct full, iter; cbn [andb]; intro E; try discriminate.
    - injection E as <-. reflexivity.
    - injection E as <-. unfold derivative_at. cbn [mean_of]. apply predict_derivs_iter_eq; auto.
      intros a b _ _. now apply dgram_regular, exact_dgram.
    - unfold call in E. destruct (accepts _ _ _); [|discriminate]. injection E as <-. unfold derivative_at. cbn [mean_of]. rewrite EJ.
      apply (predict_derivs_jaccoef_eq (g_m s) n nf (g_nv s) nd k sigma (g_x s) (g_jac s) xs jacs); auto. apply Hd. now split.
  Qed.
  Lemma pub_y_derivs_dense : forall s n xs full iter out t, g_fitted s = false -> g_fitted_derivs s = true ->
    g_jaccoef s = jaccoef_of (g_nv s) (g_c s) (g_jac s) -> (default_mode full iter -> no_m52 k) -> (t < n)%nat ->
    gpr_predict_y_derivs la nf k sigma s n xs full iter = Ok out ->
    mean_of out t O = predict_y_derivs_dense (g_m s) n nf (g_nv s) k (g_x s) (g_jac s) xs (g_c s) (g_mu s) t O.
  Proof.
    intros s n xs full iter out t F1 F2 EJ Hd Ht. unfold gpr_predict_y_derivs, guarded. rewrite F1, F2. cbn [negb].
    destruct full, iter; cbn [andb]; intro E; try discriminate.
    - injection E as <-. reflexivity.
    - injection E as <-. cbn [mean_of]. now apply predict_y_derivs_iter_eq.
    - unfold call in E. destruct (accepts _ _ _); [|discriminate]. injection E as <-. cbn [mean_of]. rewrite EJ.
      apply (predict_y_derivs_jaccoef_eq (g_m s) n nf (g_nv s) k (g_x s) (g_jac s) xs); auto. apply Hd. now split.
  Qed.
  Lemma pub_curve : forall choose m nv x y jac it np n nd (G : R -> Mat) jacs t u t0 full iter full' iter' out (V : R -> output),
    let s := gpr_fit_derivs la choose nf k sigma m nv x y jac it np in
    (t < n)%nat -> (u < nd)%nat -> (forall f, (f < nf)%nat -> is_derive (fun z => G z t f) t0 (jacs t f u)) ->
    (default_mode full iter \/ default_mode full' iter' -> no_m52 k) ->
    gpr_predict_derivs la nf k sigma s n nd (G t0) jacs full iter = Ok out ->
    (forall z, gpr_predict_y_derivs la nf k sigma s n (G z) full' iter' = Ok (V z)) ->
    is_derive (fun z => mean_of (V z) t O) t0 (derivative_at full nd (mean_of out) t u).
  Proof.
    intros choose m nv x y jac it np n nd G jacs t u t0 full iter full' iter' out V s Ht Hu HG Hd Ed Ev.
    rewrite (pub_derivs_dense s n nd (G t0) jacs full iter out t u) by (try reflexivity; auto).
    apply is_derive_ext with (f := fun z => predict_y_derivs_dense (g_m s) n nf (g_nv s) k (g_x s) (g_jac s) (G z) (g_c s) (g_mu s) t O).
    - intro z. symmetry. apply (pub_y_derivs_dense s n (G z) full' iter'); try reflexivity; auto.
    - now apply predict_y_derivs_curve.
  Qed.

  (** the sparse models *)
  Lemma sg_pub_derivs_dense : forall s n nd xs jacs iter out t u, s_fitted s = false -> s_fitted_derivs s = true ->
    s_jaccoef s = jaccoef_of (s_nv s) (s_c s) (s_jac_locs s) -> (iter = false -> no_m52 k) -> (t < n)%nat -> (u < nd)%nat ->
    sgpr_predict_derivs nf k sigma s n nd xs jacs iter = Ok out ->
    mean_of out t u = sg_predict_derivs_dense (s_m s) n nf (s_nv s) nd k (s_locs s) (s_jac_locs s) xs jacs (s_c s) 0 t u.
  Proof.
    intros s n nd xs jacs iter out t u F1 F2 EJ Hd Ht Hu. unfold sgpr_predict_derivs, guarded. rewrite F1, F2. cbn [negb andb].
    destruct iter; intro E.
    - injection E as <-. cbn [mean_of]. now apply sg_predict_derivs_iter_eq.
    - unfold call in E. rewrite accepts_pos_d01kjc in E. injection E as <-. cbn [mean_of]. rewrite EJ.
      apply (sg_jaccoef_eq (s_m s) n nf (s_nv s) nd k (s_locs s) (s_jac_locs s) xs jacs); auto.
      intros a b _ _. now apply dgram_regular, exact_dgram.
  Qed.
  Lemma sg_pub_y_derivs_dense : forall s n xs iter out t, s_fitted s = false -> s_fitted_derivs s = true ->
    s_jaccoef s = jaccoef_of (s_nv s) (s_c s) (s_jac_locs s) -> (iter = false -> no_m52 k) -> (t < n)%nat ->
    sgpr_predict_y_derivs nf k s n xs iter = Ok out ->
    mean_of out t O = sg_predict_y_derivs_dense (s_m s) n nf (s_nv s) k (s_locs s) (s_jac_locs s) xs (s_c s) (s_mu s) t O.
  Proof.
    intros s n xs iter out t F1 F2 EJ Hd Ht. unfold sgpr_predict_y_derivs, guarded. rewrite F1, F2. cbn [negb andb].
    destruct iter; intro E.
    - injection E as <-. cbn [mean_of]. now apply sg_predict_y_derivs_iter_eq.
    - unfold call in E. rewrite accepts_pos_d0kjc in E. injection E as <-. cbn [mean_of]. rewrite EJ.
      apply (sg_jaccoef_values_eq (s_m s) n nf (s_nv s) k (s_locs s) (s_jac_locs s) xs); auto.
  Qed.
  Lemma sg_dense_gpr : forall m n nv nd xl jl xs jacs c t u, (t < n)%nat -> (u < nd)%nat ->
    sg_predict_derivs_dense m n nf nv nd k xl jl xs jacs c 0 t u = predict_derivs_dense m n nf nv nd k 0 xl jl xs jacs c 0 t u.
  Proof.
    intros m n nv nd xl jl xs jacs c t u Ht Hu. unfold sg_predict_derivs_dense, predict_derivs_dense, unflat. cbv zeta. f_equal.
    unfold mm, tr. apply sum_ext. intros i Hi. f_equal. unfold A_derivs_lhs.
    apply d01kj_trans; auto using blk_lt. intros a b _ _. now apply dgram_regular, exact_dgram.
  Qed.
  Lemma sg_pub_curve : forall s n nd (G : R -> Mat) jacs t u t0 iter iter' out (V : R -> output),
    s_fitted s = false -> s_fitted_derivs s = true -> s_jaccoef s = jaccoef_of (s_nv s) (s_c s) (s_jac_locs s) ->
    (t < n)%nat -> (u < nd)%nat -> (forall f, (f < nf)%nat -> is_derive (fun z => G z t f) t0 (jacs t f u)) ->
    (iter = false \/ iter' = false -> no_m52 k) ->
    sgpr_predict_derivs nf k sigma s n nd (G t0) jacs iter = Ok out ->
    (forall z, sgpr_predict_y_derivs nf k s n (G z) iter' = Ok (V z)) ->
    is_derive (fun z => mean_of (V z) t O) t0 (mean_of out t u).
  Proof.
    intros s n nd G jacs t u t0 iter iter' out V F1 F2 EJ Ht Hu HG Hd Ed Ev.
    rewrite (sg_pub_derivs_dense s n nd (G t0) jacs iter out t u) by auto. rewrite sg_dense_gpr by auto.
    apply is_derive_ext with (f := fun z => predict_y_derivs_dense (s_m s) n nf (s_nv s) k (s_locs s) (s_jac_locs s) (G z) (s_c s) (s_mu s) t O).
    - intro z. symmetry. exact (sg_pub_y_derivs_dense s n (G z) iter' (V z) t F1 F2 EJ (fun H => Hd (or_intror H)) Ht (Ev z)).
    - now apply predict_y_derivs_curve.
  Qed.
End Curve.
Lemma sg_pub_ok : forall la choose nf k sigma s n nd x y jac it n' nd' xs jacs iter n_locs,
  (let s := sgpr_fit_derivs la nf k sigma s n nd x y jac it in
   (exists out, sgpr_predict_derivs nf k sigma s n' nd' xs jacs iter = Ok out) /\ (exists out, sgpr_predict_y_derivs nf k s n' xs iter = Ok out)) /\
  (let s := rp_fit_derivs la choose nf k sigma n_locs n nd x y jac it in
   (exists out, sgpr_predict_derivs nf k sigma s n' nd' xs jacs iter = Ok out) /\ (exists out, sgpr_predict_y_derivs nf k s n' xs iter = Ok out)).
Proof.
  intros. cbv zeta. unfold sgpr_predict_derivs, sgpr_predict_y_derivs, guarded, sgpr_fit_derivs, rp_fit_derivs.
  cbn [s_fitted s_fitted_derivs negb andb]. unfold call. rewrite accepts_pos_d01kjc, accepts_pos_d0kjc.
  destruct iter; repeat split; eexists; reflexivity.
Qed.

(** residuals at the training points *)
Lemma pub_residual : forall la, linalg_ok la -> forall choose nf k sigma mf, all_atoms (fun _ a => psd_atom a) k -> sigma <> 0 ->
  forall s m o x y it np full iter out,
  let st := gpr_fit la choose nf k sigma mf s m o x y it np in
  gpr_predict la nf k sigma st m x full iter = Ok out ->
  forall i j, (i < m)%nat -> (j < o)%nat -> y i j - mean_of out i j = (sigma ^ 2 + / 10 ^ 10) * g_c st i j.
Proof.
  intros la ok choose nf k sigma mf HP Hs s m o x y it np full iter out st E i j Hi Hj.
  assert (Hc : compatible full iter).
  { unfold gpr_predict, guarded in E. unfold compatible. destruct (full && iter); [|reflexivity].
    unfold st, gpr_fit in E. cbn [g_fitted g_fitted_derivs negb] in E. discriminate. }
  destruct (pub_predict la ok choose nf k sigma mf HP Hs s m o x y it np m x full iter Hc) as [out' [E' [M _]]].
  unfold st in E. rewrite E in E'. injection E' as <-. rewrite M by auto. unfold gpr.
  rewrite (fit_residual la ok m o nf k sigma x y mf HP i j Hi Hj). f_equal.
  symmetry. now apply (pub_coef la ok choose nf k sigma mf HP Hs s m o x y it np).
Qed.
Lemma pub_residual_derivs : forall la, linalg_ok la -> forall choose nf k sigma, all_atoms (fun _ a => psd_atom a) k -> sigma <> 0 ->
  wf nf k -> ls_nonzero k -> dgram_ok k -> forall m nv x y jac it np full iter out,
  let st := gpr_fit_derivs la choose nf k sigma m nv x y jac it np in (default_mode full iter -> no_m52 k) ->
  gpr_predict_derivs la nf k sigma st m nv x jac full iter = Ok out ->
  forall s v, (s < m)%nat -> (v < nv)%nat ->
  y s v - derivative_at full nv (mean_of out) s v = (sigma ^ 2 + / 10 ^ 10) * g_c st (s * nv + v)%nat O.
Proof.
  intros la ok choose nf k sigma HP Hs W L HD m nv x y jac it np full iter out st Hd E s v Hi Hj.
  assert (Hc : compatible full iter /\ (default_mode full iter -> is_sum k = false)).
  { apply (proj1 (proj1 (pub_derivs_ok la choose nf k sigma m nv x y jac it np m nv x jac full iter))). eauto. }
  destruct (pub_derivs la ok choose nf k sigma HP Hs W L HD m nv x y jac it np m nv x jac full iter (proj1 Hc)) as [out' [E' [M _]]].
  { intro D. split; [now apply Hc|now apply Hd]. }
  unfold st in E. rewrite E in E'. injection E' as <-. rewrite M by auto. unfold gpr_derivs.
  change 0 with (snd (fit_derivs_dense la m nf nv k sigma x jac y zero_mean)) at 1.
  rewrite (fit_derivs_residual la ok m nf nv k sigma x jac y zero_mean HP W L HD s v Hi Hj). f_equal.
  symmetry. apply (pub_dcoef la ok choose nf k sigma HP Hs W L HD m nv x y jac it np); [now apply blk_lt|lia].
Qed.
(** SGPR, all modes *)
Lemma sg_pub_predict : forall la, linalg_ok la -> forall nf k sigma mf, all_atoms (fun _ a => psd_atom a) k ->
  forall s n o x y it n' xs full iter, compatible full iter ->
  exists out, sgpr_predict la nf k sigma (sgpr_fit la nf k sigma mf s n o x y it) n' xs full iter = Ok out /\
  forall t j, (t < n')%nat -> (j < o)%nat -> mean_of out t j = sgpr la (s_m s) n o nf k sigma mf (s_locs s) x y xs t j.
Proof.
  intros la ok nf k sigma mf HP s n o x y it n' xs full iter Hc.
  set (fit := if it then sg_fit_iter la (s_m s) n o nf k sigma (s_locs s) x y mf else sg_fit_dense la (s_m s) n o nf k sigma (s_locs s) x y mf).
  assert (E : meq (s_m s) o (fst fit) (fst (sg_fit_dense la (s_m s) n o nf k sigma (s_locs s) x y mf)) /\
    snd fit = snd (sg_fit_dense la (s_m s) n o nf k sigma (s_locs s) x y mf)).
  { unfold fit. destruct it; [now apply sg_fit_iter_eq|]. split; [intros i j _ _; reflexivity|reflexivity]. }
  destruct E as [E1 E2].
  assert (D : forall t j, (j < o)%nat -> sg_predict_dense (s_m s) nf k (s_locs s) xs (fst fit) (snd fit) t j = sgpr la (s_m s) n o nf k sigma mf (s_locs s) x y xs t j).
  { intros t j Hj. unfold sgpr, sg_predict_dense. cbv zeta. rewrite E2. f_equal. now apply (mm_arg (s_m s) o). }
  unfold sgpr_predict, guarded, sgpr_fit. fold fit. unfold compatible in Hc. cbn [s_fitted s_fitted_derivs negb s_m s_locs s_c s_mu]. rewrite Hc.
  eexists. split; [reflexivity|]. intros t j Ht Hj. destruct iter; cbn [mean_of].
  - rewrite sg_predict_iter_eq by auto. now apply D.
  - rewrite <- D by auto. now destruct full.
Qed.
Lemma rp_pub_predict : forall la, linalg_ok la -> forall choose nf k sigma mf, all_atoms (fun _ a => psd_atom a) k ->
  forall s nl n o x y it n' xs full iter, compatible full iter ->
  exists out, sgpr_predict la nf k sigma (rp_fit la choose nf k sigma mf s nl n o x y it) n' xs full iter = Ok out /\
  forall t j, (t < n')%nat -> (j < o)%nat ->
  mean_of out t j = sgpr la nl n o nf k sigma mf (fun l => x (snd (rpcholesky choose n nf x nl k) l)) x y xs t j.
Proof.
  intros la ok choose nf k sigma mf HP s nl n o x y it n' xs full iter Hc.
  set (xl := fun l => x (snd (rpcholesky choose n nf x nl k) l)).
  destruct (sg_pub_predict la ok nf k sigma mf HP (SGPRState nl (s_nv s) xl (s_jac_locs s) (s_c s) (s_mu s) (s_jaccoef s) true false) n o x y it n' xs full iter Hc) as [out [E M]].
  exists out. split; [|exact M]. rewrite <- E. unfold rp_fit, sgpr_fit. cbn [s_m s_nv s_locs s_jac_locs s_c s_mu s_jaccoef]. destruct it; reflexivity.
Qed.
(** the two ways a sparse model predicts derivatives *)
Lemma sg_pub_modes : forall nf k sigma, wf nf k -> ls_nonzero k -> exact k -> no_m52 k -> forall s n nd xs jacs iter iter' out out' vout vout',
  s_jaccoef s = jaccoef_of (s_nv s) (s_c s) (s_jac_locs s) ->
  sgpr_predict_derivs nf k sigma s n nd xs jacs iter = Ok out -> sgpr_predict_derivs nf k sigma s n nd xs jacs iter' = Ok out' ->
  sgpr_predict_y_derivs nf k s n xs iter = Ok vout -> sgpr_predict_y_derivs nf k s n xs iter' = Ok vout' ->
  forall t, (t < n)%nat -> (forall u, (u < nd)%nat -> mean_of out t u = mean_of out' t u) /\ mean_of vout t O = mean_of vout' t O.
Proof.
  intros nf k sigma W L HE H5 s n nd xs jacs iter iter' out out' vout vout' EJ E E' V V' t Ht.
  assert (F : s_fitted s = false /\ s_fitted_derivs s = true).
  { unfold sgpr_predict_derivs, guarded in E. destruct (s_fitted_derivs s); [|discriminate]. destruct (s_fitted s); [discriminate|auto]. }
  destruct F as [F1 F2]. split.
  - intros u Hu. rewrite (sg_pub_derivs_dense nf k sigma W L HE s n nd xs jacs iter out t u) by auto.
    now rewrite (sg_pub_derivs_dense nf k sigma W L HE s n nd xs jacs iter' out' t u) by auto.
  - rewrite (sg_pub_y_derivs_dense nf k W L s n xs iter vout t) by auto.
    now rewrite (sg_pub_y_derivs_dense nf k W L s n xs iter' vout' t) by auto.
Qed.
(** a sparse model fitted to derivatives: predictions in both modes *)
Section SparseDerivs.
  Variables (la : linalg) (nf : nat) (k : kexp) (sigma : R).
  Hypothesis ok : linalg_ok la.
  Hypothesis HP : all_atoms (fun _ a => psd_atom a) k.
  Hypothesis W : wf nf k.
  Hypothesis L : ls_nonzero k.
  Hypothesis HD : dgram_ok k.
  Lemma sg_pub_coef : forall s n nd x y jac it, (it = true -> s_m s = 1%nat \/ s_nv s = 1%nat) ->
    let st := sgpr_fit_derivs la nf k sigma s n nd x y jac it in
    let fit := sg_fit_derivs_dense la (s_m s) n nf (s_nv s) nd k sigma (s_locs s) (s_jac_locs s) x y jac zero_mean in
    meq (s_m s * s_nv s) 1 (s_c st) (fst fit) /\ s_mu st = snd fit.
  Proof.
    intros s n nd x y jac it H. cbv zeta. unfold sgpr_fit_derivs. cbn [s_c s_mu]. destruct it.
    - split; [|reflexivity]. now apply sg_fit_derivs_iter_eq; auto.
    - split; [intros i j _ _; reflexivity|reflexivity].
  Qed.
  Lemma sg_pub_fit_derivs : forall s n nd x y jac it n' nd' xs jacs iter, (it = true -> s_m s = 1%nat \/ s_nv s = 1%nat) ->
    (iter = false -> no_m52 k) ->
    exists out, sgpr_predict_derivs nf k sigma (sgpr_fit_derivs la nf k sigma s n nd x y jac it) n' nd' xs jacs iter = Ok out /\
    forall t u, (t < n')%nat -> (u < nd')%nat ->
    mean_of out t u = sgpr_derivs la (s_m s) n nf (s_nv s) nd k sigma (s_locs s) (s_jac_locs s) x jac y n' nd' xs jacs t u.
  Proof.
    intros s n nd x y jac it n' nd' xs jacs iter H1 H5. destruct (sg_pub_coef s n nd x y jac it H1) as [EC _].
    unfold sgpr_predict_derivs, guarded. unfold sgpr_fit_derivs at 1 2. cbn [s_fitted s_fitted_derivs negb andb].
    assert (E : forall t u, (t < n')%nat -> (u < nd')%nat ->
      sg_predict_derivs_dense (s_m s) n' nf (s_nv s) nd' k (s_locs s) (s_jac_locs s) xs jacs (s_c (sgpr_fit_derivs la nf k sigma s n nd x y jac it)) 0 t u
      = sgpr_derivs la (s_m s) n nf (s_nv s) nd k sigma (s_locs s) (s_jac_locs s) x jac y n' nd' xs jacs t u).
    { intros t u Ht Hu. unfold sgpr_derivs, sg_predict_derivs_dense, unflat. cbv zeta. f_equal. apply (mm_arg (s_m s * s_nv s) 1); auto. }
    destruct iter.
    - eexists. split; [reflexivity|]. intros t u Ht Hu. cbn [mean_of]. rewrite <- E by auto.
      unfold sgpr_fit_derivs. cbn [s_m s_nv s_locs s_jac_locs s_c]. now apply sg_predict_derivs_iter_eq.
    - unfold call. rewrite accepts_pos_d01kjc. eexists. split; [reflexivity|]. intros t u Ht Hu. cbn [mean_of]. rewrite <- E by auto.
      unfold sgpr_fit_derivs. cbn [s_m s_nv s_locs s_jac_locs s_c s_jaccoef].
      apply (sg_jaccoef_eq (s_m s) n' nf (s_nv s) nd' k (s_locs s) (s_jac_locs s) xs jacs); auto.
      intros a b _ _. now apply dgram_regular.
  Qed.
  Lemma sg_pub_fit_y_derivs : forall s n nd x y jac it n' xs iter, (it = true -> s_m s = 1%nat \/ s_nv s = 1%nat) ->
    (iter = false -> no_m52 k) ->
    exists out, sgpr_predict_y_derivs nf k (sgpr_fit_derivs la nf k sigma s n nd x y jac it) n' xs iter = Ok out /\
    forall t, (t < n')%nat ->
    mean_of out t O = sgpr_y_derivs la (s_m s) n nf (s_nv s) nd k sigma (s_locs s) (s_jac_locs s) x jac y n' xs t O.
  Proof.
    intros s n nd x y jac it n' xs iter H1 H5. destruct (sg_pub_coef s n nd x y jac it H1) as [EC EM].
    unfold sgpr_predict_y_derivs, guarded. unfold sgpr_fit_derivs at 1 2. cbn [s_fitted s_fitted_derivs negb andb].
    assert (E : forall t, (t < n')%nat ->
      sg_predict_y_derivs_dense (s_m s) n' nf (s_nv s) k (s_locs s) (s_jac_locs s) xs (s_c (sgpr_fit_derivs la nf k sigma s n nd x y jac it))
        (s_mu (sgpr_fit_derivs la nf k sigma s n nd x y jac it)) t O
      = sgpr_y_derivs la (s_m s) n nf (s_nv s) nd k sigma (s_locs s) (s_jac_locs s) x jac y n' xs t O).
    { intros t Ht. unfold sgpr_y_derivs, sg_predict_y_derivs_dense. cbv zeta. rewrite EM. f_equal. apply (mm_arg (s_m s * s_nv s) 1); auto. }
    destruct iter.
    - eexists. split; [reflexivity|]. intros t Ht. cbn [mean_of]. rewrite <- E by auto.
      unfold sgpr_fit_derivs. cbn [s_m s_nv s_locs s_jac_locs s_c s_mu]. now apply sg_predict_y_derivs_iter_eq.
    - unfold call. rewrite accepts_pos_d0kjc. eexists. split; [reflexivity|]. intros t Ht. cbn [mean_of]. rewrite <- E by auto.
      unfold sgpr_fit_derivs. cbn [s_m s_nv s_locs s_jac_locs s_c s_mu s_jaccoef].
      apply (sg_jaccoef_values_eq (s_m s) n' nf (s_nv s) k (s_locs s) (s_jac_locs s) xs); auto.
  Qed.
  (** SGPR_RPChol: the inducing points and their jacobians are those of the rows picked *)
  Lemma rp_as_sgpr_derivs : forall choose nl n nd x y jac it,
    let p := snd (rpcholesky choose n nf x nl k) in
    rp_fit_derivs la choose nf k sigma nl n nd x y jac it
    = sgpr_fit_derivs la nf k sigma (SGPRState nl nd (fun l => x (p l)) (fun l => jac (p l)) (fun _ _ => 0) 0 (fun _ _ => 0) false false) n nd x y jac it.
  Proof. intros. unfold rp_fit_derivs, sgpr_fit_derivs. destruct it; reflexivity. Qed.
  Lemma rp_pub_fit_derivs : forall choose nl n nd x y jac it n' nd' xs jacs iter, (it = true -> nl = 1%nat \/ nd = 1%nat) ->
    (iter = false -> no_m52 k) ->
    let p := snd (rpcholesky choose n nf x nl k) in
    let st := rp_fit_derivs la choose nf k sigma nl n nd x y jac it in
    (exists out, sgpr_predict_derivs nf k sigma st n' nd' xs jacs iter = Ok out /\
     forall t u, (t < n')%nat -> (u < nd')%nat ->
     mean_of out t u = sgpr_derivs la nl n nf nd nd k sigma (fun l => x (p l)) (fun l => jac (p l)) x jac y n' nd' xs jacs t u) /\
    (exists out, sgpr_predict_y_derivs nf k st n' xs iter = Ok out /\
     forall t, (t < n')%nat -> mean_of out t O = sgpr_y_derivs la nl n nf nd nd k sigma (fun l => x (p l)) (fun l => jac (p l)) x jac y n' xs t O).
  Proof.
    intros choose nl n nd x y jac it n' nd' xs jacs iter H1 H5 p st. unfold st. rewrite rp_as_sgpr_derivs. fold p. split.
    - now apply (sg_pub_fit_derivs (SGPRState nl nd (fun l => x (p l)) (fun l => jac (p l)) (fun _ _ => 0) 0 (fun _ _ => 0) false false)).
    - now apply (sg_pub_fit_y_derivs (SGPRState nl nd (fun l => x (p l)) (fun l => jac (p l)) (fun _ _ => 0) 0 (fun _ _ => 0) false false)).
  Qed.
End SparseDerivs.
