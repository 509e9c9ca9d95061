(** The iterative likelihood of regression on targets and derivatives; the posterior functions; witnesses. *)
From Coq Require Import Reals Arith Lia Lra List FunctionalExtensionality.
From Verif Require Import Base.Sums Base.Mat Base.PSD Model.PyDict Model.State Model.Arrays Model.Kernels Model.Operations Model.LinAlg Model.RPCholesky
  Model.Priors Model.GPR Model.SGPR Model.GPRTD Model.Lanczos Model.Likelihood
  Spec.KernelSpec Spec.GPSpec Spec.SparseSpec Spec.Det Spec.MVN Spec.LanczosSpec Spec.TDSpec
  Proofs.LinAlgFacts Proofs.KernelSym Proofs.KernelDerivs Proofs.JetPSD Proofs.GPRFacts Proofs.GPRLml Proofs.GPRTDFacts Proofs.GPRTDFit Proofs.GPRTDPack
  Proofs.SGPRFacts Proofs.SGPRIter Proofs.SGPRCov Proofs.SGPRExamples Proofs.LanczosFacts Proofs.LanczosLogdet Proofs.LikelihoodFacts.
Import ListNotations.
Open Scope R_scope.

Section TD.
  Variable la : linalg.
  Hypothesis ok : linalg_ok la.
  Variables (eigh : nat -> Mat -> Vec * Mat) (normal : key -> nat -> Vec) (choose : key -> nat -> Vec -> nat).
  Variables (nf : nat) (k : kexp) (sg : td_sigma) (a : td_in).
  Hypothesis HP : all_atoms (fun _ a => psd_atom a) k.
  Hypothesis W : wf nf k.
  Hypothesis L : ls_nonzero k.
  Hypothesis E : exact k.
  Variables (y yd : Mat) (yd2 : option Mat) (mf : nat -> nat -> Mat -> R) (C : Mat) (b : Vec).
  Let N := td_rows a.
  Let r : Vec := td_targets a y yd yd2 (mf (td_n a) 1%nat y).
  Let mvf := on_vector (fun z => match td_Ax_lhs_fun nf k sg a a true z with Some r => r | None => z end).
  Hypothesis Hn : (0 < td_n a)%nat.
  Hypothesis Hs : sg_t sg <> 0.
  Hypothesis HM : td_match a yd2 = true.
  Hypothesis HC : td_cov nf k sg a C.
  Hypothesis Hb : veq N (mv N C b) r.
  Lemma td_N : (0 < N)%nat.
  Proof. unfold N, td_rows. lia. Qed.
  Lemma td_mv : forall z i, (i < N)%nat -> mvf z i = mv N C z i.
  Proof.
    intros z i Hi. unfold mvf, on_vector. destruct (td_Ax_mm nf k sg a a true (fun r _ => z r) W (fun _ => eq_refl) (fun H => H)) as [M [HMv HMe]]. rewrite HMv.
    rewrite (HMe i O Hi). unfold mv. apply sum_ext. intros q Hq. f_equal. symmetry. exact (td_cov_M nf k sg a C W L E HC i q Hi Hq).
  Qed.
  Lemma td_low : forall v, / 10 ^ 10 * dot N v v <= qf N C v.
  Proof.
    intro v. rewrite (qf_ext N C (tdM nf k sg a) v v (td_cov_M nf k sg a C W L E HC)) by (intros ? ?; reflexivity).
    replace (qf N (tdM nf k sg a) v) with (qf N (tdG nf k a) v + qf N (fun i j => td_noise sg a i * delta i j) v)
      by (symmetry; exact (qf_madd N (tdG nf k a) (fun i j => td_noise sg a i * delta i j) v)).
    rewrite qf_diag. pose proof (tdG_psd nf k a HP W L E N v).
    assert (/ 10 ^ 10 * dot N v v <= sum N (fun i => td_noise sg a i * v i ^ 2)); [|lra].
    unfold dot. rewrite <- sum_scal_l. apply sum_le. intros i Hi. pose proof (pow2_ge_0 (v i)).
    assert (/ 10 ^ 10 <= td_noise sg a i).
    { unfold td_noise, obs_noise. match goal with |- context [?s ^ 2] => pose proof (pow2_ge_0 s) end. unfold jit10 in *. lra. }
    cbn [pow] in *. nra.
  Qed.
  Lemma td_as : forall ne nl key np kp, exists c y', INR N * lml_iter_of N 1 c y' (ln (det N C)) = ln (mvn_pdf N C r b) /\
    forall rad, td_lml_iter_key la eigh rad normal choose ne nl key np kp nf k sg a y yd yd2 mf = Some (lml_iter_of N 1 c y' (logdet_key eigh rad normal mvf ne N nl key)).
  Proof.
    intros ne nl key np kp. unfold td_lml_iter_key, td_lml_iter.
    pose proof (td_lml_iter_density la ok (choose kp) nf k sg a np HP W L E y yd yd2 mf C b (fun _ => ln (det N C)) Hn Hs HM HC eq_refl Hb) as [l [H1 H2]].
    unfold td_lml_iter in H1. destruct (td_fit_iter la (choose kp) nf k sg a y yd yd2 mf np) as [[c mu]|]; [|discriminate].
    injection H1 as H1. eexists. eexists. split; [|intro rad; reflexivity]. refine (eq_trans _ H2). rewrite <- H1. reflexivity.
  Qed.
  Lemma td_mean : forall ne nl key np kp av P, (0 < ne)%nat -> (0 < nl)%nat -> eigen N C av P ->
    (forall s, is_sign N s -> probe_ok N nl mvf (key_draws normal key N) eigh s) ->
    exists F, (forall signs, td_lml_iter_key la eigh (fun _ _ _ => signs) normal choose ne nl key np kp nf k sg a y yd yd2 mf = Some (F signs)) /\
    INR N * probe_mean ne N F <= ln (mvn_pdf N C r b) /\
    (forall d, at_most d N av -> (d <= nl)%nat -> INR N * probe_mean ne N F = ln (mvn_pdf N C r b)).
  Proof.
    intros ne nl key np kp av P Hne Hnl EA OK. destruct (td_as ne nl key np kp) as [c [y' [H1 H2]]].
    exists (fun signs => lml_iter_of N 1 c y' (lanczos_logdet eigh mvf ne N nl signs (key_draws normal key N))).
    assert (HN : 0 < INR N) by (apply lt_0_INR, td_N). split; [intro signs; apply H2|]. split.
    - rewrite <- H1. apply Rmult_le_compat_l; [lra|]. apply (mean_le eigh N nl ne C mvf (key_draws normal key N) av P td_N Hne Hnl EA td_low td_mv OK).
    - intros d D Hd. rewrite <- H1. f_equal. apply (mean_eq eigh N nl ne C mvf (key_draws normal key N) av P td_N Hne Hnl EA td_low td_mv OK d); auto.
  Qed.
End TD.

(** ** one Lanczos step *)
Definition eigh1 (_ : nat) (T : Mat) : Vec * Mat := (fun _ => T O O, eye).
Lemma one_step_ok : forall n matvec draw s, probe_ok n 1 matvec draw eigh1 s.
Proof.
  intros n matvec draw s. unfold probe_ok. cbv zeta. split; [intros j Hj; lia|]. split; [intros j Hj; lia|].
  split; [|split]; intros i j Hi Hj; replace i with O by lia; replace j with O by lia; unfold mm, tr, eigh1, eye, delta; cbn; ring.
Qed.
Lemma one_step_value : forall n matvec signs draw,
  lanczos_logdet eigh1 matvec 1 n 1 signs draw
  = INR n * ln (Rmax (dot n (matvec (fun i => signs i O / vnorm n (fun i => signs i O))) (fun i => signs i O / vnorm n (fun i => signs i O))) (/ 10 ^ 36)).
Proof.
  intros n matvec signs draw. unfold lanczos_logdet, lanczos_tridiagonal. cbn [Nat.sub fori fst lz_init lz_T eigh1 snd sum INR].
  unfold set_entry, eye, delta, col. cbn [Nat.eqb andb]. field.
Qed.

(** ** the posterior *)
Section Posterior.
  Variable la : linalg.
  Variables (eigh : nat -> Mat -> Vec * Mat) (rad : key -> nat -> nat -> Mat) (normal : key -> nat -> Vec) (choose : key -> nat -> Vec -> nat) (dk : key).
  Lemma gpr_posterior_dense : forall gammaln ps ne nl kl np kp m o nf k sigma x y mf,
    gpr_log_posterior la eigh rad normal choose gammaln ps (LikOpts false ne nl kl np kp) m o nf k sigma x y mf
    = Ok (log_posterior gammaln (lml_dense la m o nf k sigma x y mf) ps).
  Proof. reflexivity. Qed.
  Lemma sgpr_posterior_key : forall gammaln ps it ne nl kl kl' np kp m n o nf k sigma xl x y mf,
    sgpr_log_posterior la eigh rad normal dk gammaln ps (LikOpts it ne nl kl np kp) m n o nf k sigma xl x y mf
    = sgpr_log_posterior la eigh rad normal dk gammaln ps (LikOpts it ne nl kl' np kp) m n o nf k sigma xl x y mf.
  Proof. reflexivity. Qed.
  Lemma gpr_defaults : forall ne nl kl kp m o nf k sigma x y mf,
    gpr_log_marginal_likelihood la eigh rad normal choose (LikOpts true ne nl kl None kp) m o nf k sigma x y mf = Err TypeError.
  Proof. reflexivity. Qed.
End Posterior.

Definition rad2 (k : key) (_ _ : nat) : Mat :=
  match k with SplitL (Key O) => fun _ _ => 1 | _ => fun i _ => if Nat.eqb i 0 then 1 else -1 end.
Lemma ones_nystrom : nystrom 1 2 (kk 1 lin ones ones) (kk 1 lin ones ones) (fun _ _ => / (1 + / 10 ^ 10)).
Proof.
  assert (0 < / 10 ^ 10) by (apply Rinv_0_lt_compat, pow_lt; lra). set (e := / 10 ^ 10) in *.
  exists (fun _ _ => / (1 + e)). split; intros i j Hi Hj; cbn [sum]; rewrite ?lin_kk; unfold ones; fold e; field; lra.
Qed.
Lemma sqrt2sq : 1 / sqrt 2 * (1 / sqrt 2) = / 2.
Proof. unfold Rdiv. rewrite !Rmult_1_l, <- Rinv_mult. now rewrite sqrt_sqrt by lra. Qed.
Lemma est_key : forall la, linalg_ok la -> forall normal ky, logdet_key eigh1 rad2 normal (on_vector (sg_Hx_fun la 1 2 1 lin 1 ones ones)) 1 2 1 ky
  = 2 * ln (1 + / 10 ^ 10 + (if match ky with Key O => true | _ => false end then 2 / (1 + / 10 ^ 10) else 0)).
Proof.
  intros la ok normal ky. assert (E0 : 0 < / 10 ^ 10) by (apply Rinv_0_lt_compat, pow_lt; lra). pose proof e36 as E36. unfold logdet_key. rewrite one_step_value.
  set (u := fun i => rad2 (SplitL ky) 2 1 i O / vnorm 2 (fun i => rad2 (SplitL ky) 2 1 i O)).
  assert (HQ : dot 2 (on_vector (sg_Hx_fun la 1 2 1 lin 1 ones ones) u) u = 1 + / 10 ^ 10 + (if match ky with Key O => true | _ => false end then 2 / (1 + / 10 ^ 10) else 0)).
  { rewrite (dot_ext 2 _ u (mv 2 (noisy 1 (fun _ _ => / (1 + / 10 ^ 10))) u) u); [|intros i Hi; exact (sgpr_mv la ok 1 2 1 lin 1 ones ones _ (proj1 (lin_ok 1)) ones_nystrom u i Hi)|intros ? ?; reflexivity].
    assert (V : vnorm 2 (fun i => rad2 (SplitL ky) 2 1 i O) = sqrt 2).
    { unfold vnorm. f_equal. unfold dot. cbn [sum]. destruct ky as [[|q]|q|q]; cbn; ring. }
    unfold u. rewrite V. set (h := sqrt 2) in *. pose proof sqrt2sq as Q. fold h in Q. set (e := / 10 ^ 10) in *.
    assert (Hh : h <> 0) by (intro Z; rewrite Z in Q; unfold Rdiv in Q; rewrite Rinv_0 in Q; lra).
    assert (HH : h * h = 2) by (unfold h; apply sqrt_sqrt; lra).
    unfold dot, mv, noisy, delta. cbn [sum Nat.eqb]. fold e.
    destruct ky as [[|q]|q|q]; cbn [rad2 Nat.eqb];
      [transitivity (((2 * / (1 + e) + (1 + e)) * 2) / (h * h)); [|rewrite HH]|transitivity (((1 + e) * 2) / (h * h)); [|rewrite HH]|transitivity (((1 + e) * 2) / (h * h)); [|rewrite HH]|transitivity (((1 + e) * 2) / (h * h)); [|rewrite HH]]; cbn [pow]; field; lra. }
  fold u. rewrite HQ. rewrite Rmax_left; [cbn [INR]; ring|].
  assert (0 < 2 / (1 + / 10 ^ 10)) by (apply Rdiv_lt_0_compat; lra). generalize (match ky with Key O => true | _ => false end). intro b0. set (e := / 10 ^ 10) in *. set (f := / 10 ^ 36) in *. destruct b0; lra.
Qed.
Lemma posterior_key_refuted : forall la, linalg_ok la -> exists eigh rad normal dk opts,
  sgpr_log_posterior la eigh rad normal dk (fun _ => 0) [] opts 1 2 1 1 lin 1 ones ones ones zero_mean
  <> bind (sgpr_log_marginal_likelihood la eigh rad normal opts 1 2 1 1 lin 1 ones ones ones zero_mean) (fun l => Ok (log_posterior (fun _ => 0) l [])).
Proof.
  intros la ok. exists eigh1, rad2, (fun _ _ _ => 0), (Key 0), (LikOpts true 1 1 (Key 1) None None).
  unfold sgpr_log_posterior, sgpr_log_marginal_likelihood, log_posterior, with_default_key. cbn [o_iterative o_num_evals o_num_lanczos o_key_lanczos bind log_prior log_prior_from aadd].
  rewrite !(sgpr_error la ok eigh1 (fun _ _ _ => 0) 1 2 1 lin 1 ones ones ones zero_mean _ Nat.lt_0_2 (proj1 (lin_ok 1)) ones_nystrom).
  rewrite !est_key by auto. assert (E0 : 0 < / 10 ^ 10) by (apply Rinv_0_lt_compat, pow_lt; lra). set (e := / 10 ^ 10) in *. clearbody e.
  assert (P2 : 0 < 2 / (1 + e)) by (apply Rdiv_lt_0_compat; lra).
  assert (ln (1 + e + 0) < ln (1 + e + 2 / (1 + e))) by (apply ln_increasing; lra).
  intro H0. injection H0 as H0. cbn [INR] in H0. lra.
Qed.

(** ** an orthonormal design *)
Lemma lin_eye : forall n i j, (i < n)%nat -> kk n lin eye eye i j = delta i j.
Proof.
  intros n i j Hi. unfold lin, kk. cbn. unfold linear_fast, mm, tr. cbn [active].
  rewrite seq_length. rewrite (sum_ext n _ (fun l => delta i l * delta l j)).
  - now rewrite sum_delta_l.
  - intros l Hl. unfold gatherM, gather, eye. rewrite seq_nth by auto. cbn [Nat.add]. now rewrite (delta_sym j l).
Qed.
Lemma eye_design : forall n sigma, eigen n (noisy sigma (kk n lin eye eye)) (fun _ => 1 + (sigma ^ 2 + / 10 ^ 10)) eye /\
  at_most 1 n (fun _ => 1 + (sigma ^ 2 + / 10 ^ 10)).
Proof.
  intros n sigma. split.
  - destruct (eigen_scalar n (1 + (sigma ^ 2 + / 10 ^ 10))) as [H1 [H2 H3]]. split; [exact H1|]. split; [exact H2|].
    intros i j Hi Hj. rewrite <- (H3 i j Hi Hj). unfold mm. apply sum_ext. intros l Hl. f_equal. unfold noisy. rewrite lin_eye by auto. ring.
  - exists [1 + (sigma ^ 2 + / 10 ^ 10)]. split; [reflexivity|]. intros; now left.
Qed.
