(** Facts about Model/Sampling.v. *)
From Coq Require Import Reals Arith List String Lia Lra.
From Verif Require Import Base.Sums Base.Mat Base.PSD Model.PyDict Model.State Model.Arrays Model.Kernels Model.Operations Model.LinAlg
  Model.GPR Model.SGPR Model.Sampling Spec.KernelSpec Spec.RandomSpec Spec.SamplingSpec Spec.LanczosSpec Spec.GPSpec
  Proofs.KernelSym Proofs.KernelDerivs Proofs.KernelPropLemmas Proofs.JetPSD Proofs.GPRFacts Proofs.GPRCov Proofs.LanczosLogdet
  Proofs.SGPRPack Proofs.SGPRExamples.
Import ListNotations.
Open Scope R_scope.

(** ** structure of the result *)
Section Structure.
Variables (la : linalg) (normal : key -> nat -> nat -> Mat).
Lemma mvn_ok : forall k n v C s,
  multivariate_normal la normal k n v (Cov n C) (Some s)
  = Ok (Sampled [s; n] (fun t i => v i + sum n (fun j => la_chol la n C i j * normal k s n t j))).
Proof. intros. unfold multivariate_normal. cbn [c_dim c_data]. now rewrite Nat.eqb_refl. Qed.
Lemma mvn_err : forall k n v cov s, c_dim cov <> n -> multivariate_normal la normal k n v cov s = Err ValueError.
Proof. intros. unfold multivariate_normal. destruct (Nat.eqb_spec (c_dim cov) n); congruence. Qed.
Lemma right_S : forall d k, right d (SplitR k) = right (S d) k.
Proof. induction d; intro; cbn [right]; [reflexivity|]. now rewrite IHd. Qed.
Lemma columns_last : forall l k n v C s d acc,
  sample_columns la normal (l ++ [d]) k n v (Cov n C) s acc
  = Ok (Sampled [s; n] (fun t i => v i d + sum n (fun j => la_chol la n C i j * normal (right (S (List.length l)) k) s n t j))).
Proof.
  induction l as [|e l IH]; intros; cbn [app sample_columns List.length].
  - now rewrite mvn_ok.
  - rewrite mvn_ok. cbn [bind]. rewrite IH. rewrite right_S. reflexivity.
Qed.
Lemma sample_last : forall k n p v C s,
  sample la normal k (Mean2 n (S p) v) (Cov n C) s
  = Ok (Sampled [s; n] (fun t i => v i p + sum n (fun j => la_chol la n C i j * normal (right (S p) k) s n t j))).
Proof.
  intros. unfold sample. rewrite seq_S, columns_last, seq_length. reflexivity.
Qed.
Lemma sample_no_column : forall k n v cov s, sample la normal k (Mean2 n 0 v) cov s = Err UnboundLocalError.
Proof. reflexivity. Qed.
Lemma sample_mismatch : forall k n p v cov s, c_dim cov <> n -> sample la normal k (Mean2 n (S p) v) cov s = Err ValueError.
Proof. intros. unfold sample. cbn [seq sample_columns]. now rewrite mvn_err. Qed.
Lemma sample_vector : forall k n v C s, exists z : Mat,
  sample la normal k (Mean1 n v) (Cov n C) s = Ok (Sampled [n] z).
Proof. intros. unfold sample, multivariate_normal. cbn [c_dim c_data]. rewrite Nat.eqb_refl. eauto. Qed.
End Structure.

(** ** moments *)
Section Moments.
Context {W : Type}.
Variable E : (W -> R) -> R.
Hypothesis HE : averaging E.
Lemma E_ext : forall f g, (forall w, f w = g w) -> E f = E g. Proof. exact (proj1 HE). Qed.
Lemma E_plus : forall f g, E (fun w => f w + g w) = E f + E g. Proof. exact (proj1 (proj2 HE)). Qed.
Lemma E_scal : forall c f, E (fun w => c * f w) = c * E f. Proof. exact (proj1 (proj2 (proj2 HE))). Qed.
Lemma E_const : forall c, E (fun _ => c) = c.
Proof.
  intro. rewrite (E_ext _ (fun _ => c * 1)) by (intro; ring). rewrite E_scal, (proj2 (proj2 (proj2 HE))). ring.
Qed.
Lemma E_sum : forall n (f : nat -> W -> R), E (fun w => sum n (fun i => f i w)) = sum n (fun i => E (f i)).
Proof. induction n; intro f; cbn [sum]; [apply E_const|]. rewrite E_plus, IHn. reflexivity. Qed.

Lemma affine_moments : forall r n (z : W -> Mat) (L : Mat) (mu : Vec) C, white E r n z -> meq n n (mm n L (tr L)) C ->
  let X := fun w s i => mu i + sum n (fun j => L i j * z w s j) in
  (forall s i, (s < r)%nat -> (i < n)%nat -> E (fun w => X w s i) = mu i) /\
  (forall s t i j, (s < r)%nat -> (t < r)%nat -> (i < n)%nat -> (j < n)%nat ->
     E (fun w => (X w s i - mu i) * (X w t j - mu j)) = delta s t * C i j).
Proof.
  intros r n z L mu C [W1 W2] HL X. split.
  - intros s i Hs Hi. unfold X. rewrite E_plus, E_const, E_sum.
    rewrite (sum_zero_ext n); [ring|]. intros j Hj. rewrite E_scal, W1 by auto. ring.
  - intros s t i j Hs Ht Hi Hj. unfold X.
    rewrite (E_ext _ (fun w => sum n (fun a => sum n (fun b => L i a * L j b * (z w s a * z w t b))))).
    + rewrite (E_sum n (fun a w => sum n (fun b => L i a * L j b * (z w s a * z w t b)))).
      rewrite (sum_ext n _ (fun a => delta s t * (L i a * L j a))).
      * rewrite sum_scal_l, <- (HL i j Hi Hj). reflexivity.
      * intros a Ha. rewrite (E_sum n (fun b w => L i a * L j b * (z w s a * z w t b))).
        rewrite (sum_ext n _ (fun b => (delta s t * L i a) * (delta a b * L j b))).
        -- rewrite sum_scal_l, sum_delta_l by auto. ring.
        -- intros b Hb. rewrite E_scal, W2 by auto. ring.
    + intro w. replace (mu i + sum n (fun j0 => L i j0 * z w s j0) - mu i) with (sum n (fun j0 => L i j0 * z w s j0)) by ring.
      replace (mu j + sum n (fun j0 => L j j0 * z w t j0) - mu j) with (sum n (fun j0 => L j j0 * z w t j0)) by ring.
      rewrite <- sum_scal_r. apply sum_ext. intros a _. rewrite <- sum_scal_l. apply sum_ext. intros; ring.
Qed.

Variable la : linalg.
Hypothesis ok : linalg_ok la.
Variable normal : W -> key -> nat -> nat -> Mat.
Lemma sample_draws : forall k n p v C s, sym n C -> pd n C ->
  white E s n (fun w => normal w (right (S p) k) s n) ->
  draws E s n (fun i => v i p) C (fun w => sample la (normal w) k (Mean2 n (S p) v) (Cov n C) s).
Proof.
  intros k n p v C s HS HP Hw.
  exists (fun w t i => v i p + sum n (fun j => la_chol la n C i j * normal w (right (S p) k) s n t j)).
  split; [intro; apply sample_last|].
  exact (affine_moments s n _ (la_chol la n C) (fun i => v i p) C Hw (proj2 (proj2 (ok_chol la ok n C HS HP)))).
Qed.
(** the covariance matters up to its entries *)
Lemma draws_ext : forall r n mu C C' res, meq n n C C' -> draws E r n mu C res -> draws E r n mu C' res.
Proof.
  intros r n mu C C' res H [X [H1 [H2 H3]]]. exists X. repeat split; auto. intros. rewrite <- (H i j) by auto. now apply H3.
Qed.

Section Kernel.
Variables (nf : nat) (k : kexp).
Hypothesis HP : all_atoms (fun _ a => psd_atom a) k.
Lemma prior_gpr : forall key n sigma x s, (0 < nf)%nat ->
  white E s n (fun w => normal w (right nf key) s n) ->
  draws E s n (fun _ => 0) (noisy sigma (kk nf k x x))
    (fun w => gpr_sample_prior la (normal w) key n nf k sigma x s).
Proof.
  intros key n sigma x s Hf Hw. destruct nf as [|p]; [lia|]. unfold gpr_sample_prior, zeros2.
  apply (draws_ext s n (fun _ => 0) (A_lhs (S p) k sigma x x true)); [|apply (sample_draws key n p (fun _ _ => 0)); auto].
  - intros i j _ _. unfold A_lhs, noisy. apply add_diag_entry.
  - apply sym_add_diag. intros i j _ _. apply kk_sym.
  - apply pd_add_diag; [now apply kk_psd|exact (noise_pos sigma)].
Qed.
Lemma prior_sgpr : forall key n sigma x s, (0 < nf)%nat -> 0 <= sigma ->
  white E s n (fun w => normal w (right nf key) s n) ->
  draws E s n (fun _ => 0) (fun i j => kk nf k x x i j + (sigma + / 10 ^ 10) * delta i j)
    (fun w => sgpr_sample_prior la (normal w) key n nf k sigma x s).
Proof.
  intros key n sigma x s Hf Hs Hw. destruct nf as [|p]; [lia|]. unfold sgpr_sample_prior, zeros2.
  assert (J : 0 < / 10 ^ 10) by (apply Rinv_0_lt_compat, pow_lt; lra).
  assert (M : meq n n (add_diag (sigma + / 10 ^ 10) (kk (S p) k x x)) (fun i j => kk (S p) k x x i j + sigma * delta i j + jit10 * delta i j)).
  { intros i j _ _. rewrite add_diag_entry. unfold jit10. ring. }
  apply (draws_ext s n (fun _ => 0) (fun i j => kk (S p) k x x i j + sigma * delta i j + jit10 * delta i j)); [|apply (sample_draws key n p (fun _ _ => 0)); auto].
  - intros i j _ _. unfold jit10. ring.
  - eapply sym_ext; [apply M|]. apply sym_add_diag. intros i j _ _. apply kk_sym.
  - eapply pd_ext; [apply M|]. apply pd_add_diag; [now apply kk_psd|lra].
Qed.
Lemma posterior_gpr : forall key m n o sigma xt x c mu s,
  white E s n (fun w => normal w (right (S o) key) s n) ->
  draws E s n (fun i => predict_dense m nf k sigma xt x c mu i o)
    (fun i j => predict_cov la m nf k sigma xt x i j + / 10 ^ 10 * delta i j)
    (fun w => sample_posterior la (normal w) key true (Ok (gpr_prediction la m n (S o) nf k sigma xt x c mu)) s).
Proof.
  intros. unfold sample_posterior, gpr_prediction. cbn [bind fst snd add_jitter c_dim c_data].
  assert (J : 0 < / 10 ^ 10) by (apply Rinv_0_lt_compat, pow_lt; lra).
  assert (M : meq n n (add_diag (/ 10 ^ 10) (predict_cov la m nf k sigma xt x)) (fun i j => predict_cov la m nf k sigma xt x i j + jit10 * delta i j)).
  { intros i j _ _. now rewrite add_diag_entry. }
  apply sample_draws; auto.
  - eapply sym_ext; [apply M|]. apply sym_add_diag. now apply predict_cov_sym.
  - eapply pd_ext; [apply M|]. apply pd_add_diag; [now apply predict_cov_psd|lra].
Qed.
Lemma posterior_sgpr : forall key m n o sigma xl x c mu s,
  white E s n (fun w => normal w (right (S o) key) s n) ->
  draws E s n (fun i => sg_predict_dense m nf k xl x c mu i o)
    (fun i j => sg_predict_cov la m n nf k sigma xl x i j + / 10 ^ 10 * delta i j)
    (fun w => sample_posterior la (normal w) key true (Ok (sgpr_prediction la m n (S o) nf k sigma xl x c mu)) s).
Proof.
  intros. unfold sample_posterior, sgpr_prediction. cbn [bind fst snd add_jitter c_dim c_data].
  assert (J : 0 < / 10 ^ 10) by (apply Rinv_0_lt_compat, pow_lt; lra).
  assert (M : meq n n (add_diag (/ 10 ^ 10) (sg_predict_cov la m n nf k sigma xl x)) (fun i j => sg_predict_cov la m n nf k sigma xl x i j + jit10 * delta i j)).
  { intros i j _ _. now rewrite add_diag_entry. }
  destruct (sg_predict_cov_order la ok nf k HP sigma m n xl x) as [S1 [S2 _]].
  apply sample_draws; auto.
  - eapply sym_ext; [apply M|]. now apply sym_add_diag.
  - eapply pd_ext; [apply M|]. apply pd_add_diag; [auto|lra].
Qed.
Hypothesis HW : wf nf k.
Hypothesis HL : ls_nonzero k.
Hypothesis HD : dgram_ok k.
Lemma posterior_derivs_gpr : forall key m n nv nd sigma xt jt x jac c mu s,
  white E s (n * nd) (fun w => normal w (right 1 key) s (n * nd)%nat) ->
  draws E s (n * nd) (fun i => predict_derivs_dense m n nf nv nd k sigma xt jt x jac c mu (i / nd)%nat (i mod nd)%nat)
    (fun i j => predict_derivs_cov la m n nf nv nd k sigma xt jt x jac i j + / 10 ^ 10 * delta i j)
    (fun w => sample_posterior la (normal w) key true (Ok (gpr_prediction_derivs la m n nf nv nd k sigma xt jt x jac c mu)) s).
Proof.
  intros. unfold sample_posterior, gpr_prediction_derivs. cbn [bind fst snd add_jitter c_dim c_data].
  assert (J : 0 < / 10 ^ 10) by (apply Rinv_0_lt_compat, pow_lt; lra).
  set (P := predict_derivs_cov la m n nf nv nd k sigma xt jt x jac).
  assert (M : meq (n * nd) (n * nd) (add_diag (/ 10 ^ 10) P) (fun i j => P i j + jit10 * delta i j)).
  { intros i j _ _. now rewrite add_diag_entry. }
  match goal with |- draws _ _ _ ?f _ _ => assert (D : forall i, (i < n * nd)%nat -> f i =
    (fun t => mu + mm (m * nv) (tr (A_derivs_lhs m n nf nv nd k sigma xt jt x jac false)) c t O) i) end.
  { intros i Hi. unfold predict_derivs_dense, unflat. replace (i / nd * nd + i mod nd)%nat with i; [reflexivity|].
    rewrite Nat.mul_comm. apply Nat.div_mod. intro; subst; lia. }
  assert (Q : draws E s (n * nd) (fun t => mu + mm (m * nv) (tr (A_derivs_lhs m n nf nv nd k sigma xt jt x jac false)) c t O)
    (fun i j => P i j + jit10 * delta i j)
    (fun w => sample la (normal w) key (Mean2 (n * nd) 1 (fun t j => mu + mm (m * nv) (tr (A_derivs_lhs m n nf nv nd k sigma xt jt x jac false)) c t j)) (Cov (n * nd) (fun i j => P i j + jit10 * delta i j)) s)).
  { apply sample_draws; auto.
    - eapply sym_ext; [apply M|]. apply sym_add_diag. now apply predict_derivs_cov_sym.
    - eapply pd_ext; [apply M|]. apply pd_add_diag; [now apply predict_derivs_cov_psd|lra]. }
  destruct Q as [X [Q1 [Q2 Q3]]]. exists X. split; [exact Q1|]. split.
  - intros. rewrite D by auto. now apply Q2.
  - intros. rewrite (D i), (D j) by auto. now apply Q3.
Qed.
End Kernel.
End Moments.

(** ** derivative priors *)
Lemma prior_derivs_raise : forall la normal key n nf nv k sigma x jac s, (0 < nf)%nat ->
  (gpr_sample_prior_derivs la normal key n nf nv k sigma x jac s = Err ValueError <-> (0 < n)%nat /\ nv <> 1%nat) /\
  (sgpr_sample_prior_derivs la normal key n nf nv k sigma x jac s = Err ValueError <-> (0 < n)%nat /\ nv <> 1%nat).
Proof.
  intros la normal key n nf nv k sigma x jac s Hf. destruct nf as [|p]; [lia|].
  unfold gpr_sample_prior_derivs, sgpr_sample_prior_derivs, zeros2.
  destruct (Nat.eq_dec (n * nv) n) as [Q|Q].
  - rewrite Q, !sample_last. split; (split; [discriminate|intros [? ?]; exfalso; nia]).
  - rewrite !sample_mismatch by exact Q. split; (split; [|reflexivity]); intros _; nia.
Qed.

(** ** an example of averaging: uniform signs *)
Definition sign_E (r n : nat) (F : Mat -> R) : R := probe_mean r n (fun M => F (tr M)).
Lemma probe_mean_two : forall p n b c i j, (b < p)%nat -> (c < p)%nat -> b <> c -> (i < n)%nat -> (j < n)%nat ->
  probe_mean p n (fun M => M i b * M j c) = 0.
Proof.
  induction p; intros n b c i j Hb Hc D Hi Hj; [lia|]. cbn [probe_mean].
  transitivity (probe_mean p n (fun M => if Nat.eqb b p then 0 else if Nat.eqb c p then 0 else M i b * M j c)).
  - apply probe_mean_ext. intros M _. destruct (Nat.eqb_spec b p) as [->|Db].
    + destruct (Nat.eqb_spec c p) as [->|_]; [congruence|].
      rewrite (sign_mean_ext n _ (fun s => M j c * s i)) by (intros; ring). now apply sign_mean_one.
    + destruct (Nat.eqb_spec c p) as [->|_]; [now apply sign_mean_one|apply sign_mean_const].
  - destruct (Nat.eqb_spec b p); [apply probe_mean_const|]. destruct (Nat.eqb_spec c p); [apply probe_mean_const|]. apply IHp; lia.
Qed.
Lemma sign_averaging : forall r n, averaging (sign_E r n).
Proof.
  intros r n. unfold sign_E. repeat split.
  - intros f g H. apply probe_mean_ext. intros. apply H.
  - intros f g. apply (probe_mean_plus r n (fun M => f (tr M)) (fun M => g (tr M))).
  - intros c f. apply (probe_mean_scal r n c (fun M => f (tr M))).
  - apply probe_mean_const.
Qed.
Lemma sign_white : forall r n, white (sign_E r n) r n (fun M => M).
Proof.
  intros r n. split.
  - intros s i Hs Hi. unfold sign_E, tr. rewrite (probe_mean_col r n s (fun v => v i) Hs).
    rewrite (sign_mean_ext n _ (fun v => 1 * v i)) by (intros; ring). now apply sign_mean_one.
  - intros s t i j Hs Ht Hi Hj. unfold sign_E, tr. destruct (Nat.eq_dec s t) as [<-|D].
    + rewrite (probe_mean_col r n s (fun v => v i * v j) Hs). setoid_rewrite (sign_mean_two n i j Hi Hj).
      unfold delta at 2. rewrite Nat.eqb_refl. ring.
    + rewrite probe_mean_two by auto. unfold delta at 1. destruct (Nat.eqb_spec s t); [contradiction|]. ring.
Qed.
Lemma draws_unique : forall W (E : (W -> R) -> R) r n mu C C' res, averaging E -> (0 < r)%nat ->
  draws E r n mu C res -> draws E r n mu C' res -> meq n n C C'.
Proof.
  intros W E r n mu C C' res HE Hr [X [H1 [_ H3]]] [X' [H1' [_ H3']]] i j Hi Hj.
  specialize (H3 O O i j Hr Hr Hi Hj). specialize (H3' O O i j Hr Hr Hi Hj).
  rewrite (proj1 HE _ (fun w => (X' w O i - mu i) * (X' w O j - mu j))) in H3.
  - rewrite H3 in H3'. unfold delta in H3'. cbn [Nat.eqb] in H3'. lra.
  - intro w. specialize (H1 w). rewrite H1' in H1. now injection H1 as ->.
Qed.
Lemma prior_sgpr_not_noisy : forall W (E : (W -> R) -> R), averaging E -> forall la, linalg_ok la ->
  forall (normal : W -> key -> nat -> nat -> Mat) nf k, all_atoms (fun _ a => psd_atom a) k ->
  forall key n sigma x s, (0 < nf)%nat -> (0 < n)%nat -> (0 < s)%nat -> 0 < sigma -> sigma <> 1 ->
  white E s n (fun w => normal w (right nf key) s n) ->
  ~ draws E s n (fun _ => 0) (noisy sigma (kk nf k x x)) (fun w => sgpr_sample_prior la (normal w) key n nf k sigma x s).
Proof.
  intros W E HE la ok normal nf k HP key n sigma x s Hf Hn Hs Hp H1 Hw D.
  pose proof (prior_sgpr E HE la ok normal nf k HP key n sigma x s Hf (Rlt_le _ _ Hp) Hw) as D'.
  pose proof (draws_unique W E s n _ _ _ _ HE Hs D D' O O Hn Hn) as Q. unfold noisy, delta in Q. cbn [Nat.eqb] in Q.
  assert (sigma * (sigma - 1) = 0) by nra. apply Rmult_integral in H as [H|H]; lra.
Qed.
Lemma sample_last_column : forall la normal k n p v v' C s, (forall i, (i < n)%nat -> v i p = v' i p) -> exists X X',
  sample la normal k (Mean2 n (S p) v) (Cov n C) s = Ok (Sampled [s; n] X) /\
  sample la normal k (Mean2 n (S p) v') (Cov n C) s = Ok (Sampled [s; n] X') /\ forall t i, (i < n)%nat -> X t i = X' t i.
Proof.
  intros la normal k n p v v' C s H. rewrite !sample_last. do 2 eexists. repeat split. intros t i Hi. cbv beta. now rewrite H.
Qed.
Lemma unfitted_raises : forall la normal key prediction s prior,
  model_sample "posterior" prior (sample_posterior la normal key false prediction s) = Err RuntimeError /\
  forall kind posterior, kind <> "prior"%string -> kind <> "posterior"%string -> model_sample kind prior posterior = Err ValueError.
Proof.
  intros. split; [reflexivity|]. intros kind posterior H1 H2. unfold model_sample.
  apply String.eqb_neq in H1. apply String.eqb_neq in H2. now rewrite H1, H2.
Qed.
