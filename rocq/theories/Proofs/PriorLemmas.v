(** Proofs about priors. *)
From Coq Require Import Reals Lra List Permutation.
From Verif Require Import Model.Priors Spec.PriorSpec.
Import ListNotations.
Open Scope R_scope.

Lemma normal_exp : forall x l s, 0 < s -> exp (normal_logpdf x l s) = normal_pdf x l s.
Proof.
  intros x l s H. unfold normal_logpdf, normal_pdf. pose proof PI_RGT_0 as P.
  unfold Rminus at 1 2. rewrite !exp_plus, exp_Ropp, exp_ln by auto.
  assert (S : 0 < sqrt (2 * PI)) by (apply sqrt_lt_R0; lra).
  replace (- (/ 2 * ln (2 * PI))) with (- ln (sqrt (2 * PI))).
  - rewrite exp_Ropp, exp_ln by auto. rewrite Rinv_mult. f_equal. f_equal. field. lra.
  - f_equal. rewrite <- (sqrt_sqrt (2 * PI)) at 2 by lra. rewrite ln_mult by auto. lra.
Qed.
Lemma gamma_exp : forall (gammaln Gam : R -> R) x a b,
  (forall z, 0 < z -> exp (gammaln z) = Gam z) -> 0 < a -> 0 < b -> 0 < x ->
  exp (gamma_logpdf gammaln x a b) = gamma_pdf Gam x a b.
Proof.
  intros g G x a b Hg Ha Hb Hx. unfold gamma_logpdf, gamma_pdf, Rpower, Rdiv.
  rewrite <- Hg by auto. 
  replace (a * ln b - g a + (a - 1) * ln x - b * x)
    with (a * ln b + - g a + (a - 1) * ln x + - (b * x)) by ring.
  rewrite !exp_plus, (exp_Ropp (g a)). reflexivity.
Qed.
Lemma logpdf_exp : forall (gammaln Gam : R -> R) p x,
  (forall z, 0 < z -> exp (gammaln z) = Gam z) -> prior_dom p x ->
  exp (logpdf gammaln p x) = pdf Gam p x.
Proof.
  intros g G [l s|a b] x Hg H; simpl in *.
  - now apply normal_exp.
  - destruct H as [Ha [Hb Hx]]. now apply gamma_exp.
Qed.
Lemma log_prior_scal : forall g ps init,
  log_prior_from g (Scal init) (leaves ps)
  = Some (Scal (fold_left (fun acc q => acc + logpdf g (fst q) (snd q)) ps init)).
Proof. intros g ps. induction ps as [|q r IH]; intros; simpl; auto. Qed.
Lemma fold_left_sum : forall g (ps : list (prior * R)) i,
  fold_left (fun acc q => acc + logpdf g (fst q) (snd q)) ps i
  = i + fold_right Rplus 0 (map (fun q => logpdf g (fst q) (snd q)) ps).
Proof. intros g ps. induction ps as [|q r IH]; intros; simpl; [ring|]. rewrite IH. ring. Qed.
Lemma log_prior_sum : forall g ps,
  log_prior g (leaves ps)
  = Some (Scal (fold_right Rplus 0 (map (fun q => logpdf g (fst q) (snd q)) ps))).
Proof. intros. unfold log_prior. rewrite log_prior_scal, fold_left_sum. do 2 f_equal. ring. Qed.
Lemma log_prior_joint : forall (gammaln Gam : R -> R) ps,
  (forall z, 0 < z -> exp (gammaln z) = Gam z) ->
  Forall (fun q => prior_dom (fst q) (snd q)) ps ->
  exists r, log_prior gammaln (leaves ps) = Some (Scal r) /\ exp r = joint Gam ps.
Proof.
  intros g G ps Hg H. rewrite log_prior_sum. eexists. split; [reflexivity|].
  induction H as [|[p v] r Hq Hr IH]; simpl; [apply exp_0|].
  rewrite exp_plus, IH. f_equal. now apply logpdf_exp.
Qed.
Lemma log_prior_perm : forall g ps qs, Permutation ps qs ->
  log_prior g (leaves ps) = log_prior g (leaves qs).
Proof.
  intros g ps qs H. rewrite !log_prior_sum. do 2 f_equal.
  induction H; simpl; auto; lra.
Qed.
Lemma log_post_joint : forall (gammaln Gam : R -> R) lml ps,
  (forall z, 0 < z -> exp (gammaln z) = Gam z) ->
  Forall (fun q => prior_dom (fst q) (snd q)) ps ->
  exists r, log_posterior gammaln lml (leaves ps) = Some (Scal r) /\ exp r = exp lml * joint Gam ps.
Proof.
  intros g G l ps Hg H. destruct (log_prior_joint g G ps Hg H) as [r [E1 E2]].
  unfold log_posterior. rewrite E1. exists (l + r). split; auto. now rewrite exp_plus, E2.
Qed.
(** A parameter with a vector value: the result is a vector holding one logpdf per component. *)
Lemma log_prior_vec : forall g p v,
  log_prior g [PLeaf (Vect v) p] = Some (Vect (map (logpdf g p) v)).
Proof.
  intros. unfold log_prior. simpl. do 2 f_equal. rewrite map_map. apply map_ext. intros. ring.
Qed.
(** Two vector parameters of different lengths raise a shape error. *)
Lemma log_prior_err : forall g p q v w, length v <> length w -> (2 <= length v)%nat -> (2 <= length w)%nat ->
  log_prior g [PLeaf (Vect v) p; PLeaf (Vect w) q] = None.
Proof.
  intros g p q v w H Hv Hw. unfold log_prior. simpl. rewrite !map_length.
  destruct (Nat.eqb_spec (length v) (length w)); [contradiction|].
  destruct v as [|a [|b v]]; simpl in Hv; try (exfalso; inversion Hv as [|? Q]; inversion Q; fail).
  destruct w as [|c [|d w]]; simpl in Hw; try (exfalso; inversion Hw as [|? Q]; inversion Q; fail).
  reflexivity.
Qed.
