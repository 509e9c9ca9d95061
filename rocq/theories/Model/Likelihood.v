(** Models the iterative likelihoods with their log-determinant: _gpr.py:773-822, 874-937, _sgpr.py:700-737, 787-829,
    _sgpr_rpchol.py:211-245, gpr_td.py:561-635; and the functions log_marginal_likelihood, log_posterior and their
    negatives of models/gpr.py:70-352, sgpr.py:60-306, gpr_td.py:848-943. Random draws are functions of the key. *)
From Coq Require Import Reals Arith List String.
From Verif Require Import Base.Sums Base.Mat Model.PyDict Model.State Model.Arrays Model.Kernels Model.Operations Model.LinAlg
  Model.Priors Model.GPR Model.SGPR Model.GPRTD Model.Lanczos.
Import ListNotations.
Open Scope R_scope.

(** lanczos.py:168, 103 j times `_, key = random.split(key)` *)
Fixpoint split_rest (j : nat) (k : key) : key := match j with O => k | S j => SplitR (split_rest j k) end.
(** the products built by rowfun_to_matvec, applied to an array of shape (n,) *)
Definition on_vector (matvec : Mat -> Mat) : Vec -> Vec := fun v i => matvec (fun r _ => v r) i O.

(** lanczos.py:94, 103: the vector a restart at step j draws, for the key given to lanczos_logdet *)
Definition key_draws (normal : key -> nat -> Vec) (k : key) (n : nat) : nat -> Vec :=
  fun j => normal (SplitL (split_rest j (SplitR k))) n.

(** The arguments of the likelihood functions; n_pivots and key_precond default to None. *)
Record lik_opts : Type := LikOpts { o_iterative : bool; o_num_evals : nat; o_num_lanczos : nat; o_key_lanczos : key;
  o_n_pivots : option nat; o_key_precond : option key }.

Section Likelihood.
Variable la : linalg.
(** jnp.linalg.eigh; jax.random.rademacher(key, (rows, columns)); jax.random.normal(key, (n,)); the draws of rpcholesky *)
Variable eigh : nat -> Mat -> Vec * Mat.
Variable rademacher : key -> nat -> nat -> Mat.
Variable normal : key -> nat -> Vec.
Variable choose : key -> nat -> Vec -> nat.
(** defaults.py:26 gpxargs.key_lanczos *)
Variable default_key : key.

(** lanczos.py:136-183 lanczos_logdet with its key (168: subkey, key = split(key)) *)
Definition logdet_key (matvec : Vec -> Vec) (num_evals dim_mat num_lanczos : nat) (k : key) : R :=
  lanczos_logdet eigh matvec num_evals dim_mat num_lanczos (rademacher (SplitL k) dim_mat num_evals)
    (key_draws normal k dim_mat).

(** _gpr.py:773-822 _lml_iter *)
Definition gpr_lml_iter (num_evals num_lanczos : nat) (key_lanczos : key) (n_pivots : nat) (key_precond : key)
    (m o nf : nat) (k : kexp) (sigma : R) (x y : Mat) (mean_function : nat -> nat -> Mat -> R) : R :=
  let f := fit_iter la (choose key_precond) m o nf k sigma x y mean_function n_pivots in
  let y : Mat := fun i j => y i j - snd f in
  let matvec := on_vector (Ax_lhs_fun m m nf k sigma x x true) in
  lml_iter_of m o (fst f) y (logdet_key matvec num_evals m num_lanczos key_lanczos).
(** _gpr.py:874-937 _lml_derivs_iter; y has shape (m, nv) *)
Definition gpr_lml_derivs_iter (num_evals num_lanczos : nat) (key_lanczos : key) (n_pivots : nat) (key_precond : key)
    (m nf nv : nat) (k : kexp) (sigma : R) (x : Mat) (jac : Ten) (y : Mat) (mean_function : nat -> nat -> Mat -> R) : R :=
  let f := fit_derivs_iter la (choose key_precond) m nf nv k sigma x jac y mean_function n_pivots in
  let y : Mat := fun i j => flat nv y i j - snd f in
  let matvec := on_vector (Ax_derivs_lhs_fun m m nf nv nv k sigma x jac x jac true) in
  lml_iter_of (m * nv) 1 (fst f) y (logdet_key matvec num_evals (m * nv) num_lanczos key_lanczos).
(** _sgpr.py:700-737 _lml_iter *)
Definition sgpr_lml_iter (num_evals num_lanczos : nat) (key_lanczos : key)
    (m n o nf : nat) (k : kexp) (sigma : R) (x_locs x y : Mat) (mean_function : nat -> nat -> Mat -> R) : R :=
  sg_lml_iter la m n o nf k sigma x_locs x y mean_function
    (logdet_key (on_vector (sg_Hx_fun la m n nf k sigma x_locs x)) num_evals n num_lanczos key_lanczos).
(** _sgpr.py:787-829 _lml_derivs_iter; y has shape (n, nd), both jacobians have nd columns *)
Definition sgpr_lml_derivs_iter (num_evals num_lanczos : nat) (key_lanczos : key)
    (m n nf nd : nat) (k : kexp) (sigma : R) (x_locs : Mat) (jac_locs : Ten) (x y : Mat) (jac : Ten)
    (mean_function : nat -> nat -> Mat -> R) : R :=
  let y := flat nd y in
  let mu := mean_function (n * nd)%nat 1%nat y in
  let y : Mat := fun i j => y i j - mu in
  let matvec := sg_Hx_derivs_fun la m n nf nd k sigma x_locs jac_locs x jac in
  lml_iter_of (n * nd) 1 (la_cg la (n * nd) 1 matvec y no_precond) y
    (logdet_key (on_vector matvec) num_evals (n * nd) num_lanczos key_lanczos).
(** gpr_td.py:561-635 _lml_iter; None is the shape error of the products *)
Definition td_lml_iter_key (num_evals num_lanczos : nat) (key_lanczos : key) (n_pivots : nat) (key_precond : key)
    (nf : nat) (k : kexp) (sg : td_sigma) (a : td_in) (y yd : Mat) (yd2 : option Mat)
    (mean_function : nat -> nat -> Mat -> R) : option R :=
  let matvec := on_vector (fun z => match td_Ax_lhs_fun nf k sg a a true z with Some r => r | None => z end) in
  td_lml_iter la (choose key_precond) nf k sg a y yd yd2 mean_function n_pivots
    (fun m => logdet_key matvec num_evals m num_lanczos key_lanczos).

(** gpr.py:70-120 log_marginal_likelihood; with the default n_pivots=None, key_precond=None the iterative form stops at
    jnp.zeros((n, None)) or at the choice of the pivots *)
Definition gpr_log_marginal_likelihood (opts : lik_opts) (m o nf : nat) (k : kexp) (sigma : R) (x y : Mat)
    (mean_function : nat -> nat -> Mat -> R) : result R :=
  if o_iterative opts then
    match o_n_pivots opts, o_key_precond opts with
    | Some np, Some kp => Ok (gpr_lml_iter (o_num_evals opts) (o_num_lanczos opts) (o_key_lanczos opts) np kp m o nf k sigma x y mean_function)
    | _, _ => Err TypeError
    end
  else Ok (lml_dense la m o nf k sigma x y mean_function).
(** sgpr.py:60-103 *)
Definition sgpr_log_marginal_likelihood (opts : lik_opts) (m n o nf : nat) (k : kexp) (sigma : R) (x_locs x y : Mat)
    (mean_function : nat -> nat -> Mat -> R) : result R :=
  Ok (if o_iterative opts
      then sgpr_lml_iter (o_num_evals opts) (o_num_lanczos opts) (o_key_lanczos opts) m n o nf k sigma x_locs x y mean_function
      else sg_lml_dense la m n o nf k sigma x_locs x y mean_function).
(** sgpr_rpchol.py:61-106: the inducing points are the pivots drawn with state.key *)
Definition rpchol_log_marginal_likelihood (opts : lik_opts) (state_key : key) (n_locs n o nf : nat) (k : kexp) (sigma : R) (x y : Mat)
    (mean_function : nat -> nat -> Mat -> R) : result R :=
  sgpr_log_marginal_likelihood opts n_locs n o nf k sigma (fun l => x (rp_locs (choose state_key) n nf k x n_locs l)) x y mean_function.
(** gpr.py:187-215 log_posterior: None is the broadcasting error of log_prior *)
Definition gpr_log_posterior (gammaln : R -> R) (ps : list pleaf) (opts : lik_opts) (m o nf : nat) (k : kexp) (sigma : R) (x y : Mat)
    (mean_function : nat -> nat -> Mat -> R) : result (option arr) :=
  bind (gpr_log_marginal_likelihood opts m o nf k sigma x y mean_function) (fun l => Ok (log_posterior gammaln l ps)).
(** sgpr.py:167-190, sgpr_rpchol.py:169-192 log_posterior: key_lanczos is not passed on *)
Definition with_default_key (opts : lik_opts) : lik_opts :=
  LikOpts (o_iterative opts) (o_num_evals opts) (o_num_lanczos opts) default_key (o_n_pivots opts) (o_key_precond opts).
Definition sgpr_log_posterior (gammaln : R -> R) (ps : list pleaf) (opts : lik_opts) (m n o nf : nat) (k : kexp) (sigma : R) (x_locs x y : Mat)
    (mean_function : nat -> nat -> Mat -> R) : result (option arr) :=
  bind (sgpr_log_marginal_likelihood (with_default_key opts) m n o nf k sigma x_locs x y mean_function) (fun l => Ok (log_posterior gammaln l ps)).
End Likelihood.
