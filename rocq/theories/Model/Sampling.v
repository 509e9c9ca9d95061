(** Models gpx/models/utils.py:55-74 sample, the functions sample_* of models/gpr.py, sgpr.py and sgpr_rpchol.py and
    BaseGP.sample, sample_derivs (models/base.py:99-161). *)
From Coq Require Import Reals Arith List String.
From Verif Require Import Base.Sums Base.Mat Model.PyDict Model.State Model.Arrays Model.Kernels Model.Operations Model.LinAlg Model.GPR Model.SGPR.
Import ListNotations.
Open Scope R_scope.

(** an array of one dimension (row 0) or two *)
Record sampled : Type := Sampled { s_shape : list nat; s_data : Mat }.
Inductive mean_array : Type := Mean1 (n : nat) (v : Vec) | Mean2 (n p : nat) (v : Mat).
(** a square array of dimension q *)
Record cov_array : Type := Cov { c_dim : nat; c_data : Mat }.

Section Sample.
Variable la : linalg.
(** jax.random.normal(key, (rows, columns)); a one-dimensional request has one row *)
Variable normal : key -> nat -> nat -> Mat.

(** jax.random.multivariate_normal, method "cholesky" (library, jax/_src/random.py); rows = 1 also stands for shape=None *)
Definition multivariate_normal (k : key) (n : nat) (mean : Vec) (cov : cov_array) (shape : option nat) : result sampled :=
  if Nat.eqb (c_dim cov) n then
    let factor := la_chol la n (c_data cov) in
    let z := normal k (match shape with Some s => s | None => 1%nat end) n in
    Ok (Sampled (match shape with Some s => [s; n] | None => [n] end)
         (fun s i => mean i + sum n (fun j => factor i j * z s j)))
  else Err ValueError.

(** utils.py:61-71 the loop over the columns of the mean; the local variable sample is unbound at first *)
Fixpoint sample_columns (cols : list nat) (k : key) (n : nat) (mean : Mat) (cov : cov_array) (n_samples : nat)
    (sample : option sampled) : result sampled :=
  match cols with
  | [] => match sample with Some s => Ok s | None => Err UnboundLocalError end
  | d :: r => let k := SplitR k in
      bind (multivariate_normal k n (fun i => mean i d) cov (Some n_samples)) (fun s =>
        sample_columns r k n mean cov n_samples (Some s))
  end.
(** utils.py:55-74 sample *)
Definition sample (k : key) (mean : mean_array) (cov : cov_array) (n_samples : nat) : result sampled :=
  match mean with
  | Mean2 n p v => sample_columns (seq 0 p) k n v cov n_samples None
  | Mean1 n v => multivariate_normal k n v cov None
  end.

(** cov + 1e-10 * eye *)
Definition add_jitter (cov : cov_array) : cov_array := Cov (c_dim cov) (fun i j => c_data cov i j + jit10 * delta i j).
Definition zeros2 (n p : nat) : mean_array := Mean2 n p (fun _ _ => 0).

(** gpr.py:761-780 sample_prior, x of shape (n, nf) *)
Definition gpr_sample_prior (key : key) (n nf : nat) (k : kexp) (sigma : R) (x : Mat) (n_samples : nat) : result sampled :=
  sample key (zeros2 n nf) (Cov n (A_lhs nf k sigma x x true)) n_samples.
(** gpr.py:783-806 sample_prior_derivs, jacobian of shape (n, nf, nv) *)
Definition gpr_sample_prior_derivs (key : key) (n nf nv : nat) (k : kexp) (sigma : R) (x : Mat) (jac : Ten) (n_samples : nat)
    : result sampled :=
  sample key (zeros2 n nf) (Cov (n * nv) (A_derivs_lhs n n nf nv nv k sigma x jac x jac true)) n_samples.
(** sgpr.py:564-589, sgpr_rpchol.py:577-602 sample_prior *)
Definition sgpr_sample_prior (key : key) (n nf : nat) (k : kexp) (sigma : R) (x : Mat) (n_samples : nat) : result sampled :=
  sample key (zeros2 n nf) (Cov n (fun i j => kk nf k x x i j + sigma * delta i j + jit10 * delta i j)) n_samples.
(** sgpr.py:592-619, sgpr_rpchol.py:605-632 sample_prior_derivs *)
Definition sgpr_sample_prior_derivs (key : key) (n nf nv : nat) (k : kexp) (sigma : R) (x : Mat) (jac : Ten) (n_samples : nat)
    : result sampled :=
  sample key (zeros2 n nf) (Cov (n * nv) (fun i j => d01kj n n nf nv nv k x x jac jac i j + sigma * delta i j + jit10 * delta i j)) n_samples.
(** gpr.py:809-832, sgpr.py:622-645, sgpr_rpchol.py:635-658 sample_posterior; prediction is the result of
    predict(state, x, full_covariance=True). sample_posterior_derivs (gpr.py:835-860, sgpr.py:648-673, sgpr_rpchol.py:661-686)
    is the same with is_fitted_derivs and predict_derivs. *)
Definition sample_posterior (key : key) (is_fitted : bool) (prediction : result (mean_array * cov_array)) (n_samples : nat)
    : result sampled :=
  if is_fitted then bind prediction (fun r => sample key (fst r) (add_jitter (snd r)) n_samples) else Err RuntimeError.
(** what _predict_dense and _predict_derivs_dense return for full_covariance=True: derivatives are not reshaped
    (_gpr.py:563-564) *)
Definition gpr_prediction (m n o nf : nat) (k : kexp) (sigma : R) (x_train x c : Mat) (mu : R) : mean_array * cov_array :=
  (Mean2 n o (predict_dense m nf k sigma x_train x c mu), Cov n (predict_cov la m nf k sigma x_train x)).
Definition gpr_prediction_derivs (m n nf nv nd : nat) (k : kexp) (sigma : R) (x_train : Mat) (jac_train : Ten) (x : Mat)
    (jac : Ten) (c : Mat) (mu : R) : mean_array * cov_array :=
  (Mean2 (n * nd) 1 (fun t j => mu + mm (m * nv) (tr (A_derivs_lhs m n nf nv nd k sigma x_train jac_train x jac false)) c t j),
   Cov (n * nd) (predict_derivs_cov la m n nf nv nd k sigma x_train jac_train x jac)).
Definition sgpr_prediction (m n o nf : nat) (k : kexp) (sigma : R) (x_locs x c : Mat) (mu : R) : mean_array * cov_array :=
  (Mean2 n o (sg_predict_dense m nf k x_locs x c mu), Cov n (sg_predict_cov la m n nf k sigma x_locs x)).
(** base.py:99-128 sample and 130-161 sample_derivs *)
Definition model_sample (kind : string) (prior posterior : result sampled) : result sampled :=
  if String.eqb kind "prior" then prior else if String.eqb kind "posterior" then posterior else Err ValueError.
End Sample.
