(** What training maximises: log densities of the data, written with the kernel function. *)
From Coq Require Import List String Reals Arith.
From Verif Require Import Base.Sums Base.Mat Model.Arrays Model.Kernels Model.RPCholesky Model.Params Model.State Model.Optim Model.Lifecycle Model.KernelObj
  Model.Priors Model.Bijectors Spec.KernelSpec Spec.GPSpec Spec.SparseSpec Spec.MVN Spec.PriorSpec Spec.StateSpec Spec.RandomSpec Spec.OptimSpec Spec.KernelObjSpec Spec.ConcreteSpec.
Import ListNotations.
Open Scope R_scope.

(** v is, per sample, the log density of r under the normal distribution with mean 0 and covariance A *)
Definition log_density (n : nat) (A : Mat) (r : Vec) (v : R) : Prop :=
  exists b, veq n (mv n A b) r /\ INR n * v = ln (mvn_pdf n A r b).
(** k(x_i, z_j) *)
Definition cross (nf : nat) (k : kexp) (x z : Mat) : Mat := fun i j => kernel_at nf k (x i) (z j).
(** targets y of shape (m, 1) minus the mean function *)
Definition residual (m : nat) (mf : nat -> nat -> Mat -> R) (y : array) : Vec := fun i => entry y i O - mf m 1%nat (entry y).
(** the score of a state of GPR, with the kernel and the noise its parameters hold *)
Definition gpr_score (ko : kobj) (nf m : nat) (mf : nat -> nat -> Mat -> R) (x y : array) (s : state) (v : R) : Prop :=
  exists k sg, holds ko s k sg /\ log_density m (noisy sg (cross nf k (entry x) (entry x))) (residual m mf y) v.
(** of GPR on derivatives of shape (m, nv): covariance between derivatives v at sample s, w at sample t; mean zero *)
Definition gpr_score_derivs (ko : kobj) (nf nv m : nat) (x y j : array) (s : state) (v : R) : Prop :=
  exists k sg, holds ko s k sg /\
  log_density (m * nv) (noisy sg (d01kj m m nf nv nv k (entry x) (entry x) (entry3 j) (entry3 j)))
    (fun r => entry y (r / nv)%nat (r mod nv)%nat) v.
(** of a sparse model with inducing points xl: the covariance is K_nm (K_mm + 1e-10)^-1 K_mn *)
Definition sparse_score (ko : kobj) (nf nl n : nat) (mf : nat -> nat -> Mat -> R) (xl : Mat) (x y : array) (s : state) (v : R) : Prop :=
  exists k sg M, holds ko s k sg /\ nystrom nl n (cross nf k xl xl) (cross nf k xl (entry x)) M /\
  log_density n (noisy sg M) (residual n mf y) v.
(** of SGPR: the inducing points are a parameter *)
Definition sgpr_score (ko : kobj) (nf nl n : nat) (mf : nat -> nat -> Mat -> R) (x y : array) (s : state) (v : R) : Prop :=
  exists xl, lookup ["x_locs"%string] (s_params s) = Some (Some xl) /\ shaped [nl; nf] (p_value xl) /\
  sparse_score ko nf nl n mf (entry (p_value xl)) x y s v.
(** of SGPR_RPChol: the inducing points are the samples picked by the randomly pivoted Cholesky factorisation with the
    same kernel *)
Definition rp_score (ko : kobj) (keyed : nat -> Vec -> nat) (nf nl n : nat) (mf : nat -> nat -> Mat -> R) (x y : array) (s : state) (v : R) : Prop :=
  exists k sg M, holds ko s k sg /\
  let xl : Mat := fun i => entry x (snd (rpcholesky keyed n nf (entry x) nl k) i) in
  nystrom nl n (cross nf k xl xl) (cross nf k xl (entry x)) M /\ log_density n (noisy sg M) (residual n mf y) v.
(** the log density of the parameters under their priors; all parameters are numbers *)
Definition prior_score (gammaln : R -> R) (s : state) (w : R) : Prop :=
  exists rs, Forall2 (fun p r => a_shape (p_value p) = [] /\ a_data (p_value p) = [Some r]) (params_of (s_params s)) rs /\
  let ps := combine (map (fun p => pr_dist (m_prior (p_meta p))) (params_of (s_params s))) rs in
  forall Gam, (forall z, 0 < z -> exp (gammaln z) = Gam z) -> Forall (fun q => prior_dom (fst q) (snd q)) ps -> exp w = joint Gam ps.
(** the score of the data plus that of the parameters *)
Definition posterior_score (gammaln : R -> R) (score : state -> R -> Prop) (s : state) (v : R) : Prop :=
  exists a b, score s a /\ prior_score gammaln s b /\ v = a + b.
(** which losses are meant for which data, and what they are minus of *)
Definition loss_for (t : task) (l : library_loss) : Prop :=
  match t, l with TTargets, NLML | TTargets, NLP | TDerivs, NLMLDerivs | TDerivs, NLPDerivs => True | _, _ => False end.
Definition with_prior (l : library_loss) : bool := match l with NLP | NLPDerivs => true | _ => false end.
Definition total_score (gammaln : R -> R) (l : library_loss) (score : state -> R -> Prop) : state -> R -> Prop :=
  if with_prior l then posterior_score gammaln score else score.
(** every parameter is a single number *)
Definition all_numbers (t : ptree) : Prop :=
  every (fun o => match o with Some p => a_shape (p_value p) = [] /\ exists r, a_data (p_value p) = [Some r] | None => True end) t.

(** an optimiser that proposes vectors of numbers like its starting point, and in the end answers with one *)
Definition like_start (x0 x : array) : Prop :=
  all_real x /\ a_dtype x = a_dtype x0 /\ List.length (a_data x) = List.length (a_data x0).
Inductive proposes {A : Type} (x0 : array) : strategy A array -> Prop :=
| P_done : forall x, like_start x0 x -> proposes x0 (Done x)
| P_ask : forall x k, like_start x0 x -> (forall a, proposes x0 (k a)) -> proposes x0 (Ask x k).
(** the keyword arguments a user may add for the loss *)
Definition loss_names : list string := ["iterative"; "num_evals"; "num_lanczos"; "key_lanczos"]%string.
(** trainable parameters are arrays of numbers in the range of their bijectors, of which none is a SoftMinMax (within
    1e-300 of its lower end it maps to no number, C21) *)
Definition startable (t : ptree) : Prop :=
  on_trainable (fun p => List.length (a_data (p_value p)) = size_of (a_shape (p_value p)) /\ legal (m_bijector (p_meta p)) (p_value p) /\
    match m_bijector (p_meta p) with SoftMinMax _ _ => False | _ => True end) t.
(** fit(x, y, minimize=True, iterative=False, ...) with such an optimiser, and a key if there are restarts *)
Definition trains (a : fit_args) (strat : array -> strategy (num * array) array) : Prop :=
  a_minimize a = Some strat /\ (forall x0, all_real x0 -> proposes x0 (strat x0)) /\ (a_key a <> None \/ a_restarts a = O) /\
  o_iterative (a_options a) = false /\ forall k, In k (map fst (a_loss_kwargs a)) -> In k loss_names.
(** the same call without restarts *)
Definition no_restarts (a : fit_args) : fit_args := FitArgs (a_minimize a) O (a_key a) (a_history a) (a_options a) (a_loss_kwargs a).
(** what comes out of training: the states found by the first minimisation (with parameters first) and by those after
    each restart, with their scores (larger is better), and the parameters kept are those of a best one *)
Definition trained (a : fit_args) (score : state -> R -> Prop) (first kept : ptree) (best : R) : Prop :=
  exists states vs, List.length states = S (a_restarts a) /\ (exists u, nth_error states 0 = Some u /\ s_params u = first) /\ Forall2 score states vs /\
  exists j u, nth_error states j = Some u /\ s_params u = kept /\ nth_error vs j = Some best /\ forall v, In v vs -> v <= best.
