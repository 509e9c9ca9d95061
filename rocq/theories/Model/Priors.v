(** Models gpx/priors.py (log densities) and log_prior / log_posterior of gpx/models/gpr.py.
    gammaln (jax.scipy.special) is an argument. *)
From Coq Require Import Reals List.
Import ListNotations.
Open Scope R_scope.

(** priors.py:63-84 normal_logpdf *)
Definition normal_logpdf (x loc scale : R) : R :=
  - ln scale - / 2 * ln (2 * PI) - / 2 * (1 / scale ^ 2) * (x - loc) ^ 2.
(** priors.py:113-133 gamma_logpdf *)
Definition gamma_logpdf (gammaln : R -> R) (x concentration rate : R) : R :=
  concentration * ln rate - gammaln concentration + (concentration - 1) * ln x - rate * x.

(** priors.py:190-290 NormalPrior, GammaPrior *)
Inductive prior : Type :=
| NormalPrior (loc scale : R)
| GammaPrior (concentration rate : R).
(** priors.py:224-225, 275-276, the methods logpdf, on one number *)
Definition logpdf (gammaln : R -> R) (p : prior) (x : R) : R :=
  match p with
  | NormalPrior l s => normal_logpdf x l s
  | GammaPrior a b => gamma_logpdf gammaln x a b
  end.

(** A JAX array of shape () or (n,); higher ranks are not modelled here. *)
Inductive arr : Type := Scal (r : R) | Vect (v : list R).
(** elementwise map: what logpdf does on an array *)
Definition amap (f : R -> R) (a : arr) : arr :=
  match a with Scal r => Scal (f r) | Vect v => Vect (map f v) end.
(** numpy addition with broadcasting; None is the shape error *)
Definition aadd (a b : arr) : option arr :=
  match a, b with
  | Scal x, Scal y => Some (Scal (x + y))
  | Scal x, Vect v => Some (Vect (map (Rplus x) v))
  | Vect v, Scal y => Some (Vect (map (fun x => x + y) v))
  | Vect v, Vect w =>
      if Nat.eqb (length v) (length w) then Some (Vect (map (fun p => fst p + snd p) (combine v w)))
      else match v, w with
           | [x], _ => Some (Vect (map (Rplus x) w))
           | _, [y] => Some (Vect (map (fun x => x + y) v))
           | _, _ => None
           end
  end.

(** What log_prior reads of a Parameter (parameters/parameter.py:34): value and prior. *)
Record pleaf : Type := PLeaf { pl_value : arr; pl_prior : prior }.
(** models/gpr.py:177-184 log_prior; the list is the leaves in tree order *)
Fixpoint log_prior_from (gammaln : R -> R) (init : arr) (ps : list pleaf) : option arr :=
  match ps with
  | [] => Some init
  | p :: r =>
      match aadd init (amap (logpdf gammaln (pl_prior p)) (pl_value p)) with
      | Some i => log_prior_from gammaln i r
      | None => None
      end
  end.
Definition log_prior (gammaln : R -> R) (ps : list pleaf) : option arr :=
  log_prior_from gammaln (Scal 0) ps.
(** models/gpr.py:187-215 log_posterior: the log marginal likelihood (a number) plus log_prior *)
Definition log_posterior (gammaln : R -> R) (lml : R) (ps : list pleaf) : option arr :=
  match log_prior gammaln ps with Some a => aadd (Scal lml) a | None => None end.
