(** Models the sampling half of gpx/priors.py. The generators jax.random.normal and jax.random.gamma
    are arguments; loc, scale and rate are numbers, as in Model/Priors.v. *)
From Coq Require Import Reals List.
From Verif Require Import Model.Bijectors Model.Priors Model.Params Model.State.
Open Scope R_scope.

(** the generators: key, (concentration,) shape, dtype *)
Record source : Type := Source {
  r_normal : key -> list nat -> dtype -> array;
  r_gamma : key -> R -> list nat -> dtype -> array }.
(** priors.py:39-60 normal_sample and 92-110 gamma_sample, on one entry of the raw draw *)
Definition draw (p : prior) (z : R) : R :=
  match p with
  | NormalPrior loc scale => loc + scale * z
  | GammaPrior _ rate => z / rate
  end.
(** the raw draw *)
Definition raw (src : source) (k : key) (pr : prior_obj) : array :=
  match pr_dist pr with
  | NormalPrior _ _ => r_normal src k (pr_shape pr) (pr_dtype pr)
  | GammaPrior a _ => r_gamma src k a (pr_shape pr) (pr_dtype pr)
  end.
(** priors.py:232-235, 286-293 the methods sample; loc, scale and rate have the dtype of the prior
    (priors.py:203-215, 254-266), which the result keeps *)
Definition prior_sample (src : source) (k : key) (pr : prior_obj) : array :=
  let z := raw src k pr in
  Arr (a_shape z) (a_dtype z) (map (omap (draw (pr_dist pr))) (a_data z)).
