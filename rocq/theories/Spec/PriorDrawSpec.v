(** Distributions of a real number, by the probability of the events. *)
From Coq Require Import Reals List.
From Verif Require Import Model.Bijectors Model.Priors Model.Params Model.State Model.PriorDraw Spec.PriorSpec.
Open Scope R_scope.

Definition law : Type := (R -> Prop) -> R.
(** equivalent events have the same probability *)
Definition law_ok (P : law) : Prop := forall A B : R -> Prop, (forall z, A z <-> B z) -> P A = P B.
(** the law of h z when z follows P *)
Definition image (h : R -> R) (P : law) : law := fun A => P (fun z => A (h z)).
(** the distribution function has the derivative d at t *)
Definition density_at (P : law) (t d : R) : Prop := derivable_pt_lim (fun t => P (fun z => z <= t)) t d.
(** what the generators draw from *)
Definition standard (p : prior) : prior :=
  match p with NormalPrior _ _ => NormalPrior 0 1 | GammaPrior a _ => GammaPrior a 1 end.
(** P is the law of the raw draw of p *)
Definition standard_law (Gam : R -> R) (p : prior) (P : law) : Prop :=
  law_ok P /\ forall t, prior_dom (standard p) t -> density_at P t (pdf Gam (standard p) t).
(** slope of a bijector *)
Definition logistic (x : R) : R := exp x / (1 + exp x).
Definition slope (b : bijector) (x : R) : R :=
  match b with
  | Softplus => logistic x
  | SoftMin m => logistic (x - m)
  | SoftMax M => logistic (M - x)
  | SoftMinMax m M => logistic (M - m - softplus (x - m)) * logistic (x - m) * ((M - m) / softplus (M - m))
  | Identity => 1
  end.
(** the generators give finite numbers, in the shape and dtype asked for *)
Definition raw_ok (a : array) (shape : list nat) (d : dtype) : Prop :=
  a_shape a = shape /\ a_dtype a = d /\ Forall (fun x => x <> None) (a_data a).
Definition source_ok (src : source) : Prop :=
  (forall k s d, raw_ok (r_normal src k s d) s d) /\ forall k c s d, raw_ok (r_gamma src k c s d) s d.
(** one entry of an array; 0 where there is none *)
Definition entry_of (a : array) (i : nat) : R := match nth i (a_data a) None with Some x => x | None => 0 end.
(** what the generator is asked for: standard normal numbers, or gamma numbers of the concentration of the prior *)
Definition asked (src : source) (k : key) (pr : prior_obj) : array :=
  match pr_dist pr with
  | NormalPrior _ _ => r_normal src k (pr_shape pr) (pr_dtype pr)
  | GammaPrior concentration _ => r_gamma src k concentration (pr_shape pr) (pr_dtype pr)
  end.
(** the law of a number computed from a random generator *)
Definition over {W : Type} (Q : (W -> Prop) -> R) (f : W -> R) : law := fun A => Q (fun o => A (f o)).
