(** Textbook densities. *)
From Coq Require Import Reals List.
From Verif Require Import Model.Priors.
Open Scope R_scope.

Definition normal_pdf (x loc scale : R) : R :=
  / (scale * sqrt (2 * PI)) * exp (- ((x - loc) ^ 2 / (2 * scale ^ 2))).
Definition gamma_pdf (Gam : R -> R) (x a b : R) : R :=
  Rpower b a / Gam a * Rpower x (a - 1) * exp (- (b * x)).
Definition pdf (Gam : R -> R) (p : prior) (x : R) : R :=
  match p with
  | NormalPrior l s => normal_pdf x l s
  | GammaPrior a b => gamma_pdf Gam x a b
  end.
(** parameters of the prior are legal and x is in its support *)
Definition prior_dom (p : prior) (x : R) : Prop :=
  match p with
  | NormalPrior _ s => 0 < s
  | GammaPrior a b => 0 < a /\ 0 < b /\ 0 < x
  end.
(** a parameter with a scalar value v *)
Definition scalar_leaf (p : prior) (v : R) : pleaf := PLeaf (Scal v) p.
(** joint density of independent scalar parameters *)
Fixpoint joint (Gam : R -> R) (l : list (prior * R)) : R :=
  match l with nil => 1 | (p, v) :: r => pdf Gam p v * joint Gam r end.
Definition leaves (l : list (prior * R)) : list pleaf :=
  map (fun q => scalar_leaf (fst q) (snd q)) l.
