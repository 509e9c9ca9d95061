(** Kernels built from squared exponentials, Matern32 and kernels whose derivatives the code computes
    exactly; and the amount by which the former can pull the matrix of mixed derivatives below zero. *)
From Coq Require Import Reals Arith List.
From Verif Require Import Base.Sums Base.Mat Model.Arrays Model.Kernels Spec.KernelSpec.
Open Scope R_scope.

Definition soft_atom (a : atom) : Prop := match a with ASE _ => True | _ => exact_atom a end.
Definition soft (k : kexp) : Prop := all_atoms (fun _ a => soft_atom a) k.
(** sums of these and of Matern32 kernels *)
Fixpoint gram_soft (k : kexp) : Prop :=
  match k with
  | KAtom _ (AM32 _) => True
  | KSum k1 k2 => gram_soft k1 /\ gram_soft k2
  | _ => soft k
  end.
(** for every Matern32 part, two points either coincide in the features it reads or are not within
    the clamp max(d2, 1e-36) *)
Definition m32_separated (nf : nat) (k : kexp) (n : nat) (X : Mat) : Prop :=
  forall s t, (s < n)%nat -> (t < n)%nat ->
  all_atoms (fun ad a => match a with
    | AM32 l => sqd nf ad l (X s) (X t) = 0 \/ / 10 ^ 36 < 3 * sqd nf ad l (X s) (X t)
    | _ => True end) k.

(** for a derivative at x in direction u: 5e-12 (Matern32: 3e-18) times the square of u in units of
    the length scale, weighted by the other factors of each product *)
Fixpoint dslack (nf : nat) (k : kexp) (x u : Vec) : R :=
  match k with
  | KAtom ad (ASE l) =>
      5 * / 10 ^ 12 * sum (length (active nf ad)) (fun i => (gather (active nf ad) u i / l) ^ 2)
  | KAtom ad (AM32 l) =>
      3 * / 10 ^ 18 * sum (length (active nf ad)) (fun i => (gather (active nf ad) u i / l) ^ 2)
  | KAtom _ _ => 0
  | KSum k1 k2 => dslack nf k1 x u + dslack nf k2 x u
  | KProd k1 k2 => dslack nf k1 x u * kernel_at nf k2 x x + kernel_at nf k1 x x * dslack nf k2 x u
  end.
(** total over n points with nv directions each *)
Definition total_dslack (n nf nv : nat) (k : kexp) (X : Mat) (J : Ten) : R :=
  sum n (fun s => sum nv (fun v => dslack nf k (X s) (fun f => J s f v))).
