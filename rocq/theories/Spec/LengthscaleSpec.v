(** One lengthscale per active feature. *)
From Coq Require Import Reals Arith List.
From Verif Require Import Base.Sums Base.Mat Model.Kernels Model.Lengthscales Spec.KernelSpec.
Open Scope R_scope.

(** the same class with lengthscale 1 *)
Definition unit_atom (c : vclass) : atom :=
  match c with VSE => ASE 1 | VM12 => AM12 1 | VM32 => AM32 1 | VM52 => AM52 1 end.
(** the same class with the lengthscale l *)
Definition scalar_atom (c : vclass) (l : R) : atom :=
  match c with VSE => ASE l | VM12 => AM12 l | VM32 => AM32 l | VM52 => AM52 l end.
(** X' is X with every active feature divided by its lengthscale *)
Definition rescaled (l : Vec) (ds : list nat) (X X' : Mat) : Prop :=
  forall s a, (a < length ds)%nat -> X' s (nth a ds O) = X s (nth a ds O) / l a.
(** the kernel as a function of two samples *)
Definition vk_at (c : vclass) (l : Vec) (ds : list nat) (x y : Vec) : R := vk c l ds (fun _ => x) (fun _ => y) O O.
(** distinct features of the samples *)
Definition ds_ok (nf : nat) (ds : list nat) : Prop := NoDup ds /\ forall d, In d ds -> (d < nf)%nat.
(** the lengthscales are not zero *)
Definition ls_nz (ds : list nat) (l : Vec) : Prop := forall a, (a < length ds)%nat -> l a <> 0.
(** the arrays of shape (nact,) and (ns1, ns2) broadcast, and the lengthscale at q meets sample t *)
Definition meets (ds : list nat) (ns2 t q : nat) : Prop :=
  (length ds = ns2 /\ q = t) \/ (length ds = 1%nat /\ q = O).
