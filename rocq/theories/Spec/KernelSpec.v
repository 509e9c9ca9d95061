(** Vocabulary of the kernel theorems: well-formed kernel expressions. *)
From Coq Require Import Reals Arith List.
From Verif Require Import Base.Sums Base.Mat Model.Arrays Model.Kernels.
Open Scope R_scope.

(** active_dims (or all features) are distinct and below the number of features *)
Definition ad_ok (nf : nat) (ad : option (list nat)) : Prop :=
  match ad with
  | None => True
  | Some ds => NoDup ds /\ forall d, In d ds -> (d < nf)%nat
  end.
(** lengthscales are non-zero *)
Definition ls_ok (a : atom) : Prop :=
  match a with
  | ASE l | AM12 l | AM32 l | AM52 l => l <> 0
  | _ => True
  end.
Fixpoint all_atoms (P : option (list nat) -> atom -> Prop) (k : kexp) : Prop :=
  match k with
  | KAtom ad a => P ad a
  | KSum k1 k2 | KProd k1 k2 => all_atoms P k1 /\ all_atoms P k2
  end.
Definition wf (nf : nat) (k : kexp) : Prop := all_atoms (fun ad a => ad_ok nf ad) k.
Definition ls_nonzero (k : kexp) : Prop := all_atoms (fun ad a => ls_ok a) k.
(** the kernel as a function of two samples: a 1x1 batch *)
Definition kernel_at (nf : nat) (k : kexp) (x y : Vec) : R :=
  kk nf k (fun _ => x) (fun _ => y) O O.
(** the list of active features *)
Definition active (nf : nat) (ad : option (list nat)) : list nat :=
  match ad with None => seq 0 nf | Some ds => ds end.
(** number of matched atoms *)
Definition is_m52 (a : atom) : bool := match a with AM52 _ => true | _ => false end.
Definition no_m52 (k : kexp) : Prop := all_atoms (fun ad a => is_m52 a = false) k.
Definition is_se (a : atom) : bool := match a with ASE _ => true | _ => false end.
(** kernels whose derivative methods differentiate the batched kernel exactly, also at
    coincident points *)
Definition exact_atom (a : atom) : Prop :=
  match a with
  | AConst _ | ALin | APoly _ _ | ANoInt _ _ | APer _ _ | AM52 _ => True
  | ASE _ | AM12 _ | AM32 _ => False
  end.
Definition exact (k : kexp) : Prop := all_atoms (fun ad a => exact_atom a) k.
(** the squared scaled distance over the active features *)
Definition sqd (nf : nat) (ad : option (list nat)) (l : R) (x y : Vec) : R :=
  sum (length (active nf ad)) (fun i => (gather (active nf ad) x i / l - gather (active nf ad) y i / l) ^ 2).
(** the pair is not exactly on the boundary of the clamp max(d2, 1e-36) of Matern12/32 *)
Definition regular_pair (nf : nat) (ad : option (list nat)) (a : atom) (x y : Vec) : Prop :=
  match a with
  | AM12 l => sqd nf ad l x y <> tiny36
  | AM32 l => 3 * sqd nf ad l x y <> tiny36
  | _ => True
  end.
(** for n1 points against n2 points *)
Definition regular (nf : nat) (k : kexp) (n1 n2 : nat) (X1 X2 : Mat) : Prop :=
  forall s t, (s < n1)%nat -> (t < n2)%nat -> all_atoms (fun ad a => regular_pair nf ad a (X1 s) (X2 t)) k.
(** kernels with positive semidefinite Gram matrices, and their parameter ranges *)
Definition psd_atom (a : atom) : Prop :=
  match a with
  | AConst v => 0 <= v
  | ALin | ASE _ | AM12 _ | AM32 _ | AM52 _ => True
  | APoly _ off | ANoInt _ off => 0 <= off
  | APer l p => 0 < l /\ p <> 0
  end.
(** kernels depending on a (scaled) squared distance, with their lengthscale *)
Definition sq_scale (a : atom) : option R :=
  match a with ASE l | AM12 l | AM32 l | AM52 l => Some l | _ => None end.
Definition stationary (a : atom) : Prop :=
  match a with
  | ASE _ | AM12 _ | AM32 _ | AM52 _ => True
  | APer l _ => 0 < l
  | _ => False
  end.
(** kernels whose batched version does not go through squared_distances *)
Definition unjittered (a : atom) : Prop :=
  match a with ASE _ | AM12 _ | AM32 _ | AM52 _ => False | _ => True end.
(** absolute error between batched and single-sample version of an atom *)
Definition atom_err (a : atom) : R :=
  match a with
  | ASE _ => / 10 ^ 12
  | AM12 _ => / 10 ^ 6
  | AM32 _ => 3 / 2 * / 10 ^ 12
  | AM52 _ => / 10 ^ 12
  | _ => 0
  end.
(** propagated through sums and products, relative to the single-sample values *)
Fixpoint kerr (nf : nat) (k : kexp) (x y : Vec) : R :=
  match k with
  | KAtom _ a => atom_err a
  | KSum k1 k2 => kerr nf k1 x y + kerr nf k2 x y
  | KProd k1 k2 => kerr nf k1 x y * Rabs (kb nf k2 x y) + Rabs (kb nf k1 x y) * kerr nf k2 x y
                   + kerr nf k1 x y * kerr nf k2 x y
  end.
(** kernels whose single-sample version is exactly 1 at coincident points *)
Definition base_one (a : atom) : Prop := match a with ASE _ | APer _ _ => True | _ => False end.
(** the pair is away from the clamp max(d2, 1e-36) of the single-sample Matern kernels *)
Definition unclamped (nf : nat) (ad : option (list nat)) (a : atom) (x y : Vec) : Prop :=
  match a with
  | AM12 l => / 10 ^ 36 < sqd nf ad l x y
  | AM32 l => / 10 ^ 36 < 3 * sqd nf ad l x y
  | AM52 l => / 10 ^ 36 < 5 * sqd nf ad l x y
  | _ => True
  end.
(** the composite of batched atoms as a function of two samples *)
Fixpoint kb_batched (nf : nat) (k : kexp) (x y : Vec) : R :=
  match k with
  | KAtom ad a => kernel_at nf (KAtom ad a) x y
  | KSum k1 k2 => kb_batched nf k1 x y + kb_batched nf k2 x y
  | KProd k1 k2 => kb_batched nf k1 x y * kb_batched nf k2 x y
  end.
(** kernels whose matrix of mixed derivatives is that of a differentiable kernel: exact kernels,
    squared exponentials, and sums *)
Fixpoint dgram_ok (k : kexp) : Prop :=
  exact k \/
  match k with
  | KAtom _ (ASE _) => True
  | KSum k1 k2 => dgram_ok k1 /\ dgram_ok k2
  | _ => False
  end.
