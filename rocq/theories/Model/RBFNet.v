(** Models the numerical part of gpx/models/rbfnet.py:49-147. A call that raises is None.
    inducing points of shape (m, nf), weights (m, o), x (n, nf); kernels as in Model/Kernels.v. *)
From Coq Require Import Reals Arith.
From Verif Require Import Base.Sums Base.Mat Model.Arrays Model.Kernels Model.Operations.
Open Scope R_scope.

(** the length of the broadcast of two axes, None if numpy raises *)
Definition bcast (a b : nat) : option nat :=
  if Nat.eqb a b then Some a else if Nat.eqb a 1 then Some b else if Nat.eqb b 1 then Some a else None.
(** the index read in an axis of length a *)
Definition bix (a i : nat) : nat := if Nat.eqb a 1 then O else i.

(** kernels/operations.py:62 kernel_center for k of shape (m, n) and k_mean of any length l; returns the number of
    rows and the array *)
Definition kernel_center_b (m : nat) (k : Mat) (l : nat) (k_mean : Vec) : option (nat * Mat) :=
  match bcast m l with
  | Some r => Some (r, fun i j => k (bix m i) j - mean0 m k j - k_mean (bix l i) + vmean l k_mean)
  | None => None
  end.
(** jnp.einsum("ij,io->jo", gram, weights), gram with r rows, weights with m rows; jax broadcasts axes of length 1 *)
Definition einsum_ij_io (r m : nat) (gram weights : Mat) : option Mat :=
  match bcast r m with
  | Some s => Some (fun j o => sum s (fun i => gram (bix r i) j * weights (bix m i) o))
  | None => None
  end.
(** rbfnet.py:90-110 _predict_linear; k_mean is None or an array with its length. Returns pred and k_mean *)
Definition predict_linear (nf m n : nat) (k : kexp) (z w x : Mat) (center : bool) (k_mean : option (nat * Vec))
    : option (Mat * option (nat * Vec)) :=
  let gram := kk nf k z x in
  if center then
    let km := match k_mean with None => (n, mean0 m gram) | Some q => q end in
    match kernel_center_b m gram (fst km) (snd km) with
    | Some (r, g) => match einsum_ij_io r m g w with Some p => Some (p, Some km) | None => None end
    | None => None
    end
  else match einsum_ij_io m m gram w with Some p => Some (p, k_mean) | None => None end.
(** rbfnet.py:113-127 _predict *)
Definition rbf_predict (output_layer : Mat -> Mat) (nf m n : nat) (k : kexp) (z w x : Mat) (center : bool)
    (k_mean : option (nat * Vec)) : option (Mat * option (nat * Vec)) :=
  match predict_linear nf m n k z w x center k_mean with
  | Some (p, q) => Some (output_layer p, q)
  | None => None
  end.
(** rbfnet.py:48-74 _train_loss; y of shape (n, o), the output of output_layer also. k_mean is a static argument of
    jit: an array is not hashable and raises *)
Definition train_loss (output_layer : Mat -> Mat) (nf m n o : nat) (k : kexp) (alpha : R) (z w x y : Mat) (center : bool)
    (k_mean : option (nat * Vec)) : option R :=
  match k_mean with
  | Some _ => None
  | None =>
    match rbf_predict output_layer nf m n k z w x center None with
    | Some (p, _) => Some (sum n (fun j => sum o (fun q => (p j q - y j q) ^ 2)) / INR (n * o)
                           + alpha * sum m (fun i => sum o (fun q => w i q * w i q)) / INR n)
    | None => None
    end
  end.
(** rbfnet.py:210-214 init: the initial k_mean *)
Definition init_k_mean (m : nat) : option (nat * Vec) := Some (m, fun _ => 0).
