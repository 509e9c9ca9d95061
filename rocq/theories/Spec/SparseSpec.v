(** Vocabulary of the sparse regression theorems. *)
From Coq Require Import Reals Arith.
From Verif Require Import Base.Sums Base.Mat.
Open Scope R_scope.
(** |y - K_nm c|^2 + sigma^2 c^T K_mm c + 1e-10 |c|^2; K_mm is (m, m), K_mn is (m, n) *)
Definition sparse_objective (m n : nat) (sigma : R) (K_mm K_mn : Mat) (y c : Vec) : R :=
  sum n (fun i => (y i - sum m (fun a => K_mn a i * c a)) ^ 2)
  + sigma ^ 2 * sum m (fun a => sum m (fun b => c a * K_mm a b * c b))
  + / 10 ^ 10 * sum m (fun a => c a ^ 2).
(** M = K_nm (K_mm + 1e-10)^-1 K_mn, through W = (K_mm + 1e-10)^-1 K_mn *)
Definition nystrom (m n : nat) (K_mm K_mn M : Mat) : Prop :=
  exists W : Mat, meq m n (fun a j => sum m (fun b => K_mm a b * W b j) + / 10 ^ 10 * W a j) K_mn /\
  meq n n M (fun i j => sum m (fun a => K_mn a i * W a j)).
