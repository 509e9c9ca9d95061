(** Models gpx/kernels/operations.py:28-94, kernel centring. *)
From Coq Require Import Reals Arith.
From Verif Require Import Base.Sums Base.Mat Model.Arrays.
Open Scope R_scope.

(** operations.py:28-62 kernel_center for k of shape (n, m) and k_mean of length n:
    k - k.mean(0)[None, :] - k_mean[:, None] + k_mean.mean() *)
Definition kernel_center (n : nat) (k : Mat) (k_mean : Vec) : Mat :=
  fun i j => k i j - mean0 n k j - k_mean i + vmean n k_mean.
(** operations.py:65-94 kernel_center_test_test; n training points *)
Definition kernel_center_test_test (n : nat) (k : Mat) (k_mean_train k_mean_train_test : Vec) : Mat :=
  fun i j => k i j - k_mean_train_test j - k_mean_train_test i + vmean n k_mean_train.
