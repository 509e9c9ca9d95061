(** C74: what rounding to binary64 leaves of the properties of distances, kernels and bijectors. *)
From Coq Require Import Reals List.
From Flocq Require Import Core.
From Verif Require Import Base.Sums Base.Mat Model.Distances Model.Bijectors Model.GPR Model.FloatDistances
  Spec.FloatSpec Proofs.FloatFacts Proofs.FloatExamples Proofs.FloatMore Proofs.FloatKernel.
Open Scope R_scope.

(** The computed squared distance is the squared distance plus 1e-12 up to an error that is proportional
    to the squared norms of the points, whatever the order of the sums. *)
Theorem C74_distance : forall n D o1 o2 o12 z1 z2,
  adds n o1 -> adds n o2 -> adds n o12 ->
  (depth o1 <= D)%nat -> (depth o2 <= D)%nat -> (depth o12 <= D)%nat ->
  Rabs (fdistance2 o1 o2 o12 z1 z2 - (sum n (fun a => (z1 a - z2 a) ^ 2) + / 10 ^ 12))
    <= ((1 + / 2 ^ 53) ^ (D + 4) - 1)
         * (2 * (sum n (fun a => z1 a ^ 2) + sum n (fun a => z2 a ^ 2)) + / 10 ^ 12)
       + 4 * (1 + / 2 ^ 53) ^ (D + 3) * INR n * (/ 2 * bpow radix2 (-1074)).
Proof. exact distance_bound. Qed.
Print Assumptions C74_distance.

(** Swapping the points or changing the order of the sums changes the computed distance by at most twice this error. *)
Theorem C74_swap : forall n D o1 o2 o12 p1 p2 p12 z1 z2,
  adds n o1 -> adds n o2 -> adds n o12 -> adds n p1 -> adds n p2 -> adds n p12 ->
  (depth o1 <= D)%nat -> (depth o2 <= D)%nat -> (depth o12 <= D)%nat ->
  (depth p1 <= D)%nat -> (depth p2 <= D)%nat -> (depth p12 <= D)%nat ->
  Rabs (fdistance2 o1 o2 o12 z1 z2 - fdistance2 p1 p2 p12 z2 z1) <= 2 * distance_error n D z1 z2 /\
  Rabs (fdistance2 o1 o2 o12 z1 z2 - fdistance2 p1 p2 p12 z1 z2) <= 2 * distance_error n D z1 z2.
Proof. exact swap_bound. Qed.
Print Assumptions C74_swap.

(** The two can differ: the computed distance is not symmetric. *)
Theorem C74_symmetric_refuted : exists z1 z2, (forall a, binary64 (z1 a) /\ binary64 (z2 a)) /\
  fdistance2 one one one z1 z2 <> fdistance2 one one one z2 z1.
Proof. exact not_symmetric. Qed.
Print Assumptions C74_symmetric_refuted.

(** The distance of a point to itself has no rounding error: it is the number nearest to 1e-12, for every
    point and every order, provided the three sums are evaluated in the same one. *)
Theorem C74_self : forall o z, fdistance2 o o o z z = fl (/ 10 ^ 12).
Proof. exact fdistance2_self. Qed.
Print Assumptions C74_self.

(** A computed squared distance can be negative: two points near 256 that are 1e-6 apart. *)
Theorem C74_nonnegative_refuted : exists z1 z2, (forall a, binary64 (z1 a) /\ binary64 (z2 a)) /\
  0 < sum 1 (fun a => (z1 a - z2 a) ^ 2) /\ fdistance2 one one one z1 z2 < 0.
Proof. exact not_nonnegative. Qed.
Print Assumptions C74_nonnegative_refuted.

(** Points whose squared distance exceeds the error: the kernel is at most its value on the diagonal,
    for every exp that is monotone. *)
Theorem C74_bounded : forall fexp n D o1 o2 o12 o l x1 x2 x,
  (forall a b, a <= b -> fexp a <= fexp b) ->
  adds n o1 -> adds n o2 -> adds n o12 ->
  (depth o1 <= D)%nat -> (depth o2 <= D)%nat -> (depth o12 <= D)%nat ->
  distance_error n D (fscale l x1) (fscale l x2) + unit_roundoff * / 10 ^ 12
    <= distance2 n (fscale l x1) (fscale l x2) ->
  fsquared_exponential fexp o1 o2 o12 l x1 x2 <= fsquared_exponential fexp o o o l x x /\
  fmatern12 fexp o1 o2 o12 l x1 x2 <= fmatern12 fexp o o o l x x.
Proof. exact both_bounded. Qed.
Print Assumptions C74_bounded.

(** For close points it is not: the squared exponential kernel exceeds 1, and the Matern12 kernel exceeds
    its value on the diagonal, with a correctly rounded exp. *)
Theorem C74_bounded_refuted : exists x1 x2, (forall a, binary64 (x1 a) /\ binary64 (x2 a)) /\
  (forall x, fsquared_exponential (fun t => fl (exp t)) one one one 1 x x <= 1) /\
  1 < fsquared_exponential (fun t => fl (exp t)) one one one 1 x1 x2 /\
  forall x, fmatern12 (fun t => fl (exp t)) one one one 1 x x
            < fmatern12 (fun t => fl (exp t)) one one one 1 x1 x2.
Proof. exact not_bounded. Qed.
Print Assumptions C74_bounded_refuted.

(** The computed kernel matrices of two points need not be positive semidefinite; for the Matern12 kernel
    this is so even after adding the jitter and a noise variance of up to 2^-23 to the diagonal. *)
Theorem C74_gram_refuted : exists X : nat -> nat -> R, (forall i a, binary64 (X i a)) /\
  ~ psd 2 (fun i j => fsquared_exponential (fun t => fl (exp t)) one one one 1 (X i) (X j)) /\
  forall sigma, sigma ^ 2 <= bpow radix2 (-23) ->
  ~ psd 2 (fun i j => fmatern12 (fun t => fl (exp t)) one one one 1 (X i) (X j)
                      + (sigma ^ 2 + / 10 ^ 10) * eye i j).
Proof. exact not_gram. Qed.
Print Assumptions C74_gram_refuted.

(** The computed kernels are close to the exact ones at the scaled points. *)
Theorem C74_kernel : forall fexp eps n D o1 o2 o12 l x1 x2, accurate eps fexp ->
  adds n o1 -> adds n o2 -> adds n o12 ->
  (depth o1 <= D)%nat -> (depth o2 <= D)%nat -> (depth o12 <= D)%nat ->
  Rabs (fsquared_exponential fexp o1 o2 o12 l x1 x2
        - exp (- (sum n (fun a => (fl (x1 a / l) - fl (x2 a / l)) ^ 2) + / 10 ^ 12)))
    <= kernel_error eps (distance_error n D (fscale l x1) (fscale l x2)).
Proof. exact se_close. Qed.
Print Assumptions C74_kernel.
Theorem C74_kernel_matern12 : forall fexp eps n D o1 o2 o12 l x1 x2, accurate eps fexp ->
  adds n o1 -> adds n o2 -> adds n o12 ->
  (depth o1 <= D)%nat -> (depth o2 <= D)%nat -> (depth o12 <= D)%nat ->
  Rabs (fmatern12 fexp o1 o2 o12 l x1 x2
        - exp (- sqrt (sum n (fun a => (fl (x1 a / l) - fl (x2 a / l)) ^ 2) + / 10 ^ 12)))
    <= kernel_error eps (root_error n D (fscale l x1) (fscale l x2)).
Proof. exact m12_close. Qed.
Print Assumptions C74_kernel_matern12.

(** Hence a computed kernel matrix of N points is positive semidefinite after adding N times this error to
    its diagonal, whatever the orders of the sums for its entries. For Matern12 the error is the square root. *)
Theorem C74_gram : forall fexp eps n D N o1 o2 o12 l (X : nat -> nat -> R) e s, accurate eps fexp ->
  (forall i j, adds n (o1 i j) /\ adds n (o2 i j) /\ adds n (o12 i j)) ->
  (forall i j, (depth (o1 i j) <= D)%nat /\ (depth (o2 i j) <= D)%nat /\ (depth (o12 i j) <= D)%nat) ->
  (forall i j, (i < N)%nat -> (j < N)%nat -> distance_error n D (fscale l (X i)) (fscale l (X j)) <= e) ->
  INR N * kernel_error eps e <= s ->
  psd N (fun i j => fsquared_exponential fexp (o1 i j) (o2 i j) (o12 i j) l (X i) (X j) + s * eye i j).
Proof. exact se_gram. Qed.
Print Assumptions C74_gram.
Theorem C74_gram_matern12 : forall fexp eps n D N o1 o2 o12 l (X : nat -> nat -> R) e s, accurate eps fexp ->
  (forall i j, adds n (o1 i j) /\ adds n (o2 i j) /\ adds n (o12 i j)) ->
  (forall i j, (depth (o1 i j) <= D)%nat /\ (depth (o2 i j) <= D)%nat /\ (depth (o12 i j) <= D)%nat) ->
  (forall i j, (i < N)%nat -> (j < N)%nat -> root_error n D (fscale l (X i)) (fscale l (X j)) <= e) ->
  INR N * kernel_error eps e <= s ->
  psd N (fun i j => fmatern12 fexp (o1 i j) (o2 i j) (o12 i j) l (X i) (X j) + s * eye i j).
Proof. exact m12_gram. Qed.
Print Assumptions C74_gram_matern12.
(** a correctly rounded exp, sums from left to right, any points and any size *)
Example C74_gram_case : accurate unit_roundoff (fun t => fl (exp t)) /\
  (forall n, adds n (left_to_right n) /\ (depth (left_to_right n) <= n)%nat) /\
  forall (X : nat -> nat -> R) n N l, exists e s : R, forall i j, (i < N)%nat -> (j < N)%nat ->
    distance_error n n (fscale l (X i)) (fscale l (X j)) <= e /\
    root_error n n (fscale l (X i)) (fscale l (X j)) <= e /\ INR N * kernel_error unit_roundoff e <= s.
Proof. exact (conj rexp_accurate (conj left_to_right_ok gram_case)). Qed.
Print Assumptions C74_gram_case.

(** The clamp keeps the Matern12 kernel at most 1, whatever the points. *)
Theorem C74_matern12 : forall fexp o1 o2 o12 l x1 x2,
  (forall a b, a <= b -> fexp a <= fexp b) -> fexp 0 = 1 -> fmatern12 fexp o1 o2 o12 l x1 x2 <= 1.
Proof. exact fm12_le_1. Qed.
Print Assumptions C74_matern12.

(** Constrained parameters stay within their bounds, for every logaddexp that is not negative;
    a positive one stays positive. *)
Theorem C74_bijectors : forall lae, (forall x, 0 <= lae x) ->
  (forall x, 0 < fsoftplus lae x) /\
  (forall x minval, binary64 minval -> minval <= fsoftmin lae x minval) /\
  (forall x maxval, binary64 maxval -> fsoftmax lae x maxval <= maxval).
Proof. exact bijectors_in_range. Qed.
Print Assumptions C74_bijectors.

(** They can be equal to the bound, unlike over the reals. *)
Theorem C74_strict_refuted : exists x,
  1 < softmin x 1 /\ fsoftmin (fun t => fl (logaddexp t 0)) x 1 = 1 /\ forall t, 0 <= fl (logaddexp t 0).
Proof. exact not_strict. Qed.
Print Assumptions C74_strict_refuted.

(** two points at distance one meet the hypotheses of C74_bounded *)
Example C74_case : adds 1 one /\ (depth one <= 0)%nat /\
  distance_error 1 0 (fscale 1 (fun _ => 0)) (fscale 1 (fun _ => 1)) + unit_roundoff * / 10 ^ 12
    <= distance2 1 (fscale 1 (fun _ => 0)) (fscale 1 (fun _ => 1)) /\
  (forall a b, a <= b -> fl (exp a) <= fl (exp b)) /\ fl (exp 0) = 1.
Proof. exact float_case. Qed.
Print Assumptions C74_case.
