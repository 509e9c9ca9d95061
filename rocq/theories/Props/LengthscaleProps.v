(** C66: a lengthscale parameter that is an array with one entry per active feature. *)
From Coq Require Import Reals Arith List.
From Coquelicot Require Import Coquelicot.
From Verif Require Import Base.Sums Base.Mat Model.Arrays Model.PyDict Model.Kernelizers Model.Kernels Model.MaternJvp Model.Lengthscales
  Spec.Partial Spec.KernelSpec Spec.LengthscaleSpec Proofs.LengthscaleFacts.
Open Scope R_scope.

(** dividing every active feature by its lengthscale and using lengthscale 1 gives the same kernel *)
Theorem C66_values : forall nf c l ds X1 X2 X1' X2' s t, rescaled l ds X1 X1' -> rescaled l ds X2 X2' ->
  vk c l ds X1 X2 s t = kk nf (KAtom (Some ds) (unit_atom c)) X1' X2' s t.
Proof. exact vk_unit. Qed.
Print Assumptions C66_values.

(** equal lengthscales are the scalar lengthscale *)
Theorem C66_equal : forall nf c l0 l ds X1 X2 s t, (forall a, (a < length ds)%nat -> l a = l0) ->
  vk c l ds X1 X2 s t = kk nf (KAtom (Some ds) (scalar_atom c l0)) X1 X2 s t.
Proof. exact vk_equal. Qed.
Print Assumptions C66_equal.

(** Gram matrices are symmetric and positive semidefinite *)
Theorem C66_gram : forall c l ds n X, sym n (vk c l ds X X) /\ psd n (vk c l ds X X).
Proof. exact vk_gram. Qed.
Print Assumptions C66_gram.

(** the written rules for the tangents of the samples *)
Theorem C66_rule32 : forall l na x1 x2 dx1 dx2, (forall a, (a < na)%nat -> l a <> 0) ->
  / 10 ^ 36 < 3 * sum na (fun a => (x1 a / l a - x2 a / l a) ^ 2) ->
  is_derive (fun t => m32_base_vec l na (fun a => x1 a + t * dx1 a) (fun a => x2 a + t * dx2 a)) 0
    (sum na (fun a => v_m32_t0 l na x1 x2 a * dx1 a) + sum na (fun a => - v_m32_t0 l na x1 x2 a * dx2 a)).
Proof. exact v_m32_rule. Qed.
Print Assumptions C66_rule32.
Theorem C66_rule52 : forall l na x1 x2 dx1 dx2, (forall a, (a < na)%nat -> l a <> 0) ->
  / 10 ^ 36 < 5 * sum na (fun a => (x1 a / l a - x2 a / l a) ^ 2) ->
  is_derive (fun t => m52_base_vec l na (fun a => x1 a + t * dx1 a) (fun a => x2 a + t * dx2 a)) 0
    (sum na (fun a => v_m52_t0 l na x1 x2 a * dx1 a) + sum na (fun a => - v_m52_t0 l na x1 x2 a * dx2 a)).
Proof. exact v_m52_rule. Qed.
Print Assumptions C66_rule52.

(** the first derivative of Matern52 in the second sample is exact *)
Theorem C66_m52_d1k : forall nf ds l X1 X2 s t a, ds_ok nf ds -> ls_nz ds l -> (a < length ds)%nat ->
  partial1 (vk_at VM52 l ds) (X1 s) (X2 t) (nth a ds O) (v_m52_d1k l ds nf X1 X2 s (t * nf + nth a ds O)%nat).
Proof. exact v_m52_first1. Qed.
Print Assumptions C66_m52_d1k.

(** the other written derivatives raise unless there is one active feature or the second argument has as many
    samples as there are active features *)
Theorem C66_raises : forall nf nv1 nv2 ns2 ds l X1 X2 J1 J2, length ds <> 1%nat -> length ds <> ns2 ->
  (exists e, v_se_d01k l ds nf ns2 X1 X2 = Err e) /\ (exists e, v_se_d01kj l ds nv1 nv2 ns2 X1 X2 J1 J2 = Err e) /\
  (exists e, v_m52_d0k l ds nf ns2 X1 X2 = Err e) /\ (exists e, v_m52_d01k l ds nf ns2 X1 X2 = Err e) /\
  (exists e, v_m52_d01kj l ds nv1 nv2 ns2 X1 X2 J1 J2 = Err e).
Proof. exact v_raises. Qed.
Print Assumptions C66_raises.

(** when they return, the lengthscale used is that of the feature whose position is the position of the sample *)
Theorem C66_se_d01k : forall nf ns2 ds l X1 X2 s t q a b, ds_ok nf ds -> ls_nz ds l -> (t < ns2)%nat -> meets ds ns2 t q ->
  (a < length ds)%nat -> (b < length ds)%nat ->
  exists M D, v_se_d01k l ds nf ns2 X1 X2 = Ok M /\
    partial01 (vk_at VSE l ds) (X1 s) (X2 t) (nth a ds O) (nth b ds O) D /\
    M (s * nf + nth a ds O)%nat (t * nf + nth b ds O)%nat = D + delta a b * vk VSE l ds X1 X2 s t * (2 / l q ^ 2 - 2 / l a ^ 2).
Proof. exact v_se_second. Qed.
Print Assumptions C66_se_d01k.
Theorem C66_m52_d0k : forall nf ns2 ds l X1 X2 s t q a, ds_ok nf ds -> ls_nz ds l -> (t < ns2)%nat -> meets ds ns2 t q ->
  (a < length ds)%nat ->
  exists M D, v_m52_d0k l ds nf ns2 X1 X2 = Ok M /\
    partial0 (vk_at VM52 l ds) (X1 s) (X2 t) (nth a ds O) D /\ M (s * nf + nth a ds O)%nat t = D * (l a / l q) /\
    (vdiff l ds X1 X2 s t a <> 0 -> D <> 0).
Proof. exact v_m52_first. Qed.
Print Assumptions C66_m52_d0k.
Theorem C66_m52_d01k : forall nf ns2 ds l X1 X2 s t q a b, ds_ok nf ds -> ls_nz ds l -> (t < ns2)%nat -> meets ds ns2 t q ->
  (a < length ds)%nat -> (b < length ds)%nat ->
  exists M D, v_m52_d01k l ds nf ns2 X1 X2 = Ok M /\
    partial01 (vk_at VM52 l ds) (X1 s) (X2 t) (nth a ds O) (nth b ds O) D /\
    M (s * nf + nth a ds O)%nat (t * nf + nth b ds O)%nat = D * (l a * l b / l q ^ 2).
Proof. exact v_m52_second. Qed.
Print Assumptions C66_m52_d01k.

(** the versions with jacobians contract the same matrices *)
Theorem C66_se_d01kj : forall nf nv1 nv2 ns2 ds l X1 X2 J1 J2 M, ds_ok nf ds -> v_se_d01k l ds nf ns2 X1 X2 = Ok M ->
  exists M', v_se_d01kj l ds nv1 nv2 ns2 X1 X2 J1 J2 = Ok M' /\ forall s v t u, (v < nv1)%nat -> (u < nv2)%nat ->
    M' (s * nv1 + v)%nat (t * nv2 + u)%nat = sum (length ds) (fun a => sum (length ds) (fun b =>
      J1 s (nth a ds O) v * M (s * nf + nth a ds O)%nat (t * nf + nth b ds O)%nat * J2 t (nth b ds O) u)).
Proof. exact v_se_contracted. Qed.
Print Assumptions C66_se_d01kj.
Theorem C66_m52_d01kj : forall nf nv1 nv2 ns2 ds l X1 X2 J1 J2 M, ds_ok nf ds -> v_m52_d01k l ds nf ns2 X1 X2 = Ok M ->
  exists M', v_m52_d01kj l ds nv1 nv2 ns2 X1 X2 J1 J2 = Ok M' /\ forall s v t u, (v < nv1)%nat -> (u < nv2)%nat ->
    M' (s * nv1 + v)%nat (t * nv2 + u)%nat = sum (length ds) (fun a => sum (length ds) (fun b =>
      J1 s (nth a ds O) v * M (s * nf + nth a ds O)%nat (t * nf + nth b ds O)%nat * J2 t (nth b ds O) u)).
Proof. exact v_m52_contracted. Qed.
Print Assumptions C66_m52_d01kj.

(** so a call can return a matrix that is not the derivative: two features with the lengthscales 1 and 2 and
    two samples *)
Theorem C66_se_d01k_refuted : exists M D, v_se_d01k ex_l (seq 0 2) 2 2 ex_x ex_x = Ok M /\
  partial01 (vk_at VSE ex_l (seq 0 2)) (ex_x 0%nat) (ex_x 1%nat) 0 0 D /\ M (0 * 2 + 0)%nat (1 * 2 + 0)%nat <> D.
Proof. exact v_se_wrong. Qed.
Print Assumptions C66_se_d01k_refuted.
Theorem C66_m52_d0k_refuted : exists M D, v_m52_d0k ex_l (seq 0 2) 2 2 ex_x ex_x = Ok M /\
  partial0 (vk_at VM52 ex_l (seq 0 2)) (ex_x 0%nat) (ex_x 1%nat) 0 D /\ M (0 * 2 + 0)%nat 1%nat <> D.
Proof. exact v_m52_wrong. Qed.
Print Assumptions C66_m52_d0k_refuted.

(** the hypotheses are met *)
Example C66_case : ds_ok 2 (seq 0 2) /\ ls_nz (seq 0 2) ex_l /\ meets (seq 0 2) 2 1 1 /\
  rescaled ex_l (seq 0 2) ex_x (fun s a => ex_x s a / ex_l a).
Proof.
  refine (conj ex_ds (conj (ex_l_nz _) (conj (or_introl (conj eq_refl eq_refl)) _))).
  intros s a H. simpl in H. destruct a as [|[|a]]; [reflexivity|reflexivity|exfalso; Lia.lia].
Qed.
