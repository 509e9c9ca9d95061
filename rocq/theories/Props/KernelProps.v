(** Properties C24-C36 and C55: kernels. *)
From Coq Require Import Reals Lra Lia Arith List ZArith.
From Coquelicot Require Import Coquelicot.
From Verif Require Import Base.Sums Base.Mat Base.PSD Model.Arrays Model.Distances Model.Kernelizers
  Model.Kernels Model.KernelOps Model.MaternJvp Spec.Partial Spec.KernelSpec Spec.JvpSpec
  Proofs.Contraction Proofs.KernelDerivs Proofs.KernelSym Proofs.KernelBounds Proofs.KernelPSD
  Proofs.KernelMisc Proofs.MaternPSD Proofs.KernelPropLemmas Spec.CloseSpec Proofs.Restrict Proofs.KernelClose Proofs.GPRClose Proofs.VecRule.
Open Scope R_scope.

(** The concrete instances [ex_kernel], [ex_exact], [ex_X] are defined in Proofs/KernelPropLemmas.v. *)

(** ** C24 *)
Theorem C24_gram_transpose : forall nf k X1 X2 s t, kk nf k X1 X2 s t = kk nf k X2 X1 t s.
Proof. exact kk_sym. Qed.
Print Assumptions C24_gram_transpose.
Theorem C24_d0k_d1k_transpose : forall nf k X1 X2 s c, d1k nf k X1 X2 s c = d0k nf k X2 X1 c s.
Proof. exact d1k_tr. Qed.
Print Assumptions C24_d0k_d1k_transpose.
Theorem C24_d01k_transpose : forall nf k X1 X2 s f t e,
  ls_nonzero k -> wf nf k -> (f < nf)%nat -> (e < nf)%nat ->
  all_atoms (fun ad a => regular_pair nf ad a (X1 s) (X2 t)) k ->
  d01k nf k X1 X2 (s * nf + f)%nat (t * nf + e)%nat
  = d01k nf k X2 X1 (t * nf + e)%nat (s * nf + f)%nat.
Proof. exact d01k_tr. Qed.
Print Assumptions C24_d01k_transpose.
Example C24_example : ls_nonzero ex_kernel /\ wf 3 ex_kernel /\
  all_atoms (fun ad a => regular_pair 3 ad a (ex_X O) (ex_X 1%nat)) ex_kernel.
Proof. exact ex_kernel_ok. Qed.

(** ** C25 *)
Theorem C25_bounds : forall nf ad a x y, stationary a -> 0 < kernel_at nf (KAtom ad a) x y <= 1.
Proof. exact stat_bounds. Qed.
Print Assumptions C25_bounds.
Theorem C25_decreasing : forall nf ad a l x y x' y', sq_scale a = Some l ->
  sqd nf ad l x y < sqd nf ad l x' y' ->
  kernel_at nf (KAtom ad a) x' y' < kernel_at nf (KAtom ad a) x y.
Proof. exact stat_mono. Qed.
Print Assumptions C25_decreasing.
Theorem C25_distance_only : forall nf ad a l x y x' y', sq_scale a = Some l ->
  sqd nf ad l x y = sqd nf ad l x' y' ->
  kernel_at nf (KAtom ad a) x y = kernel_at nf (KAtom ad a) x' y'.
Proof. exact stat_dist. Qed.
Print Assumptions C25_distance_only.
Theorem C25_single_sample_diagonal : forall nf ad a x, base_one a -> kernel_base nf ad a x x = 1.
Proof. exact base_diag. Qed.
Print Assumptions C25_single_sample_diagonal.
Theorem C25_batched_diagonal : forall nf ad a l x, sq_scale a = Some l ->
  1 - atom_err a <= kernel_at nf (KAtom ad a) x x < 1.
Proof. exact fast_diag_lt. Qed.
Print Assumptions C25_batched_diagonal.
Example C25_example : stationary (APer 2 3) /\ sq_scale (AM32 5) = Some 5 /\ base_one (ASE 7)
  /\ sqd 2 None 1 (fun _ => 0) (fun _ => 1) < sqd 2 None 1 (fun _ => 0) (fun _ => 2).
Proof. exact ex_C25. Qed.

(** ** C26 *)
Theorem C26_gram_psd : forall nf n X k, all_atoms (fun _ a => psd_atom a) k ->
  forall c : Vec, 0 <= sum n (fun i => sum n (fun j => c i * kk nf k X X i j * c j)).
Proof. exact gram_psd_kk. Qed.
Print Assumptions C26_gram_psd.
Example C26_example : all_atoms (fun _ a => psd_atom a) ex_kernel.
Proof. exact ex_C26. Qed.

(** ** C27 *)
Theorem C27_batched_exact : forall nf k X1 X2 s t, all_atoms (fun _ a => unjittered a) k ->
  kk nf k X1 X2 s t = kb nf k (X1 s) (X2 t).
Proof. exact kk_exact. Qed.
Print Assumptions C27_batched_exact.
Theorem C27_batched_close : forall nf k X1 X2 s t,
  Rabs (kk nf k X1 X2 s t - kb nf k (X1 s) (X2 t)) <= kerr nf k (X1 s) (X2 t).
Proof. exact kk_close. Qed.
Print Assumptions C27_batched_close.
Theorem C27_se_factor : forall nf ad l X1 X2 s t,
  kk nf (KAtom ad (ASE l)) X1 X2 s t = exp (- / 10 ^ 12) * kernel_base nf ad (ASE l) (X1 s) (X2 t).
Proof. exact kk_se_factor. Qed.
Print Assumptions C27_se_factor.
Example C27_example : all_atoms (fun _ a => unjittered a) (KSum (KAtom None ALin) (KAtom None (APer 1 2))).
Proof. exact (conj I I). Qed.

(** ** C28 *)
Theorem C28_d0k_derivative : forall nf k X1 X2 s f t,
  wf nf k -> ls_nonzero k -> exact k -> (f < nf)%nat ->
  partial0 (kernel_at nf k) (X1 s) (X2 t) f (d0k nf k X1 X2 (s * nf + f)%nat t).
Proof. exact d0k_partial. Qed.
Print Assumptions C28_d0k_derivative.
Theorem C28_d1k_derivative : forall nf k X1 X2 s f t,
  wf nf k -> ls_nonzero k -> exact k -> (f < nf)%nat ->
  partial1 (kernel_at nf k) (X1 s) (X2 t) f (d1k nf k X1 X2 s (t * nf + f)%nat).
Proof. exact d1k_partial. Qed.
Print Assumptions C28_d1k_derivative.
(** SE, Matern12, Matern32: derivative of the single-sample kernel *)
Theorem C28_d0k_single_sample : forall nf ad a X1 X2 s f t,
  ad_ok nf ad -> ls_ok a -> is_m52 a = false -> unclamped nf ad a (X1 s) (X2 t) -> (f < nf)%nat ->
  partial0 (kernel_base nf ad a) (X1 s) (X2 t) f (d0k nf (KAtom ad a) X1 X2 (s * nf + f)%nat t).
Proof. exact d0k_base. Qed.
Print Assumptions C28_d0k_single_sample.
Theorem C28_d1k_single_sample : forall nf ad a X1 X2 s f t,
  ad_ok nf ad -> ls_ok a -> is_m52 a = false -> unclamped nf ad a (X1 s) (X2 t) -> (f < nf)%nat ->
  partial1 (kernel_base nf ad a) (X1 s) (X2 t) f (d1k nf (KAtom ad a) X1 X2 s (t * nf + f)%nat).
Proof. exact d1k_base. Qed.
Print Assumptions C28_d1k_single_sample.
Example C28_example : wf 3 ex_exact /\ ls_nonzero ex_exact /\ exact ex_exact
  /\ unclamped 1 None (AM32 1) (fun _ => 0) (fun _ => 1).
Proof. exact ex_C28. Qed.

(** ** C29 *)
Theorem C29_d01k_derivative : forall nf k X1 X2 s f t e,
  wf nf k -> ls_nonzero k -> exact k -> (f < nf)%nat -> (e < nf)%nat ->
  partial01 (kernel_at nf k) (X1 s) (X2 t) f e (d01k nf k X1 X2 (s * nf + f)%nat (t * nf + e)%nat).
Proof. exact d01k_partial. Qed.
Print Assumptions C29_d01k_derivative.
Theorem C29_d01k_single_sample : forall nf ad a X1 X2 s f t e,
  ad_ok nf ad -> ls_ok a -> is_m52 a = false -> is_se a = false ->
  unclamped nf ad a (X1 s) (X2 t) -> (f < nf)%nat -> (e < nf)%nat ->
  partial01 (kernel_base nf ad a) (X1 s) (X2 t) f e
    (d01k nf (KAtom ad a) X1 X2 (s * nf + f)%nat (t * nf + e)%nat).
Proof. exact d01k_base. Qed.
Print Assumptions C29_d01k_single_sample.
Theorem C29_d01k_se : forall nf ad l X1 X2 s f t e,
  ad_ok nf ad -> l <> 0 -> (f < nf)%nat -> (e < nf)%nat ->
  partial01 (kernel_at nf (KAtom ad (ASE l))) (X1 s) (X2 t) f e
    (d01k nf (KAtom ad (ASE l)) X1 X2 (s * nf + f)%nat (t * nf + e)%nat).
Proof. exact d01k_se. Qed.
Print Assumptions C29_d01k_se.

(** ** C30 *)
Theorem C30_d0kj : forall n m nf nv k X1 X2 J s v t, wf nf k ->
  (s < n)%nat -> (v < nv)%nat -> (t < m)%nat ->
  d0kj n m nf nv k X1 X2 J (s * nv + v)%nat t
  = sum nf (fun f => J s f v * d0k nf k X1 X2 (s * nf + f)%nat t).
Proof. exact d0kj_ctr. Qed.
Print Assumptions C30_d0kj.
Theorem C30_d1kj : forall n m nf nv k X1 X2 J s v t, wf nf k ->
  (s < n)%nat -> (v < nv)%nat -> (t < m)%nat ->
  d1kj n m nf nv k X1 X2 J s (t * nv + v)%nat
  = sum nf (fun f => J t f v * d1k nf k X1 X2 s (t * nf + f)%nat).
Proof. exact d1kj_ctr. Qed.
Print Assumptions C30_d1kj.
Theorem C30_d01kj : forall n m nf nv1 nv2 k X1 X2 J1 J2 s v t u, wf nf k ->
  (s < n)%nat -> (v < nv1)%nat -> (t < m)%nat -> (u < nv2)%nat ->
  d01kj n m nf nv1 nv2 k X1 X2 J1 J2 (s * nv1 + v)%nat (t * nv2 + u)%nat
  = sum nf (fun f => sum nf (fun e => J1 s f v *
      d01k nf k X1 X2 (s * nf + f)%nat (t * nf + e)%nat * J2 t e u)).
Proof. exact d01kj_ctr. Qed.
Print Assumptions C30_d01kj.
Example C30_example : wf 3 ex_kernel.
Proof. exact (proj1 (proj2 ex_kernel_ok)). Qed.

(** ** C31: with JC_sf = sum_v c_sv J_sfv *)
Theorem C31_d0kjc : forall n m nf nv k X1 X2 J (c : Mat) s t, wf nf k -> ls_nonzero k -> no_m52 k ->
  (s < n)%nat -> (t < m)%nat ->
  d0kjc n m nf k X1 X2 (fun s f => sum nv (fun v => c s v * J s f v)) s t
  = sum nv (fun v => c s v * d0kj n m nf nv k X1 X2 J (s * nv + v)%nat t).
Proof. exact d0kjc_coef. Qed.
Print Assumptions C31_d0kjc.
Theorem C31_d01kjc : forall n m nf nv nv2 k X1 X2 J1 J2 (c : Mat) s t u,
  wf nf k -> ls_nonzero k -> no_m52 k -> (s < n)%nat -> (t < m)%nat -> (u < nv2)%nat ->
  d01kjc n m nf nv2 k X1 X2 (fun s f => sum nv (fun v => c s v * J1 s f v)) J2 s (t * nv2 + u)%nat
  = sum nv (fun v => c s v * d01kj n m nf nv nv2 k X1 X2 J1 J2 (s * nv + v)%nat (t * nv2 + u)%nat).
Proof. exact d01kjc_coef. Qed.
Print Assumptions C31_d01kjc.
(** a Matern52 atom: d01kjc is the contraction too; d0kjc differentiates the single-sample
    kernel, so the contraction of the batched d0kj is only approximated *)
Theorem C31_d01kjc_matern52 : forall n m nf nv nv2 ad l X1 X2 J1 J2 (c : Mat) s t u,
  ad_ok nf ad -> l <> 0 -> (s < n)%nat -> (t < m)%nat -> (u < nv2)%nat ->
  d01kjc n m nf nv2 (KAtom ad (AM52 l)) X1 X2 (fun s f => sum nv (fun v => c s v * J1 s f v)) J2 s (t * nv2 + u)%nat
  = sum nv (fun v => c s v *
      d01kj n m nf nv nv2 (KAtom ad (AM52 l)) X1 X2 J1 J2 (s * nv + v)%nat (t * nv2 + u)%nat).
Proof. exact d01kjc_m52. Qed.
Print Assumptions C31_d01kjc_matern52.
(** any kernel, Matern52 included: within the error Spec/CloseSpec.v propagates; it vanishes without
    Matern52 and is of order 1e-12 with it *)
Theorem C31_d0kjc_close : forall n m nf nv k X1 X2 J (c : Mat) s t, wf nf k -> ls_nonzero k ->
  (s < n)%nat -> (t < m)%nat ->
  Rabs (d0kjc n m nf k X1 X2 (fun s f => sum nv (fun v => c s v * J s f v)) s t
        - sum nv (fun v => c s v * d0kj n m nf nv k X1 X2 J (s * nv + v)%nat t))
  <= cerr0 nf k (X1 s) (X2 t) (fun f => sum nv (fun v => c s v * J s f v)).
Proof. exact d0kjc_coef_close. Qed.
Print Assumptions C31_d0kjc_close.
Theorem C31_d01kjc_close : forall n m nf nv nv2 k X1 X2 J1 J2 (c : Mat) s t u,
  wf nf k -> ls_nonzero k -> (s < n)%nat -> (t < m)%nat -> (u < nv2)%nat ->
  Rabs (d01kjc n m nf nv2 k X1 X2 (fun s f => sum nv (fun v => c s v * J1 s f v)) J2 s (t * nv2 + u)%nat
        - sum nv (fun v => c s v * d01kj n m nf nv nv2 k X1 X2 J1 J2 (s * nv + v)%nat (t * nv2 + u)%nat))
  <= cerr01 nf k (X1 s) (X2 t) (fun f => sum nv (fun v => c s v * J1 s f v)) (fun e => J2 t e u).
Proof. exact d01kjc_coef_close. Qed.
Print Assumptions C31_d01kjc_close.
(** the traced variants return the sum over the first samples of the untraced ones *)
Theorem C31_traced_d0kjc : forall n nf g X1 X2 JC t,
  grad0jaccoef_traced n nf g X1 X2 JC t = sum n (fun s => grad0jaccoef_untraced n nf g X1 X2 JC s t).
Proof. exact traced0. Qed.
Print Assumptions C31_traced_d0kjc.
Theorem C31_traced_d01kjc : forall n m nf nv h X1 X2 JC J t u, (t < m)%nat -> (u < nv)%nat ->
  grad01jaccoef_traced n m nf nv h X1 X2 JC J (t * nv + u)%nat
  = sum n (fun s => grad01jaccoef_untraced n m nf nv h X1 X2 JC J s (t * nv + u)%nat).
Proof. exact traced01. Qed.
Print Assumptions C31_traced_d01kjc.
Example C31_example : let k := KProd (KAtom None (ASE 2)) (KAtom (Some (1 :: nil)%nat) (AM32 1)) in
  wf 3 k /\ ls_nonzero k /\ no_m52 k.
Proof. exact ex_C31. Qed.

(** ** C32: the sum and product rules, for any batches and any nesting below *)
Theorem C32_composite : forall nf k X1 X2 s f t e,
  wf nf k -> ls_nonzero k -> exact k -> (f < nf)%nat -> (e < nf)%nat ->
  (forall x y, kernel_at nf k x y = kb_batched nf k x y) /\
  partial0 (kb_batched nf k) (X1 s) (X2 t) f (d0k nf k X1 X2 (s * nf + f)%nat t) /\
  partial1 (kb_batched nf k) (X1 s) (X2 t) e (d1k nf k X1 X2 s (t * nf + e)%nat) /\
  partial01 (kb_batched nf k) (X1 s) (X2 t) f e (d01k nf k X1 X2 (s * nf + f)%nat (t * nf + e)%nat).
Proof. exact composite. Qed.
Print Assumptions C32_composite.
Example C32_example : wf 3 ex_exact /\ ls_nonzero ex_exact /\ exact ex_exact.
Proof. exact (conj (proj1 ex_C28) (conj (proj1 (proj2 ex_C28)) (proj1 (proj2 (proj2 ex_C28))))). Qed.

(** any nesting of any atoms: the derivatives of the single-sample kernel exist at pairs off the clamp,
    and the derivative kernels are within the propagated error of them *)
Theorem C32_composite_close : forall nf k X1 X2 s f t e,
  wf nf k -> ls_nonzero k -> all_atoms (fun ad a => unclamped nf ad a (X1 s) (X2 t)) k ->
  (f < nf)%nat -> (e < nf)%nat ->
  (partial0 (kb nf k) (X1 s) (X2 t) f (der0 (kb nf k) (X1 s) (X2 t) f)
   /\ Rabs (d0k nf k X1 X2 (s * nf + f)%nat t - der0 (kb nf k) (X1 s) (X2 t) f)
      <= err0 nf k (X1 s) (X2 t) f)
  /\ (partial1 (kb nf k) (X1 s) (X2 t) e (der1 (kb nf k) (X1 s) (X2 t) e)
   /\ Rabs (d1k nf k X1 X2 s (t * nf + e)%nat - der1 (kb nf k) (X1 s) (X2 t) e)
      <= err1 nf k (X1 s) (X2 t) e)
  /\ (partial01 (kb nf k) (X1 s) (X2 t) f e (der01 (kb nf k) (X1 s) (X2 t) f e)
   /\ Rabs (d01k nf k X1 X2 (s * nf + f)%nat (t * nf + e)%nat - der01 (kb nf k) (X1 s) (X2 t) f e)
      <= err01 nf k (X1 s) (X2 t) f e).
Proof. exact composite_close. Qed.
Print Assumptions C32_composite_close.
Example C32_close_example : wf 3 ex_close /\ ls_nonzero ex_close /\
  all_atoms (fun ad a => unclamped 3 ad a (fun _ => 0) (fun _ => 1)) ex_close.
Proof. exact ex_C32_close. Qed.

(** ** C33 *)
Theorem C33_inactive_values : forall nf k x x' y y',
  all_atoms (fun ad _ => (forall d, In d (active nf ad) -> x d = x' d)
     /\ (forall d, In d (active nf ad) -> y d = y' d)) k ->
  kernel_at nf k x y = kernel_at nf k x' y'.
Proof. exact kernel_active. Qed.
Print Assumptions C33_inactive_values.
Theorem C33_inactive_d0k : forall nf k X1 X2 s f t, (f < nf)%nat ->
  all_atoms (fun ad _ => ~ In f (active nf ad)) k ->
  d0k nf k X1 X2 (s * nf + f)%nat t = 0.
Proof. exact d0k_inactive. Qed.
Print Assumptions C33_inactive_d0k.
Theorem C33_inactive_d01k : forall nf k X1 X2 s f t e, (f < nf)%nat -> (e < nf)%nat ->
  all_atoms (fun ad _ => ~ In f (active nf ad)) k ->
  d01k nf k X1 X2 (s * nf + f)%nat (t * nf + e)%nat = 0.
Proof. exact d01k_inactive. Qed.
Print Assumptions C33_inactive_d01k.
Example C33_example : all_atoms (fun ad _ => ~ In 1%nat (active 3 ad)) (KAtom (Some (0 :: 2 :: nil)%nat) (ASE 1)).
Proof. exact ex_C33. Qed.
(** active features: the plain kernel of the selected columns, values and derivatives *)
Theorem C33_active_values : forall nf ds a x y,
  kernel_at nf (KAtom (Some ds) a) x y = kernel_at (length ds) (KAtom None a) (gather ds x) (gather ds y).
Proof. exact restrict_values. Qed.
Print Assumptions C33_active_values.
Theorem C33_active_d0k : forall nf ds a X1 X2 s i t,
  ad_ok nf (Some ds) -> ls_ok a -> unclamped nf (Some ds) a (X1 s) (X2 t) -> (i < length ds)%nat ->
  d0k nf (KAtom (Some ds) a) X1 X2 (s * nf + nth i ds O)%nat t
  = d0k (length ds) (KAtom None a) (fun s => gather ds (X1 s)) (fun t => gather ds (X2 t)) (s * length ds + i)%nat t.
Proof. exact restrict_d0k. Qed.
Print Assumptions C33_active_d0k.
Theorem C33_active_d01k : forall nf ds a X1 X2 s i t j,
  ad_ok nf (Some ds) -> ls_ok a -> unclamped nf (Some ds) a (X1 s) (X2 t) ->
  (i < length ds)%nat -> (j < length ds)%nat ->
  d01k nf (KAtom (Some ds) a) X1 X2 (s * nf + nth i ds O)%nat (t * nf + nth j ds O)%nat
  = d01k (length ds) (KAtom None a) (fun s => gather ds (X1 s)) (fun t => gather ds (X2 t))
      (s * length ds + i)%nat (t * length ds + j)%nat.
Proof. exact restrict_d01k. Qed.
Print Assumptions C33_active_d01k.
Example C33_active_example : ad_ok 3 (Some (2 :: 0 :: nil)%nat) /\ ls_ok (AM32 2)
  /\ unclamped 3 (Some (2 :: 0 :: nil)%nat) (AM32 2) (fun _ => 0) (fun _ => 1).
Proof. exact ex_C33_active. Qed.

(** ** C34 *)
Theorem C34_train_test : forall n D (Phi Psi : Mat) m (K Ktrain : Mat), (0 < n)%nat ->
  (forall i j, (i < n)%nat -> (j < n)%nat -> Ktrain i j = inner D (Phi i) (Phi j)) ->
  (forall i j, (i < n)%nat -> (j < m)%nat -> K i j = inner D (Phi i) (Psi j)) ->
  forall i j, (i < n)%nat -> (j < m)%nat ->
  kernel_center n K (mean0 n Ktrain) i j
  = inner D (fun d => Phi i d - mean_feature n Phi d) (fun d => Psi j d - mean_feature n Phi d).
Proof. exact center_train_test. Qed.
Print Assumptions C34_train_test.
Theorem C34_test_test : forall n D (Phi Psi : Mat) m (K Ktrain Ktt : Mat), (0 < n)%nat ->
  (forall i j, (i < n)%nat -> (j < n)%nat -> Ktrain i j = inner D (Phi i) (Phi j)) ->
  (forall i j, (i < n)%nat -> (j < m)%nat -> Ktt i j = inner D (Phi i) (Psi j)) ->
  (forall i j, (i < m)%nat -> (j < m)%nat -> K i j = inner D (Psi i) (Psi j)) ->
  forall i j, (i < m)%nat -> (j < m)%nat ->
  kernel_center_test_test n K (mean0 n Ktrain) (mean0 n Ktt) i j
  = inner D (fun d => Psi i d - mean_feature n Phi d) (fun d => Psi j d - mean_feature n Phi d).
Proof. exact center_test_test. Qed.
Print Assumptions C34_test_test.
Theorem C34_zero_sums : forall n K i, (0 < n)%nat -> sym n K -> (i < n)%nat ->
  sum n (fun j => kernel_center n K (mean0 n K) i j) = 0
  /\ sum n (fun j => kernel_center n K (mean0 n K) j i) = 0.
Proof. exact center_sums. Qed.
Print Assumptions C34_zero_sums.
Theorem C34_psd : forall n K, (0 < n)%nat -> sym n K -> psd n K ->
  sym n (kernel_center n K (mean0 n K)) /\ psd n (kernel_center n K (mean0 n K)).
Proof. exact center_sym_psd. Qed.
Print Assumptions C34_psd.
Theorem C34_idempotent : forall n K i j, (0 < n)%nat ->
  let C := kernel_center n K (mean0 n K) in
  kernel_center n C (mean0 n C) i j = C i j.
Proof. exact center_idem. Qed.
Print Assumptions C34_idempotent.
Example C34_example : sym 4 (gram 2 (fun i d => INR (i + d))) /\ psd 4 (gram 2 (fun i d => INR (i + d))).
Proof. exact (conj (sym_gram 4 2 _) (psd_gram 4 2 _)). Qed.

(** ** C35 *)
Theorem C35_matern32_jvp : forall na x1 x2 dx1 dx2 l dl, l <> 0 -> / 10 ^ 36 < 3 * sqdist na l x1 x2 ->
  directional (fun l => m32_base l na) l dl x1 dx1 x2 dx2 (m32_jvp l na x1 x2 dl dx1 dx2).
Proof. exact jvp32. Qed.
Print Assumptions C35_matern32_jvp.
Theorem C35_matern52_jvp : forall na x1 x2 dx1 dx2 l dl, l <> 0 -> / 10 ^ 36 < 5 * sqdist na l x1 x2 ->
  directional (fun l => m52_base l na) l dl x1 dx1 x2 dx2 (m52_jvp l na x1 x2 dl dx1 dx2).
Proof. exact jvp52. Qed.
Print Assumptions C35_matern52_jvp.
(** coincident points: the derivative is 0, the rule returns 0 up to 1e-36 |dl/l| *)
Theorem C35_matern32_coincident : forall na x1 x2 dx1 dx2 l dl, l <> 0 ->
  (forall a, (a < na)%nat -> x1 a = x2 a) ->
  directional (fun l => m32_base l na) l dl x1 dx1 x2 dx2 0
  /\ Rabs (m32_jvp l na x1 x2 dl dx1 dx2) <= / 10 ^ 36 * Rabs (dl / l).
Proof. exact jvp32_coinc. Qed.
Print Assumptions C35_matern32_coincident.
Theorem C35_matern52_coincident : forall na x1 x2 dx1 dx2 l dl, l <> 0 ->
  (forall a, (a < na)%nat -> x1 a = x2 a) ->
  directional (fun l => m52_base l na) l dl x1 dx1 x2 dx2 0
  /\ Rabs (m52_jvp l na x1 x2 dl dx1 dx2) <= / 10 ^ 36 * Rabs (dl / l).
Proof. exact jvp52_coinc. Qed.
Print Assumptions C35_matern52_coincident.
(** with one lengthscale per feature the lengthscale tangent is wrong *)
Theorem C35_vector_lengthscale_refuted :
  (exists (l x1 x2 dl : Vec), (forall a, l a <> 0) /\
    is_derive (fun t => m32_base_vec (fun a => l a + t * dl a) 2 x1 x2) 0 0 /\
    m32_jvp_l_vec l 2 x1 x2 dl <> 0) /\
  (exists (l x1 x2 dl : Vec), (forall a, l a <> 0) /\
    is_derive (fun t => m52_base_vec (fun a => l a + t * dl a) 2 x1 x2) 0 0 /\
    m52_jvp_l_vec l 2 x1 x2 dl <> 0).
Proof. exact (conj m32_vec_wrong m52_vec_wrong). Qed.
Print Assumptions C35_vector_lengthscale_refuted.
(** what it returns instead: the derivative under a common rescaling of all lengthscales, times the sum of the
    relative changes; right for one feature, too large by their number if all lengthscales change alike *)
Theorem C35_vector_lengthscale_rule : forall na (l x1 x2 dl : Vec), (forall a, (a < na)%nat -> l a <> 0) ->
  (/ 10 ^ 36 < 3 * sum na (fun a => (x1 a / l a - x2 a / l a) ^ 2) ->
   exists D, is_derive (fun t => m32_base_vec (fun a => l a + t * l a) na x1 x2) 0 D /\
             m32_jvp_l_vec l na x1 x2 dl = sum na (fun a => dl a / l a) * D) /\
  (/ 10 ^ 36 < 5 * sum na (fun a => (x1 a / l a - x2 a / l a) ^ 2) ->
   exists D, is_derive (fun t => m52_base_vec (fun a => l a + t * l a) na x1 x2) 0 D /\
             m52_jvp_l_vec l na x1 x2 dl = sum na (fun a => dl a / l a) * D).
Proof. exact (fun na l x1 x2 dl L => conj (m32_vec_rule na l x1 x2 dl L) (m52_vec_rule na l x1 x2 dl L)). Qed.
Print Assumptions C35_vector_lengthscale_rule.
Example C35_vector_example : (forall a, (a < 2)%nat -> (fun a => INR a + 1) a <> 0) /\
  / 10 ^ 36 < 3 * sum 2 (fun a => ((fun _ => 1) a / (INR a + 1) - (fun _ => 0) a / (INR a + 1)) ^ 2).
Proof. exact ex_vec. Qed.
Example C35_example : / 10 ^ 36 < 3 * sqdist 1 2 (fun _ => 0) (fun _ => 1).
Proof. exact ex_C35. Qed.

(** ** C36 *)
Theorem C36_periodic : forall nf ad l p x y f k, p <> 0 ->
  kernel_at nf (KAtom ad (APer l p)) (upd x f (x f + IZR k * p)) y
  = kernel_at nf (KAtom ad (APer l p)) x y.
Proof. exact per_shift. Qed.
Print Assumptions C36_periodic.
Theorem C36_circle : forall l p na x y cx cy, 0 < l -> p <> 0 ->
  circle_embedding p x cx -> circle_embedding p y cy ->
  per_base l p na x y = se_base (sqrt l) (2 * na) cx cy.
Proof. exact per_circle_emb. Qed.
Print Assumptions C36_circle.
Example C36_example : circle_embedding 2 (fun a => INR a) (circle 2 (fun a => INR a)).
Proof. exact (ex_C36 2 (fun a => INR a)). Qed.

(** ** C55 *)
Theorem C55_squared_distances : forall na X Y i j,
  squared_distances na X Y i j = sum na (fun a => (X i a - Y j a) ^ 2) + / 10 ^ 12.
Proof. exact squared_distances_val. Qed.
Print Assumptions C55_squared_distances.
Theorem C55_positive : forall na X Y i j, 0 < squared_distances na X Y i j.
Proof. exact squared_distances_pos. Qed.
Print Assumptions C55_positive.
Theorem C55_euclidean : forall na x y,
  euclidean_distance na x y = sqrt (sum na (fun a => (x a - y a) ^ 2)).
Proof. exact euclidean_val. Qed.
Print Assumptions C55_euclidean.
