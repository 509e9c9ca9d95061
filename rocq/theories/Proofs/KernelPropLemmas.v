(** Restatements of the kernel lemmas in the vocabulary of the property file. *)
From Coq Require Import Reals Lra Lia Arith List ZArith FunctionalExtensionality.
From Coquelicot Require Import Coquelicot.
From Verif Require Import Base.Sums Base.Mat Base.PSD Model.Arrays Model.Distances Model.Kernelizers
  Model.Kernels Model.KernelOps Model.MaternJvp Spec.Partial Spec.KernelSpec Spec.JvpSpec
  Proofs.Deriv Proofs.KernelAtoms Proofs.KernelJets Proofs.Loops Proofs.KernelMethods
  Proofs.Contraction Proofs.KernelDerivs Proofs.KernelSym Proofs.KernelBounds Proofs.KernelPSD
  Proofs.KernelMisc Proofs.MaternPSD.
Open Scope R_scope.

Definition ex_kernel : kexp :=
  KProd (KSum (KAtom (Some (0 :: 2 :: nil)%nat) (ASE 2)) (KAtom None (AM52 3)))
        (KAtom None (APoly 3 (/ 2))).
Definition ex_exact : kexp := KProd (KAtom (Some (2 :: 0 :: nil)%nat) (AM52 3)) (KAtom None (APoly 3 (/ 2))).
Definition ex_X : Mat := fun s f => INR (s + 2 * f).

Ltac nd := repeat (apply NoDup_cons; [simpl; intuition discriminate|]); apply NoDup_nil.
Lemma ex_kernel_ok : ls_nonzero ex_kernel /\ wf 3 ex_kernel /\
  all_atoms (fun ad a => regular_pair 3 ad a (ex_X O) (ex_X 1%nat)) ex_kernel.
Proof.
  split; [|split]; simpl; repeat split; try lra; try (apply Rgt_not_eq; lra).
  - nd.
  - simpl. intros d H. intuition lia.
Qed.
Lemma ex_C25 : stationary (APer 2 3) /\ sq_scale (AM32 5) = Some 5 /\ base_one (ASE 7)
  /\ sqd 2 None 1 (fun _ => 0) (fun _ => 1) < sqd 2 None 1 (fun _ => 0) (fun _ => 2).
Proof. simpl. repeat split; try lra. unfold sqd, gather. simpl. lra. Qed.
Lemma ex_C26 : all_atoms (fun _ a => psd_atom a) ex_kernel.
Proof. simpl. repeat split; auto. lra. Qed.
Lemma ex_C28 : wf 3 ex_exact /\ ls_nonzero ex_exact /\ exact ex_exact
  /\ unclamped 1 None (AM32 1) (fun _ => 0) (fun _ => 1).
Proof.
  split; [|split; [|split]]; simpl; repeat split; try lra; try (apply Rgt_not_eq; lra).
  - nd.
  - simpl. intros d H. intuition lia.
  - unfold sqd, gather. simpl. lra.
Qed.
Lemma ex_C31 : let k := KProd (KAtom None (ASE 2)) (KAtom (Some (1 :: nil)%nat) (AM32 1)) in
  wf 3 k /\ ls_nonzero k /\ no_m52 k.
Proof.
  simpl. repeat split; try lra; try (apply Rgt_not_eq; lra).
  - nd.
  - simpl. intros d H. intuition lia.
Qed.
Lemma ex_C33 : all_atoms (fun ad _ => ~ In 1%nat (active 3 ad)) (KAtom (Some (0 :: 2 :: nil)%nat) (ASE 1)).
Proof. simpl. intuition lia. Qed.
Lemma ex_C35 : / 10 ^ 36 < 3 * sqdist 1 2 (fun _ => 0) (fun _ => 1).
Proof. unfold sqdist. simpl. lra. Qed.
Lemma ex_C36 : forall p x, circle_embedding p x (circle p x).
Proof. intros p x a. split; [apply circle_even|apply circle_odd]. Qed.

Lemma gram_psd_kk : forall nf n X k, all_atoms (fun _ a => psd_atom a) k ->
  forall c : Vec, 0 <= sum n (fun i => sum n (fun j => c i * kk nf k X X i j * c j)).
Proof.
  intros nf n X k H c. pose proof (gram_psd nf n X k H c) as P. unfold qf in P.
  erewrite sum_ext; [exact P|]. intros i _. apply sum_ext; intros j _. now rewrite kk_at.
Qed.
Lemma kk_exact : forall nf k X1 X2 s t, all_atoms (fun _ a => unjittered a) k ->
  kk nf k X1 X2 s t = kb nf k (X1 s) (X2 t).
Proof. intros. rewrite kk_at. now apply kerr_exact. Qed.
Lemma kk_close : forall nf k X1 X2 s t,
  Rabs (kk nf k X1 X2 s t - kb nf k (X1 s) (X2 t)) <= kerr nf k (X1 s) (X2 t).
Proof. intros. rewrite kk_at. apply kerr_bound. Qed.
Lemma kk_se_factor : forall nf ad l X1 X2 s t,
  kk nf (KAtom ad (ASE l)) X1 X2 s t = exp (- / 10 ^ 12) * kernel_base nf ad (ASE l) (X1 s) (X2 t).
Proof. intros. rewrite kk_at. apply se_factor. Qed.
Lemma unclamped_aP : forall nf ad a x y, unclamped nf ad a x y -> aP a (au nf ad a x y).
Proof. intros nf ad a x y H. destruct a; exact H. Qed.
Lemma d0k_base : forall nf ad a X1 X2 s f t,
  ad_ok nf ad -> ls_ok a -> is_m52 a = false -> unclamped nf ad a (X1 s) (X2 t) -> (f < nf)%nat ->
  partial0 (kernel_base nf ad a) (X1 s) (X2 t) f (d0k nf (KAtom ad a) X1 X2 (s * nf + f)%nat t).
Proof. intros. apply atom_d0k_base; auto. now apply unclamped_aP. Qed.
Lemma d1k_base : forall nf ad a X1 X2 s f t,
  ad_ok nf ad -> ls_ok a -> is_m52 a = false -> unclamped nf ad a (X1 s) (X2 t) -> (f < nf)%nat ->
  partial1 (kernel_base nf ad a) (X1 s) (X2 t) f (d1k nf (KAtom ad a) X1 X2 s (t * nf + f)%nat).
Proof. intros. apply atom_d1k_base; auto. now apply unclamped_aP. Qed.
Lemma d01k_base : forall nf ad a X1 X2 s f t e,
  ad_ok nf ad -> ls_ok a -> is_m52 a = false -> is_se a = false ->
  unclamped nf ad a (X1 s) (X2 t) -> (f < nf)%nat -> (e < nf)%nat ->
  partial01 (kernel_base nf ad a) (X1 s) (X2 t) f e
    (d01k nf (KAtom ad a) X1 X2 (s * nf + f)%nat (t * nf + e)%nat).
Proof. intros. apply atom_d01k_base; auto. now apply unclamped_aP. Qed.
Lemma d01k_se : forall nf ad l X1 X2 s f t e,
  ad_ok nf ad -> l <> 0 -> (f < nf)%nat -> (e < nf)%nat ->
  partial01 (kernel_at nf (KAtom ad (ASE l))) (X1 s) (X2 t) f e
    (d01k nf (KAtom ad (ASE l)) X1 X2 (s * nf + f)%nat (t * nf + e)%nat).
Proof.
  intros. destruct (se_d01k_base nf ad l X1 X2 s f t e) as [g [G1 G2]]; auto.
  exists g. split; auto. revert G1. apply filter_imp. intros u Hu.
  eapply partial0_ext; [|exact Hu]. intros. symmetry. apply se_factor.
Qed.

Lemma d0kjc_coef : forall n m nf nv k X1 X2 J (c : Mat) s t, wf nf k -> ls_nonzero k -> no_m52 k ->
  (s < n)%nat -> (t < m)%nat ->
  d0kjc n m nf k X1 X2 (fun s f => sum nv (fun v => c s v * J s f v)) s t
  = sum nv (fun v => c s v * d0kj n m nf nv k X1 X2 J (s * nv + v)%nat t).
Proof.
  intros n m nf nv k X1 X2 J c s t W L M Hs Ht. rewrite d0kjc_ctr by auto.
  transitivity (sum nv (fun v => sum nf (fun f => c s v * J s f v * d0k nf k X1 X2 (s * nf + f)%nat t))).
  - rewrite sum_swap. apply sum_ext; intros f Hf. now rewrite sum_scal_r.
  - apply sum_ext; intros v Hv. rewrite d0kj_ctr by auto. rewrite <- sum_scal_l.
    apply sum_ext; intros; ring.
Qed.
Lemma coef_bil : forall nf nv (c : Vec) (J1 : nat -> nat -> R) (D : Mat) (j2 : Vec),
  sum nf (fun f => sum nf (fun e => sum nv (fun v => c v * J1 f v) * D f e * j2 e))
  = sum nv (fun v => c v * sum nf (fun f => sum nf (fun e => J1 f v * D f e * j2 e))).
Proof.
  intros.
  transitivity (sum nv (fun v => sum nf (fun f => c v * sum nf (fun e => J1 f v * D f e * j2 e)))).
  - rewrite (sum_swap nv nf). apply sum_ext; intros f Hf.
    transitivity (sum nf (fun e => sum nv (fun v => c v * (J1 f v * D f e * j2 e)))).
    + apply sum_ext; intros e He. rewrite Rmult_assoc, <- sum_scal_r. apply sum_ext; intros; ring.
    + rewrite (sum_swap nf nv). apply sum_ext; intros v Hv. now rewrite sum_scal_l.
  - apply sum_ext; intros v Hv. now rewrite sum_scal_l.
Qed.
Lemma d01kjc_coef : forall n m nf nv nv2 k X1 X2 J1 J2 (c : Mat) s t u,
  wf nf k -> ls_nonzero k -> no_m52 k -> (s < n)%nat -> (t < m)%nat -> (u < nv2)%nat ->
  d01kjc n m nf nv2 k X1 X2 (fun s f => sum nv (fun v => c s v * J1 s f v)) J2 s (t * nv2 + u)%nat
  = sum nv (fun v => c s v * d01kj n m nf nv nv2 k X1 X2 J1 J2 (s * nv + v)%nat (t * nv2 + u)%nat).
Proof.
  intros n m nf nv nv2 k X1 X2 J1 J2 c s t u W L M Hs Ht Hu.
  rewrite d01kjc_ctr by auto. rewrite coef_bil. apply sum_ext; intros v Hv.
  now rewrite d01kj_ctr by auto.
Qed.
Lemma d01kjc_m52 : forall n m nf nv nv2 ad l X1 X2 J1 J2 (c : Mat) s t u,
  ad_ok nf ad -> l <> 0 -> (s < n)%nat -> (t < m)%nat -> (u < nv2)%nat ->
  d01kjc n m nf nv2 (KAtom ad (AM52 l)) X1 X2 (fun s f => sum nv (fun v => c s v * J1 s f v)) J2 s (t * nv2 + u)%nat
  = sum nv (fun v => c s v *
      d01kj n m nf nv nv2 (KAtom ad (AM52 l)) X1 X2 J1 J2 (s * nv + v)%nat (t * nv2 + u)%nat).
Proof.
  intros n m nf nv nv2 ad l X1 X2 J1 J2 c s t u W L Hs Ht Hu.
  unfold d01kjc. rewrite atom_d01kjc_ctr by auto. rewrite coef_bil. apply sum_ext; intros v Hv.
  unfold d01kj. now rewrite atom_d01kj_ctr by auto.
Qed.
Lemma traced0 : forall n nf g X1 X2 JC t,
  grad0jaccoef_traced n nf g X1 X2 JC t = sum n (fun s => grad0jaccoef_untraced n nf g X1 X2 JC s t).
Proof.
  intros. rewrite grad0jaccoef_traced_entry. apply sum_ext; intros s Hs.
  now rewrite grad0jaccoef_untraced_entry by auto.
Qed.
Lemma traced01 : forall n m nf nv h X1 X2 JC J t u, (t < m)%nat -> (u < nv)%nat ->
  grad01jaccoef_traced n m nf nv h X1 X2 JC J (t * nv + u)%nat
  = sum n (fun s => grad01jaccoef_untraced n m nf nv h X1 X2 JC J s (t * nv + u)%nat).
Proof.
  intros. rewrite grad01jaccoef_traced_entry by auto. apply sum_ext; intros s Hs.
  now rewrite grad01jaccoef_untraced_entry by auto.
Qed.
Lemma kb_batched_at : forall nf k x y, kernel_at nf k x y = kb_batched nf k x y.
Proof.
  induction k; intros x y; simpl; auto.
  - rewrite kernel_at_sum. now rewrite IHk1, IHk2.
  - rewrite kernel_at_prod. now rewrite IHk1, IHk2.
Qed.
Lemma composite : forall nf k X1 X2 s f t e,
  wf nf k -> ls_nonzero k -> exact k -> (f < nf)%nat -> (e < nf)%nat ->
  (forall x y, kernel_at nf k x y = kb_batched nf k x y) /\
  partial0 (kb_batched nf k) (X1 s) (X2 t) f (d0k nf k X1 X2 (s * nf + f)%nat t) /\
  partial1 (kb_batched nf k) (X1 s) (X2 t) e (d1k nf k X1 X2 s (t * nf + e)%nat) /\
  partial01 (kb_batched nf k) (X1 s) (X2 t) f e (d01k nf k X1 X2 (s * nf + f)%nat (t * nf + e)%nat).
Proof.
  intros nf k X1 X2 s f t e W L E Hf He.
  assert (F : kb_batched nf k = kernel_at nf k).
  { extensionality x; extensionality y. symmetry. apply kb_batched_at. }
  rewrite F. split; [reflexivity|split; [|split]].
  - now apply d0k_partial. - now apply d1k_partial. - now apply d01k_partial.
Qed.
Lemma center_train_test : forall n D (Phi Psi : Mat) m (K Ktrain : Mat), (0 < n)%nat ->
  (forall i j, (i < n)%nat -> (j < n)%nat -> Ktrain i j = inner D (Phi i) (Phi j)) ->
  (forall i j, (i < n)%nat -> (j < m)%nat -> K i j = inner D (Phi i) (Psi j)) ->
  forall i j, (i < n)%nat -> (j < m)%nat ->
  kernel_center n K (mean0 n Ktrain) i j
  = inner D (fun d => Phi i d - mean_feature n Phi d) (fun d => Psi j d - mean_feature n Phi d).
Proof. intros n D Phi Psi m K Kt _ H1 H2 i j Hi Hj. exact (center_ip n D Phi K Kt Psi m H1 H2 i j Hi Hj). Qed.
Lemma center_test_test : forall n D (Phi Psi : Mat) m (K Ktrain Ktt : Mat), (0 < n)%nat ->
  (forall i j, (i < n)%nat -> (j < n)%nat -> Ktrain i j = inner D (Phi i) (Phi j)) ->
  (forall i j, (i < n)%nat -> (j < m)%nat -> Ktt i j = inner D (Phi i) (Psi j)) ->
  (forall i j, (i < m)%nat -> (j < m)%nat -> K i j = inner D (Psi i) (Psi j)) ->
  forall i j, (i < m)%nat -> (j < m)%nat ->
  kernel_center_test_test n K (mean0 n Ktrain) (mean0 n Ktt) i j
  = inner D (fun d => Psi i d - mean_feature n Phi d) (fun d => Psi j d - mean_feature n Phi d).
Proof. intros n D Phi Psi m K Kt Ktt _ H1 H2 H3 i j Hi Hj. exact (center_tt n D Phi K Kt Ktt Psi m H1 H2 H3 i j Hi Hj). Qed.
Lemma center_sums : forall n K i, (0 < n)%nat -> sym n K -> (i < n)%nat ->
  sum n (fun j => kernel_center n K (mean0 n K) i j) = 0
  /\ sum n (fun j => kernel_center n K (mean0 n K) j i) = 0.
Proof. intros. split; [now apply center_row_sum|now apply center_col_sum]. Qed.
Lemma center_sym_psd : forall n K, (0 < n)%nat -> sym n K -> psd n K ->
  sym n (kernel_center n K (mean0 n K)) /\ psd n (kernel_center n K (mean0 n K)).
Proof. intros. split; [now apply center_sym|now apply center_psd]. Qed.
Lemma jvp32 : forall na x1 x2 dx1 dx2 l dl, l <> 0 -> / 10 ^ 36 < 3 * sqdist na l x1 x2 ->
  directional (fun l => m32_base l na) l dl x1 dx1 x2 dx2 (m32_jvp l na x1 x2 dl dx1 dx2).
Proof. intros. now apply m32_jvp_ok. Qed.
Lemma jvp52 : forall na x1 x2 dx1 dx2 l dl, l <> 0 -> / 10 ^ 36 < 5 * sqdist na l x1 x2 ->
  directional (fun l => m52_base l na) l dl x1 dx1 x2 dx2 (m52_jvp l na x1 x2 dl dx1 dx2).
Proof. intros. now apply m52_jvp_ok. Qed.
Lemma jvp32_coinc : forall na x1 x2 dx1 dx2 l dl, l <> 0 ->
  (forall a, (a < na)%nat -> x1 a = x2 a) ->
  directional (fun l => m32_base l na) l dl x1 dx1 x2 dx2 0
  /\ Rabs (m32_jvp l na x1 x2 dl dx1 dx2) <= / 10 ^ 36 * Rabs (dl / l).
Proof. intros. now apply m32_coinc. Qed.
Lemma jvp52_coinc : forall na x1 x2 dx1 dx2 l dl, l <> 0 ->
  (forall a, (a < na)%nat -> x1 a = x2 a) ->
  directional (fun l => m52_base l na) l dl x1 dx1 x2 dx2 0
  /\ Rabs (m52_jvp l na x1 x2 dl dx1 dx2) <= / 10 ^ 36 * Rabs (dl / l).
Proof. intros. now apply m52_coinc. Qed.
Lemma per_circle_emb : forall l p na x y cx cy, 0 < l -> p <> 0 ->
  circle_embedding p x cx -> circle_embedding p y cy ->
  per_base l p na x y = se_base (sqrt l) (2 * na) cx cy.
Proof.
  intros l p na x y cx cy Hl Hp Hx Hy. rewrite per_circle by auto. unfold se_base.
  f_equal. f_equal. rewrite !sum_pairs. apply sum_ext; intros a _.
  destruct (Hx a) as [-> ->], (Hy a) as [-> ->]. now rewrite !circle_even, !circle_odd.
Qed.
Lemma squared_distances_pos : forall na X Y i j, 0 < squared_distances na X Y i j.
Proof.
  intros. rewrite squared_distances_val.
  assert (0 <= sum na (fun a => (X i a - Y j a) ^ 2)) by (apply sum_nonneg; intros; apply pow2_ge_0).
  assert (0 < / 10 ^ 12) by (apply Rinv_0_lt_compat, pow_lt; lra). lra.
Qed.
