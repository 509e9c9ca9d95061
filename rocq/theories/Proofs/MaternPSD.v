(** Positive semidefiniteness of the Matern kernels, through mixtures of Gaussians:
    if exp(-t v_ij) is PSD for all t >= 0 then so are 1/(v_ij+s), exp(-sqrt v_ij),
    (1+sqrt v) exp(-sqrt v) and (1+sqrt v+v/3) exp(-sqrt v). *)
From Coq Require Import Reals Lra Lia Arith FunctionalExtensionality.
From Coquelicot Require Import Coquelicot.
From Verif Require Import Base.Sums Base.Mat Base.PSD Model.Arrays Model.Distances Model.Kernels
  Spec.KernelSpec Proofs.Deriv Proofs.KernelAtoms Proofs.KernelJets Proofs.KernelDerivs Proofs.KernelSym
  Proofs.KernelBounds Proofs.KernelPSD.
Open Scope R_scope.

(** a matrix whose derivative is PSD grows in the Loewner order *)
Lemma psd_grow : forall n (G g : R -> Mat) a b, a <= b ->
  (forall i j T, (i < n)%nat -> (j < n)%nat -> a <= T <= b -> is_derive (fun T => G T i j) T (g T i j)) ->
  (forall T, a <= T <= b -> psd n (g T)) ->
  psd n (fun i j => G b i j - G a i j).
Proof.
  intros n G g a b Hab HG Hg v.
  assert (E : qf n (fun i j => G b i j - G a i j) v = qf n (G b) v - qf n (G a) v).
  { unfold qf. rewrite <- sum_minus. apply sum_ext; intros i Hi.
    rewrite <- sum_minus. apply sum_ext; intros; ring. }
  rewrite E. clear E.
  assert (qf n (G a) v <= qf n (G b) v); [|lra].
  apply (mvt_le (fun T => qf n (G T) v) (fun T => qf n (g T) v)); auto.
  - intros T HT. unfold qf. apply is_derive_sum. intros i Hi.
    apply is_derive_sum. intros j Hj.
    apply (is_derive_ext_eq (fun T => v i * v j * G T i j) _ T (v i * v j * g T i j)); [|intros u; change (v i * v j * G u i j = v i * G u i j * v j); ring|cbn; ring].
    apply (is_derive_scal (fun T => G T i j)). now apply HG.
  - intros T HT. now apply Hg.
Qed.

Section Mix.
Variables (n : nat) (v : Mat).
Hypothesis Hs : sym n v.
Hypothesis Hv : forall i j, (i < n)%nat -> (j < n)%nat -> 0 < v i j.
Hypothesis Hg : forall t, 0 <= t -> psd n (fun i j => exp (- (t * v i j))).

Lemma exp_lim0 : forall c, 0 < c -> is_lim_seq (fun N => exp (- (INR N * c))) 0.
Proof.
  intros c Hc.
  apply (is_lim_seq_ext (fun N => exp (- c) ^ N)).
  - intros N; induction N as [|N IHN]; [simpl; rewrite Rmult_0_l, Ropp_0, exp_0; reflexivity|].
    rewrite S_INR. replace (- ((INR N + 1) * c)) with (- c + - (INR N * c)) by ring.
    rewrite exp_plus, <- IHN. reflexivity.
  - apply is_lim_seq_geom. rewrite Rabs_right; [|left; apply exp_pos].
    rewrite <- exp_0. apply exp_increasing. lra.
Qed.
Lemma inv_psd : forall s, 0 <= s -> psd n (fun i j => / (v i j + s)).
Proof.
  intros s H.
  apply (psd_lim n (fun N i j => / (v i j + s) - exp (- (INR N * (v i j + s))) / (v i j + s))).
  - intros N.
    apply (psd_ext n (fun i j => (fun T i j => - exp (- (T * (v i j + s))) / (v i j + s)) (INR N) i j
                                - (fun T i j => - exp (- (T * (v i j + s))) / (v i j + s)) 0 i j)).
    + intros i j Hi Hj. cbv beta. rewrite Rmult_0_l, Ropp_0, exp_0.
      specialize (Hv i j Hi Hj). field. lra.
    + apply (psd_grow n (fun T i j => - exp (- (T * (v i j + s))) / (v i j + s))
                        (fun T i j => exp (- (T * (v i j + s))))).
      * apply pos_INR.
      * intros i j T Hi Hj HT. specialize (Hv i j Hi Hj). auto_derive; [lra|]. field. lra.
      * intros T HT. apply (psd_ext n (mscal (exp (- (T * s))) (fun i j => exp (- (T * v i j))))).
        -- intros i j Hi Hj. unfold mscal. rewrite <- exp_plus. f_equal. ring.
        -- apply psd_mscal; [left; apply exp_pos|apply Hg; lra].
  - intros i j Hi Hj. specialize (Hv i j Hi Hj).
    replace (/ (v i j + s)) with (/ (v i j + s) - 0 * / (v i j + s)) at 1 by ring.
    apply is_lim_seq_minus'; [apply is_lim_seq_const|].
    apply is_lim_seq_mult'; [|apply is_lim_seq_const]. apply exp_lim0. lra.
Qed.

Definition at_g (T : R) : Mat := fun i j => T - sqrt (v i j) * atan (T / sqrt (v i j)).
Lemma at_psd : forall T, 0 <= T -> psd n (at_g T).
Proof.
  intros T HT.
  apply (psd_ext n (fun i j => at_g T i j - at_g 0 i j)).
  - intros i j Hi Hj. unfold at_g at 2. unfold Rdiv. rewrite Rmult_0_l, atan_0. ring.
  - apply (psd_grow n at_g (fun T i j => T * T * / (v i j + T * T))); auto.
    + intros i j U Hi Hj HU. unfold at_g. specialize (Hv i j Hi Hj).
      assert (S : 0 < sqrt (v i j)) by now apply sqrt_lt_R0.
      assert (SS : sqrt (v i j) * sqrt (v i j) = v i j) by (apply sqrt_def; lra).
      auto_derive; [lra|].
      assert (0 <= U * U) by apply Rle_0_sqr.
      set (q := sqrt (v i j)) in *. rewrite <- SS.
      field. split; [|lra]. assert (0 < q * q) by (apply Rmult_lt_0_compat; auto).
      lra.
    + intros U HU. apply (psd_mscal n (U * U) (fun i j => / (v i j + U * U))).
      * apply Rle_0_sqr. * apply inv_psd. apply Rle_0_sqr.
Qed.
Lemma at_sym : forall T, sym n (at_g T).
Proof. intros T i j Hi Hj. unfold at_g. now rewrite (Hs i j). Qed.
Lemma atan_lim : forall q, 0 < q -> is_lim_seq (fun N => atan (INR N / q)) (PI / 2).
Proof.
  intros q Hq. apply is_lim_seq_incr_1.
  apply (is_lim_seq_ext (fun N => PI / 2 - atan (q * / INR (S N)))).
  - intros N. assert (0 < INR (S N)) by (apply lt_0_INR; lia).
    replace (q * / INR (S N)) with (/ (INR (S N) / q)) by (field; split; lra).
    rewrite atan_inv; [ring|]. now apply Rdiv_lt_0_compat.
  - replace (PI / 2) with (PI / 2 - atan (q * 0)) at 1 by (rewrite Rmult_0_r, atan_0; ring).
    apply is_lim_seq_minus'; [apply is_lim_seq_const|].
    apply (is_lim_seq_continuous atan).
    + apply derivable_continuous_pt, derivable_pt_atan.
    + apply is_lim_seq_mult'; [apply is_lim_seq_const|].
      apply (is_lim_seq_incr_1 (fun N => / INR N)).
      replace (Finite 0) with (Rbar_inv p_infty) by reflexivity.
      apply is_lim_seq_inv; [apply is_lim_seq_INR|discriminate].
Qed.
Theorem m12_psd : psd n (fun i j => exp (- sqrt (v i j))).
Proof.
  apply (psd_lim n (fun N i j => exp (- (2 / PI) * (sqrt (v i j) * atan (INR N / sqrt (v i j)))))).
  - intros N. pose proof PI_RGT_0 as HP.
    apply (psd_ext n (mscal (exp (- (2 / PI) * INR N)) (fun i j => exp (2 / PI * at_g (INR N) i j)))).
    + intros i j Hi Hj. unfold mscal, at_g. rewrite <- exp_plus. f_equal. ring.
    + apply psd_mscal; [left; apply exp_pos|].
      apply (psd_exp n (fun i j => 2 / PI * at_g (INR N) i j)).
      * intros i j Hi Hj. now rewrite (at_sym (INR N) i j).
      * apply (psd_mscal n (2 / PI) (at_g (INR N))).
        -- left. apply Rdiv_lt_0_compat; lra.
        -- apply at_psd, pos_INR.
  - intros i j Hi Hj. pose proof PI_RGT_0 as HP. specialize (Hv i j Hi Hj).
    assert (S : 0 < sqrt (v i j)) by now apply sqrt_lt_R0.
    apply (is_lim_seq_continuous exp); [apply derivable_continuous_pt, derivable_pt_exp|].
    replace (- sqrt (v i j)) with (- (2 / PI) * (sqrt (v i j) * (PI / 2))) by (field; lra).
    apply is_lim_seq_mult'; [apply is_lim_seq_const|].
    apply is_lim_seq_mult'; [apply is_lim_seq_const|]. now apply atan_lim.
Qed.
End Mix.

(** g(v+w) -> 0 along w = N^2 is enough *)
Lemma g52_tail : forall v, 0 < v -> is_lim_seq (fun N => g52 (sqrt (v + INR N))) 0.
Proof.
  intros v Hv. apply (is_lim_comp_seq g52 (fun N => sqrt (v + INR N)) p_infty 0).
  - unfold g52.
    (* (1 + d + d^2/3) exp(-d) -> 0 *)
    apply (is_lim_ext (fun d => exp (- d) + d * exp (- d) + / 3 * (d ^ 2 * exp (- d)))).
    + intros d. unfold Rdiv. ring.
    + assert (E0 : is_lim (fun d => exp (- d)) p_infty 0).
      { apply (is_lim_comp exp (fun d => - d) p_infty 0 m_infty).
        - apply is_lim_exp_m. - apply (is_lim_opp (fun d => d) p_infty p_infty). apply is_lim_id.
        - exists 0. intros. discriminate. }
      assert (E1 : is_lim (fun d => d * exp (- d)) p_infty 0).
      { apply (is_lim_ext_loc (fun d => / (exp d / d))).
        - exists 0. intros d Hd. rewrite exp_Ropp. field. split; try lra; apply Rgt_not_eq, exp_pos.
        - replace (Finite 0) with (Rbar_inv p_infty) by reflexivity.
          apply is_lim_inv; [apply is_lim_div_exp_p|discriminate]. }
      assert (E2 : is_lim (fun d => d ^ 2 * exp (- d)) p_infty 0).
      { apply (is_lim_ext (fun d => 4 * ((d / 2 * exp (- (d / 2))) * (d / 2 * exp (- (d / 2)))))).
        - intros d. replace (- d) with (- (d / 2) + - (d / 2)) by field. rewrite exp_plus. field.
        - assert (E3 : is_lim (fun d => d / 2 * exp (- (d / 2))) p_infty 0).
          { apply (is_lim_comp (fun d => d * exp (- d)) (fun d => d / 2) p_infty 0 p_infty); auto.
            - replace p_infty with (Rbar_mult p_infty (/ 2)) at 2.
              + apply (is_lim_scal_r (fun d => d) (/ 2) p_infty p_infty). apply is_lim_id.
              + simpl. destruct (Rle_dec 0 (/ 2)) as [r|r]; [|lra].
                destruct (Rle_lt_or_eq_dec 0 (/ 2) r); [reflexivity|lra].
            - exists 0. intros. discriminate. }
          replace (Finite 0) with (Rbar_mult 4 (Rbar_mult 0 0)) by (simpl; f_equal; ring).
          apply (is_lim_scal_l (fun d => (d / 2 * exp (- (d / 2))) * (d / 2 * exp (- (d / 2)))) 4 p_infty (Rbar_mult 0 0)).
          apply is_lim_mult; auto. exact I. }
      replace (Finite 0) with (Rbar_plus (Rbar_plus 0 0) (Rbar_mult (/ 3) 0)) by (simpl; f_equal; ring).
      apply (is_lim_plus _ _ _ (Rbar_plus 0 0) (Rbar_mult (/ 3) 0)).
      * apply (is_lim_plus _ _ _ 0 0); auto. reflexivity.
      * apply is_lim_scal_l; auto.
      * reflexivity.
  - exists O. intros. discriminate.
  - apply (is_lim_comp_seq sqrt (fun N => v + INR N) p_infty p_infty).
    + exact filterlim_sqrt_p.
    + exists O. intros. discriminate.
    + apply (is_lim_seq_plus _ _ v p_infty p_infty); [apply is_lim_seq_const|apply is_lim_seq_INR|reflexivity].
Qed.
Lemma g32_le_g52 : forall d, 0 <= d -> 0 <= g32 d <= g52 d.
Proof.
  intros d Hd. split; [left; now apply g32_pos|]. unfold g32, g52.
  apply Rmult_le_compat_r; [left; apply exp_pos|]. assert (0 <= d ^ 2) by apply pow2_ge_0. lra.
Qed.
Lemma g32_tail : forall v, 0 < v -> is_lim_seq (fun N => g32 (sqrt (v + INR N))) 0.
Proof.
  intros v Hv. apply (is_lim_seq_le_le (fun _ => 0) _ (fun N => g52 (sqrt (v + INR N)))).
  - intros N. apply g32_le_g52, sqrt_pos.
  - apply is_lim_seq_const.
  - now apply g52_tail.
Qed.
Lemma g32_sqrt_d : forall v, 0 < v -> is_derive (fun v => g32 (sqrt v)) v (- (/ 2 * exp (- sqrt v))).
Proof.
  intros v Hv. assert (S : 0 < sqrt v) by now apply sqrt_lt_R0.
  unfold g32. auto_derive; [auto|]. field. lra.
Qed.
Lemma g52_sqrt_d : forall v, 0 < v -> is_derive (fun v => g52 (sqrt v)) v (- (/ 6 * g32 (sqrt v))).
Proof.
  intros v Hv. assert (S : 0 < sqrt v) by now apply sqrt_lt_R0.
  unfold g52, g32. auto_derive; [auto|]. field. lra.
Qed.

Section Mix2.
Variables (n : nat) (v : Mat).
Hypothesis Hs : sym n v.
Hypothesis Hv : forall i j, (i < n)%nat -> (j < n)%nat -> 0 < v i j.
Hypothesis Hg : forall t, 0 <= t -> psd n (fun i j => exp (- (t * v i j))).
Lemma shift_g : forall w t, 0 <= w -> 0 <= t -> psd n (fun i j => exp (- (t * (v i j + w)))).
Proof.
  intros w t Hw Ht. apply (psd_ext n (mscal (exp (- (t * w))) (fun i j => exp (- (t * v i j))))).
  - intros i j Hi Hj. unfold mscal. rewrite <- exp_plus. f_equal. ring.
  - apply psd_mscal; [left; apply exp_pos|auto].
Qed.
Lemma m12_psd_w : forall w, 0 <= w -> psd n (fun i j => exp (- sqrt (v i j + w))).
Proof.
  intros w Hw. apply (m12_psd n (fun i j => v i j + w)).
  - intros i j Hi Hj. now rewrite (Hs i j).
  - intros i j Hi Hj. specialize (Hv i j Hi Hj). lra.
  - intros t Ht. now apply shift_g.
Qed.
(** integrating a PSD family down from infinity *)
Lemma psd_tail : forall (G g : R -> R),
  (forall u, 0 < u -> is_derive G u (- g u)) ->
  (forall u, 0 < u -> is_lim_seq (fun N => G (u + INR N)) 0) ->
  (forall w, 0 <= w -> psd n (fun i j => g (v i j + w))) ->
  forall w, 0 <= w -> psd n (fun i j => G (v i j + w)).
Proof.
  intros G g HG HL HP w Hw.
  apply (psd_lim n (fun N i j => G (v i j + w) - G (v i j + w + INR N))).
  - intros N.
    apply (psd_ext n (fun i j => (fun T i j => - G (v i j + w + T)) (INR N) i j - (fun T i j => - G (v i j + w + T)) 0 i j)).
    + intros i j Hi Hj. cbv beta. rewrite Rplus_0_r. ring.
    + apply (psd_grow n (fun T i j => - G (v i j + w + T)) (fun T i j => g (v i j + (w + T)))).
      * apply pos_INR.
      * intros i j T Hi Hj HT. specialize (Hv i j Hi Hj).
        eapply is_derive_eq.
        -- apply (is_derive_opp (fun T => G (v i j + w + T))).
           apply (is_derive_comp G (fun T => v i j + w + T)).
           ++ apply HG. lra.
           ++ apply (is_derive_plus (fun _ => v i j + w) (fun T => T));
                [apply (is_derive_const (V := R_NormedModule))|apply (is_derive_id T)].
        -- unfold opp, scal, plus, zero, one; simpl. unfold mult; simpl.
           rewrite Rplus_assoc. ring.
      * intros T HT. apply HP. lra.
  - intros i j Hi Hj. specialize (Hv i j Hi Hj).
    replace (G (v i j + w)) with (G (v i j + w) - 0) at 1 by ring.
    apply is_lim_seq_minus'; [apply is_lim_seq_const|]. apply HL. lra.
Qed.
Theorem m32_psd_w : forall w, 0 <= w -> psd n (fun i j => g32 (sqrt (v i j + w))).
Proof.
  apply (psd_tail (fun u => g32 (sqrt u)) (fun u => / 2 * exp (- sqrt u))).
  - intros. now apply g32_sqrt_d.
  - intros. now apply g32_tail.
  - intros w Hw. apply (psd_mscal n (/ 2) (fun i j => exp (- sqrt (v i j + w)))); [lra|].
    now apply m12_psd_w.
Qed.
Theorem m52_psd_w : forall w, 0 <= w -> psd n (fun i j => g52 (sqrt (v i j + w))).
Proof.
  apply (psd_tail (fun u => g52 (sqrt u)) (fun u => / 6 * g32 (sqrt u))).
  - intros. now apply g52_sqrt_d.
  - intros. now apply g52_tail.
  - intros w Hw. apply (psd_mscal n (/ 6) (fun i j => g32 (sqrt (v i j + w)))); [lra|].
    now apply m32_psd_w.
Qed.
End Mix2.

Section Gram.
Variables (nf n : nat) (X : Mat).
(** the jittered squared distances entering the batched Matern kernels *)
Definition vmat (c : R) (ad : option (list nat)) (l : R) : Mat :=
  fun s t => c * (usum (dims nf ad) (h_sq l) (X s) (X t) + jit12).
Lemma vmat_sym : forall c ad l, sym n (vmat c ad l).
Proof.
  intros c ad l i j _ _. unfold vmat. do 2 f_equal. unfold usum. apply sum_ext; intros.
  unfold h_sq. ring.
Qed.
Lemma vmat_pos : forall c ad l i j, 0 < c -> 0 < vmat c ad l i j.
Proof.
  intros c ad l i j Hc. unfold vmat. apply Rmult_lt_0_compat; auto.
  assert (0 <= usum (dims nf ad) (h_sq l) (X i) (X j)).
  { apply sum_nonneg. intros. unfold h_sq. apply pow2_ge_0. }
  pose proof jit12_pos. lra.
Qed.
Lemma vmat_g : forall c ad l t, 0 < c -> 0 <= t -> psd n (fun i j => exp (- (t * vmat c ad l i j))).
Proof.
  intros c ad l t Hc Ht.
  apply (psd_ext n (fun i j => exp (- (usum (dims nf ad) (h_sq l)
     (fun a => sqrt (t * c) * X i a) (fun a => sqrt (t * c) * X j a) + t * c * jit12)))).
  - intros i j _ _. do 2 f_equal. unfold vmat.
    rewrite Rmult_plus_distr_l, Rmult_plus_distr_l, Rmult_assoc. f_equal.
    unfold usum. rewrite <- !sum_scal_l. apply sum_ext; intros a _. unfold h_sq, gather.
    assert (S : sqrt (t * c) * sqrt (t * c) = t * c) by (apply sqrt_def, Rmult_le_pos; lra).
    set (q := sqrt (t * c)) in *. set (x := X i _). set (y := X j _).
    replace ((q * x / l - q * y / l) ^ 2) with (q * q * (x / l - y / l) ^ 2) by (unfold Rdiv; ring).
    rewrite S. ring.
  - apply (se_psd n (fun i a => sqrt (t * c) * X i a)).
Qed.
Lemma atom_psd : forall ad a, psd_atom a -> psd n (fun s t => fkap nf ad a (X s) (X t)).
Proof.
  intros ad a H. unfold fkap, kap. destruct a; simpl in *.
  - now apply psd_const.
  - apply lin_gram.
  - apply (psd_pow n (fun s t => offset + usum (dims nf ad) h_mul (X s) (X t)));
      [apply off_sym|now apply off_psd].
  - apply noint_psd; auto using lin_sym, lin_gram.
  - apply se_psd.
  - apply (psd_ext n (fun s t => exp (- sqrt (vmat 1 ad l s t + 0)))).
    + intros s t _ _. unfold vmat, m12_phi, dd. now rewrite Rplus_0_r.
    + apply m12_psd_w; try lra; try (intros; apply vmat_pos; lra); try (intros; apply vmat_g; lra). apply vmat_sym.
  - apply (psd_ext n (fun s t => g32 (sqrt (vmat 3 ad l s t + 0)))).
    + intros s t _ _. unfold vmat. rewrite Rplus_0_r. reflexivity.
    + apply m32_psd_w; try lra; try (intros; apply vmat_pos; lra); try (intros; apply vmat_g; lra). apply vmat_sym.
  - apply (psd_ext n (fun s t => g52 (sqrt (vmat 5 ad l s t + 0)))).
    + intros s t _ _. unfold vmat. rewrite Rplus_0_r. reflexivity.
    + apply m52_psd_w; try lra; try (intros; apply vmat_pos; lra); try (intros; apply vmat_g; lra). apply vmat_sym.
  - apply per_psd; tauto.
Qed.
Theorem gram_psd : forall k, all_atoms (fun _ a => psd_atom a) k ->
  psd n (fun s t => kernel_at nf k (X s) (X t)).
Proof.
  induction k as [ad a|k1 IH1 k2 IH2|k1 IH1 k2 IH2]; intros H.
  - apply (psd_ext n (fun s t => fkap nf ad a (X s) (X t))).
    + intros s t _ _. now rewrite kernel_at_atom.
    + now apply atom_psd.
  - destruct H. apply (psd_madd n (fun s t => kernel_at nf k1 (X s) (X t))
       (fun s t => kernel_at nf k2 (X s) (X t))); auto.
  - destruct H. apply (psd_hada n (fun s t => kernel_at nf k1 (X s) (X t))
       (fun s t => kernel_at nf k2 (X s) (X t))); auto.
    intros i j _ _. apply kernel_at_sym.
Qed.
End Gram.
