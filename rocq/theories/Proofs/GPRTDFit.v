(** Fit, prediction, preconditioner and likelihood of the joint model (Model/GPRTD.v). *)
From Coq Require Import Reals Arith Lia Lra List Bool FunctionalExtensionality.
From Coquelicot Require Import Coquelicot.
From Verif Require Import Base.Sums Base.Mat Base.PSD Model.Arrays Model.Kernels Model.LinAlg Model.Operations
  Model.RPCholesky Model.GPR Model.GPRTD Spec.KernelSpec Spec.Det Spec.MVN Spec.TDSpec Proofs.Loops Proofs.Contraction Proofs.KernelDerivs Proofs.KernelSym
  Proofs.KernelMethods Proofs.KernelPropLemmas Proofs.LinAlgFacts Proofs.Matvec Proofs.Local Proofs.Jet2 Proofs.JetPSD Proofs.GPRFacts
  Proofs.GPRLml Proofs.CurveDeriv Proofs.RPChol Proofs.GPRTDFacts Proofs.Deriv Proofs.DetFacts.
Import ListNotations.
Open Scope R_scope.

(** ** covariances of observations *)
Lemma shift_line : shift = line.
Proof. reflexivity. Qed.
Lemma ocov_ok : forall nf k o1 o2, wf nf k -> ls_nonzero k -> exact k -> obs_cov nf k o1 o2 (ocov nf k o1 o2).
Proof.
  intros nf k [x [u|]] [y [w|]] W L E; unfold obs_cov, ocov; rewrite ?shift_line.
  - pose proof (kernel_jet nf k x u y w W L E) as J.
    apply (is_derive_ext (fun t => E0 nf k x (line y w t) u)).
    + intro t. pose proof (is_derive_unique _ _ _ (j_0 _ _ _ _ J 0 t)) as Q. cbv beta in Q. rewrite line_0 in Q. now rewrite <- Q.
    + pose proof (j_01 _ _ _ _ J 0 0) as Q. cbv beta in Q. rewrite !line_0 in Q. exact Q.
  - pose proof (j_0 _ _ _ _ (kernel_jet nf k x u y (fun _ => 0) W L E) 0 0) as Q. cbv beta in Q.
    rewrite !line_0 in Q. exact Q.
  - pose proof (j_1 _ _ _ _ (kernel_jet nf k x (fun _ => 0) y w W L E) 0 0) as Q. cbv beta in Q.
    rewrite !line_0 in Q. exact Q.
  - reflexivity.
Qed.
Lemma ocov_sym_reg : forall nf k o1 o2, wf nf k -> ls_nonzero k ->
  all_atoms (fun ad a => regular_pair nf ad a (fst o1) (fst o2)) k -> ocov nf k o1 o2 = ocov nf k o2 o1.
Proof.
  intros nf k [x [u|]] [y [w|]] W L H; simpl; auto.
  - now apply E01_sym.
  - apply kernel_at_sym.
Qed.
Lemma exact_dgram : forall k, exact k -> dgram_ok k.
Proof. intros [ad a|k1 k2|k1 k2] H; simpl; now left. Qed.
Lemma ocov_sym : forall nf k o1 o2, wf nf k -> ls_nonzero k -> exact k -> ocov nf k o1 o2 = ocov nf k o2 o1.
Proof. intros. apply ocov_sym_reg; auto. now apply dgram_regular, exact_dgram. Qed.
Lemma ocov_psd : forall nf k n (O : nat -> obs), all_atoms (fun _ a => psd_atom a) k -> wf nf k -> ls_nonzero k -> exact k ->
  psd n (fun i j => ocov nf k (O i) (O j)).
Proof.
  intros nf k n O HP W L E.
  apply (psd_ext n (jgram nf k (fun i => fst (O i)) (fun i => match snd (O i) with Some u => u | None => fun _ => 0 end)
    (fun i => match snd (O i) with Some _ => true | None => false end))).
  - intros i j _ _. unfold jgram. destruct (O i) as [x [u|]], (O j) as [y [w|]]; reflexivity.
  - now apply jgram_psd.
Qed.

(** ** the noisy matrix *)
Definition tdG (nf : nat) (k : kexp) (a : td_in) : Mat := fun i j => ocov nf k (td_obs a i) (td_obs a j).
Definition tdM (nf : nat) (k : kexp) (sg : td_sigma) (a : td_in) : Mat :=
  fun i j => tdG nf k a i j + td_noise sg a i * delta i j.
Lemma td_noise_pos : forall sg a r, 0 < td_noise sg a r.
Proof. intros. unfold td_noise, obs_noise. apply noise_pos. Qed.
Lemma qf_diag : forall n (d : Vec) v, qf n (fun i j => d i * delta i j) v = sum n (fun i => d i * v i ^ 2).
Proof.
  intros. unfold qf. apply sum_ext. intros i Hi.
  rewrite (sum_ext n _ (fun j => delta i j * (v i * d i * v j))) by (intros; ring).
  rewrite (sum_delta_l n i (fun j => v i * d i * v j) Hi). ring.
Qed.
Lemma pd_diagonal : forall n (d : Vec) A, psd n A -> (forall i, (i < n)%nat -> 0 < d i) ->
  pd n (fun i j => A i j + d i * delta i j).
Proof.
  intros n d A HA Hd v [i [Hi Hv]].
  replace (qf n (fun i j => A i j + d i * delta i j) v) with (qf n A v + qf n (fun i j => d i * delta i j) v)
    by (symmetry; exact (qf_madd n A (fun i j => d i * delta i j) v)).
  specialize (HA v). rewrite qf_diag.
  assert (0 < sum n (fun i => d i * v i ^ 2)); [|lra].
  apply sum_pos.
  - intros j Hj. pose proof (Hd j Hj). pose proof (pow2_ge_0 (v j)). nra.
  - exists i. split; [auto|]. pose proof (Hd i Hi). assert (0 < v i ^ 2) by now apply pow2_gt_0. nra.
Qed.
Section Matrix.
  Variables (nf : nat) (k : kexp) (sg : td_sigma) (a : td_in).
  Hypothesis HP : all_atoms (fun _ a => psd_atom a) k.
  Hypothesis W : wf nf k.
  Hypothesis L : ls_nonzero k.
  Hypothesis E : exact k.
  Lemma tdG_sym : forall n, sym n (tdG nf k a).
  Proof. intros n i j _ _. now apply ocov_sym. Qed.
  Lemma tdG_psd : forall n, psd n (tdG nf k a).
  Proof. intro n. now apply (ocov_psd nf k n (td_obs a)). Qed.
  Lemma tdM_sym : forall n, sym n (tdM nf k sg a).
  Proof.
    intros n i j Hi Hj. unfold tdM. rewrite (tdG_sym n i j) by auto. f_equal.
    destruct (Nat.eq_dec i j) as [->|N]; [reflexivity|]. rewrite !delta_diff by auto. ring.
  Qed.
  Lemma tdM_pd : forall n, pd n (tdM nf k sg a).
  Proof. intro n. apply pd_diagonal; [apply tdG_psd|]. intros. apply td_noise_pos. Qed.
End Matrix.
Lemma td_A_tdM : forall nf k sg a A, wf nf k -> td_A_lhs nf k sg a a true = Some A ->
  meq (td_rows a) (td_rows a) A (tdM nf k sg a).
Proof.
  intros nf k sg a A W HA i j Hi Hj. rewrite (td_A_entry nf k sg a a true A i j W (fun _ => eq_refl) HA Hi); [reflexivity|].
  rewrite td_cols_same; [auto|tauto].
Qed.
Lemma td_A_self : forall nf k sg a noise, exists A, td_A_lhs nf k sg a a noise = Some A.
Proof.
  intros. destruct (td_A_lhs nf k sg a a noise) as [A|] eqn:E; [now exists A|].
  apply td_A_none in E. destruct E as [E1 E2]. now elim E1.
Qed.

(** ** fit *)
Section Fit.
  Variable la : linalg.
  Hypothesis ok : linalg_ok la.
  Variables (nf : nat) (k : kexp) (sg : td_sigma) (a : td_in).
  Hypothesis W : wf nf k.
  Hypothesis TS : sym (td_rows a) (tdM nf k sg a).
  Hypothesis TP : pd (td_rows a) (tdM nf k sg a).
  Variables (y yd : Mat) (yd2 : option Mat) (mf : nat -> nat -> Mat -> R).
  Let mu := mf (td_n a) 1%nat y.
  Let N := td_rows a.

  Lemma td_fit_dense_solves : td_match a yd2 = true -> exists c,
    td_fit_dense la nf k sg a y yd yd2 mf = Some (c, mu) /\
    meq N 1 (mm N (tdM nf k sg a) c) (td_rhs a y yd yd2 mu).
  Proof.
    intro HM. unfold td_fit_dense. destruct (td_A_self nf k sg a true) as [A HA]. rewrite HA, HM.
    eexists. split; [reflexivity|]. fold N mu.
    assert (HE : meq N N A (tdM nf k sg a)) by (now apply td_A_tdM).
    assert (PDA : pd N A) by (apply (pd_ext N (tdM nf k sg a)); [now apply meq_sym|exact TP]).
    pose proof (ok_solve la ok N 1 A (td_rhs a y yd yd2 mu) (pd_nonsing N A PDA)) as S1.
    intros i j Hi Hj. rewrite <- (S1 i j Hi Hj). unfold mm. apply sum_ext. intros q Hq. now rewrite HE.
  Qed.
  Lemma td_fit_iter_solves : forall choose np, sg_t sg <> 0 -> td_match a yd2 = true -> exists c,
    td_fit_iter la choose nf k sg a y yd yd2 mf np = Some (c, mu) /\
    meq N 1 (mm N (tdM nf k sg a) c) (td_rhs a y yd yd2 mu).
  Proof.
    intros choose np Hs HM. unfold td_fit_iter. fold mu N.
    destruct (td_Ax_mm nf k sg a a true (td_rhs a y yd yd2 mu) W (fun _ => eq_refl) (fun H => H)) as [M0 [H0 _]].
    rewrite H0, HM. eexists. split; [reflexivity|].
    unfold precond_rpcholesky_TD. set (F := fst (rpcholesky_TD choose nf a np k)). fold N.
    apply (ok_cg la ok) with (P := pcm la N np (sg_t sg) F).
    - exact TS. - exact TP. - now apply pcm_sym. - now apply pcm_pd.
    - intros Z i j Hi Hj.
      destruct (td_Ax_mm nf k sg a a true Z W (fun _ => eq_refl) (fun H => H)) as [M [HMv HMe]]. rewrite HMv.
      rewrite (HMe i j Hi). reflexivity.
    - intros Z i j Hi Hj. now apply precond_pcm.
  Qed.
  Lemma td_fit_iter_eq : forall choose np, sg_t sg <> 0 ->
    match td_fit_iter la choose nf k sg a y yd yd2 mf np, td_fit_dense la nf k sg a y yd yd2 mf with
    | Some (c, m), Some (c', m') => meq N 1 c c' /\ m = m'
    | None, None => True
    | _, _ => False
    end.
  Proof.
    intros choose np Hs. destruct (td_match a yd2) eqn:HM.
    - destruct (td_fit_iter_solves choose np Hs HM) as [c [-> H1]]. destruct (td_fit_dense_solves HM) as [c' [-> H2]].
      split; [|reflexivity]. apply (solve_unique N 1 (tdM nf k sg a)); [now apply pd_nonsing|].
      eapply meq_trans; [exact H1|now apply meq_sym].
    - unfold td_fit_iter, td_fit_dense. rewrite HM.
      destruct (td_A_self nf k sg a true) as [A ->].
      destruct (td_Ax_lhs_fun nf k sg a a true (td_rhs a y yd yd2 (mf (td_n a) 1%nat y))); exact I.
  Qed.
End Fit.

(** the entries of the right-hand side *)
Lemma rhs_y : forall a y yd yd2 mu s, (s < td_n a)%nat -> td_rhs a y yd yd2 mu s O = y s O - mu.
Proof. intros a y yd [d|] mu s Hs; unfold td_rhs; rewrite ?vcat_top by lia; reflexivity. Qed.
Lemma rhs_1 : forall a y yd yd2 mu s v, (s < td_n a)%nat -> (v < td_v1 a)%nat ->
  td_rhs a y yd yd2 mu (td_n a + (s * td_v1 a + v))%nat O = yd s v.
Proof.
  intros a y yd yd2 mu s v Hs Hv. pose proof (blk_lt _ _ _ _ Hs Hv).
  assert (Q : vcat (td_n a) (fun i j => y i j - mu) (flat (td_v1 a) yd) (td_n a + (s * td_v1 a + v))%nat O = yd s v).
  { rewrite vcat_bot. unfold flat. now rewrite blk_div, blk_mod. }
  destruct yd2 as [d|]; unfold td_rhs; [rewrite vcat_top by lia|]; exact Q.
Qed.
Lemma rhs_2 : forall a y yd d mu v2 J s v, td_2 a = Some (v2, J) -> (s < td_n a)%nat -> (v < v2)%nat ->
  td_rhs a y yd (Some d) mu (td_n a + (td_n a * td_v1 a + (s * v2 + v)))%nat O = d s v.
Proof.
  intros a y yd d mu v2 J s v H Hs Hv. unfold td_rhs.
  replace (td_n a + (td_n a * td_v1 a + (s * v2 + v)))%nat with (td_n a + td_n a * td_v1 a + (s * v2 + v))%nat by lia.
  rewrite vcat_bot. unfold flat, td_v2. rewrite H. now rewrite blk_div, blk_mod.
Qed.

(** ** prediction *)
Definition predsum (nf : nat) (k : kexp) (a b : td_in) (c : Mat) (r : nat) : R :=
  sum (td_rows a) (fun q => ocov nf k (td_obs a q) (td_obs b r) * c q O).
Lemma td_split_y : forall b n P mu t j, (t < td_n b)%nat -> tp_y (td_split b n P mu) t j = P t j + mu.
Proof. intros. simpl. now rewrite (proj2 (Nat.ltb_lt t (td_n b))). Qed.
Lemma td_split_d : forall b n P mu t u, tp_d (td_split b n P mu) t u = P (td_n b + (t * td_v1 b + u))%nat O.
Proof. intros. simpl. unfold unflat, drop_rows. rewrite (proj2 (Nat.ltb_ge _ _)) by lia. reflexivity. Qed.
Lemma td_split_d2 : forall b P mu v2 J, td_2 b = Some (v2, J) -> (0 < td_n b)%nat ->
  exists D, tp_d2 (td_split b (td_rows b) P mu) = Some (v2, D) /\
  forall t u, D t u = P (td_n b + (td_n b * td_v1 b + (t * v2 + u)))%nat O.
Proof.
  intros b P mu v2 J H Hn. simpl. rewrite H. unfold td_rows, td_v2. rewrite H.
  replace (Nat.min (td_n b + td_v1 b * td_n b + v2 * td_n b) (td_n b + td_n b * td_v1 b + td_n b * v2)
     - (td_n b + td_v1 b * td_n b))%nat with (v2 * td_n b)%nat by lia.
  rewrite Nat.div_mul by lia. eexists. split; [reflexivity|].
  intros t u. unfold unflat, drop_rows. rewrite (proj2 (Nat.ltb_ge _ _)) by lia. f_equal. lia.
Qed.
Lemma td_predict_dense_some : forall nf k sg a b c mu, wf nf k -> (td_2 a = None <-> td_2 b = None) ->
  exists P, td_predict_dense nf k sg a b c mu = Some (td_split b (td_rows b) P mu) /\
  forall r, (r < td_rows b)%nat -> P r O = predsum nf k a b c r.
Proof.
  intros nf k sg a b c mu W H. unfold td_predict_dense.
  destruct (td_A_lhs nf k sg a b false) as [A|] eqn:HA.
  - pose proof (td_cols_same a b H) as HC. unfold td_cols in HC. rewrite HC.
    eexists. split; [reflexivity|]. intros r Hr. unfold mm, predsum, tr. apply sum_ext. intros q Hq. f_equal.
    rewrite (td_A_entry nf k sg a b false A q r W (fun e => ltac:(discriminate e)) HA Hq); [ring|].
    now rewrite td_cols_same.
  - apply td_A_none in HA. destruct HA as [H1 H2]. elim H1. now apply H.
Qed.
Lemma td_predict_iter_some : forall nf k sg a b c mu, wf nf k -> ls_nonzero k ->
  (forall s t, (s < td_n a)%nat -> (t < td_n b)%nat -> all_atoms (fun ad at' => regular_pair nf ad at' (td_x a s) (td_x b t)) k) ->
  (td_2 a = None -> td_2 b = None) ->
  exists P, td_predict_iter nf k sg a b c mu = Some (td_split b (td_rows b) P mu) /\
  forall r, (r < td_rows b)%nat -> P r O = predsum nf k a b c r.
Proof.
  intros nf k sg a b c mu W L HR H. unfold td_predict_iter.
  destruct (td_Ax_mm nf k sg b a false c W (fun e => ltac:(discriminate e)) H) as [M [-> HM]].
  exists M. split; [reflexivity|]. intros r Hr. rewrite HM by auto. unfold predsum. apply sum_ext. intros q Hq. f_equal.
  unfold rv. rewrite Rplus_0_r. symmetry. apply ocov_sym_reg; auto.
  assert (PT : forall d i, (i < td_rows d)%nat -> exists s, (s < td_n d)%nat /\ fst (td_obs d i) = td_x d s).
  { intros d i Hi. destruct (zone_of d i Hi); simpl; eexists; split; try reflexivity; auto. }
  destruct (PT a q Hq) as [s [Hs ->]]. destruct (PT b r Hr) as [t [Ht ->]]. now apply HR.
Qed.

(** ** predictions at the training points *)
Lemma tdM_G : forall nf k sg a, sym (td_rows a) (tdM nf k sg a) -> sym (td_rows a) (tdG nf k a).
Proof.
  intros nf k sg a TS i j Hi Hj. destruct (Nat.eq_dec i j) as [->|N]; [reflexivity|].
  specialize (TS i j Hi Hj). unfold tdM in TS. rewrite !delta_diff in TS by auto. lra.
Qed.
Lemma predsum_train : forall nf k sg a c rhs r, sym (td_rows a) (tdM nf k sg a) ->
  meq (td_rows a) 1 (mm (td_rows a) (tdM nf k sg a) c) rhs -> (r < td_rows a)%nat ->
  rhs r O - predsum nf k a a c r = td_noise sg a r * c r O.
Proof.
  intros nf k sg a c rhs r TS H Hr. rewrite <- (H r O Hr Nat.lt_0_1). unfold mm, predsum, tdM, tdG.
  rewrite (sum_ext (td_rows a) (fun q => (ocov nf k (td_obs a r) (td_obs a q) + td_noise sg a r * delta r q) * c q O)
    (fun q => ocov nf k (td_obs a q) (td_obs a r) * c q O + delta r q * (td_noise sg a r * c q O))).
  - rewrite sum_plus, (sum_delta_l (td_rows a) r (fun q => td_noise sg a r * c q O) Hr). ring.
  - intros q Hq. pose proof (tdM_G _ _ _ _ TS r q Hr Hq) as Q. unfold tdG in Q. rewrite Q. ring.
Qed.
Lemma td_fit_residuals : forall la, linalg_ok la -> forall nf k sg a, wf nf k ->
  sym (td_rows a) (tdM nf k sg a) -> pd (td_rows a) (tdM nf k sg a) -> forall y yd yd2 mf, td_match a yd2 = true ->
  exists c P, td_fit_dense la nf k sg a y yd yd2 mf = Some (c, mf (td_n a) 1%nat y) /\
    td_predict_dense nf k sg a a c (mf (td_n a) 1%nat y) = Some P /\
    (forall s, (s < td_n a)%nat -> y s O - tp_y P s O = (sg_t sg ^ 2 + / 10 ^ 10) * c s O) /\
    (forall s v, (s < td_n a)%nat -> (v < td_v1 a)%nat ->
       yd s v - tp_d P s v = (sg_1 sg ^ 2 + / 10 ^ 10) * c (td_n a + (s * td_v1 a + v))%nat O) /\
    (forall v2 J d, td_2 a = Some (v2, J) -> yd2 = Some d -> (0 < td_n a)%nat -> exists D, tp_d2 P = Some (v2, D) /\
       forall s v, (s < td_n a)%nat -> (v < v2)%nat ->
       d s v - D s v = (sg_2 sg ^ 2 + / 10 ^ 10) * c (td_n a + (td_n a * td_v1 a + (s * v2 + v)))%nat O).
Proof.
  intros la ok nf k sg a W TS TP y yd yd2 mf HM.
  destruct (td_fit_dense_solves la ok nf k sg a W TP y yd yd2 mf HM) as [c [Hf Hc]].
  set (mu := mf (td_n a) 1%nat y) in *.
  destruct (td_predict_dense_some nf k sg a a c mu W (iff_refl _)) as [P [Hp HPv]].
  exists c. eexists. split; [exact Hf|]. split; [exact Hp|].
  assert (T : forall r, (r < td_rows a)%nat -> td_rhs a y yd yd2 mu r O - P r O = td_noise sg a r * c r O).
  { intros r Hr. rewrite HPv by auto. now apply (predsum_train nf k sg a c). }
  repeat split.
  - intros s Hs. rewrite td_split_y by auto.
    assert (Hr : (s < td_rows a)%nat) by (unfold td_rows; lia). specialize (T s Hr).
    rewrite rhs_y in T by auto. unfold td_noise, obs_noise in T. rewrite (proj2 (Nat.ltb_lt s (td_n a))) in T by auto. lra.
  - intros s v Hs Hv. rewrite td_split_d. pose proof (zone_1 a s v Hs Hv) as Z. apply zone_obs in Z. destruct Z as [_ Hr].
    specialize (T _ Hr). rewrite rhs_1 in T by auto. rewrite T. f_equal. unfold td_noise. apply noise_1. now apply blk_lt.
  - intros v2 J d E2 -> Hn. destruct (td_split_d2 a P mu v2 J E2 Hn) as [D [-> HD]]. exists D. split; [reflexivity|].
    intros s v Hs Hv. rewrite HD. pose proof (zone_2 a v2 J s v E2 Hs Hv) as Z. apply zone_obs in Z. destruct Z as [_ Hr].
    specialize (T _ Hr). rewrite (rhs_2 a y yd d mu v2 J) in T by auto. rewrite T. f_equal. unfold td_noise.
    apply noise_2.
Qed.

(** the outputs as sums over the training observations, whatever numbers satisfy obs_cov *)
Lemma ocov_unique : forall nf k o1 o2 c, wf nf k -> ls_nonzero k -> exact k -> obs_cov nf k o1 o2 c -> c = ocov nf k o1 o2.
Proof.
  intros nf k o1 o2 c W L E H. pose proof (ocov_ok nf k o1 o2 W L E) as Q. revert H Q.
  generalize (ocov nf k o1 o2). destruct o1 as [x [u|]], o2 as [y [w|]]; simpl; intros z H Q;
    try (apply is_derive_unique in H; apply is_derive_unique in Q; congruence). congruence.
Qed.
Lemma td_predict_values : forall nf k sg a b c mu (g : Mat), wf nf k -> ls_nonzero k -> exact k ->
  (td_2 a = None <-> td_2 b = None) ->
  (forall q r, (q < td_rows a)%nat -> (r < td_rows b)%nat -> obs_cov nf k (td_obs a q) (td_obs b r) (g q r)) ->
  exists P, td_predict_dense nf k sg a b c mu = Some P /\
    (forall t, (t < td_n b)%nat -> tp_y P t O = mu + sum (td_rows a) (fun q => g q t * c q O)) /\
    (forall t u, (t < td_n b)%nat -> (u < td_v1 b)%nat ->
       tp_d P t u = sum (td_rows a) (fun q => g q (td_n b + (t * td_v1 b + u))%nat * c q O)) /\
    (forall v2 J, td_2 b = Some (v2, J) -> (0 < td_n b)%nat -> exists D, tp_d2 P = Some (v2, D) /\
       forall t u, (t < td_n b)%nat -> (u < v2)%nat ->
       D t u = sum (td_rows a) (fun q => g q (td_n b + (td_n b * td_v1 b + (t * v2 + u)))%nat * c q O)).
Proof.
  intros nf k sg a b c mu g W L E H HG.
  destruct (td_predict_dense_some nf k sg a b c mu W H) as [P [Hp HPv]].
  eexists. split; [exact Hp|].
  assert (T : forall r, (r < td_rows b)%nat -> P r O = sum (td_rows a) (fun q => g q r * c q O)).
  { intros r Hr. rewrite HPv by auto. apply sum_ext. intros q Hq. f_equal. symmetry. apply ocov_unique; auto. }
  repeat split.
  - intros t Ht. rewrite td_split_y, T by (unfold td_rows; lia). ring.
  - intros t u Ht Hu. rewrite td_split_d. apply T. exact (proj2 (zone_obs _ _ _ (zone_1 b t u Ht Hu))).
  - intros v2 J E2 Hn. destruct (td_split_d2 b P mu v2 J E2 Hn) as [D [-> HD]]. exists D. split; [reflexivity|].
    intros t u Ht Hu. rewrite HD. apply T. exact (proj2 (zone_obs _ _ _ (zone_2 b v2 J t u E2 Ht Hu))).
Qed.
Lemma td_split_ext : forall b P P' mu, (forall r, (r < td_rows b)%nat -> P r O = P' r O) ->
  let A := td_split b (td_rows b) P mu in let B := td_split b (td_rows b) P' mu in
  (forall t, (t < td_n b)%nat -> tp_y A t O = tp_y B t O) /\
  (forall t u, (t < td_n b)%nat -> (u < td_v1 b)%nat -> tp_d A t u = tp_d B t u) /\
  match tp_d2 A, tp_d2 B with
  | Some (w, D), Some (w', D') => w = w' /\ ((0 < td_n b)%nat -> meq (td_n b) w D D')
  | None, None => True | _, _ => False end.
Proof.
  intros b P P' mu H A B. subst A B. repeat split.
  - intros t Ht. rewrite !td_split_y by auto. rewrite H; [reflexivity|unfold td_rows; lia].
  - intros t u Ht Hu. rewrite !td_split_d. apply H. exact (proj2 (zone_obs _ _ _ (zone_1 b t u Ht Hu))).
  - destruct (td_2 b) as [[v2 J]|] eqn:E2; [|simpl; now rewrite E2].
    destruct (Nat.eq_dec (td_n b) 0) as [Z|Z].
    + simpl. rewrite E2. split; [reflexivity|lia].
    + destruct (td_split_d2 b P mu v2 J E2) as [D [-> HD]]; [lia|]. destruct (td_split_d2 b P' mu v2 J E2) as [D' [-> HD']]; [lia|].
      split; [reflexivity|]. intros _ t u Ht Hu. rewrite HD, HD'. apply H.
      exact (proj2 (zone_obs _ _ _ (zone_2 b v2 J t u E2 Ht Hu))).
Qed.
Lemma td_predict_iter_eq : forall nf k sg a b c mu, wf nf k -> ls_nonzero k ->
  (forall s t, (s < td_n a)%nat -> (t < td_n b)%nat -> all_atoms (fun ad at' => regular_pair nf ad at' (td_x a s) (td_x b t)) k) ->
  (td_2 a = None <-> td_2 b = None) ->
  exists A B, td_predict_dense nf k sg a b c mu = Some A /\ td_predict_iter nf k sg a b c mu = Some B /\
  (forall t, (t < td_n b)%nat -> tp_y A t O = tp_y B t O) /\
  (forall t u, (t < td_n b)%nat -> (u < td_v1 b)%nat -> tp_d A t u = tp_d B t u) /\
  match tp_d2 A, tp_d2 B with
  | Some (w, D), Some (w', D') => w = w' /\ ((0 < td_n b)%nat -> meq (td_n b) w D D')
  | None, None => True | _, _ => False end.
Proof.
  intros nf k sg a b c mu W L HR H.
  destruct (td_predict_dense_some nf k sg a b c mu W H) as [P [Hp HPv]].
  destruct (td_predict_iter_some nf k sg a b c mu W L HR (proj1 H)) as [P' [Hp' HPv']].
  do 2 eexists. split; [exact Hp|]. split; [exact Hp'|]. apply td_split_ext.
  intros r Hr. now rewrite HPv, HPv'.
Qed.

(** ** derivative outputs along curves *)
Definition td_at (b : td_in) (X : Mat) : td_in :=
  {| td_n := td_n b; td_x := X; td_v1 := td_v1 b; td_j1 := td_j1 b; td_2 := td_2 b |}.
Lemma ocov_curve : forall nf k o g t0 u, wf nf k -> ls_nonzero k -> exact k -> moves nf g t0 u ->
  is_derive (fun t => ocov nf k o (g t, None)) t0 (ocov nf k o (g t0, Some u)).
Proof.
  intros nf k [x [w|]] g t0 u W L E M; simpl.
  - now apply E0_curve.
  - now apply kernel_curve.
Qed.
Lemma td_predict_curve : forall nf k sg a b c mu (G : R -> Mat) t0, wf nf k -> ls_nonzero k -> exact k ->
  (td_2 a = None <-> td_2 b = None) ->
  exists Y P, (forall z, exists Q, td_predict_dense nf k sg a (td_at b (G z)) c mu = Some Q /\
      forall t, (t < td_n b)%nat -> tp_y Q t O = Y z t) /\
    td_predict_dense nf k sg a (td_at b (G t0)) c mu = Some P /\
    (forall t u, (t < td_n b)%nat -> (u < td_v1 b)%nat ->
       (forall f, (f < nf)%nat -> is_derive (fun z => G z t f) t0 (td_j1 b t f u)) ->
       is_derive (fun z => Y z t) t0 (tp_d P t u)) /\
    (forall v2 J, td_2 b = Some (v2, J) -> (0 < td_n b)%nat -> exists D, tp_d2 P = Some (v2, D) /\
       forall t u, (t < td_n b)%nat -> (u < v2)%nat ->
       (forall f, (f < nf)%nat -> is_derive (fun z => G z t f) t0 (J t f u)) ->
       is_derive (fun z => Y z t) t0 (D t u)).
Proof.
  intros nf k sg a b c mu G t0 W L E H.
  exists (fun z t => sum (td_rows a) (fun q => ocov nf k (td_obs a q) (G z t, None) * c q O) + mu).
  destruct (td_predict_dense_some nf k sg a (td_at b (G t0)) c mu W H) as [P [Hp HPv]].
  eexists. split; [|split; [exact Hp|]].
  { intro z. destruct (td_predict_dense_some nf k sg a (td_at b (G z)) c mu W H) as [Q [Hq HQv]].
    eexists. split; [exact Hq|]. intros t Ht. rewrite td_split_y by auto.
    rewrite HQv by (unfold td_rows; simpl; lia). unfold predsum. f_equal. apply sum_ext. intros q Hq'.
    rewrite (obsb_y (td_at b (G z)) t) by auto. reflexivity. }
  assert (D : forall t u, moves nf (fun z => G z t) t0 u ->
    is_derive (fun z => sum (td_rows a) (fun q => ocov nf k (td_obs a q) (G z t, None) * c q O) + mu) t0
      (sum (td_rows a) (fun q => ocov nf k (td_obs a q) (G t0 t, Some u) * c q O))).
  { intros t u M. eapply is_derive_eq.
    - apply (is_derive_add (fun z => sum (td_rows a) (fun q => ocov nf k (td_obs a q) (G z t, None) * c q O)) (fun _ => mu));
        [|apply @is_derive_const].
      apply (is_derive_sum (td_rows a) (fun q z => ocov nf k (td_obs a q) (G z t, None) * c q O) t0
        (fun q => ocov nf k (td_obs a q) (G t0 t, Some u) * c q O)).
      intros q Hq. eapply is_derive_eq.
      + apply (is_derive_mul (fun z => ocov nf k (td_obs a q) (G z t, None)) (fun _ => c q O));
          [now apply (ocov_curve nf k (td_obs a q) (fun z => G z t) t0 u)|apply @is_derive_const].
      + unfold zero; rewrite Rmult_0_r, Rplus_0_l. reflexivity.
    - unfold zero; rewrite Rplus_0_r. reflexivity. }
  split.
  - intros t u Ht Hu M. rewrite td_split_d.
    pose proof (zone_obs _ _ _ (zone_1 (td_at b (G t0)) t u Ht Hu)) as [Ho Hr].
    change (td_n b) with (td_n (td_at b (G t0))) in *. change (td_v1 b) with (td_v1 (td_at b (G t0))) in *.
    rewrite HPv by exact Hr. unfold predsum. rewrite Ho. apply D. exact M.
  - intros v2 J E2 Hn. destruct (td_split_d2 (td_at b (G t0)) P mu v2 J E2 Hn) as [DD [-> HD]]. exists DD. split; [reflexivity|].
    intros t u Ht Hu M. rewrite HD. pose proof (zone_obs _ _ _ (zone_2 (td_at b (G t0)) v2 J t u E2 Ht Hu)) as [Ho Hr].
    rewrite HPv by exact Hr. unfold predsum. rewrite Ho. apply D. exact M.
Qed.

(** ** mismatched second jacobians *)
Lemma td_mismatch_raise : forall nf k sg a b c mu v2 J, wf nf k -> ls_nonzero k ->
  (forall s t, (s < td_n a)%nat -> (t < td_n b)%nat -> all_atoms (fun ad at' => regular_pair nf ad at' (td_x a s) (td_x b t)) k) ->
  td_2 a = Some (v2, J) -> td_2 b = None ->
  td_predict_dense nf k sg a b c mu = None /\ exists P, td_predict_iter nf k sg a b c mu = Some P.
Proof.
  intros nf k sg a b c mu v2 J W L HR Ha Hb. split.
  - unfold td_predict_dense. rewrite (proj2 (td_A_none nf k sg a b false)); [reflexivity|]. split; congruence.
  - destruct (td_predict_iter_some nf k sg a b c mu W L HR) as [P [-> _]]; [intros _; exact Hb|eauto].
Qed.
Lemma td_mismatch_silent : forall nf k sg a b c mu v2 J, wf nf k -> td_2 a = None -> td_2 b = Some (v2, J) -> (0 < td_n b)%nat ->
  (exists P D, td_predict_dense nf k sg a b c mu = Some P /\ tp_d2 P = Some (0%nat, D)) /\
  td_predict_iter nf k sg a b c mu = None.
Proof.
  intros nf k sg a b c mu v2 J W Ha Hb Hn. split.
  - unfold td_predict_dense. destruct (td_A_lhs nf k sg a b false) as [A|] eqn:HA.
    + rewrite Ha. do 2 eexists. split; [reflexivity|]. simpl. rewrite Hb.
      replace ((Nat.min (td_n b + td_v1 b * td_n b + v2 * td_n b) (td_n b + td_n b * td_v1 b + 0)
         - (td_n b + td_v1 b * td_n b)))%nat with 0%nat by lia.
      rewrite Nat.div_0_l by lia. reflexivity.
    + apply td_A_none in HA. destruct HA as [HA _]. congruence.
  - unfold td_predict_iter. rewrite td_Ax_none; auto. congruence.
Qed.

(** ** pivoted Cholesky *)
Lemma zone_ranges : forall a r o, zone a r o -> (r < td_rows a)%nat.
Proof. intros a r o Z. exact (proj2 (zone_obs a r o Z)). Qed.
Ltac hsolve := repeat first
  [ rewrite hcat_l by (try apply blk_lt; auto)
  | rewrite hcat_r ].
Lemma kk_one : forall nf k x X j, kk nf k (one_row x) X O j = kernel_at nf k x (X j).
Proof. intros. now rewrite kk_at. Qed.
Lemma pivot_row_entry : forall nf k a s j, wf nf k -> (s < td_rows a)%nat -> (j < td_rows a)%nat ->
  td_pivot_row nf k a s j = tdG nf k a s j.
Proof.
  intros nf k a s j W Hs Hj. unfold tdG. pose proof (zone_of a s Hs) as Zs. pose proof (zone_of a j Hj) as Zj.
  unfold td_pivot_row. destruct Zs as [s H|s v H H0|v2 J s v H H0 H1].
  - rewrite (proj2 (Nat.ltb_lt s (td_n a))) by auto.
    destruct (td_2 a) as [[v2 J]|] eqn:E2; destruct Zj as [j H'|t u H' H0'|v2' J' t u H' H0' H1']; rewrite ?E2 in *;
      try discriminate; try (injection H' as <- <-); cbv zeta; hsolve; cbn [ocov];
      rewrite ?d1_one, ?kk_one by auto; reflexivity.
  - pose proof (blk_lt _ _ _ _ H H0). rewrite (proj2 (Nat.ltb_ge _ (td_n a))) by lia.
    rewrite (proj2 (Nat.ltb_lt _ (td_n a + td_n a * td_v1 a))) by lia.
    replace (td_n a + (s * td_v1 a + v) - td_n a)%nat with (s * td_v1 a + v)%nat by lia. rewrite blk_div, blk_mod by auto.
    destruct (td_2 a) as [[v2 J]|] eqn:E2; destruct Zj as [j H'|t u H' H0'|v2' J' t u H' H0' H1']; rewrite ?E2 in *;
      try discriminate; try (injection H' as <- <-); cbv zeta; hsolve; cbn [ocov];
      rewrite ?d0_one, ?d01_one by auto; reflexivity.
  - rewrite H. rewrite (proj2 (Nat.ltb_ge _ (td_n a))), (proj2 (Nat.ltb_ge _ (td_n a + td_n a * td_v1 a))) by lia.
    replace (td_n a + (td_n a * td_v1 a + (s * v2 + v)) - td_n a - td_n a * td_v1 a)%nat with (s * v2 + v)%nat by lia.
    rewrite blk_div, blk_mod by auto.
    destruct Zj as [j H'|t u H' H0'|v2' J' t u H' H0' H1']; rewrite ?H in *;
      try discriminate; try (injection H' as <- <-); cbv zeta; hsolve; cbn [ocov];
      rewrite ?d0_one, ?d01_one by auto; reflexivity.
Qed.
Lemma d01_one_one : forall nf nv k x (Js : Mat) v, wf nf k -> (v < nv)%nat ->
  d01kj 1 1 nf nv nv k (one_row x) (one_row x) (one_jac Js) (one_jac Js) v v = E01 nf k x x (fun f => Js f v) (fun f => Js f v).
Proof. intros. exact (d01_one 1 nf nv nv k x (one_row x) Js (one_jac Js) v 0 v H H0 Nat.lt_0_1 H0). Qed.
Lemma diag_entry : forall nf k a s, wf nf k -> (s < td_rows a)%nat -> td_diag nf k a s = tdG nf k a s s.
Proof.
  intros nf k a s W Hs. unfold tdG. pose proof (zone_of a s Hs) as Zs.
  unfold td_diag. destruct Zs as [s H|s v H H0|v2 J s v H H0 H1].
  - rewrite (proj2 (Nat.ltb_lt s (td_n a))) by auto. cbv zeta. now rewrite kk_one.
  - pose proof (blk_lt _ _ _ _ H H0). rewrite (proj2 (Nat.ltb_ge _ (td_n a))) by lia.
    rewrite (proj2 (Nat.ltb_lt _ (td_n a + td_n a * td_v1 a))) by lia.
    replace (td_n a + (s * td_v1 a + v) - td_n a)%nat with (s * td_v1 a + v)%nat by lia. cbv zeta. rewrite blk_div, blk_mod by auto.
    rewrite d01_one_one by auto. now destruct (td_2 a) as [[v2 J]|].
  - rewrite H. rewrite (proj2 (Nat.ltb_ge _ (td_n a))), (proj2 (Nat.ltb_ge _ (td_n a + td_n a * td_v1 a))) by lia.
    replace (td_n a + (td_n a * td_v1 a + (s * v2 + v)) - td_n a - td_n a * td_v1 a)%nat with (s * v2 + v)%nat by lia.
    cbv zeta. rewrite blk_div, blk_mod by auto. now rewrite d01_one_one.
Qed.
Lemma rpcholesky_TD_ok : forall choose nf a np k K, all_atoms (fun _ a => psd_atom a) k ->
  wf nf k -> ls_nonzero k -> exact k -> (forall i p, (choose i p < td_rows a)%nat) ->
  forall sg, td_A_lhs nf k sg a a false = Some K ->
  let F := fst (rpcholesky_TD choose nf a np k) in
  let piv := snd (rpcholesky_TD choose nf a np k) in
  psd (td_rows a) (fun i j => K i j - gram np F i j) /\
  (forall l j, (l < np)%nat -> (j < td_rows a)%nat -> (piv l < td_rows a)%nat /\
     (K (piv l) j - gram np F (piv l) j) ^ 2 <= 2 * / 10 ^ 6 * sqrt (K (piv l) (piv l)) * K j j).
Proof.
  intros choose nf a np k K HP W L E Hc sg HK F piv.
  assert (HE : meq (td_rows a) (td_rows a) (tdG nf k a) K).
  { intros i j Hi Hj. rewrite (td_A_entry nf k sg a a false K i j W (fun e => ltac:(discriminate e)) HK Hi).
    - unfold tdG. ring. - now rewrite td_cols_same. }
  assert (HS : sym (td_rows a) (tdG nf k a)) by now apply tdG_sym.
  assert (PK : psd (td_rows a) (tdG nf k a)) by now apply tdG_psd.
  split.
  - apply (psd_ext _ (fun i j => tdG nf k a i j - gram np F i j)).
    + intros i j Hi Hj. now rewrite HE.
    + apply (loop_invariant (td_rows a) np (tdG nf k a) _ _ choose HS PK); auto; intros;
        [now apply pivot_row_entry|now apply diag_entry].
  - intros l j Hl Hj.
    destruct (loop_pivots (td_rows a) np (tdG nf k a) (td_pivot_row nf k a) (td_diag nf k a) choose HS PK) with (i := np) (l := l) (j := j)
      as [Q1 Q2]; auto; [intros; now apply pivot_row_entry|].
    split; [exact Q1|]. rewrite <- !HE by auto. exact Q2.
Qed.

(** ** likelihood *)
Section Lik.
  Variable la : linalg.
  Hypothesis ok : linalg_ok la.
  Variables (nf : nat) (k : kexp) (sg : td_sigma) (a : td_in).
  Hypothesis W : wf nf k.
  Hypothesis TS : sym (td_rows a) (tdM nf k sg a).
  Hypothesis TP : pd (td_rows a) (tdM nf k sg a).
  Variables (y yd : Mat) (yd2 : option Mat) (mf : nat -> nat -> Mat -> R).
  Let mu := mf (td_n a) 1%nat y.
  Let N := td_rows a.
  Let rhs := td_rhs a y yd yd2 mu.
  Lemma td_C_ok : forall C, td_A_lhs nf k sg a a true = Some C -> sym N C /\ pd N C.
  Proof.
    intros C HC. pose proof (td_A_tdM nf k sg a C W HC) as HE. apply meq_sym in HE. split.
    - apply (sym_ext N (tdM nf k sg a)); [exact HE|exact TS].
    - apply (pd_ext N (tdM nf k sg a)); [exact HE|exact TP].
  Qed.
  (** value of the dense likelihood times its divisor *)
  Lemma td_lml_dense_val : forall C b, (0 < td_n a)%nat -> td_match a yd2 = true -> td_A_lhs nf k sg a a true = Some C ->
    veq N (mv N C b) (fun i => rhs i O) ->
    exists l, td_lml_dense la nf k sg a y yd yd2 mf = Some l /\
    INR (td_n a + td_n a * td_v1 a) * l
    = ln (mvn_pdf N C (fun i => rhs i O) b) + INR (td_n a * td_v2 a) * / 2 * ln (2 * PI).
  Proof.
    intros C b Hn HM HC Hb. unfold td_lml_dense. rewrite HC, HM. fold mu N rhs. cbv zeta. eexists. split; [reflexivity|].
    destruct (td_C_ok C HC) as [HS PD].
    assert (HN : (0 < N)%nat) by (unfold N, td_rows; lia).
    pose proof (lml_of_mvn la ok N C rhs b HN HS PD Hb) as Q. unfold lml_of in Q. cbv zeta in Q.
    rewrite (sum_ext N (fun i => sum 1 (fun j => la_tri la N (la_chol la N C) rhs i j ^ 2))
      (fun i => la_tri la N (la_chol la N C) rhs i O ^ 2)) in Q by (intros; cbn [sum]; ring).
    rewrite <- Q.
    assert (HI : INR N = INR (td_n a + td_n a * td_v1 a) + INR (td_n a * td_v2 a)) by (unfold N, td_rows; now rewrite plus_INR).
    assert (P1 : INR (td_n a + td_n a * td_v1 a) <> 0) by (apply not_0_INR; lia).
    assert (P2 : INR N <> 0) by (apply not_0_INR; lia).
    unfold Rdiv. rewrite (Rmult_comm (INR N)), (Rmult_comm (INR (td_n a + td_n a * td_v1 a)) (_ * / _)), !Rmult_assoc.
    rewrite !Rinv_l, !Rmult_1_r by auto. rewrite HI. ring.
  Qed.
  Lemma td_lml_iter_val : forall choose np C b ld, (0 < td_n a)%nat -> sg_t sg <> 0 -> td_match a yd2 = true ->
    td_A_lhs nf k sg a a true = Some C -> ld N = ln (det N C) ->
    veq N (mv N C b) (fun i => rhs i O) ->
    exists l, td_lml_iter la choose nf k sg a y yd yd2 mf np ld = Some l /\
    INR N * l = ln (mvn_pdf N C (fun i => rhs i O) b).
  Proof.
    intros choose np C b ld Hn Hs HM HC Hld Hb. unfold td_lml_iter.
    destruct (td_fit_iter_solves la ok nf k sg a W TS TP y yd yd2 mf choose np Hs HM) as [c [-> Hc]].
    fold mu N rhs. fold N mu rhs in Hc. cbv zeta. eexists. split; [reflexivity|].
    destruct (td_C_ok C HC) as [HS PD].
    assert (HN : (0 < N)%nat) by (unfold N, td_rows; lia).
    pose proof (td_A_tdM nf k sg a C W HC) as HE. fold N in HE.
    rewrite ln_mvn by (exact (proj1 (proj2 (det_chol (ok_chol la ok N C HS PD))))).
    unfold lml_iter_of. rewrite Hld. cbn [sum]. unfold mm, tr.
    assert (U : forall i, (i < N)%nat -> c i O = b i).
    { assert (M : meq N 1 c (fun i _ => b i)); [|intros i Hi; exact (M i O Hi Nat.lt_0_1)].
      apply (solve_unique N 1 (tdM nf k sg a)); [now apply pd_nonsing|].
      eapply meq_trans; [exact Hc|]. intros i j Hi Hj. assert (j = O) by lia. subst j. rewrite <- (Hb i Hi). unfold mm, mv.
      apply sum_ext. intros q Hq. now rewrite HE. }
    unfold dot. rewrite (sum_ext N (fun l => rhs l O * c l O) (fun i => rhs i O * b i)) by (intros i Hi; now rewrite U).
    field. apply not_0_INR; lia.
  Qed.
End Lik.
