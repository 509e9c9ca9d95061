(** The statements of Props/TDProps.v. *)
From Coq Require Import Reals Arith Lia Lra List Bool.
From Coquelicot Require Import Coquelicot.
From Verif Require Import Base.Sums Base.Mat Base.PSD Model.Arrays Model.Kernels Model.LinAlg Model.Operations
  Model.RPCholesky Model.GPR Model.GPRTD Spec.KernelSpec Spec.Det Spec.MVN Spec.TDSpec Proofs.KernelDerivs Proofs.KernelSym
  Proofs.Loops Proofs.Contraction Proofs.Local Proofs.Jet2 Proofs.KernelMethods Proofs.KernelPropLemmas Proofs.LinAlgFacts Proofs.Matvec Proofs.JetPSD Proofs.GPRFacts
  Proofs.GPRLml Proofs.GPRExamples Spec.SoftSpec Proofs.SoftPSD Proofs.KernelBounds Proofs.DetFacts Proofs.GPRTDFacts Proofs.GPRTDFit.
Import ListNotations.
Open Scope R_scope.

Lemma td_entries : forall nf k sg a b noise A r q, wf nf k -> ls_nonzero k -> exact k -> (noise = true -> a = b) ->
  (td_2 a = None <-> td_2 b = None) ->
  td_A_lhs nf k sg a b noise = Some A -> (r < td_rows a)%nat -> (q < td_rows b)%nat ->
  obs_cov nf k (td_obs a r) (td_obs b q) (A r q - if noise then td_noise sg a r * delta r q else 0).
Proof.
  intros nf k sg a b noise A r q W L E Hn H HA Hr Hq.
  rewrite (td_A_entry nf k sg a b noise A r q W Hn HA Hr); [|now rewrite td_cols_same].
  match goal with |- obs_cov _ _ _ _ ?c => replace c with (ocov nf k (td_obs a r) (td_obs b q)) by ring end.
  now apply ocov_ok.
Qed.
Lemma td_raises : forall nf k sg a b noise,
  td_A_lhs nf k sg a b noise = None <-> td_2 a <> None /\ td_2 b = None.
Proof. exact td_A_none. Qed.
Lemma td_sym_pd : forall nf k sg a A, all_atoms (fun _ a => psd_atom a) k -> wf nf k -> ls_nonzero k -> exact k ->
  td_A_lhs nf k sg a a true = Some A -> sym (td_rows a) A /\ pd (td_rows a) A.
Proof. intros. apply (td_C_ok nf k sg a); auto; [now apply tdM_sym|now apply tdM_pd]. Qed.
(** with squared exponentials, up to their slack *)
Lemma dslack_0 : forall nf k x, ls_nonzero k -> dslack nf k x (fun _ => 0) = 0.
Proof.
  intros nf k x. induction k as [ad a|k1 I1 k2 I2|k1 I1 k2 I2]; intro L.
  - destruct a; try reflexivity; cbn [dslack]; rewrite (sum_zero_ext (length (active nf ad))); try ring;
      intros i _; unfold gather, Rdiv; ring.
  - destruct L. cbn [dslack]. rewrite I1, I2 by auto. ring.
  - destruct L. cbn [dslack]. rewrite I1, I2 by auto. ring.
Qed.
Lemma tdM_sym_soft : forall nf k sg a, wf nf k -> ls_nonzero k -> soft k -> sym (td_rows a) (tdM nf k sg a).
Proof.
  intros nf k sg a W L S i j Hi Hj. unfold tdM, tdG. rewrite (ocov_sym_reg nf k (td_obs a i) (td_obs a j) W L) by now apply soft_regular. f_equal.
  destruct (Nat.eq_dec i j) as [->|N]; [reflexivity|]. rewrite !delta_diff by auto. ring.
Qed.
Lemma tdG_low_soft : forall nf k a, all_atoms (fun _ a => psd_atom a) k -> wf nf k -> ls_nonzero k -> soft k -> forall c,
  - (td_slack nf k a * sum (td_rows a) (fun i => match snd (td_obs a i) with Some _ => c i ^ 2 | None => 0 end)) <= qf (td_rows a) (tdG nf k a) c.
Proof.
  intros nf k a HP W L S c. set (N := td_rows a).
  set (X := fun i => fst (td_obs a i)). set (U := fun i => match snd (td_obs a i) with Some u => u | None => fun _ => 0 end).
  set (isd := fun i => match snd (td_obs a i) with Some _ => true | None => false end).
  set (Q := fun i j => Qd nf k (X i) (X j) (U i) (U j)). set (c' := fun i => if isd i then c i else 0).
  pose proof (soft_joint nf k HP W L S N X U isd c) as P.
  assert (E : qf N (joint (kernel_at nf k) (E0 nf k) (fun x y u v => E01 nf k x y u v + Qd nf k x y u v) X U isd) c = qf N (tdG nf k a) c + qf N Q c').
  { unfold qf. rewrite <- sum_plus. apply sum_ext. intros i _. rewrite <- sum_plus. apply sum_ext. intros j _.
    unfold joint, tdG, Q, c', isd, X, U. destruct (td_obs a i) as [x [u|]], (td_obs a j) as [y [w|]]; cbn [fst snd ocov]; ring. }
  rewrite E in P. clear E.
  assert (SQ : sym N Q) by (intros i j _ _; now apply Qd_sym).
  pose proof (psd_trace N _ c' SQ (Qd_psd nf k N X U HP W L S)) as T.
  assert (D : sum N (fun i => Q i i) <= td_slack nf k a).
  { unfold td_slack. apply sum_le. intros i Hi. unfold Q, X, U. destruct (td_obs a i) as [x [u|]]; cbn [fst snd].
    - now apply Qd_diag. - pose proof (Qd_diag nf k x (fun _ => 0) HP W L S) as Z. rewrite dslack_0 in Z by auto. exact Z. }
  assert (EC : sum N (fun i => c' i ^ 2) = sum N (fun i => match snd (td_obs a i) with Some _ => c i ^ 2 | None => 0 end)).
  { apply sum_ext. intros i _. unfold c', isd. destruct (snd (td_obs a i)); ring. }
  rewrite EC in T.
  assert (NN : 0 <= sum N (fun i => match snd (td_obs a i) with Some _ => c i ^ 2 | None => 0 end)) by (apply sum_nonneg; intros; destruct (snd _); [apply pow2_ge_0|lra]).
  apply (Rmult_le_compat_r _ _ _ NN) in D. lra.
Qed.
Lemma tdM_pd_soft : forall nf k sg a, all_atoms (fun _ a => psd_atom a) k -> wf nf k -> ls_nonzero k -> soft k ->
  (forall r, (r < td_rows a)%nat -> snd (td_obs a r) <> None -> td_slack nf k a < td_noise sg a r) ->
  pd (td_rows a) (tdM nf k sg a).
Proof.
  intros nf k sg a HP W L S Hs v [i [Hi Hv]].
  replace (qf (td_rows a) (tdM nf k sg a) v) with (qf (td_rows a) (tdG nf k a) v + qf (td_rows a) (fun i j => td_noise sg a i * delta i j) v)
    by (symmetry; exact (qf_madd (td_rows a) (tdG nf k a) (fun i j => td_noise sg a i * delta i j) v)).
  rewrite qf_diag. pose proof (tdG_low_soft nf k a HP W L S v) as H.
  assert (0 < sum (td_rows a) (fun i => td_noise sg a i * v i ^ 2 - td_slack nf k a * match snd (td_obs a i) with Some _ => v i ^ 2 | None => 0 end)).
  { apply sum_pos.
    - intros j Hj. pose proof (pow2_ge_0 (v j)). pose proof (td_noise_pos sg a j). destruct (snd (td_obs a j)) eqn:E.
      + assert (td_slack nf k a < td_noise sg a j) by (apply Hs; auto; congruence). nra.
      + nra.
    - exists i. split; [auto|]. assert (0 < v i ^ 2) by now apply pow2_gt_0. pose proof (td_noise_pos sg a i). destruct (snd (td_obs a i)) eqn:E.
      + assert (td_slack nf k a < td_noise sg a i) by (apply Hs; auto; congruence). nra.
      + nra. }
  rewrite sum_minus, sum_scal_l in H0. lra.
Qed.
Lemma td_sym_pd_soft : forall nf k sg a A, all_atoms (fun _ a => psd_atom a) k -> wf nf k -> ls_nonzero k -> soft k ->
  (forall r, (r < td_rows a)%nat -> snd (td_obs a r) <> None -> td_slack nf k a < td_noise sg a r) ->
  td_A_lhs nf k sg a a true = Some A -> sym (td_rows a) A /\ pd (td_rows a) A.
Proof. intros. apply (td_C_ok nf k sg a); auto; [now apply tdM_sym_soft|now apply tdM_pd_soft]. Qed.
Lemma td_matvec : forall nf k sg a b noise A z, wf nf k -> (noise = true -> a = b) -> (td_2 a = None <-> td_2 b = None) ->
  td_A_lhs nf k sg a b noise = Some A ->
  exists M, td_Ax_lhs_fun nf k sg a b noise z = Some M /\
  forall r j, (r < td_rows a)%nat -> M r j = mm (td_rows b) A z r j.
Proof.
  intros nf k sg a b noise A z W Hn H HA.
  destruct (td_Ax_mm nf k sg a b noise z W Hn (proj2 H)) as [M [HM HE]]. exists M. split; [exact HM|].
  intros r j Hr. rewrite HE by auto. unfold mm. apply sum_ext. intros q Hq. f_equal.
  rewrite (td_A_entry nf k sg a b noise A r q W Hn HA Hr); [reflexivity|now rewrite td_cols_same].
Qed.

(** ** likelihood *)
Lemma rhs_targets : forall a y yd yd2 mu r, td_match a yd2 = true -> (r < td_rows a)%nat ->
  td_rhs a y yd yd2 mu r O = td_targets a y yd yd2 mu r.
Proof.
  intros a y yd yd2 mu r HM Hr. destruct (zone_of a r Hr) as [r H|s v H H0|v2 J s v H H0 H1].
  - rewrite rhs_y by auto. unfold td_targets. now rewrite (proj2 (Nat.ltb_lt r (td_n a))).
  - rewrite rhs_1 by auto. unfold td_targets. pose proof (blk_lt _ _ _ _ H H0). rewrite (proj2 (Nat.ltb_ge _ (td_n a))) by lia.
    rewrite (proj2 (Nat.ltb_lt _ (td_n a + td_n a * td_v1 a))) by lia.
    replace (td_n a + (s * td_v1 a + v) - td_n a)%nat with (s * td_v1 a + v)%nat by lia. now rewrite blk_div, blk_mod.
  - unfold td_match in HM. rewrite H in HM. destruct yd2 as [d|]; [|discriminate]. rewrite (rhs_2 a y yd d mu v2 J) by auto. unfold td_targets, td_v2. rewrite H.
    rewrite (proj2 (Nat.ltb_ge _ (td_n a))), (proj2 (Nat.ltb_ge _ (td_n a + td_n a * td_v1 a))) by lia.
    replace (td_n a + (td_n a * td_v1 a + (s * v2 + v)) - td_n a - td_n a * td_v1 a)%nat with (s * v2 + v)%nat by lia. now rewrite blk_div, blk_mod.
Qed.
Lemma mvn_ext : forall n A B r s b, meq n n A B -> veq n r s -> mvn_pdf n A r b = mvn_pdf n B s b.
Proof. intros n A B r s b H1 H2. unfold mvn_pdf. rewrite (det_ext H1). now rewrite (dot_ext n r b s b H2) by (intros ? ?; reflexivity). Qed.
Lemma mv_ext : forall n A B b, meq n n A B -> veq n (mv n A b) (mv n B b).
Proof. intros n A B b H i Hi. unfold mv. apply sum_ext. intros j Hj. now rewrite (H i j Hi Hj). Qed.
Lemma td_cov_M : forall nf k sg a C, wf nf k -> ls_nonzero k -> exact k -> td_cov nf k sg a C -> meq (td_rows a) (td_rows a) C (tdM nf k sg a).
Proof.
  intros nf k sg a C W L E H i j Hi Hj. specialize (H i j Hi Hj). apply ocov_unique in H; auto. unfold tdM, tdG. rewrite <- H. ring.
Qed.
Lemma td_cov_ex : forall nf k sg a, wf nf k -> ls_nonzero k -> exact k -> td_cov nf k sg a (tdM nf k sg a).
Proof. intros nf k sg a W L E r q _ _. unfold tdM, tdG. match goal with |- obs_cov _ _ _ _ ?c => replace c with (ocov nf k (td_obs a r) (td_obs a q)) by ring end. now apply ocov_ok. Qed.
Section Gen.
  Variable la : linalg.
  Hypothesis ok : linalg_ok la.
  Variables (nf : nat) (k : kexp) (sg : td_sigma) (a : td_in).
  Hypothesis W : wf nf k.
  Hypothesis TS : sym (td_rows a) (tdM nf k sg a).
  Hypothesis TP : pd (td_rows a) (tdM nf k sg a).
  Variables (y yd : Mat) (yd2 : option Mat) (mf : nat -> nat -> Mat -> R) (C : Mat).
  Hypothesis HC : meq (td_rows a) (td_rows a) C (tdM nf k sg a).
  Hypothesis Hn : (0 < td_n a)%nat.
  Hypothesis HM : td_match a yd2 = true.
  Let r := td_targets a y yd yd2 (mf (td_n a) 1%nat y).
  Let N := td_rows a.
  Lemma gen_A : exists A, td_A_lhs nf k sg a a true = Some A /\ meq N N A C.
  Proof.
    destruct (td_A_self nf k sg a true) as [A HA]. exists A. split; [exact HA|].
    exact (meq_trans _ _ _ _ _ (td_A_tdM nf k sg a A W HA) (meq_sym _ _ _ _ HC)).
  Qed.
  Lemma gen_r : veq N (fun i => td_rhs a y yd yd2 (mf (td_n a) 1%nat y) i O) r.
  Proof. intros i Hi. now apply rhs_targets. Qed.
  Lemma gen_b : forall A b, meq N N A C -> veq N (mv N C b) r -> veq N (mv N A b) (fun i => td_rhs a y yd yd2 (mf (td_n a) 1%nat y) i O).
  Proof. intros A b HA Hb i Hi. rewrite (mv_ext N A C b HA i Hi), (gen_r i Hi). exact (Hb i Hi). Qed.
  Lemma td_gen_dense : forall b, veq N (mv N C b) r ->
    exists l, td_lml_dense la nf k sg a y yd yd2 mf = Some l /\
    INR (td_n a + td_n a * td_v1 a) * l = ln (mvn_pdf N C r b) + INR (td_n a * td_v2 a) * / 2 * ln (2 * PI).
  Proof.
    intros b Hb. destruct gen_A as [A [HA EA]].
    destruct (td_lml_dense_val la ok nf k sg a W TS TP y yd yd2 mf A b Hn HM HA (gen_b A b EA Hb)) as [l [Hl Hv]].
    exists l. split; [exact Hl|]. rewrite Hv. f_equal. f_equal. apply mvn_ext; [exact EA|exact gen_r].
  Qed.
  Lemma td_gen_iter : forall choose np b ld, sg_t sg <> 0 -> ld N = ln (det N C) -> veq N (mv N C b) r ->
    exists l, td_lml_iter la choose nf k sg a y yd yd2 mf np ld = Some l /\ INR N * l = ln (mvn_pdf N C r b).
  Proof.
    intros choose np b ld Hs Hld Hb. destruct gen_A as [A [HA EA]].
    destruct (td_lml_iter_val la ok nf k sg a W TS TP y yd yd2 mf choose np A b ld Hn Hs HM HA) as [l [Hl Hv]];
      [fold N; rewrite Hld; f_equal; symmetry; now apply det_ext|exact (gen_b A b EA Hb)|].
    exists l. split; [exact Hl|]. fold N in Hv. rewrite Hv. f_equal. apply mvn_ext; [exact EA|exact gen_r].
  Qed.
  Lemma gen_solution : exists b, veq N (mv N C b) r.
  Proof.
    assert (PC : pd N C) by (apply (pd_ext N (tdM nf k sg a)); [now apply meq_sym|exact TP]).
    exists (fun i => la_solve la N C (fun i _ => r i) i O). intros i Hi.
    exact (ok_solve la ok N 1 C (fun i _ => r i) (pd_nonsing _ C PC) i O Hi Nat.lt_0_1).
  Qed.
  Lemma td_gen_relation : forall choose np ld, sg_t sg <> 0 -> ld N = ln (det N C) ->
    exists l l', td_lml_dense la nf k sg a y yd yd2 mf = Some l /\ td_lml_iter la choose nf k sg a y yd yd2 mf np ld = Some l' /\
    INR (td_n a + td_n a * td_v1 a) * l = INR (td_rows a) * l' + INR (td_n a * td_v2 a) * / 2 * ln (2 * PI).
  Proof.
    intros choose np ld Hs Hld. destruct gen_solution as [b Hb].
    destruct (td_gen_dense b Hb) as [l [Hl Hv]]. destruct (td_gen_iter choose np b ld Hs Hld Hb) as [l' [Hl' Hv']].
    exists l, l'. repeat split; auto. rewrite Hv. fold N. rewrite Hv'. reflexivity.
  Qed.
End Gen.
(** the same with the matrix of the code, for any kernel that makes it positive definite *)
Lemma A_gen : forall nf k sg a A, wf nf k -> td_A_lhs nf k sg a a true = Some A -> sym (td_rows a) A -> pd (td_rows a) A ->
  sym (td_rows a) (tdM nf k sg a) /\ pd (td_rows a) (tdM nf k sg a) /\ meq (td_rows a) (td_rows a) A (tdM nf k sg a).
Proof.
  intros nf k sg a A W HA S P. pose proof (td_A_tdM nf k sg a A W HA) as E. split; [now apply (sym_ext _ A)|]. split; [now apply (pd_ext _ A)|exact E].
Qed.
Lemma td_lml_definite : forall la, linalg_ok la -> forall nf k sg a y yd yd2 mf C b, wf nf k ->
  td_A_lhs nf k sg a a true = Some C -> sym (td_rows a) C -> pd (td_rows a) C -> (0 < td_n a)%nat -> td_match a yd2 = true ->
  let r := td_targets a y yd yd2 (mf (td_n a) 1%nat y) in
  veq (td_rows a) (mv (td_rows a) C b) r ->
  (exists l, td_lml_dense la nf k sg a y yd yd2 mf = Some l /\
   INR (td_n a + td_n a * td_v1 a) * l
   = ln (mvn_pdf (td_rows a) C r b) + INR (td_n a * td_v2 a) * / 2 * ln (2 * PI)) /\
  forall choose np logdet, sg_t sg <> 0 -> logdet (td_rows a) = ln (det (td_rows a) C) ->
  exists l, td_lml_iter la choose nf k sg a y yd yd2 mf np logdet = Some l /\ INR (td_rows a) * l = ln (mvn_pdf (td_rows a) C r b).
Proof.
  intros la ok nf k sg a y yd yd2 mf C b W HA S P Hn HM r Hb. destruct (A_gen nf k sg a C W HA S P) as [TS [TP E]]. split.
  - exact (td_gen_dense la ok nf k sg a W TS TP y yd yd2 mf C E Hn HM b Hb).
  - intros choose np ld Hs Hld. exact (td_gen_iter la ok nf k sg a W TS TP y yd yd2 mf C E Hn HM choose np b ld Hs Hld Hb).
Qed.
Lemma td_fit_definite : forall la, linalg_ok la -> forall nf k sg a C, wf nf k ->
  td_A_lhs nf k sg a a true = Some C -> sym (td_rows a) C -> pd (td_rows a) C -> forall y yd yd2 mf, td_match a yd2 = true ->
  exists c P, td_fit_dense la nf k sg a y yd yd2 mf = Some (c, mf (td_n a) 1%nat y) /\
    (forall choose np, sg_t sg <> 0 -> exists c', td_fit_iter la choose nf k sg a y yd yd2 mf np = Some (c', mf (td_n a) 1%nat y) /\
       meq (td_rows a) 1 c' c) /\
    td_predict_dense nf k sg a a c (mf (td_n a) 1%nat y) = Some P /\
    (forall s, (s < td_n a)%nat -> y s O - tp_y P s O = (sg_t sg ^ 2 + / 10 ^ 10) * c s O) /\
    (forall s v, (s < td_n a)%nat -> (v < td_v1 a)%nat ->
       yd s v - tp_d P s v = (sg_1 sg ^ 2 + / 10 ^ 10) * c (td_n a + (s * td_v1 a + v))%nat O) /\
    (forall v2 J d, td_2 a = Some (v2, J) -> yd2 = Some d -> (0 < td_n a)%nat -> exists D, tp_d2 P = Some (v2, D) /\
       forall s v, (s < td_n a)%nat -> (v < v2)%nat ->
       d s v - D s v = (sg_2 sg ^ 2 + / 10 ^ 10) * c (td_n a + (td_n a * td_v1 a + (s * v2 + v)))%nat O).
Proof.
  intros la ok nf k sg a C W HA S PC y yd yd2 mf HM. destruct (A_gen nf k sg a C W HA S PC) as [TS [TP E]].
  destruct (td_fit_residuals la ok nf k sg a W TS TP y yd yd2 mf HM) as [c [P [H1 [H2 [H3 [H4 H5]]]]]].
  exists c, P. split; [exact H1|]. split; [|exact (conj H2 (conj H3 (conj H4 H5)))].
  intros choose np Hs. destruct (td_fit_iter_solves la ok nf k sg a W TS TP y yd yd2 mf choose np Hs HM) as [c' [H6 _]].
  exists c'. split; [exact H6|]. pose proof (td_fit_iter_eq la ok nf k sg a W TS TP y yd yd2 mf choose np Hs) as Q. rewrite H6, H1 in Q. exact (proj1 Q).
Qed.
Lemma td_lml_density : forall la, linalg_ok la -> forall nf k sg a, all_atoms (fun _ a => psd_atom a) k ->
  wf nf k -> ls_nonzero k -> exact k -> forall y yd mf C b, (0 < td_n a)%nat -> td_2 a = None ->
  td_cov nf k sg a C ->
  let r := td_targets a y yd None (mf (td_n a) 1%nat y) in
  veq (td_rows a) (mv (td_rows a) C b) r ->
  exists l, td_lml_dense la nf k sg a y yd None mf = Some l /\ INR (td_rows a) * l = ln (mvn_pdf (td_rows a) C r b).
Proof.
  intros la ok nf k sg a HP W L E y yd mf C b Hn H2 HC r Hb.
  destruct (td_gen_dense la ok nf k sg a W (tdM_sym nf k sg a W L E _) (tdM_pd nf k sg a HP W L E _) y yd None mf C (td_cov_M nf k sg a C W L E HC) Hn) with (b := b) as [l [Hl Hv]]; auto.
  { unfold td_match. now rewrite H2. }
  exists l. split; [exact Hl|]. unfold r. revert Hv. unfold td_rows, td_v2. rewrite H2, Nat.mul_0_r, Nat.add_0_r.
  intro Hv. rewrite Hv. simpl INR. ring.
Qed.
Lemma td_lml_second : forall la, linalg_ok la -> forall nf k sg a, all_atoms (fun _ a => psd_atom a) k ->
  wf nf k -> ls_nonzero k -> exact k -> forall y yd yd2 mf C b, (0 < td_n a)%nat -> td_match a yd2 = true ->
  td_cov nf k sg a C ->
  let r := td_targets a y yd yd2 (mf (td_n a) 1%nat y) in
  veq (td_rows a) (mv (td_rows a) C b) r ->
  exists l, td_lml_dense la nf k sg a y yd yd2 mf = Some l /\
  INR (td_n a + td_n a * td_v1 a) * l
  = ln (mvn_pdf (td_rows a) C r b) + INR (td_n a * td_v2 a) * / 2 * ln (2 * PI).
Proof.
  intros la ok nf k sg a HP W L E y yd yd2 mf C b Hn HM HC r Hb.
  exact (td_gen_dense la ok nf k sg a W (tdM_sym nf k sg a W L E _) (tdM_pd nf k sg a HP W L E _) y yd yd2 mf C (td_cov_M nf k sg a C W L E HC) Hn HM b Hb).
Qed.
Lemma td_lml_iter_density : forall la, linalg_ok la -> forall choose nf k sg a np, all_atoms (fun _ a => psd_atom a) k ->
  wf nf k -> ls_nonzero k -> exact k -> forall y yd yd2 mf C b logdet, (0 < td_n a)%nat -> sg_t sg <> 0 -> td_match a yd2 = true ->
  td_cov nf k sg a C -> logdet (td_rows a) = ln (det (td_rows a) C) ->
  let r := td_targets a y yd yd2 (mf (td_n a) 1%nat y) in
  veq (td_rows a) (mv (td_rows a) C b) r ->
  exists l, td_lml_iter la choose nf k sg a y yd yd2 mf np logdet = Some l /\
  INR (td_rows a) * l = ln (mvn_pdf (td_rows a) C r b).
Proof.
  intros la ok choose nf k sg a np HP W L E y yd yd2 mf C b ld Hn Hs HM HC Hld r Hb.
  exact (td_gen_iter la ok nf k sg a W (tdM_sym nf k sg a W L E _) (tdM_pd nf k sg a HP W L E _) y yd yd2 mf C (td_cov_M nf k sg a C W L E HC) Hn HM choose np b ld Hs Hld Hb).
Qed.
Lemma td_lml_relation : forall la, linalg_ok la -> forall choose nf k sg a np, all_atoms (fun _ a => psd_atom a) k ->
  wf nf k -> ls_nonzero k -> exact k -> forall y yd yd2 mf C logdet, (0 < td_n a)%nat -> sg_t sg <> 0 -> td_match a yd2 = true ->
  td_cov nf k sg a C -> logdet (td_rows a) = ln (det (td_rows a) C) ->
  exists l l', td_lml_dense la nf k sg a y yd yd2 mf = Some l /\ td_lml_iter la choose nf k sg a y yd yd2 mf np logdet = Some l' /\
  INR (td_n a + td_n a * td_v1 a) * l = INR (td_rows a) * l' + INR (td_n a * td_v2 a) * / 2 * ln (2 * PI).
Proof.
  intros la ok choose nf k sg a np HP W L E y yd yd2 mf C ld Hn Hs HM HC Hld.
  exact (td_gen_relation la ok nf k sg a W (tdM_sym nf k sg a W L E _) (tdM_pd nf k sg a HP W L E _) y yd yd2 mf C (td_cov_M nf k sg a C W L E HC) Hn HM choose np ld Hs Hld).
Qed.
(** with the same data, the two versions order any two hyperparameter settings alike *)
Lemma td_lml_same_order : forall la, linalg_ok la -> forall choose nf a np y yd yd2 mf logdet logdet', (0 < td_n a)%nat -> td_match a yd2 = true ->
  forall k sg k' sg' C C',
  all_atoms (fun _ a => psd_atom a) k -> wf nf k -> ls_nonzero k -> exact k -> sg_t sg <> 0 ->
  all_atoms (fun _ a => psd_atom a) k' -> wf nf k' -> ls_nonzero k' -> exact k' -> sg_t sg' <> 0 ->
  td_cov nf k sg a C -> logdet (td_rows a) = ln (det (td_rows a) C) ->
  td_cov nf k' sg' a C' -> logdet' (td_rows a) = ln (det (td_rows a) C') ->
  exists d d' i i', td_lml_dense la nf k sg a y yd yd2 mf = Some d /\ td_lml_dense la nf k' sg' a y yd yd2 mf = Some d' /\
    td_lml_iter la choose nf k sg a y yd yd2 mf np logdet = Some i /\
    td_lml_iter la choose nf k' sg' a y yd yd2 mf np logdet' = Some i' /\ (d <= d' <-> i <= i').
Proof.
  intros la ok choose nf a np y yd yd2 mf ld ld' Hn HM k sg k' sg' C C' H1 H2 H3 H4 H5 G1 G2 G3 G4 G5 HC HL HC' HL'.
  destruct (td_lml_relation la ok choose nf k sg a np H1 H2 H3 H4 y yd yd2 mf C ld Hn H5 HM HC HL) as [d [i [Hd [Hi E]]]].
  destruct (td_lml_relation la ok choose nf k' sg' a np G1 G2 G3 G4 y yd yd2 mf C' ld' Hn G5 HM HC' HL') as [d' [i' [Hd' [Hi' E']]]].
  exists d, d', i, i'. repeat split; auto; intro Q.
  - apply (Rmult_le_reg_l (INR (td_rows a))); [apply lt_0_INR; unfold td_rows; lia|].
    apply (Rmult_le_compat_l (INR (td_n a + td_n a * td_v1 a)) _ _ (pos_INR _)) in Q. lra.
  - apply (Rmult_le_reg_l (INR (td_n a + td_n a * td_v1 a))); [apply lt_0_INR; lia|].
    apply (Rmult_le_compat_l (INR (td_rows a)) _ _ (pos_INR _)) in Q. lra.
Qed.
(** and disagree on the value as soon as there is a second block *)
Lemma td_lml_refuted : forall la, linalg_ok la -> forall choose nf k sg a np, all_atoms (fun _ a => psd_atom a) k ->
  wf nf k -> ls_nonzero k -> exact k -> forall mf C logdet, (0 < td_n a)%nat -> (0 < td_v2 a)%nat -> sg_t sg <> 0 ->
  mf (td_n a) 1%nat (fun _ _ => 0) = 0 ->
  td_cov nf k sg a C -> logdet (td_rows a) = ln (det (td_rows a) C) ->
  exists y yd yd2 l l', td_lml_dense la nf k sg a y yd (Some yd2) mf = Some l /\
    td_lml_iter la choose nf k sg a y yd (Some yd2) mf np logdet = Some l' /\ l <> l'.
Proof.
  intros la ok choose nf k sg a np HP W L E mf C ld Hn Hv Hs Hmf HC Hld.
  destruct (td_2 a) as [[v2 J]|] eqn:E2; [|unfold td_v2 in Hv; rewrite E2 in Hv; lia].
  assert (HE := td_cov_M nf k sg a C W L E HC). apply meq_sym in HE.
  assert (HS : sym (td_rows a) C) by (apply (sym_ext _ (tdM nf k sg a)); [exact HE|now apply tdM_sym]).
  assert (PD : pd (td_rows a) C) by (apply (pd_ext _ (tdM nf k sg a)); [exact HE|now apply tdM_pd]).
  set (N := td_rows a) in *.
  pose (z := (fun _ _ => 0) : Mat). pose (e := (fun i j => delta i 0 * delta j 0) : Mat).
  assert (HM : forall d, td_match a (Some d) = true) by (intro; unfold td_match; now rewrite E2).
  assert (Hv' : (0 < v2)%nat) by (unfold td_v2 in Hv; now rewrite E2 in Hv).
  set (p := (td_n a + (td_n a * td_v1 a + (0 * v2 + 0)))%nat).
  assert (Hp : (p < N)%nat) by exact (proj2 (zone_obs _ _ _ (zone_2 a v2 J 0 0 E2 Hn Hv'))).
  (* the right-hand sides are 0 and the unit vector p *)
  assert (R0 : forall i, td_targets a z z (Some z) 0 i = 0).
  { intro i. unfold td_targets, z. destruct (Nat.ltb _ _); [ring|]. destruct (Nat.ltb _ _); reflexivity. }
  destruct (td_lml_relation la ok choose nf k sg a np HP W L E z z (Some z) mf C ld Hn Hs (HM z) HC Hld) as [l0 [l0' [A0 [B0 Q0]]]].
  destruct (td_lml_relation la ok choose nf k sg a np HP W L E z z (Some e) mf C ld Hn Hs (HM e) HC Hld) as [l1 [l1' [A1 [B1 Q1]]]].
  destruct (Req_dec l0 l0') as [D0|D0]; [|exists z, z, z, l0, l0'; auto].
  destruct (Req_dec l1 l1') as [D1|D1]; [|exists z, z, e, l1, l1'; auto].
  exfalso.
  (* both agree: both are - 1/2 ln 2 pi *)
  assert (HI : INR N = INR (td_n a + td_n a * td_v1 a) + INR (td_n a * td_v2 a)) by (unfold N, td_rows; now rewrite plus_INR).
  assert (P2 : 0 < INR (td_n a * td_v2 a)) by (apply lt_0_INR; nia).
  assert (PN : 0 < INR N) by (apply lt_0_INR; unfold N, td_rows; lia).
  assert (EQ : l0' = l1').
  { subst l0 l1. apply (Rmult_eq_reg_l (INR (td_n a * td_v2 a))); [|lra]. fold N in Q0, Q1. rewrite HI in Q0, Q1. lra. }
  assert (Hz : mf (td_n a) 1%nat z = 0) by exact Hmf.
  set (r1 := (fun i _ => td_targets a z z (Some e) 0 i) : Mat).
  pose proof (ok_solve la ok N 1 C r1 (pd_nonsing _ C PD)) as S1.
  set (b := fun i => la_solve la N C r1 i O) in *.
  assert (Hb : veq N (mv N C b) (td_targets a z z (Some e) (mf (td_n a) 1%nat z))).
  { rewrite Hz. intros i Hi. exact (S1 i O Hi Nat.lt_0_1). }
  assert (H0 : veq N (mv N C (fun _ => 0)) (td_targets a z z (Some z) (mf (td_n a) 1%nat z))).
  { rewrite Hz. intros i Hi. rewrite R0. unfold mv. apply sum_zero_ext. intros; ring. }
  destruct (td_lml_iter_density la ok choose nf k sg a np HP W L E z z (Some z) mf C _ ld Hn Hs (HM z) HC Hld H0) as [m0 [M0 V0]].
  destruct (td_lml_iter_density la ok choose nf k sg a np HP W L E z z (Some e) mf C _ ld Hn Hs (HM e) HC Hld Hb) as [m1 [M1 V1]].
  rewrite B0 in M0. rewrite B1 in M1. injection M0 as <-. injection M1 as <-.
  fold N in V0, V1. assert (V : ln (mvn_pdf N C (td_targets a z z (Some z) (mf (td_n a) 1%nat z)) (fun _ => 0))
    = ln (mvn_pdf N C (td_targets a z z (Some e) (mf (td_n a) 1%nat z)) b)) by (rewrite <- V0, <- V1, EQ; reflexivity).
  assert (HD := proj1 (proj2 (DetFacts.det_chol (ok_chol la ok N C HS PD)))).
  rewrite !ln_mvn in V by exact HD.
  assert (Z : dot N (td_targets a z z (Some z) (mf (td_n a) 1%nat z)) (fun _ => 0) = 0)
    by (unfold dot; apply sum_zero_ext; intros; ring).
  rewrite Z in V.
  assert (QF : dot N (td_targets a z z (Some e) (mf (td_n a) 1%nat z)) b = qf N C b).
  { unfold dot, qf. apply sum_ext. intros i Hi. rewrite <- (Hb i Hi). unfold mv. rewrite <- sum_scal_r. apply sum_ext. intros; ring. }
  rewrite QF in V.
  assert (NZ : nonzero N b).
  { destruct (Rlt_dec 0 (qf N C b)) as [Hq|Hq].
    - assert (X : exists i, (i < N)%nat /\ b i <> 0); [|exact X].
      apply Classical_Prop.NNPP. intro X. apply (Rlt_irrefl 0). replace 0 with (qf N C b) at 2; [exact Hq|].
      unfold qf. apply sum_zero_ext. intros i Hi. apply sum_zero_ext. intros j Hj.
      replace (b i) with 0; [ring|]. symmetry. apply Classical_Prop.NNPP. intro Y. apply X. eauto.
    - apply Classical_Prop.NNPP. intro X.
      assert (BZ : forall i, (i < N)%nat -> b i = 0).
      { intros i Hi. apply Classical_Prop.NNPP. intro Y. apply X. exists i. auto. }
      pose proof (Hb p Hp) as Hpp. cbv beta in Hpp. unfold mv in Hpp.
      rewrite (sum_zero_ext N) in Hpp by (intros j Hj; rewrite BZ by auto; ring).
      rewrite Hz in Hpp. unfold p in Hpp.
      rewrite <- rhs_targets in Hpp by auto. rewrite (rhs_2 a z z e 0 v2 J 0 0 E2 Hn Hv') in Hpp. unfold e in Hpp. rewrite delta_same in Hpp. lra. }
  specialize (PD b NZ). lra.
Qed.

Lemma td_residuals : forall la, linalg_ok la -> forall nf k sg a, all_atoms (fun _ a => psd_atom a) k ->
  wf nf k -> ls_nonzero k -> exact k -> forall y yd yd2 mf, td_match a yd2 = true ->
  exists c P, td_fit_dense la nf k sg a y yd yd2 mf = Some (c, mf (td_n a) 1%nat y) /\
    td_predict_dense nf k sg a a c (mf (td_n a) 1%nat y) = Some P /\
    (forall s, (s < td_n a)%nat -> y s O - tp_y P s O = (sg_t sg ^ 2 + / 10 ^ 10) * c s O) /\
    (forall s v, (s < td_n a)%nat -> (v < td_v1 a)%nat ->
       yd s v - tp_d P s v = (sg_1 sg ^ 2 + / 10 ^ 10) * c (td_n a + (s * td_v1 a + v))%nat O) /\
    (forall v2 J d, td_2 a = Some (v2, J) -> yd2 = Some d -> (0 < td_n a)%nat -> exists D, tp_d2 P = Some (v2, D) /\
       forall s v, (s < td_n a)%nat -> (v < v2)%nat ->
       d s v - D s v = (sg_2 sg ^ 2 + / 10 ^ 10) * c (td_n a + (td_n a * td_v1 a + (s * v2 + v)))%nat O).
Proof. intros la ok nf k sg a HP W L E. apply (td_fit_residuals la ok nf k sg a W (tdM_sym nf k sg a W L E _) (tdM_pd nf k sg a HP W L E _)). Qed.
Lemma td_iter_fit : forall la, linalg_ok la -> forall nf k sg a, all_atoms (fun _ a => psd_atom a) k ->
  wf nf k -> ls_nonzero k -> exact k -> forall y yd yd2 mf choose np, sg_t sg <> 0 ->
  match td_fit_iter la choose nf k sg a y yd yd2 mf np, td_fit_dense la nf k sg a y yd yd2 mf with
  | Some (c, m), Some (c', m') => meq (td_rows a) 1 c c' /\ m = m'
  | None, None => True
  | _, _ => False
  end.
Proof. intros la ok nf k sg a HP W L E. apply (td_fit_iter_eq la ok nf k sg a W (tdM_sym nf k sg a W L E _) (tdM_pd nf k sg a HP W L E _)). Qed.

(** ** examples *)
Definition td_ex : td_in :=
  {| td_n := 2; td_x := fun s f => INR (s + f); td_v1 := 1; td_j1 := fun s f v => INR (s * f + v);
     td_2 := Some (2%nat, fun s f v => INR (s + v)) |}.
Definition td_ex1 : td_in :=
  {| td_n := 3; td_x := fun s f => INR (s * f); td_v1 := 2; td_j1 := fun s f v => INR (s + f + v); td_2 := None |}.
Lemma ex_td_A : forall sg, exists A, td_A_lhs 3 gp_kernel sg td_ex td_ex true = Some A.
Proof. intro. apply td_A_self. Qed.
Lemma ex_td_rows : td_rows td_ex = 8%nat /\ td_rows td_ex1 = 9%nat /\ td_v2 td_ex = 2%nat.
Proof. repeat split. Qed.
Lemma ex_td_mean : zero_mean (td_n td_ex) 1 (fun _ _ => 0) = 0 /\ data_mean (td_n td_ex) 1 (fun _ _ => 0) = 0.
Proof. split; [reflexivity|]. unfold data_mean. cbn. lra. Qed.
Lemma ex_td_match : exists A B, td_match td_ex (Some A) = true /\ td_match td_ex1 B = true /\ (td_2 td_ex = None <-> td_2 td_ex = None).
Proof. exists (fun _ _ => 0), None. repeat split; auto. Qed.
Lemma ex_td_mixed : (exists v2 J, td_2 td_ex = Some (v2, J)) /\ td_2 td_ex1 = None /\ (0 < td_n td_ex)%nat.
Proof. split; [do 2 eexists; reflexivity|]. split; [reflexivity|]. simpl. lia. Qed.
Lemma ex_td_cov : forall sg, exists C, td_cov 3 gp_kernel sg td_ex C.
Proof. intro sg. destruct gp_kernel_ok as [_ [W [L [E _]]]]. eexists. exact (td_cov_ex 3 gp_kernel sg td_ex W L E). Qed.
Definition td_soft : kexp := KSum (KProd (KAtom None (ASE 1)) (KAtom (Some [1%nat]) (ASE 3))) (KAtom (Some [0%nat; 2%nat]) ALin).
Definition td_unit : td_sigma := {| sg_t := 1; sg_1 := 1; sg_2 := 1 |}.
Lemma td_soft_slack : forall x u, (forall f, (f < 3)%nat -> 0 <= u f <= 2) -> dslack 3 td_soft x u <= / 10.
Proof.
  intros x u Hu. unfold td_soft. cbn [dslack].
  pose proof (stat_bounds 3 None (ASE 1) x x I) as B1. pose proof (stat_bounds 3 (Some [1%nat]) (ASE 3) x x I) as B2.
  set (p := kernel_at 3 (KAtom None (ASE 1)) _ _) in *. set (q := kernel_at 3 (KAtom (Some _) (ASE 3)) _ _) in *.
  assert (T1 : / 10 ^ 12 <= / 10 ^ 3) by (apply Rinv_le_contravar; [lra|]; apply Rle_pow; [lra|lia]).
  assert (T0 : 0 < / 10 ^ 12) by (apply Rinv_0_lt_compat, pow_lt; lra).
  set (a := / 10 ^ 12) in *. assert (T3 : / 10 ^ 3 = / 1000) by (f_equal; ring). rewrite T3 in *.
  unfold active, gather. cbn [seq length nth sum].
  pose proof (Hu 0%nat ltac:(lia)). pose proof (Hu 1%nat ltac:(lia)). pose proof (Hu 2%nat ltac:(lia)).
  set (u0 := u 0%nat) in *. set (u1 := u 1%nat) in *. set (u2 := u 2%nat) in *.
  match goal with |- 5 * a * ?s1 * q + p * (5 * a * ?s2) + 0 <= _ => assert (S1 : 0 <= s1 <= 12) by nra; assert (S2 : 0 <= s2 <= 1) by nra; set (z1 := s1) in *; set (z2 := s2) in * end.
  assert (a * z1 <= / 1000 * 12) by nra. assert (0 <= a * z1) by nra. assert (a * z2 <= / 1000) by nra. assert (0 <= a * z2) by nra. nra.
Qed.
Lemma ex_td_soft : all_atoms (fun _ a => psd_atom a) td_soft /\ wf 3 td_soft /\ ls_nonzero td_soft /\ soft td_soft /\
  forall r, (r < td_rows td_ex)%nat -> snd (td_obs td_ex r) <> None -> td_slack 3 td_soft td_ex < td_noise td_unit td_ex r.
Proof.
  split; [cbn; auto|]. split.
  { simpl. repeat split; auto; try (repeat constructor; simpl; intuition lia); intros d H; simpl in H; intuition lia. }
  split; [simpl; repeat split; apply Rgt_not_eq; lra|]. split; [unfold soft; simpl; auto|].
  intros r _ _.
  assert (B : td_slack 3 td_soft td_ex <= sum 8 (fun r => match snd (td_obs td_ex r) with Some _ => / 10 | None => 0 end)).
  { unfold td_slack. change (td_rows td_ex) with 8%nat. apply sum_le. intros i Hi.
    assert (D : forall x u, td_obs td_ex i = (x, Some u) -> dslack 3 td_soft x u <= / 10).
    { intros x u Ho. apply td_soft_slack. intros f Hf.
      do 8 (destruct i as [|i]; [first [discriminate|injection Ho as _ Hq; subst u; destruct f as [|[|[|f]]]; [cbn; lra|cbn; lra|cbn; lra|lia]]|]). lia. }
    destruct (td_obs td_ex i) as [x [u|]]; cbn [snd]; [now apply (D x)|lra]. }
  assert (V : sum 8 (fun r => match snd (td_obs td_ex r) with Some _ => / 10 | None => 0 end) = 6 * / 10) by (cbn; lra).
  rewrite V in B. assert (1 <= td_noise td_unit td_ex r); [|lra].
  assert (0 < / 10 ^ 10) by (apply Rinv_0_lt_compat, pow_lt; lra).
  unfold td_noise, obs_noise, td_unit, jit10. cbn [sg_t sg_1 sg_2]. repeat match goal with |- context [if ?c then _ else _] => destruct c end; lra.
Qed.
