From Coq Require Import String Reals Lra List Ranalysis.
From Coquelicot Require Import Coquelicot.
From Verif Require Import Model.PyDict Model.Bijectors Model.Priors Model.Params Model.State Model.PriorDraw
  Spec.BijectorSpec Spec.PriorSpec Spec.StateSpec Spec.RandomSpec Spec.PriorDrawSpec
  Proofs.BijectorLemmas Proofs.PriorLemmas Proofs.StateFacts Proofs.StatePropLemmas.
Import ListNotations.
Open Scope R_scope.

Ltac in_R := cbn; unfold minus, plus, opp, scal, zero, mult; cbn; unfold minus, plus, opp, scal, zero, mult; cbn; match goal with |- ?a = ?b => change (@eq R a b) end.
(** ** slopes *)
Lemma logistic_pos : forall x, 0 < logistic x.
Proof. intro x. unfold logistic. pose proof (exp_pos x). apply Rdiv_lt_0_compat; lra. Qed.
Lemma softplus_slope : forall x, is_derive softplus x (logistic x).
Proof.
  intro x. unfold softplus, logaddexp, logistic. pose proof (exp_pos x). auto_derive.
  - rewrite exp_0. lra.
  - rewrite exp_0. field. lra.
Qed.
Lemma slope_derive : forall b x, bij_ok b -> is_derive (forward b) x (slope b x).
Proof.
  intros b x B. destruct b as [|m|M|m M|]; cbn [forward slope].
  - apply softplus_slope.
  - unfold softmin. evar_last. { apply (is_derive_plus (fun x => softplus (x - m)) (fun _ => m)).
      - apply (is_derive_comp softplus (fun x => x - m)). apply softplus_slope. auto_derive; [exact I|reflexivity].
      - apply is_derive_const. } in_R. ring.
  - unfold softmax. evar_last. { apply (is_derive_plus (fun x => - softplus (M - x)) (fun _ => M)).
      - apply (is_derive_opp (fun x => softplus (M - x))). apply (is_derive_comp softplus (fun x => M - x)). apply softplus_slope. auto_derive; [exact I|reflexivity].
      - apply is_derive_const. } in_R. ring.
  - unfold softminmax. assert (W : 0 < softplus (M - m)) by apply softplus_pos.
    apply (is_derive_ext (fun x => (M - (M - m) / softplus (M - m) * softplus (M - m - softplus (x - m))))). { intro t. change (M - (M - m) / softplus (M - m) * softplus (M - m - softplus (t - m)) = - softplus (M - m - softplus (t - m)) * (M - m) / softplus (M - m) + M :> R). field. lra. }
    evar_last. { apply (is_derive_minus (fun _ => M) (fun x => (M - m) / softplus (M - m) * softplus (M - m - softplus (x - m)))). apply is_derive_const.
      apply (is_derive_scal (fun x => softplus (M - m - softplus (x - m)))). apply (is_derive_comp softplus (fun x => M - m - softplus (x - m))). apply softplus_slope.
      apply (is_derive_minus (fun _ => M - m) (fun x => softplus (x - m))). apply is_derive_const.
      apply (is_derive_comp softplus (fun x => x - m)). apply softplus_slope. auto_derive; [exact I|reflexivity]. }
    in_R. field. lra.
  - apply (is_derive_id x).
Qed.
Lemma slope_pos : forall b x, bij_ok b -> 0 < slope b x.
Proof.
  intros b x B. destruct b as [|m|M|m M|]; cbn [slope]; try apply logistic_pos; [|lra]. cbn in B.
  apply Rmult_lt_0_compat; [apply Rmult_lt_0_compat; apply logistic_pos|]. apply Rdiv_lt_0_compat; [lra|apply softplus_pos].
Qed.
Lemma forward_slope : forall b x, bij_ok b -> derivable_pt_lim (forward b) x (slope b x) /\ 0 < slope b x.
Proof. intros b x B. split; [apply is_derive_Reals; now apply slope_derive|now apply slope_pos]. Qed.

(** ** draws *)
Definition prior_ok (p : prior) : Prop := match p with NormalPrior _ s => 0 < s | GammaPrior a b => 0 < a /\ 0 < b end.
Lemma density_ext : forall (P Q : R -> R) t d, (forall u, P u = Q u) -> derivable_pt_lim P t d -> derivable_pt_lim Q t d.
Proof. intros P Q t d E H. apply is_derive_Reals. apply is_derive_Reals in H. eapply is_derive_ext; [|exact H]. exact E. Qed.
Lemma draw_density : forall Gam p P, standard_law Gam p P -> forall t, prior_dom p t ->
  density_at (image (draw p) P) t (pdf Gam p t).
Proof.
  intros Gam p P [E D] t T. unfold density_at, image. destruct p as [l s|a b]; cbn [draw standard pdf prior_dom] in *.
  - apply (density_ext (fun t => P (fun z => z <= (t - l) / s))).
    { intro u. apply E. intro z. split; intro H.
      - apply (Rmult_le_compat_l s) in H; [|lra]. replace (s * ((u - l) / s)) with (u - l) in H by (field; lra). lra.
      - apply (Rmult_le_reg_l s); [exact T|]. replace (s * ((u - l) / s)) with (u - l) by (field; lra). lra. }
    specialize (D ((t - l) / s) Rlt_0_1). apply is_derive_Reals. apply is_derive_Reals in D.
    evar_last. { apply (is_derive_comp (fun u => P (fun z => z <= u)) (fun t => (t - l) / s)). exact D. auto_derive; [exact I|reflexivity]. }
    in_R. unfold normal_pdf.
    replace (((t - l) / s - 0) ^ 2 / (2 * 1 ^ 2)) with ((t - l) ^ 2 / (2 * s ^ 2)) by (field; lra).
    assert (0 < sqrt (2 * PI)) by (apply sqrt_lt_R0; pose proof PI_RGT_0; lra). field. split; lra.
  - destruct T as [Ta [Tb Tt]]. apply (density_ext (fun t => P (fun z => z <= b * t))).
    { intro u. apply E. intro z. split; intro H.
      - apply (Rmult_le_reg_l b); [exact Tb|]. replace (b * (z / b)) with z by (field; lra). exact H.
      - apply (Rmult_le_compat_l b) in H; [|lra]. replace (b * (z / b)) with z in H by (field; lra). exact H. }
    assert (Tbt : 0 < b * t) by (apply Rmult_lt_0_compat; lra).
    specialize (D (b * t) (conj Ta (conj Rlt_0_1 Tbt))). apply is_derive_Reals. apply is_derive_Reals in D.
    evar_last. { apply (is_derive_comp (fun u => P (fun z => z <= u)) (fun t => b * t)). exact D. auto_derive; [exact I|reflexivity]. }
    in_R. unfold gamma_pdf.
    replace (Rpower 1 a) with 1 by (unfold Rpower; rewrite ln_1, Rmult_0_r, exp_0; reflexivity).
    rewrite <- Rpower_mult_distr by lra.
    replace (Rpower b a) with (b * Rpower b (a - 1)).
    2:{ replace (Rpower b a) with (Rpower b (1 + (a - 1))) by (f_equal; ring). rewrite Rpower_plus, Rpower_1 by exact Tb. reflexivity. }
    replace (- (1 * (b * t))) with (- (b * t)) by ring. unfold Rdiv. ring.
Qed.

(** ** change of variables *)
Section Change.
  Context (f G H : R -> R) (x d g : R).
  Context (F : derivable_pt_lim f x d) (D : 0 < d) (FC : forall u, continuity_pt f u) (FI : forall u v, u < v -> f u < f v)
    (HG : derivable_pt_lim G x g) (E : forall u, H (f u) = G u).
  Lemma incr_inv : forall u v, f u < f v -> u < v.
  Proof. intros u v L. destruct (Rlt_or_le u v) as [A|[A|A]]; [exact A|apply FI in A; lra|subst; lra]. Qed.
  Lemma local_inv : forall del, 0 < del -> exists eta, 0 < eta /\ forall y, Rabs (y - f x) < eta -> exists u, f u = y /\ Rabs (u - x) < del.
  Proof.
    intros del Hd. assert (A : f (x - del / 2) < f x) by (apply FI; lra). assert (B : f x < f (x + del / 2)) by (apply FI; lra).
    exists (Rmin (f x - f (x - del / 2)) (f (x + del / 2) - f x)). split; [apply Rmin_pos; lra|]. intros y Hy.
    assert (Y : f (x - del / 2) < y < f (x + del / 2)).
    { apply Rabs_def2 in Hy. pose proof (Rmin_l (f x - f (x - del / 2)) (f (x + del / 2) - f x)). pose proof (Rmin_r (f x - f (x - del / 2)) (f (x + del / 2) - f x)). lra. }
    destruct (IVT (fun u => f u - y) (x - del / 2) (x + del / 2)) as [u [U1 U2]]; [|lra|cbv beta; lra|cbv beta; lra|].
    { intro u. apply continuity_pt_minus; [apply FC|]. apply continuity_pt_const. intros a b. reflexivity. }
    exists u. split; [lra|]. apply Rabs_def1; lra.
  Qed.
  Lemma change : derivable_pt_lim H (f x) (g / d).
  Proof.
    intros eps He.
    (* difference quotients of G and f tend to g and d: their ratio to g / d *)
    set (K := (Rabs g + d + 1)).
    assert (K0 : 0 < K) by (unfold K; pose proof (Rabs_pos g); lra).
    set (e := Rmin (d / 2) (eps * d * d / (4 * K))).
    assert (e0 : 0 < e). { unfold e. apply Rmin_pos; [lra|]. apply Rdiv_lt_0_compat; [|lra]. apply Rmult_lt_0_compat; [apply Rmult_lt_0_compat; lra|lra]. }
    destruct (F e e0) as [d1 HF]. destruct (HG e e0) as [d2 HGG].
    assert (M0 : 0 < Rmin d1 d2) by (apply Rmin_pos; apply cond_pos).
    destruct (local_inv _ M0) as [eta [Heta L]]. exists (mkposreal eta Heta). intros h h0 hb. cbn in hb.
    destruct (L (f x + h)) as [u [Eu Hu]]. { replace (f x + h - f x) with h by ring. exact hb. }
    set (k := u - x). assert (k0 : k <> 0). { unfold k. intro Z. apply h0. replace u with x in Eu by lra. lra. }
    assert (k1 : Rabs k < d1) by (eapply Rlt_le_trans; [exact Hu|apply Rmin_l]). assert (k2 : Rabs k < d2) by (eapply Rlt_le_trans; [exact Hu|apply Rmin_r]).
    specialize (HF k k0 k1). specialize (HGG k k0 k2). replace (x + k) with u in * by (unfold k; ring).
    rewrite <- Eu, !E. set (q := (f u - f x) / k) in *. set (r := (G u - G x) / k) in *.
    assert (q0 : d / 2 <= q). { apply Rabs_def2 in HF. pose proof (Rmin_l (d / 2) (eps * d * d / (4 * K))). fold e in H0. lra. }
    assert (Eh : h = q * k). { unfold q. replace ((f u - f x) / k * k) with (f u - f x) by (field; exact k0). lra. }
    replace ((G u - G x) / h) with (r / q). 2:{ rewrite Eh. unfold r. field. split; [exact k0|lra]. }
    replace (r / q - g / d) with ((d * (r - g) - g * (q - d)) / (q * d)) by (field; lra).
    unfold Rdiv at 1. rewrite Rabs_mult, Rabs_inv. rewrite (Rabs_pos_eq (q * d)) by (apply Rmult_le_pos; lra).
    assert (N : Rabs (d * (r - g) - g * (q - d)) <= e * K).
    { eapply Rle_trans; [apply Rabs_triang|]. rewrite Rabs_Ropp, !Rabs_mult, (Rabs_pos_eq d) by lra. unfold K.
      pose proof (Rabs_pos g). pose proof (Rabs_pos (q - d)). pose proof (Rabs_pos (r - g)).
      assert (d * Rabs (r - g) <= d * e) by (apply Rmult_le_compat_l; lra). assert (Rabs g * Rabs (q - d) <= Rabs g * e) by (apply Rmult_le_compat_l; lra). lra. }
    assert (e1 : e * K <= eps * d * d / 4).
    { pose proof (Rmin_r (d / 2) (eps * d * d / (4 * K))) as X. fold e in X. apply (Rmult_le_compat_r K) in X; [|lra]. replace (eps * d * d / (4 * K) * K) with (eps * d * d / 4) in X by (field; lra). exact X. }
    assert (Q : / (q * d) <= 2 / (d * d)).
    { replace (2 / (d * d)) with (/ (d / 2 * d)) by (field; lra). apply Rinv_le_contravar; [apply Rmult_lt_0_compat; lra|]. apply Rmult_le_compat_r; lra. }
    assert (Q0 : 0 < / (q * d)) by (apply Rinv_0_lt_compat; apply Rmult_lt_0_compat; lra).
    apply Rle_lt_trans with (eps * d * d / 4 * (2 / (d * d))); [apply Rmult_le_compat; [apply Rabs_pos|lra|lra|exact Q]|].
    replace (eps * d * d / 4 * (2 / (d * d))) with (eps / 2) by (field; lra). lra.
  Qed.
End Change.

Lemma value_density : forall Gam p P b x, standard_law Gam p P -> bij_ok b -> prior_dom p x ->
  density_at (image (fun z => forward b (draw p z)) P) (forward b x) (pdf Gam p x / slope b x).
Proof.
  intros Gam p P b x S B T. pose proof (draw_density Gam p P S x T) as G.
  apply (change (forward b) (fun t => P (fun z => draw p z <= t))).
  - apply is_derive_Reals. now apply slope_derive.
  - now apply slope_pos.
  - intro u. apply derivable_continuous_pt. exists (slope b u). apply is_derive_Reals. now apply slope_derive.
  - intros u v. now apply forward_incr.
  - exact G.
  - intro u. unfold image. apply S. intro z. split; intro H.
    + destruct (Rle_or_lt (draw p z) u) as [L|L]; [exact L|]. apply (forward_incr b _ _ B) in L. lra.
    + destruct H as [L|L]; [apply (forward_incr b _ _ B) in L; lra|rewrite L; lra].
Qed.

(** ** in the form of Props/PriorProps.v *)
Lemma gln_pdf : forall (gammaln Gam : R -> R) p t, (forall z, 0 < z -> exp (gammaln z) = Gam z) -> prior_dom p t -> exp (logpdf gammaln p t) = pdf Gam p t.
Proof. exact logpdf_exp. Qed.
Lemma drawn_law : forall (gammaln Gam : R -> R) p P, (forall z, 0 < z -> exp (gammaln z) = Gam z) -> standard_law Gam p P ->
  forall t, prior_dom p t -> density_at (image (draw p) P) t (exp (logpdf gammaln p t)).
Proof. intros gammaln Gam p P HG S t T. rewrite (gln_pdf gammaln Gam) by assumption. now apply draw_density. Qed.
Lemma randomized_law : forall (gammaln Gam : R -> R) p P b, (forall z, 0 < z -> exp (gammaln z) = Gam z) -> standard_law Gam p P -> bij_ok b ->
  forall x, prior_dom p x -> density_at (image (fun z => forward b (draw p z)) P) (forward b x) (exp (logpdf gammaln p x) / slope b x).
Proof. intros gammaln Gam p P b HG S B x T. rewrite (gln_pdf gammaln Gam) by assumption. now apply value_density. Qed.
Lemma identity_law : forall (gammaln Gam : R -> R) p P, (forall z, 0 < z -> exp (gammaln z) = Gam z) -> standard_law Gam p P ->
  forall y, prior_dom p y -> density_at (image (fun z => forward Identity (draw p z)) P) y (exp (logpdf gammaln p y)).
Proof.
  intros gammaln Gam p P HG S y T. pose proof (randomized_law gammaln Gam p P Identity HG S I y T) as H. cbn [forward slope] in H. unfold Rdiv in H. rewrite Rinv_1, Rmult_1_r in H. exact H.
Qed.
(** values with a softplus bijector: at the image of 0 the density is twice that of the prior at 0 *)
Lemma softplus_law : forall (gammaln Gam : R -> R) P, standard_law Gam (NormalPrior 0 1) P ->
  0 < forward Softplus 0 /\
  ~ density_at (image (fun z => forward Softplus (draw (NormalPrior 0 1) z)) P) (forward Softplus 0) (exp (logpdf gammaln (NormalPrior 0 1) (forward Softplus 0))).
Proof.
  intros gammaln Gam P S. split; [apply softplus_pos|]. intro H.
  pose proof (value_density Gam (NormalPrior 0 1) P Softplus 0 S I Rlt_0_1) as V.
  pose proof (uniqueness_limite _ _ _ _ H V) as E. cbn [logpdf slope] in E. rewrite normal_exp in E by lra. cbn [pdf] in E.
  assert (L : logistic 0 = / 2) by (unfold logistic; rewrite exp_0; lra). rewrite L in E.
  unfold normal_pdf in E. set (c := / (1 * sqrt (2 * PI))) in *. assert (C : 0 < c).
  { unfold c. apply Rinv_0_lt_compat. rewrite Rmult_1_l. apply sqrt_lt_R0. pose proof PI_RGT_0. lra. }
  assert (E1 : exp (- ((forward Softplus 0 - 0) ^ 2 / (2 * 1 ^ 2))) <= 1).
  { apply Rle_trans with (exp 0); [apply exp_le; pose proof (pow2_ge_0 (forward Softplus 0 - 0)); lra|rewrite exp_0; lra]. }
  assert (E2 : exp (- ((0 - 0) ^ 2 / (2 * 1 ^ 2))) = 1). { replace (- ((0 - 0) ^ 2 / (2 * 1 ^ 2))) with 0 by field. apply exp_0. }
  rewrite E2 in E. apply (Rmult_le_compat_l c) in E1; [|lra]. replace (c * 1 / / 2) with (2 * c) in E by field. lra.
Qed.

(** ** arrays *)
Lemma prior_sample_ok : forall src, source_ok src -> sampler_ok (prior_sample src).
Proof.
  intros src [SN SG] k pr. unfold prior_sample. cbv zeta. cbn [a_shape a_dtype a_data]. assert (X : raw_ok (raw src k pr) (pr_shape pr) (pr_dtype pr)).
  { unfold raw. destruct (pr_dist pr); [apply SN|apply SG]. }
  destruct X as [X1 [X2 X3]]. split; [exact X1|]. split; [exact X2|]. apply Forall_forall. intros o Ho. apply in_map_iff in Ho. destruct Ho as [z [<- Hz]].
  rewrite Forall_forall in X3. specialize (X3 _ Hz). destruct z; [discriminate|congruence].
Qed.
Lemma gamma_positive : forall src k pr a b, pr_dist pr = GammaPrior a b -> 0 < b ->
  (forall x, In (Some x) (a_data (r_gamma src k a (pr_shape pr) (pr_dtype pr))) -> 0 < x) ->
  forall y, In (Some y) (a_data (prior_sample src k pr)) -> 0 < y.
Proof.
  intros src k pr a b E B G y H. unfold prior_sample in H. cbv zeta in H. cbn [a_data] in H. apply in_map_iff in H. destruct H as [[z|] [H Hz]]; [|discriminate].
  injection H as <-. unfold raw in Hz. rewrite E in *. apply G in Hz. cbn [draw]. apply Rdiv_lt_0_compat; assumption.
Qed.
(** Parameter.sample_prior *)
Lemma sample_prior_spec : forall sample k p, sampler_ok sample -> float_meta (p_meta p) -> bij_ok (m_bijector (p_meta p)) ->
  let v := forward_arr (m_bijector (p_meta p)) (sample k (m_prior (p_meta p))) in
  sample_prior (sample k) p = Ok (Param v (p_meta p)) /\ legal (m_bijector (p_meta p)) v.
Proof.
  intros sample k p SO FM B v. destruct (SO k (m_prior (p_meta p))) as [S1 [S2 S3]]. split.
  - unfold sample_prior. cbv zeta. unfold param_update. cbn [fst pop_field get String.eqb Ascii.eqb Bool.eqb bind]. fold v.
    unfold mk_param. destruct p as [w [t b pr]]; cbn [p_meta m_trainable m_bijector m_prior] in *. unfold v. cbn [a_shape a_dtype forward_arr]. rewrite S1, S2. unfold float_meta in FM. cbn [m_bijector m_prior] in FM. rewrite FM.
    rewrite (proj2 (shape_eqb_eq _ _) eq_refl), (proj2 (dtype_eqb_eq _ _) eq_refl). reflexivity.
  - unfold legal, v, forward_arr. cbn [a_data]. apply Forall_forall. intros x Hx. apply in_map_iff in Hx. destruct Hx as [o [<- Ho]].
    rewrite Forall_forall in S3. specialize (S3 _ Ho). destruct o as [y|]; [|congruence]. cbn. eexists. split; [reflexivity|]. now apply forward_range.
Qed.
(** entries of prior.sample, when the generator is random *)
Lemma sampled_entry : forall src k pr i, source_ok src -> (i < length (a_data (asked src k pr)))%nat ->
  entry_of (prior_sample src k pr) i = draw (pr_dist pr) (entry_of (asked src k pr) i).
Proof.
  intros src k pr i [N G] L. change (asked src k pr) with (raw src k pr) in *. unfold prior_sample, entry_of. cbv zeta. cbn [a_data].
  assert (FN : List.Forall (fun x => x <> None) (a_data (raw src k pr))) by (unfold raw; destruct (pr_dist pr); [apply N|apply G]).
  rewrite Forall_forall in FN. pose proof (FN _ (nth_In (a_data (raw src k pr)) None L)) as X.
  revert L X. generalize (a_data (raw src k pr)) as l. clear. intro l. revert i. induction l as [|x l IH]; intros [|i] L X; cbn in L.
  - inversion L.
  - inversion L.
  - cbn in *. destruct x; [reflexivity|congruence].
  - cbn in *. apply IH; [now apply le_S_n|exact X].
Qed.
Lemma sampled_law : forall (gammaln Gam : R -> R) (W : Type) (Q : (W -> Prop) -> R) (src : W -> source) k pr i,
  (forall z, 0 < z -> exp (gammaln z) = Gam z) -> (forall A B : W -> Prop, (forall o, A o <-> B o) -> Q A = Q B) ->
  (forall o, source_ok (src o)) -> (forall o, (i < length (a_data (asked (src o) k pr)))%nat) ->
  standard_law Gam (pr_dist pr) (over Q (fun o => entry_of (asked (src o) k pr) i)) ->
  forall t, prior_dom (pr_dist pr) t ->
  density_at (over Q (fun o => entry_of (prior_sample (src o) k pr) i)) t (exp (logpdf gammaln (pr_dist pr) t)).
Proof.
  intros gammaln Gam W Q src k pr i HG HQ SO L S t T. eapply density_ext; [|exact (drawn_law gammaln Gam _ _ HG S t T)].
  intro u. unfold image, over. apply HQ. intro o. now rewrite (sampled_entry (src o) k pr i (SO o) (L o)).
Qed.
