(** The losses of the library are minus the log density of the data, at every state a model can be in; training keeps
    the best state found. *)
From Coq Require Import String List Bool Arith Reals ZArith Lia Lra FunctionalExtensionality.
From Verif Require Import Base.Sums Base.Mat Model.Arrays Model.Kernels Model.LinAlg Model.RPCholesky Model.Priors Model.GPR Model.SGPR Model.SGPRMore
  Model.PyDict Model.Bijectors Model.Params Model.State Model.Optim Model.Calls Model.Lifecycle Model.KernelObj Model.Public Model.Concrete Model.Training
  Spec.BijectorSpec Spec.KernelSpec Spec.GPSpec Spec.SparseSpec Spec.MVN Spec.PriorSpec Spec.StateSpec Spec.RandomSpec Spec.OptimSpec Spec.SearchSpec Spec.LifecycleSpec
  Spec.KernelObjSpec Spec.ConcreteSpec Spec.TrainingSpec
  Proofs.DictFacts Proofs.TreeFacts Proofs.StateFacts Proofs.SaveLoad Proofs.OptimFacts Proofs.OptimRun Proofs.KernelObjRun Proofs.LifecycleFacts Proofs.LifecyclePropLemmas
  Proofs.LifecycleParams Proofs.DispatchFacts Proofs.LinAlgFacts Proofs.GPRFacts Proofs.GPRLml Proofs.GPRCov Proofs.SGPRIter Proofs.SGPRCov Proofs.KernelDerivs
  Proofs.StatePropLemmas Proofs.PriorLemmas Proofs.ConcreteFacts Proofs.ConcretePropLemmas Proofs.ConcreteSparse Proofs.TrainingRun.
Import ListNotations.
Open Scope string_scope.
Open Scope R_scope.

Lemma cross_kk : forall nf k x z, kk nf k x z = cross nf k x z.
Proof. intros. apply functional_extensionality. intro i. apply functional_extensionality. intro j. apply kk_at. Qed.

Section Values.
  Context (la : linalg) (ok : linalg_ok la).
  Lemma solved : forall n A r, pd n A -> exists b, veq n (mv n A b) r.
  Proof.
    intros n A r H. exists (fun i => la_solve la n A (fun i _ => r i) i O). intros i Hi.
    exact (ok_solve la ok n 1 A (fun i _ => r i) (pd_nonsing n A H) i O Hi Nat.lt_0_1).
  Qed.
  Lemma gpr_density : forall m nf k sg x y mf, (0 < m)%nat -> all_atoms (fun _ a => psd_atom a) k ->
    log_density m (noisy sg (cross nf k x x)) (fun i => y i O - mf m 1%nat y) (lml_dense la m 1 nf k sg x y mf).
  Proof.
    intros m nf k sg x y mf Hm HP. rewrite <- cross_kk. destruct (solved m (A_lhs nf k sg x x true) (fun i => y i O - mf m 1%nat y)) as [b Hb]; [now apply A_pd|].
    exists b. split; [exact Hb|]. exact (lml_dense_mvn la ok m nf k sg x y mf b Hm HP Hb).
  Qed.
  Lemma gpr_density_derivs : forall m nf nv k sg x jac y, (0 < m * nv)%nat -> all_atoms (fun _ a => psd_atom a) k -> wf nf k -> ls_nonzero k -> dgram_ok k ->
    log_density (m * nv) (noisy sg (d01kj m m nf nv nv k x x jac jac)) (fun r => y (r / nv)%nat (r mod nv)%nat) (lml_derivs_dense la m nf nv k sg x jac y zero_mean).
  Proof.
    intros m nf nv k sg x jac y Hm HP W L HD.
    assert (E : (fun r => y (r / nv)%nat (r mod nv)%nat) = (fun i => flat nv y i O - zero_mean (m * nv)%nat 1%nat (flat nv y))).
    { apply functional_extensionality. intro r. unfold zero_mean, flat. ring. }
    rewrite E. destruct (solved (m * nv) (A_derivs_lhs m m nf nv nv k sg x jac x jac true) (fun i => flat nv y i O - zero_mean (m * nv)%nat 1%nat (flat nv y))) as [b Hb];
      [now apply Ad_pd|].
    exists b. split; [exact Hb|]. exact (lml_derivs_dense_mvn la ok m nf nv k sg x jac y zero_mean b Hm HP W L HD Hb).
  Qed.
  Lemma sparse_density : forall m n nf k sg xl x y mf, (0 < n)%nat -> all_atoms (fun _ a => psd_atom a) k ->
    exists M, nystrom m n (cross nf k xl xl) (cross nf k xl x) M /\ log_density n (noisy sg M) (fun i => y i O - mf n 1%nat y) (sg_lml_dense la m n 1 nf k sg xl x y mf).
  Proof.
    intros m n nf k sg xl x y mf Hn HP. exists (H_of la m (kk nf k xl xl) (kk nf k xl x)). rewrite <- !cross_kk.
    assert (HN : nystrom m n (kk nf k xl xl) (kk nf k xl x) (H_of la m (kk nf k xl xl) (kk nf k xl x))) by (apply H_nystrom; [exact ok|now apply kk_psd]).
    split; [exact HN|]. destruct (nystrom_psd m n _ _ _ (kk_symm nf k m xl) (kk_psd nf k m xl HP) HN) as [SM PM]. destruct (noisy_sp n sg _ SM PM) as [SN PN].
    destruct (solved n _ (fun i => y i O - mf n 1%nat y) PN) as [b Hb]. exists b. split; [exact Hb|].
    exact (sg_lml_mvn la ok m n nf k sg xl x y mf _ b Hn HP HN Hb).
  Qed.
End Values.

(** ** the likelihood functions of the classes *)
Section Lml.
  Context (la : linalg) (ok : linalg_ok la) (kernels : obj -> option kobj) (means : obj -> option (nat -> nat -> Mat -> R)) (keyed : obj -> nat -> Vec -> nat)
    (rest : data -> dict obj -> state -> result num) (interned : string -> bool) (kernel mean : obj) (ko : kobj) (s0 : state).
  Context (EK : kernels kernel = Some ko) (MO : model_ok interned ko s0).
  Context (u : state) (Ju : J s0 u) (KU : s_kernel u = kernel) (MU : s_mean u = mean).
  Lemma u_hyper : exists k sg, holds ko u k sg /\ hyper kernels (s_params u) kernel = Some (k, sg) /\
    all_atoms (fun _ a => psd_atom a) k /\ ls_nonzero k /\ 0 < sg.
  Proof.
    destruct (J_holds interned ko s0 MO u Ju) as [k [sg [H _]]]. exists k, sg. split; [exact H|].
    now apply (J_hyper interned ko s0 MO kernels kernel u k sg).
  Qed.
  (** lml is the value at u, and at all states that differ only in what a fit has left *)
  Definition value_at (consts : list string) (lml : data -> dict obj -> state -> result num) (d : data) (v : R) : Prop :=
    forall kw u', wants_dense kw = true -> s_params u' = s_params u -> s_kernel u' = s_kernel u -> s_mean u' = s_mean u ->
      (forall k, In k consts -> get k (s_register u') = get k (s_register u)) -> lml d kw u' = Ok (Some v).
  Lemma gpr_lml_value : forall mf x y m nf, means mean = Some mf -> shaped [m; nf] x -> shaped [m; 1%nat] y -> (0 < m)%nat ->
    exists v, value_at ["loss_fn"] (c_gpr_lml la kernels means rest) (Targets x y) v /\ gpr_score ko nf m mf x y u v.
  Proof.
    intros mf x y m nf EM SX SY Hm. destruct u_hyper as [k [sg [HH [HY [HP [L Ps]]]]]]. eexists. split.
    - intros kw u' HW EP EKu EMu _. unfold c_gpr_lml. cbv zeta. rewrite HW, EP, EKu, EMu, KU, HY, MU, EM.
      rewrite (mat_of_shaped _ _ _ SX), (mat_of_shaped _ _ _ SY). cbn [negb]. rewrite Nat.eqb_refl, (proj2 (Nat.ltb_lt 0 m)) by auto. cbn [andb]. reflexivity.
    - exists k, sg. split; [exact HH|]. now apply gpr_density.
  Qed.
  Lemma gpr_lml_derivs_value : forall x y j m nf nv, (forall t k, reads ["kernel_params"] ko t k -> wf nf k /\ dgram_ok k) ->
    shaped [m; nf] x -> shaped [m; nv] y -> shaped [m; nf; nv] j -> (0 < m * nv)%nat ->
    exists v, value_at ["loss_fn"] (c_gpr_lml la kernels means rest) (Derivs x y j) v /\ gpr_score_derivs ko nf nv m x y j u v.
  Proof.
    intros x y j m nf nv HK SX SY SJ Hm. destruct u_hyper as [k [sg [HH [HY [HP [L Ps]]]]]]. eexists. split.
    - intros kw u' HW EP EKu EMu _. unfold c_gpr_lml. cbv zeta. rewrite HW, EP, EKu, KU, HY.
      rewrite (mat_of_shaped _ _ _ SX), (mat_of_shaped _ _ _ SY), (ten_of_shaped _ _ _ _ SJ). cbn [negb]. rewrite !Nat.eqb_refl, (proj2 (Nat.ltb_lt 0 (m * nv))) by auto. cbn [andb]. reflexivity.
    - exists k, sg. split; [exact HH|]. destruct (HK _ _ (proj1 HH)) as [W HD]. now apply gpr_density_derivs.
  Qed.
  Lemma sgpr_lml_value : forall mf x y n nf nl xl, means mean = Some mf -> shaped [n; nf] x -> shaped [n; 1%nat] y -> (0 < n)%nat ->
    lookup ["x_locs"] (s_params u) = Some (Some xl) -> shaped [nl; nf] (p_value xl) ->
    exists v, value_at ["loss_fn"] (c_sgpr_lml la kernels means rest) (Targets x y) v /\ sgpr_score ko nf nl n mf x y u v.
  Proof.
    intros mf x y n nf nl xl EM SX SY Hm LX SL. destruct u_hyper as [k [sg [HH [HY [HP [L Ps]]]]]].
    destruct (sparse_density la ok nl n nf k sg (entry (p_value xl)) (entry x) (entry y) mf Hm HP) as [M [M1 M2]]. eexists. split.
    - intros kw u' HW EP EKu EMu _. unfold c_sgpr_lml. cbv zeta. rewrite HW, EP, EKu, EMu, KU, HY, MU, EM.
      rewrite (mat_of_shaped _ _ _ SX), (mat_of_shaped _ _ _ SY), (param_array_of _ _ _ LX). cbn [negb option_map].
      rewrite (mat_of_shaped _ _ _ SL), !Nat.eqb_refl, (proj2 (Nat.ltb_lt 0 n)) by auto. cbn [andb]. reflexivity.
    - exists xl. split; [exact LX|]. split; [exact SL|]. exists k, sg, M. split; [exact HH|]. split; [exact M1|exact M2].
  Qed.
  Lemma rp_lml_value : forall mf x y n nf nl key a, means mean = Some mf -> shaped [n; nf] x -> shaped [n; 1%nat] y -> (0 < n)%nat ->
    get "key" (s_register u) = Some key -> get "n_locs" (s_register u) = Some (OArr a) -> scalar_of a = Some (INR nl) -> (nl <= n)%nat ->
    exists v, value_at ["loss_fn"; "n_locs"; "key"] (c_rp_lml la kernels means keyed rest) (Targets x y) v /\ rp_score ko (keyed key) nf nl n mf x y u v.
  Proof.
    intros mf x y n nf nl key a EM SX SY Hm AK AN EA Hn. destruct u_hyper as [k [sg [HH [HY [HP [L Ps]]]]]].
    assert (EN : nat_of (INR nl) = Some nl).
    { unfold nat_of. rewrite Int_part_INR, Nat2Z.id. destruct (Req_EM_T (INR nl) (INR nl)); congruence. }
    destruct (sparse_density la ok nl n nf k sg (fun l => entry x (rp_locs (keyed key) n nf k (entry x) nl l)) (entry x) (entry y) mf Hm HP) as [M [M1 M2]].
    eexists. split.
    - intros kw u' HW EP EKu EMu EG. unfold c_rp_lml. cbv zeta. unfold attr. rewrite HW, !EG, AK, AN, EP, EKu, EMu, KU, HY, MU, EM by (cbn; tauto).
      rewrite (mat_of_shaped _ _ _ SX), (mat_of_shaped _ _ _ SY), EA. cbn [negb option_map].
      rewrite EN, !Nat.eqb_refl, (proj2 (Nat.leb_le nl n)), (proj2 (Nat.ltb_lt 0 n)) by auto. cbn [andb]. reflexivity.
    - exists k, sg, M. split; [exact HH|]. split; [exact M1|exact M2].
  Qed.
End Lml.

(** ** priors *)
Section Prior.
  Context (gammaln : R -> R).
  Lemma J_numbers : forall s0 u, ready s0 -> J s0 u -> all_numbers (s_params s0) -> all_numbers (s_params u).
  Proof.
    intros s0 u [S0 _] [RU [E|[O [F L]]]] H; [now rewrite E|]. unfold all_numbers in *. destruct RU as [SU _]. apply every_lookup; [apply SU|].
    intros path [p'|] HL; [|exact I]. destruct O as [_ O]. specialize (O path).
    destruct (lookup path (s_params s0)) as [[p|]|] eqn:A; [|congruence|congruence]. destruct O as [v [O1 O2]]. rewrite O1 in HL. injection HL as <-.
    pose proof (every_lookup' _ _ _ _ H A) as [SH [r DR]]. cbn [p_value p_meta] in *. destruct (m_trainable (p_meta p)) eqn:Tr.
    - assert (SV : a_shape v = []).
      { pose proof (every_lookup' _ _ _ _ (proj2 (proj1 SU)) O1) as [X _]. pose proof (every_lookup' _ _ _ _ (proj2 (proj1 S0)) A) as [Y _]. cbn in X. congruence. }
      split; [exact SV|]. pose proof (on_trainable_lookup _ _ _ _ F O1 Tr) as FL. cbn in FL. rewrite SV in FL. cbn in FL.
      pose proof (on_trainable_lookup _ _ _ _ L O1 Tr) as LL. cbn in LL. unfold legal in LL.
      destruct (a_data v) as [|a [|? ?]] eqn:DA; try discriminate. inversion LL as [|? ? [z [-> _]] _]; subst. eauto.
    - rewrite (O2 eq_refl). eauto.
  Qed.
  Lemma numbers_sum : forall ps, Forall (fun p => a_shape (p_value p) = [] /\ exists r, a_data (p_value p) = [Some r]) ps ->
    exists rs, Forall2 (fun p r => a_shape (p_value p) = [] /\ a_data (p_value p) = [Some r]) ps rs /\
    exists w, sum_logpdf gammaln ps = Ok (Some w) /\
    forall Gam, (forall z, 0 < z -> exp (gammaln z) = Gam z) -> Forall (fun q => prior_dom (fst q) (snd q)) (combine (map (fun p => pr_dist (m_prior (p_meta p))) ps) rs) ->
      exp w = joint Gam (combine (map (fun p => pr_dist (m_prior (p_meta p))) ps) rs).
  Proof.
    intros ps H. induction H as [|p ps [H1 [r H2]] _ [rs [F [w [E1 E2]]]]].
    - exists []. split; [constructor|]. exists 0. split; [reflexivity|]. intros. apply exp_0.
    - exists (r :: rs). split; [constructor; auto|]. exists (logpdf gammaln (pr_dist (m_prior (p_meta p))) r + w). split.
      + cbn [sum_logpdf]. unfold leaf_logpdf. rewrite H1, H2. cbn [bind]. rewrite E1. reflexivity.
      + intros Gam HG HD. cbn [map combine] in *. inversion HD as [|? ? D1 D2]; subst. cbn [joint]. rewrite exp_plus, (E2 Gam HG D2). f_equal.
        cbn [fst snd] in D1.
        destruct (log_prior_joint gammaln Gam [(pr_dist (m_prior (p_meta p)), r)] HG) as [q [Q1 Q2]]; [now repeat constructor|].
        cbn in Q1. injection Q1 as <-. cbn [joint] in Q2. rewrite Rplus_0_l in Q2. rewrite Q2. ring.
  Qed.
  Lemma prior_value : forall u, state_ok u -> all_numbers (s_params u) -> exists w, c_log_prior gammaln u = Ok (Some w) /\ prior_score gammaln u w.
  Proof.
    intros u S H. unfold c_log_prior, prior_score. destruct (numbers_sum (params_of (s_params u))) as [rs [F [w [E1 E2]]]]; [|now exists w; split; [|exists rs]].
    unfold params_of. rewrite sorted_canon by apply S. unfold all_numbers in H. rewrite every_leaves in H. revert H. generalize (tleaves (s_params u)). clear.
    induction l as [|[p|] l IH]; intro H; inversion H; subst; cbn [somes]; [constructor|constructor; auto|auto].
  Qed.
End Prior.

(** ** training *)
Section Train.
  Context (s0 : state) (R0 : ready s0) (ST : startable (s_params s0)) (sample : key -> prior_obj -> array) (SA : sampler_ok sample) (SF : sampler_full sample).
  Context (s : state) (Js : J s0 s).
  Context (lossfn : obj -> option (sig * (data -> dict obj -> state -> result (num * array)))) (lf : obj) (f : sig * (data -> dict obj -> state -> result (num * array)))
    (HA : attr s "loss_fn" = Ok lf) (HF : lossfn lf = Some f).
  Context (d : data) (kw : dict obj) (score : state -> R -> Prop).
  Context (AP : accepts (fst f) 3 (map fst kw ++ more_names (task_of d))%list = true)
    (AK : accepts (fst f) 0 (["state"; "x"; "y"] ++ map fst kw ++ more_names (task_of d))%list = true).
  Context (HV : forall u, inv s0 s u -> exists v g, snd f d kw u = Ok (Some (- v), g) /\ score u v).
  Lemma positional_value : forall x u, inv s0 s u -> exists a, loss_positional f d kw x u = Ok a /\ exists v, fst a = Some (- v) /\ score u v.
  Proof. intros x u Iu. destruct (HV u Iu) as [v [g [E1 E2]]]. exists (Some (- v), g). unfold loss_positional, call. rewrite AP. split; [exact E1|]. exists v. split; [reflexivity|exact E2]. Qed.
  Lemma positional_runs : forall x u, inv s0 s u -> exists a, loss_positional f d kw x u = Ok a.
  Proof. intros x u Iu. destruct (positional_value x u Iu) as [a [E _]]. eauto. Qed.
  Lemma keywords_value : forall u, inv s0 s u -> exists v, loss_keywords f d kw u = Ok (Some (- v)) /\ score u v.
  Proof. intros u Iu. destruct (HV u Iu) as [v [g [E1 E2]]]. exists v. unfold loss_keywords, call. rewrite AK, E1. split; [reflexivity|exact E2]. Qed.
  (** what the optimiser sees *)
  Lemma objective_value : forall x, like_start (ravel_backward (s_params s)) x ->
    exists p v g, unravel_forward (s_params s) x = Ok p /\
      objective (s_params s) s (loss_positional f d kw) x = Ok (State (s_kernel s) (s_mean s) p (s_register s), (Some (- v), g)) /\
      score (State (s_kernel s) (s_mean s) p (s_register s)) v.
  Proof.
    intros x LX. destruct (reach s0 (startable_full _ ST) sample SA SF s s x (inv_start s0 s Js) LX) as [p [E1 [E2 Iu]]].
    destruct (positional_value x _ Iu) as [[a g] [E3 [v [E4 E5]]]]. exists p, v, g. split; [exact E1|]. split; [|exact E5].
    unfold objective. rewrite E1. cbn [bind]. rewrite E2. cbn [bind]. rewrite E3. cbn [bind]. cbn [fst] in E4. now rewrite E4.
  Qed.
  Context (a : fit_args) (strat : array -> strategy (num * array) array) (HT : trains a strat).
  Lemma minimised : forall minimise, (forall v, inv s0 s v -> minimise (loss_positional f d kw) strat v = scipy_minimize (loss_positional f d kw) strat v) ->
    exists u first best, minimisation lossfn sample a minimise d kw s = Ok (u, true) /\ inv s0 s u /\
      fst (scipy_minimize (loss_positional f d kw) strat s) = Ok first /\ trained a score (s_params first) (s_params u) best /\ score u best.
  Proof.
    intros minimise HE. destruct HT as [M [P [K [DI _]]]].
    assert (HM : forall v, inv s0 s v -> exists v', (fun u => bind (fst (minimise (loss_positional f d kw) strat u)) (fun u' => Ok (u', tt))) v = Ok (v', tt) /\ inv s0 s v' /\
      fst (scipy_minimize (loss_positional f d kw) strat v) = Ok v').
    { intros v Iv. destruct (scipy_runs s0 (startable_full _ ST) sample SA SF s (loss_positional f d kw) positional_runs v strat Iv (P _ (startable_real _ (proj1 (proj2 (proj1 (proj1 Iv)))) (J_startable s0 v (proj1 Iv) ST)))) as [v' [E1 E2]].
      exists v'. split; [|auto]. cbv beta. rewrite HE, E1 by auto. reflexivity. }
    assert (HM' : forall v, inv s0 s v -> exists v', (fun u => bind (fst (minimise (loss_positional f d kw) strat u)) (fun u' => Ok (u', tt))) v = Ok (v', tt) /\ inv s0 s v').
    { intros v Iv. destruct (HM v Iv) as [v' [A1 [A2 _]]]. eauto. }
    destruct (search_best s0 sample SA SF s Js (fun u => bind (fst (minimise (loss_positional f d kw) strat u)) (fun u' => Ok (u', tt))) (loss_keywords f d kw) score HM' keywords_value (a_key a) (a_restarts a) K)
      as [u [first [states [vs [best [losses [E [Iu [E0 [L [N0 [F1 [F2 [F3 [j [N1 [N2 B]]]]]]]]]]]]]]]]].
    exists u, first, best. split; [|split; [exact Iu|split]].
    - unfold minimisation. rewrite HA. cbn [bind]. rewrite HF, M, E. reflexivity.
    - destruct (HM s (inv_start s0 s Js)) as [v' [A1 [_ A2]]]. cbv beta in A1, E0. rewrite A1 in E0. injection E0 as ->. exact A2.
    - split.
      + exists states, vs. split; [exact L|]. split; [now exists first|]. split; [exact F1|]. exists j, u. auto.
      + destruct (Forall2_nth _ _ _ _ _ F1 N1) as [b [B1 B2]]. congruence.
  Qed.
  Lemma minimised_scipy : exists u first best, minimisation lossfn sample a scipy_minimize d kw s = Ok (u, true) /\ inv s0 s u /\
      fst (scipy_minimize (loss_positional f d kw) strat s) = Ok first /\ trained a score (s_params first) (s_params u) best /\ score u best.
  Proof. apply minimised. reflexivity. Qed.
  Lemma minimised_nlopt : forall w, state_ok w -> same_frozen (s_params w) (s_params s0) ->
    exists u first best, minimisation lossfn sample a (nlopt_optimize w) d kw s = Ok (u, true) /\ inv s0 s u /\
      fst (scipy_minimize (loss_positional f d kw) strat s) = Ok first /\ trained a score (s_params first) (s_params u) best /\ score u best.
  Proof. intros w W SFr. apply minimised. intros v Iv. apply nlopt_scipy; [exact W|apply Iv|]. eapply J_same_frozen; [exact SFr|apply Iv]. Qed.
End Train.
