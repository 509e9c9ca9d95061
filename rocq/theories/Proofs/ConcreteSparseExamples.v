(** Sparse models that meet the hypotheses of Props/ConcreteProps.v: fitted through NLopt, and then to derivatives. *)
From Coq Require Import String List Reals Arith Bool ZArith Lia Lra.
From Verif Require Import Base.Sums Base.Mat Model.Arrays Model.Kernels Model.LinAlg Model.GPR Model.PyDict Model.Bijectors Model.Priors Model.Params Model.State
  Model.Optim Model.Calls Model.Lifecycle Model.KernelObj Model.Public Model.Concrete Spec.BijectorSpec
  Spec.KernelSpec Spec.GPSpec Spec.DictSpec Spec.StateSpec Spec.RandomSpec Spec.OptimSpec Spec.LifecycleSpec Spec.KernelObjSpec Spec.PublicSpec Spec.ConcreteSpec
  Proofs.LinAlgFacts Proofs.TreeFacts Proofs.StateFacts Proofs.SaveLoad Proofs.StateExamples Proofs.OptimExamples Proofs.KernelObjFacts Proofs.KernelObjSafe Proofs.KernelObjRun Proofs.LifecycleFacts
  Proofs.LifecyclePropLemmas Proofs.DispatchFacts Proofs.ConcreteFacts Proofs.ConcreteSparse Proofs.ConcreteExamples.
Import ListNotations.
Open Scope string_scope.
Open Scope R_scope.

Definition cj : array := Arr [2; 1; 1]%nat F64 [Some 1; Some 2].
Definition c_locs : param := Param (Arr [1; 1]%nat F64 [Some 0]) (Meta false Identity (PriorObj [1; 1]%nat F64 (NormalPrior 0 1))).
Definition c_jac_locs : param := Param (Arr [1; 1; 1]%nat F64 [Some 1]) (Meta false Identity (PriorObj [1; 1; 1]%nat F64 (NormalPrior 0 1))).
Definition c_sg_params : ptree :=
  Node [("jacobian_locs", Leaf (Some c_jac_locs)); ("kernel_params", Node [("lengthscale", Leaf (Some (scalar_param true 1))); ("variance", Leaf (Some (scalar_param false 1)))]);
        ("sigma", Leaf (Some (scalar_param true 1))); ("x_locs", Leaf (Some c_locs))].
Definition c_sg : state :=
  State (OCall 1) (OCall 2) c_sg_params [("loss_fn", OCall 7); ("is_fitted", OBool false); ("is_fitted_derivs", OBool false); ("c", ONone); ("mu", ONone)].
Definition c_nl (w : state) : list op := [FitNlopt cx cy w (ex_args None false)].

Section Nlopt.
  Context (lossfn : obj -> option (sig * (data -> dict obj -> state -> result (num * array)))) (sample : key -> prior_obj -> array) (key_precond : obj)
    (interned : string -> bool) (N : numerics).
  Lemma nlopt_history : forall C extra fields x y w s lf l vs f, k_fit C TTargets = Some (Sig ["state"; "x"; "y"] ["iterative"], fit_fun (n_fit N TTargets) extra fields) ->
    NoDup (map fst (data_fields (Targets x y)) ++ fields ++ flag_names) ->
    (forall k, In k (map fst (data_fields (Targets x y)) ++ fields ++ flag_names) -> ~ reserved k) -> state_ok s ->
    get "loss_fn" (s_register s) = Some lf -> lossfn lf = Some l -> mapM (attr s) extra = Ok vs ->
    n_fit N TTargets (s_params s) (s_kernel s) (s_mean s) vs (Targets x y) (Options false ONone) = Ok f ->
    exists es u fs, Lifecycle.run lossfn sample key_precond interned C [FitNlopt x y w (ex_args None false)] (s, fun _ => None) = (es, (u, fs)) /\
    s_params u = s_params s /\ Forall (fun e => snd (fst e) = Ok tt) es /\ v_fresh (observe es) = true /\
    v_mode (observe es) = Fitted (Trained (s_params s) (Targets x y) (Options false ONone)).
  Proof.
    intros C extra fields x y w s lf l vs f HK ND NR S HL HF EV E.
    destruct (fit_runs_extra (n_fit N TTargets) extra fields vs (Targets x y) (Options false ONone) s f S ND NR EV E) as [u [HU PU]].
    assert (B : base_fit_nlopt lossfn sample C x y w (ex_args None false) s = (Ok tt, u)).
    { unfold base_fit_nlopt.
      assert (MIN : minimisation lossfn sample (ex_args None false) (nlopt_optimize w) (Targets x y) (nlopt_loss_kwargs (ex_args None false)) s = Ok (s, false)).
      { unfold minimisation, attr. rewrite HL. cbn [bind]. rewrite HF. reflexivity. }
      rewrite MIN. unfold finish. cbn [a_options ex_args o_iterative]. rewrite HK. cbn [call_attr].
      match goal with |- context [call ?g ?n ?k ?b] => change (call g n k b) with b end. rewrite HU. reflexivity. }
    unfold Lifecycle.run, step. cbn [fst snd]. rewrite B. cbv zeta. cbn [fst snd]. do 3 eexists. split; [reflexivity|]. split; [exact PU|]. split; [repeat constructor|].
    split; [reflexivity|]. rewrite <- PU. reflexivity.
  Qed.
End Nlopt.

Lemma cj_shaped : shaped [2; 1; 1]%nat cj /\ shaped [1; 1]%nat (p_value c_locs) /\ shaped [1; 1; 1]%nat (p_value c_jac_locs).
Proof. split; [|split]; repeat split; intros x H; cbn in H; intuition (subst; discriminate). Qed.
Lemma cx_plain : plain cx /\ plain cy.
Proof. split; intro H; discriminate H. Qed.
Lemma safe_one : forall t path, lookup path t = Some (Some (scalar_param true 1)) -> safe_at positive path t.
Proof. intros t path H. exists (scalar_param true 1), 1. split; [exact H|]. split; [reflexivity|]. split; [reflexivity|]. split; [unfold positive; lra|]. intros _ y Hy. exact Hy. Qed.
Lemma c_sg_model : model_ok cpython_interned (OAtom CSE None) c_sg.
Proof.
  assert (P : ptree_ok c_sg_params). { split; simpl; repeat split; nodup. }
  split.
  { split; auto. split; [simpl; repeat split; repeat constructor|]. split; [nodup|]. split; [|split; exact I]. repeat constructor; simpl; tauto. }
  split; [cbn; repeat split; intros; exact I|]. split; [cbn; repeat split; intros; left; reflexivity|]. split.
  { split; [simpl; repeat split; discriminate|]. split; [|do 2 eexists; split; reflexivity]. simpl. repeat split; try discriminate; try (intros; discriminate); nodup. }
  split; [split; [eapply safe_one; reflexivity|intros p []]|]. split; [discriminate|]. eapply safe_one; reflexivity.
Qed.
Lemma c_nl_calls : forall s, state_ok s -> calls_ok ex_sampler s (c_nl s).
Proof.
  intros s S. split; [exact ex_sampler_ok|]. split; [exact ex_sampler_full|]. split.
  - constructor; [|constructor]. cbn [call_ok]. split; [discriminate|]. split; [apply cx_plain|]. split; [apply cx_plain|]. split; [exact S|reflexivity].
  - constructor; [|constructor]. cbn [optimiser_ok c_nl]. split; [|intros strat x E; discriminate E]. split; [reflexivity|].
    intro path. destruct (lookup path (s_params s)) as [[p|]|]; auto.
Qed.
Lemma c_hyper : forall t, lookup ["kernel_params"; "lengthscale"] t = Some (Some (scalar_param true 1)) -> lookup ["sigma"] t = Some (Some (scalar_param true 1)) -> sub ["kernel_params"] t <> None ->
  hyper c_kernels t (OCall 1) = Some (KAtom None (ASE 1), 1).
Proof.
  intros t H1 H2 H3. apply (hyper_ok c_kernels t (OCall 1) (OAtom CSE None) (KAtom None (ASE 1)) 1 eq_refl).
  - split; [reflexivity|]. eexists. split; [exact H1|]. split; reflexivity.
  - intros p [].
  - exact H3.
  - eexists. split; [exact H2|]. split; reflexivity.
Qed.
Lemma c_holds : forall s, lookup ["kernel_params"; "lengthscale"] (s_params s) = Some (Some (scalar_param true 1)) -> lookup ["sigma"] (s_params s) = Some (Some (scalar_param true 1)) ->
  holds (OAtom CSE None) s (KAtom None (ASE 1)) 1.
Proof. intros s H1 H2. split; [split; [reflexivity|]|]; eexists; (split; [eassumption|]); split; reflexivity. Qed.
Lemma c_dgram : wf 1 (KAtom None (ASE 1)) /\ dgram_ok (KAtom None (ASE 1)) /\ no_m52 (KAtom None (ASE 1)).
Proof. repeat split; cbn; auto; lra. Qed.

(** SGPR: fitted to targets through NLopt; the resulting state can be fitted to derivatives *)
Lemma c_sg_case : let N := sgpr_numerics ref_la c_kernels c_means ex_num in
  plain_numerics ex_num /\ c_kernels (OCall 1) = Some (OAtom CSE None) /\ c_means (OCall 2) = Some zero_mean /\
  model_ok cpython_interned (OAtom CSE None) c_sg /\ calls_ok ex_sampler c_sg (c_nl c_sg) /\
  sgpr_init (OCall 1) (OCall 2) c_locs (Some c_jac_locs) (ex_kp 1) (scalar_param true 1) (OCall 7) = Ok c_sg /\
  shaped [2; 1]%nat cx /\ shaped [2; 1]%nat cy /\ shaped [2; 1; 1]%nat cj /\ exists es s fs k sg xl jl,
  Lifecycle.run ex_lossfn ex_sampler ONone cpython_interned (SGPR N) (c_nl c_sg) (c_sg, fun _ => None) = (es, (s, fs)) /\
  Forall (fun e => snd (fst e) = Ok tt) es /\ v_fresh (observe es) = true /\
  v_mode (observe es) = Fitted (Trained (s_params c_sg) (Targets cx cy) (Options false ONone)) /\
  holds (OAtom CSE None) s k sg /\ wf 1 k /\ dgram_ok k /\ no_m52 k /\
  lookup ["x_locs"] (s_params s) = Some (Some xl) /\ lookup ["jacobian_locs"] (s_params s) = Some (Some jl) /\
  shaped [1; 1]%nat (p_value xl) /\ shaped [1; 1; 1]%nat (p_value jl).
Proof.
  intro N. destruct c_shaped as [SX SY], cj_shaped as [SJ [SL SJL]]. pose proof c_sg_model as MO.
  split; [exact ex_plain|]. split; [reflexivity|]. split; [reflexivity|]. split; [exact MO|]. split; [apply c_nl_calls, MO|]. split; [reflexivity|].
  split; [exact SX|]. split; [exact SY|]. split; [exact SJ|].
  assert (HF : exists f, n_fit N TTargets (s_params c_sg) (OCall 1) (OCall 2) [] (Targets cx cy) (Options false ONone) = Ok f).
  { unfold N. cbn [sgpr_numerics n_fit]. unfold c_sgpr_fit. cbv zeta. rewrite (mat_of_shaped _ _ _ SX), (mat_of_shaped _ _ _ SY).
    rewrite (c_hyper (s_params c_sg)) by (reflexivity || discriminate). change (param_array (s_params c_sg) "x_locs") with (Some (p_value c_locs)).
    cbn [option_map]. rewrite (mat_of_shaped _ _ _ SL). cbn [c_means Nat.eqb andb]. eexists. reflexivity. }
  destruct HF as [f HF].
  assert (CL := sgpr_class N).
  assert (EL : exists l, ex_lossfn (OCall 7) = Some l) by (eexists; reflexivity). destruct EL as [lf EL].
  destruct (nlopt_history ex_lossfn ex_sampler ONone cpython_interned N (SGPR N) [] (sgpr_fields TTargets) cx cy c_sg c_sg (OCall 7) lf [] f eq_refl (co_nodup _ _ _ _ _ _ CL (Targets cx cy))) as [es [u [fs [R1 [R2 [R3 [R4 R5]]]]]]].
  { intros z Hz. apply (co_names _ _ _ _ _ _ CL (Targets cx cy)) in Hz. apply (co_aux _ _ _ _ _ _ CL) in Hz. apply Hz. }
  { apply MO. }
  { reflexivity. }
  { exact EL. }
  { reflexivity. }
  { exact HF. }
  destruct c_dgram as [W [D N5]].
  exists es, u, fs, (KAtom None (ASE 1)), 1, c_locs, c_jac_locs. split; [exact R1|]. split; [exact R3|]. split; [exact R4|]. split; [exact R5|].
  rewrite R2. split; [apply c_holds; rewrite R2; reflexivity|]. split; [exact W|]. split; [exact D|]. split; [exact N5|].
  split; [reflexivity|]. split; [reflexivity|]. split; [exact SL|exact SJL].
Qed.

(** SGPR_RPChol with one inducing point *)
Definition c_rp : state :=
  State (OCall 1) (OCall 2) (ex_params 1 1 1)
    [("loss_fn", OCall 7); ("is_fitted", OBool false); ("is_fitted_derivs", OBool false); ("c", ONone); ("mu", ONone); ("n_locs", OArr (int0 1)); ("key", OArr ex_x1)].
Lemma c_rp_case : forall keyed, let N := rp_numerics ref_la c_kernels c_means ex_num keyed in
  plain_numerics ex_num /\ model_ok cpython_interned (OAtom CSE None) c_rp /\ calls_ok ex_sampler c_rp (c_nl c_rp) /\
  rpchol_init (OCall 1) (OCall 2) (OInt (Z.of_nat 1)) (Some (OArr ex_x1)) (ex_kp 1) (scalar_param true 1) (OCall 7) = Ok c_rp /\ plain ex_x1 /\ exists es s fs k sg,
  Lifecycle.run ex_lossfn ex_sampler ONone cpython_interned (SGPR_RPChol N) (c_nl c_rp) (c_rp, fun _ => None) = (es, (s, fs)) /\
  Forall (fun e => snd (fst e) = Ok tt) es /\ v_fresh (observe es) = true /\
  v_mode (observe es) = Fitted (Trained (s_params c_rp) (Targets cx cy) (Options false ONone)) /\
  holds (OAtom CSE None) s k sg /\ wf 1 k /\ dgram_ok k /\ no_m52 k.
Proof.
  intros keyed N. destruct c_shaped as [SX SY].
  assert (MO : model_ok cpython_interned (OAtom CSE None) c_rp).
  { destruct (ex_params_ok 1 1 1) as [H1 H2]. split.
    { split; auto. split; auto. split; [nodup|]. split; [|split; exact I]. repeat constructor; simpl; tauto. }
    split; [cbn; repeat split; intros; exact I|]. split; [cbn; repeat split; intros; left; reflexivity|]. split; [apply ex_savable|].
    split; [split; [eapply safe_one; reflexivity|intros p []]|]. split; [discriminate|]. eapply safe_one; reflexivity. }
  split; [exact ex_plain|]. split; [exact MO|]. split; [apply c_nl_calls, MO|]. split; [reflexivity|]. split; [apply ex_x1_plain|].
  assert (HF : exists f, n_fit N TTargets (s_params c_rp) (OCall 1) (OCall 2) [OArr ex_x1; OArr (int0 1)] (Targets cx cy) (Options false ONone) = Ok f).
  { unfold N. cbn [rp_numerics n_fit]. unfold c_rp_fit. cbv zeta. rewrite (mat_of_shaped _ _ _ SX), (mat_of_shaped _ _ _ SY).
    rewrite (c_hyper (s_params c_rp)) by (reflexivity || discriminate).
    assert (EN : scalar_of (int0 1) = Some (INR 1)) by reflexivity. rewrite EN.
    assert (E1 : nat_of (INR 1) = Some 1%nat).
    { unfold nat_of. rewrite Int_part_INR, Nat2Z.id. destruct (Req_EM_T (INR 1) (INR 1)); congruence. }
    cbn [c_means option_map]. rewrite E1. cbn [Nat.leb Nat.eqb andb]. eexists. reflexivity. }
  destruct HF as [f HF].
  assert (CL := rp_class N).
  assert (EL : exists l, ex_lossfn (OCall 7) = Some l) by (eexists; reflexivity). destruct EL as [lf EL].
  destruct (nlopt_history ex_lossfn ex_sampler ONone cpython_interned N (SGPR_RPChol N) (rp_extra TTargets) (rp_fields TTargets) cx cy c_rp c_rp (OCall 7) lf [OArr ex_x1; OArr (int0 1)] f eq_refl (co_nodup _ _ _ _ _ _ CL (Targets cx cy))) as [es [u [fs [R1 [R2 [R3 [R4 R5]]]]]]].
  { intros z Hz. apply (co_names _ _ _ _ _ _ CL (Targets cx cy)) in Hz. apply (co_aux _ _ _ _ _ _ CL) in Hz. apply Hz. }
  { apply MO. }
  { reflexivity. }
  { exact EL. }
  { reflexivity. }
  { exact HF. }
  destruct c_dgram as [W [D N5]].
  exists es, u, fs, (KAtom None (ASE 1)), 1. split; [exact R1|]. split; [exact R3|]. split; [exact R4|]. split; [exact R5|].
  split; [apply c_holds; rewrite R2; reflexivity|]. split; [exact W|]. split; [exact D|exact N5].
Qed.
