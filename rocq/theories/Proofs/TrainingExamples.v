(** Models and calls that meet the hypotheses of Props/TrainingProps.v. *)
From Coq Require Import String List Reals Arith Bool ZArith Lia Lra.
From Verif Require Import Base.Sums Base.Mat Model.Arrays Model.Kernels Model.LinAlg Model.GPR Model.PyDict Model.Bijectors Model.Priors Model.Params Model.State
  Model.Optim Model.Calls Model.Lifecycle Model.KernelObj Model.Public Model.Concrete Model.Training Spec.BijectorSpec
  Spec.KernelSpec Spec.GPSpec Spec.SparseSpec Spec.MVN Spec.DictSpec Spec.StateSpec Spec.RandomSpec Spec.OptimSpec Spec.LifecycleSpec Spec.KernelObjSpec Spec.PublicSpec Spec.ConcreteSpec Spec.TrainingSpec
  Proofs.LinAlgFacts Proofs.TreeFacts Proofs.StateFacts Proofs.SaveLoad Proofs.StateExamples Proofs.OptimExamples Proofs.KernelObjFacts Proofs.KernelObjSafe Proofs.KernelObjRun Proofs.LifecycleFacts
  Proofs.LifecyclePropLemmas Proofs.DispatchFacts Proofs.ConcreteFacts Proofs.ConcretePropLemmas Proofs.ConcreteSparse Proofs.ConcreteExamples Proofs.ConcreteSparseExamples
  Proofs.TrainingRun Proofs.TrainingFacts Proofs.TrainingPropLemmas Proofs.GPRFacts Proofs.GPRCov.
Import ListNotations.
Open Scope string_scope.
Open Scope R_scope.

(** ** a density has one value *)
Lemma log_density_unique : forall n A r v v', (0 < n)%nat -> pd n A -> log_density n A r v -> log_density n A r v' -> v = v'.
Proof.
  intros n A r v v' Hn HA [b [B1 B2]] [b' [B1' B2']].
  assert (E : veq n b b').
  { intros i Hi. apply (solve_unique n 1 A (fun i _ => b i) (fun i _ => b' i) (pd_nonsing n A HA)) with (j := O); [|exact Hi|lia].
    intros a c Ha _. pose proof (B1 a Ha) as X. pose proof (B1' a Ha) as Y. unfold mv in X, Y. unfold mm. congruence. }
  assert (D : dot n r b = dot n r b') by (unfold dot; apply sum_ext; intros i Hi; now rewrite (E i Hi)).
  unfold mvn_pdf in B2, B2'. rewrite <- D in B2'. apply Rmult_eq_reg_l with (INR n); [congruence|]. now apply not_0_INR, Nat.neq_sym, Nat.lt_neq.
Qed.
Lemma gpr_score_unique : forall interned ko s0 u nf m mf x y v v', model_ok interned ko s0 -> LifecycleParams.J s0 u -> (0 < m)%nat ->
  gpr_score ko nf m mf x y u v -> gpr_score ko nf m mf x y u v' -> v = v'.
Proof.
  intros interned ko s0 u nf m mf x y v v' MO Ju Hm [k [sg [[H1 H2] D]]] [k' [sg' [[H1' H2'] D']]].
  pose proof (reads_unique _ _ _ _ _ H1 H1') as <-. pose proof (number_unique _ _ _ _ H2 H2') as <-.
  destruct (J_holds interned ko s0 MO u Ju) as [k2 [sg2 [[HH _] [_ [_ [HP _]]]]]]. pose proof (reads_unique _ _ _ _ _ H1 HH) as <-.
  eapply log_density_unique; [exact Hm| |exact D|exact D']. rewrite <- cross_kk. now apply A_pd.
Qed.

Ltac one_legal := apply Forall_cons; [eexists; (split; [reflexivity|]); unfold in_range; cbn; try exact I; lra|apply Forall_nil].
Ltac each := repeat (apply Forall_cons; [cbn [snd]|]); try apply Forall_nil.
(** ** default parameters *)
Definition startable_num (t : ptree) : Prop := startable t /\ all_numbers t.
Lemma startable_node : forall l, Forall (fun e => startable_num (snd e)) l -> startable_num (Node l).
Proof.
  intros l H. split; [unfold startable, on_trainable|unfold all_numbers]; apply every_node; (eapply Forall_impl; [|exact H]); intros e [A B]; assumption.
Qed.
Lemma default_startable : forall o t, default_params o = Ok t -> startable_num t.
Proof.
  assert (LF : forall p, (m_trainable (p_meta p) = true -> (List.length (a_data (p_value p)) = size_of (a_shape (p_value p)) /\ legal (m_bijector (p_meta p)) (p_value p) /\
    match m_bijector (p_meta p) with SoftMinMax _ _ => False | _ => True end)) -> a_shape (p_value p) = [] -> (exists r, a_data (p_value p) = [Some r]) -> startable_num (Leaf (Some p))).
  { intros p H1 H2 H3. split; [exact H1|]. split; assumption. }
  induction o as [c ad|o1 IH1 o2 IH2|o1 IH1 o2 IH2]; intros t D.
  - destruct c as [| |ni| | | | |]; cbn [default_params] in D; rewrite ?def_ok in D by reflexivity; cbn [bind] in D; injection D as <-; apply startable_node;
      each; apply LF; try reflexivity; try (eexists; reflexivity); intro Tr; try discriminate Tr; (split; [reflexivity|]; split; [|exact I]); one_legal.
  - cbn [default_params] in D. destruct (default_params o1) as [t1|]; [|discriminate]. destruct (default_params o2) as [t2|]; [|discriminate].
    cbn [bind] in D. injection D as <-. apply startable_node. constructor; [apply IH1; reflexivity|]. constructor; [apply IH2; reflexivity|constructor].
  - cbn [default_params] in D. destruct (default_params o1) as [t1|]; [|discriminate]. destruct (default_params o2) as [t2|]; [|discriminate].
    cbn [bind] in D. injection D as <-. apply startable_node. constructor; [apply IH1; reflexivity|]. constructor; [apply IH2; reflexivity|constructor].
Qed.
Lemma default_trainable : forall interned kernel mean l ko, obj_ok kernel -> obj_ok mean ->
  exists t s sg, default_params ko = Ok t /\ def 1 true Softplus gamma_prior = Ok (Leaf (Some sg)) /\
    gpr_init kernel mean t sg (OCall l) = Ok s /\ model_ok interned ko s /\ startable (s_params s) /\ all_numbers (s_params s).
Proof.
  intros interned kernel mean l ko HK HM. destruct (default_model interned kernel mean l ko HK HM) as [t [s [sg [D [S [GI MO]]]]]].
  exists t, s, sg. split; [exact D|]. split; [exact S|]. split; [exact GI|]. split; [exact MO|].
  pose proof (default_startable ko t D) as ST. rewrite def_ok in S by reflexivity. injection S as <-.
  set (sg := Param (zero_d 1) (Meta true Softplus gamma_prior)) in *.
  assert (SS : startable_num (Leaf (Some sg))).
  { split; [intro Tr; split; [reflexivity|]; split; [|exact I]; one_legal|].
    split; [reflexivity|eexists; reflexivity]. }
  assert (SN : startable_num (Node [("kernel_params", t); ("sigma", Leaf (Some sg))])) by (apply startable_node; each; assumption).
  unfold gpr_init, mk_state in GI. rewrite set_params_ok in GI.
  - cbn [bind] in GI. injection GI as <-. cbn [s_params]. rewrite (default_canon ko t D). exact SN.
  - destruct (default_ok ko) as [lk [D' [P _]]]. rewrite D in D'. injection D' as ->. apply every_node. apply pair_forall; cbn [snd]; [apply P|split; reflexivity].
Qed.

(** ** a GPR whose loss includes the prior, trained with restarts after its parameters were drawn anew *)
Definition t_strat (x0 : array) : strategy (num * array) array := Ask x0 (fun _ => Done x0).
Definition t_args (n : nat) : fit_args := FitArgs (Some t_strat) n (Some (Key 3)) true (Options false (OInt 5)) [("num_evals", OInt 4)].
Definition t_named (lib : library_loss) (o : obj) : option library_loss := match o with OCall 7 => Some lib | _ => None end.
Definition t_ops : list op := [Randomize (Key 0) false; SaveFile "m"; Randomize (Key 1) true].
Lemma t_trains : forall n, trains (t_args n) t_strat.
Proof.
  intro n. split; [reflexivity|]. split.
  - intros x0 H. assert (L : like_start x0 x0) by (split; [exact H|split; reflexivity]). constructor; [exact L|]. intros _. constructor. exact L.
  - split; [left; discriminate|]. split; [reflexivity|]. intros k Hk. cbn in *. tauto.
Qed.
Lemma t_startable : startable (s_params (ex_s0 1)) /\ all_numbers (s_params (ex_s0 1)).
Proof.
  assert (S : forall tr, startable_num (Leaf (Some (scalar_param tr 1)))).
  { intro tr. split; [intro Tr; split; [reflexivity|]; split; [|exact I]; one_legal|].
    split; [reflexivity|eexists; reflexivity]. }
  apply startable_node. each; try apply S. all: apply startable_node; each; apply S.
Qed.
Lemma t_calls : forall s, calls_ok ex_sampler s t_ops.
Proof. intro s. split; [exact ex_sampler_ok|]. split; [exact ex_sampler_full|]. split; repeat constructor. Qed.
Lemma t_reads : forall t k, reads ["kernel_params"] (OAtom CSE None) t k -> wf 1 k /\ dgram_ok k.
Proof. intros t [ad a| |] H; cbn [reads] in H; try contradiction. destruct H as [-> H]. destruct a; cbn [atom_reads] in H; try contradiction. repeat split; cbn; auto. Qed.
Lemma t_case : forall choose lib gammaln restl grad own key_precond, let N := gpr_numerics ref_la choose c_kernels c_means ex_num in
  let lossfn := library gammaln restl Dense (c_gpr_lml ref_la c_kernels c_means restl) (t_named lib) grad own in
  plain_numerics ex_num /\ c_kernels (OCall 1) = Some (OAtom CSE None) /\ c_means (OCall 2) = Some zero_mean /\
  model_ok cpython_interned (OAtom CSE None) (ex_s0 1) /\ calls_ok ex_sampler (ex_s0 1) t_ops /\
  gpr_init (OCall 1) (OCall 2) (ex_kp 1) (scalar_param true 1) (OCall 7) = Ok (ex_s0 1) /\ t_named lib (OCall 7) = Some lib /\
  startable (s_params (ex_s0 1)) /\ all_numbers (s_params (ex_s0 1)) /\
  (forall t k, reads ["kernel_params"] (OAtom CSE None) t k -> wf 1 k /\ dgram_ok k) /\
  shaped [2; 1]%nat cx /\ shaped [2; 1]%nat cy /\ shaped [2; 1; 1]%nat cj /\ (forall n, trains (t_args n) t_strat) /\ exists es s fs,
  Lifecycle.run lossfn ex_sampler key_precond cpython_interned (GPR N) t_ops (ex_s0 1, fun _ => None) = (es, (s, fs)) /\ Forall (fun e => snd (fst e) = Ok tt) es.
Proof.
  intros choose lib gammaln restl grad own key_precond N lossfn. split; [exact ex_plain|]. split; [reflexivity|]. split; [reflexivity|]. split; [exact c_model|]. split; [apply t_calls|].
  split; [apply ex_s0_init|]. split; [reflexivity|]. split; [apply t_startable|]. split; [apply t_startable|]. split; [exact t_reads|]. split; [apply c_shaped|]. split; [apply c_shaped|].
  split; [apply cj_shaped|]. split; [exact t_trains|].
  unfold t_ops, Lifecycle.run, step. cbv zeta. cbn [fst snd].
  assert (E : exists u, base_randomize ex_sampler (GPR N) (Key 0) false (ex_s0 1) = Ok u) by (eexists; reflexivity). destruct E as [u E]. rewrite E.
  cbn in E. injection E as <-. cbn [fst snd]. set (sv := save _ _ _). cbn -[forward_arr ex_sampler] in sv. subst sv. cbn [fst snd].
  match goal with |- context [base_randomize ?a ?b ?c ?d ?e] => assert (E : exists u, base_randomize a b c d e = Ok u) by (eexists; reflexivity); destruct E as [u E]; rewrite E end.
  do 3 eexists. split; [reflexivity|]. repeat constructor.
Qed.
(** sparse models, trained through NLopt *)
Lemma t_self : forall s, state_ok s -> same_frozen (s_params s) (s_params s).
Proof. intros s S. split; [reflexivity|]. intro path. destruct (lookup path (s_params s)) as [[p|]|]; auto. Qed.
Lemma t_sparse : forall lib gammaln restl grad own key_precond, let N := sgpr_numerics ref_la c_kernels c_means ex_num in
  let lossfn := library gammaln restl Sparse (c_sgpr_lml ref_la c_kernels c_means restl) (t_named lib) grad own in
  model_ok cpython_interned (OAtom CSE None) c_sg /\ calls_ok ex_sampler c_sg t_ops /\
  sgpr_init (OCall 1) (OCall 2) c_locs (Some c_jac_locs) (ex_kp 1) (scalar_param true 1) (OCall 7) = Ok c_sg /\
  startable (s_params c_sg) /\ lookup ["x_locs"] (s_params c_sg) = Some (Some c_locs) /\ shaped [1; 1]%nat (p_value c_locs) /\
  state_ok c_sg /\ same_frozen (s_params c_sg) (s_params c_sg) /\ exists es s fs,
  Lifecycle.run lossfn ex_sampler key_precond cpython_interned (SGPR N) t_ops (c_sg, fun _ => None) = (es, (s, fs)) /\ Forall (fun e => snd (fst e) = Ok tt) es.
Proof.
  intros lib gammaln restl grad own key_precond N lossfn. pose proof c_sg_model as MO. split; [exact MO|]. split; [apply t_calls|]. split; [reflexivity|]. split.
  { cbn. repeat split; try (intro Tr; discriminate Tr); try one_legal. }
  split; [reflexivity|]. split; [apply cj_shaped|]. split; [apply MO|]. split; [apply t_self, MO|].
  unfold t_ops, Lifecycle.run, step. cbv zeta. cbn [fst snd].
  assert (E : exists u, base_randomize ex_sampler (SGPR N) (Key 0) false c_sg = Ok u) by (eexists; reflexivity). destruct E as [u E]. rewrite E.
  cbn in E. injection E as <-. cbn [fst snd]. set (sv := save _ _ _). cbn -[forward_arr ex_sampler] in sv. subst sv. cbn [fst snd].
  match goal with |- context [base_randomize ?a ?b ?c ?d ?e] => assert (E : exists u, base_randomize a b c d e = Ok u) by (eexists; reflexivity); destruct E as [u E]; rewrite E end.
  do 3 eexists. split; [reflexivity|]. repeat constructor.
Qed.
Lemma t_pivoted : forall keyed lib gammaln restl grad own key_precond, let N := rp_numerics ref_la c_kernels c_means ex_num keyed in
  let lossfn := library gammaln restl Sparse (c_rp_lml ref_la c_kernels c_means keyed restl) (t_named lib) grad own in
  model_ok cpython_interned (OAtom CSE None) c_rp /\ calls_ok ex_sampler c_rp t_ops /\
  rpchol_init (OCall 1) (OCall 2) (OInt (Z.of_nat 1)) (Some (OArr ex_x1)) (ex_kp 1) (scalar_param true 1) (OCall 7) = Ok c_rp /\ plain ex_x1 /\
  startable (s_params c_rp) /\ all_numbers (s_params c_rp) /\ state_ok c_rp /\ same_frozen (s_params c_rp) (s_params c_rp) /\ exists es s fs,
  Lifecycle.run lossfn ex_sampler key_precond cpython_interned (SGPR_RPChol N) t_ops (c_rp, fun _ => None) = (es, (s, fs)) /\ Forall (fun e => snd (fst e) = Ok tt) es.
Proof.
  intros keyed lib gammaln restl grad own key_precond N lossfn. destruct (c_rp_case keyed) as [_ [MO [_ [HI [PX _]]]]]. split; [exact MO|]. split; [apply t_calls|]. split; [exact HI|].
  split; [exact PX|]. split; [apply t_startable|]. split; [apply t_startable|]. split; [apply MO|]. split; [apply t_self, MO|].
  unfold t_ops, Lifecycle.run, step. cbv zeta. cbn [fst snd].
  assert (E : exists u, base_randomize ex_sampler (SGPR_RPChol N) (Key 0) false c_rp = Ok u) by (eexists; reflexivity). destruct E as [u E]. rewrite E.
  cbn in E. injection E as <-. cbn [fst snd]. set (sv := save _ _ _). cbn -[forward_arr ex_sampler] in sv. subst sv. cbn [fst snd].
  match goal with |- context [base_randomize ?a ?b ?c ?d ?e] => assert (E : exists u, base_randomize a b c d e = Ok u) by (eexists; reflexivity); destruct E as [u E]; rewrite E end.
  do 3 eexists. split; [reflexivity|]. repeat constructor.
Qed.
(** the score of the state at the end of a history *)
Lemma gpr_one_score : forall la choose kernels means rest, plain_numerics rest ->
  forall lossfn sample key_precond interned kernel mean ko s0 os es s fs, model_ok interned ko s0 -> calls_ok sample s0 os ->
  forall kp sigma l, gpr_init kernel mean kp sigma (OCall l) = Ok s0 ->
  Lifecycle.run lossfn sample key_precond interned (GPR (gpr_numerics la choose kernels means rest)) os (s0, fun _ => None) = (es, (s, fs)) ->
  forall nf m mf x y v v', (0 < m)%nat -> gpr_score ko nf m mf x y s v -> gpr_score ko nf m mf x y s v' -> v = v'.
Proof.
  intros until v'. intros Hm. eapply gpr_score_unique; [eassumption| |exact Hm].
  eapply (g_J la choose kernels means rest); eassumption.
Qed.
