(** Training, for the three classes. *)
From Coq Require Import String List Bool Arith Reals ZArith Lia Lra.
From Verif Require Import Base.Sums Base.Mat Model.Arrays Model.Kernels Model.LinAlg Model.RPCholesky Model.Priors Model.GPR Model.SGPR Model.SGPRMore
  Model.PyDict Model.Bijectors Model.Params Model.State Model.Optim Model.Calls Model.Lifecycle Model.KernelObj Model.Public Model.Concrete Model.Training
  Spec.BijectorSpec Spec.KernelSpec Spec.GPSpec Spec.SparseSpec Spec.MVN Spec.PriorSpec Spec.StateSpec Spec.RandomSpec Spec.OptimSpec Spec.SearchSpec Spec.LifecycleSpec
  Spec.KernelObjSpec Spec.ConcreteSpec Spec.TrainingSpec
  Proofs.DictFacts Proofs.TreeFacts Proofs.StateFacts Proofs.SaveLoad Proofs.OptimFacts Proofs.OptimRun Proofs.KernelObjRun Proofs.LifecycleFacts Proofs.LifecyclePropLemmas
  Proofs.LifecycleParams Proofs.DispatchFacts Proofs.StatePropLemmas Proofs.LinAlgFacts Proofs.ConcreteFacts Proofs.ConcretePropLemmas Proofs.ConcreteSparse
  Proofs.TrainingRun Proofs.TrainingFacts.
Import ListNotations.
Open Scope string_scope.
Open Scope R_scope.

Lemma trained_mono : forall a (P Q : state -> R -> Prop) f k b, (forall u v, P u v -> Q u v) -> trained a P f k b -> trained a Q f k b.
Proof.
  intros a P Q f k b H [states [vs [L [F0 [F R]]]]]. exists states, vs. split; [exact L|]. split; [exact F0|]. split; [|exact R].
  clear -F H. induction F; constructor; auto.
Qed.
Lemma trained_single : forall a P f k b, trained (no_restarts a) P f k b -> k = f.
Proof.
  intros a P f k b [states [vs [L [[u0 [E0 P0]] [F [j [u [E [PU _]]]]]]]]]. destruct states as [|s1 [|? ?]]; try discriminate. cbn in E0. injection E0 as <-.
  destruct j as [|[|j]]; cbn in E; try discriminate. injection E as <-. congruence.
Qed.
Lemma total_mono : forall gammaln l (P Q : state -> R -> Prop) u v, (forall u v, P u v -> Q u v) -> total_score gammaln l P u v -> total_score gammaln l Q u v.
Proof.
  intros g l P Q u v H. unfold total_score. destruct (with_prior l); [|apply H]. intros [a [b [X [Y Z]]]]. exists a, b. auto.
Qed.
Lemma acc3 : forall g kw, (3 <= List.length (names_of g))%nat -> (forall k, In k kw -> In k (skipn 3 (names_of g))) -> (forall k, In k (skipn 3 (required g)) -> In k kw) -> accepts g 3 kw = true.
Proof.
  intros g kw L H1 H2. unfold accepts. rewrite (proj2 (Nat.leb_le 3 _) L). cbn [andb]. apply andb_true_iff. split; apply forallb_forall; intros k Hk; apply mem_name_in; auto.
Qed.

(** keyword arguments *)
Definition kw_ok (fam : family) (kw : dict obj) : Prop :=
  wants_dense kw = true /\ forall k, In k (map fst kw) -> In k loss_names \/ (fam = Dense /\ (k = "n_pivots" \/ k = "key_precond")).
Lemma fit_kw_ok : forall kp a strat, trains a strat -> kw_ok Dense (fit_loss_kwargs kp a).
Proof.
  intros kp a strat [_ [_ [_ [DI HK]]]]. split.
  - unfold wants_dense, fit_loss_kwargs. rewrite !get_set_other by discriminate. rewrite get_set_same, DI. reflexivity.
  - intros k Hk. unfold fit_loss_kwargs in Hk. rewrite !in_set_keys in Hk. unfold loss_names. cbn. destruct Hk as [-> |[-> |[-> |H]]]; auto. apply HK in H. auto.
Qed.
Lemma nlopt_kw_ok : forall fam a strat, trains a strat -> kw_ok fam (nlopt_loss_kwargs a).
Proof.
  intros fam a strat [_ [_ [_ [DI HK]]]]. split.
  - unfold wants_dense, nlopt_loss_kwargs. rewrite get_set_same, DI. reflexivity.
  - intros k Hk. unfold nlopt_loss_kwargs in Hk. rewrite in_set_keys in Hk. destruct Hk as [-> |H]; [cbn; auto|]. apply HK in H. auto.
Qed.
Lemma loss_accepts : forall fam t l kw, loss_for t l -> kw_ok fam kw -> exists g, loss_sig fam l = Some g /\
  accepts g 3 (map fst kw ++ more_names t)%list = true /\ accepts g 0 (["state"; "x"; "y"] ++ map fst kw ++ more_names t)%list = true.
Proof.
  intros fam t l kw HL [_ HK].
  destruct fam, t, l; try contradiction; eexists; (split; [reflexivity|]); (split; [apply acc3; [cbn; lia| |]|apply accepts_iff; split]);
    intros k Hk; rewrite ?in_app_iff in *; unfold names_of, loss_names in *; cbn [required optional skipn app more_names In] in *;
    try (specialize (HK k)); cbn [In] in *; try tauto;
    repeat match goal with H : _ \/ _ |- _ => destruct H as [H|H] end; subst; try tauto;
    try (destruct (HK ltac:(assumption)) as [HK'|[HK' [-> | ->]]]; try discriminate; tauto).
Qed.

Lemma fit_keeps_rest : forall N C extra fields names consts t, class_ok N C extra fields names consts -> forall d o u vs f, task_of d = t -> state_ok u ->
  mapM (attr u) (extra t) = Ok vs -> n_fit N t (s_params u) (s_kernel u) (s_mean u) vs d o = Ok f ->
  exists u', fit_fun (n_fit N t) (extra t) (fields t) d o u = Ok u' /\ s_params u' = s_params u /\ s_kernel u' = s_kernel u /\ s_mean u' = s_mean u /\
    forall k, In k consts -> get k (s_register u') = get k (s_register u).
Proof.
  intros N C extra fields names consts t CL d o u vs f <- S EV H. unfold fit_fun. rewrite EV. cbn [bind]. rewrite H. cbn [bind]. cbv zeta.
  match goal with |- exists u', fst (state_update u ?D) = _ /\ _ => set (DD := D);
    assert (KD : map fst DD = (map fst (data_fields d) ++ fields (task_of d) ++ flag_names)%list) by (unfold DD; rewrite !map_app, fields_keys; reflexivity) end.
  assert (ND : NoDup (map fst DD)) by (rewrite KD; apply (co_nodup _ _ _ _ _ _ CL)).
  eexists. split; [apply update_attrs; [exact S|exact ND|]|].
  - intros k Hk. rewrite KD in Hk. apply (co_names _ _ _ _ _ _ CL) in Hk. apply (co_aux _ _ _ _ _ _ CL) in Hk. apply Hk.
  - cbn [s_params s_kernel s_mean s_register]. split; [reflexivity|]. split; [reflexivity|]. split; [reflexivity|]. intros k Hk.
    rewrite get_updated by auto. rewrite (proj2 (get_none k DD)); [reflexivity|]. rewrite KD. intro X. exact (co_consts _ _ _ _ _ _ CL d k X Hk).
Qed.

Section Fam.
  Context (gammaln : R -> R) (rest : data -> dict obj -> state -> result num) (fam : family) (lml : data -> dict obj -> state -> result num)
    (named : obj -> option library_loss) (grad : library_loss -> data -> dict obj -> state -> array)
    (own : obj -> option (sig * (data -> dict obj -> state -> result (num * array)))).
  Let lossfn := library gammaln rest fam lml named grad own.
  Context (N : numerics) (C : gp_class) (extra fields : task -> list string) (names consts : list string) (CL : class_ok N C extra fields names consts).
  Context (s0 : state) (R0 : ready s0) (FT : startable (s_params s0)) (sample : key -> prior_obj -> array) (SA : sampler_ok sample) (SF : sampler_full sample).
  Context (s : state) (Js : J s0 s) (l : nat) (lib : library_loss) (d : data).
  Context (HA : attr s "loss_fn" = Ok (OCall l)) (HN : named (OCall l) = Some lib) (HL : loss_for (task_of d) lib)
    (NUM : with_prior lib = true -> all_numbers (s_params s0)).
  Context (score : state -> R -> Prop) (HS : forall u, inv s0 s u -> exists v, value_at u consts lml d v /\ score u v)
    (HP : forall u u' v, s_params u' = s_params u -> score u v -> score u' v).
  Let strong u v := (value_at u consts lml d v /\ score u v) /\ alike s u.
  Lemma loss_value : forall kw u, wants_dense kw = true -> inv s0 s u ->
    exists v g, bind (c_loss gammaln rest lml lib d kw u) (fun v => Ok (v, grad lib d kw u)) = Ok (Some (- v), g) /\ total_score gammaln lib strong u v.
  Proof.
    intros kw u HW Iu. destruct (HS u Iu) as [v [E1 E2]]. assert (ST : strong u v) by exact (conj (conj E1 E2) (proj2 Iu)). pose proof (E1 kw u HW eq_refl eq_refl eq_refl (fun _ _ => eq_refl)) as E.
    assert (NV : with_prior lib = true -> exists w, c_log_prior gammaln u = Ok (Some w) /\ prior_score gammaln u w).
    { intro WP. apply prior_value; [apply Iu|]. eapply J_numbers; [exact R0|apply Iu|auto]. }
    unfold total_score. destruct lib; cbn [with_prior c_loss] in *; try (destruct (task_of d); contradiction).
    1,2: rewrite E; cbn [bind neg_num]; do 2 eexists; split; [reflexivity|exact ST].
    all: destruct (NV eq_refl) as [w [W1 W2]]; rewrite E; cbn [bind]; rewrite W1; cbn [bind]; do 2 eexists; split; [reflexivity|]; exists v, w; split; [exact ST|split; [exact W2|reflexivity]].
  Qed.
  Lemma total_same : forall u u' v, s_params u' = s_params u -> total_score gammaln lib score u v -> total_score gammaln lib score u' v.
  Proof.
    intros u u' v E. unfold total_score. destruct (with_prior lib); [|now apply HP]. intros [a [b [X [Y Z]]]]. exists a, b. split; [eapply HP; eauto|]. split; [|exact Z].
    unfold prior_score in *. now rewrite E.
  Qed.
  (** what the optimiser sees *)
  Lemma fam_objective : forall kw, kw_ok fam kw -> exists f, lossfn (OCall l) = Some f /\
    forall x, like_start (ravel_backward (s_params s)) x -> exists p v g, unravel_forward (s_params s) x = Ok p /\
      objective (s_params s) s (loss_positional f d kw) x = Ok (State (s_kernel s) (s_mean s) p (s_register s), (Some (- v), g)) /\
      total_score gammaln lib score (State (s_kernel s) (s_mean s) p (s_register s)) v.
  Proof.
    intros kw KO. destruct (loss_accepts fam (task_of d) lib kw HL KO) as [g [EG [A3 A0]]]. eexists. split; [unfold lossfn, library; rewrite HN, EG; reflexivity|].
    intros x LX. destruct (objective_value s0 FT sample SA SF s Js (g, fun d kw s => bind (c_loss gammaln rest lml lib d kw s) (fun v => Ok (v, grad lib d kw s))) d kw
      (total_score gammaln lib strong) A3 (fun u => loss_value kw u (proj1 KO)) x LX) as [p [v [g' [E1 [E2 E3]]]]].
    exists p, v, g'. split; [exact E1|]. split; [exact E2|]. eapply total_mono; [|exact E3]. intros ? ? X. apply X.
  Qed.
  Section Fit.
    Context (o : options) (HFit : forall u, inv s0 s u -> exists vs f, mapM (attr u) (extra (task_of d)) = Ok vs /\ n_fit N (task_of d) (s_params u) (s_kernel u) (s_mean u) vs d o = Ok f).
    Lemma finished : forall a u, inv s0 s u ->
      exists s', finish a s (Ok (u, true)) (fun u => fit_fun (n_fit N (task_of d)) (extra (task_of d)) (fields (task_of d)) d o u) = (Ok tt, s') /\ s_params s' = s_params u /\
        s_kernel s' = s_kernel s /\ s_mean s' = s_mean s /\ forall k, In k consts -> get k (s_register s') = get k (s_register s).
    Proof.
      intros a u Iu. destruct (HFit u Iu) as [vs [f [EV EF]]].
      destruct (fit_keeps_rest N C extra fields names consts (task_of d) CL d o u vs f eq_refl (proj1 (proj1 (proj1 Iu))) EV EF) as [s' [H1 [H2 [H3 [H4 H5]]]]].
      exists s'. unfold finish. rewrite H1, andb_false_r. split; [reflexivity|]. split; [exact H2|].
      destruct Iu as [_ [_ [A2 [A3 [A4 _]]]]]. rewrite A4 in H5. split; [congruence|]. split; [congruence|exact H5].
    Qed.
    Lemma finished_score : forall u s' v, s_params s' = s_params u -> s_kernel s' = s_kernel s -> s_mean s' = s_mean s -> (forall k, In k consts -> get k (s_register s') = get k (s_register s)) ->
      total_score gammaln lib strong u v ->
      total_score gammaln lib score s' v /\ (with_prior lib = false -> base_lml (lml_sig fam (task_of d)) lml s' d false false = Ok (Some v)).
    Proof.
      intros u s' v H2 H3 H4 H5 ST. split.
      - apply (total_same u); [exact H2|]. eapply total_mono; [|exact ST]. intros ? ? X. apply X.
      - intro WP. unfold total_score in ST. rewrite WP in ST. destruct ST as [[ST _] [_ [A2 [A3 [A4 _]]]]]. unfold base_lml.
        assert (AC : accepts (lml_sig fam (task_of d)) 1 (data_names (task_of d) ++ lik_names)%list = true) by (destruct fam, (task_of d); reflexivity).
        unfold call. rewrite AC. rewrite (ST [("iterative", OBool false)] s' eq_refl H2); [reflexivity|congruence|congruence|]. intros k Hk. rewrite A4. auto.
    Qed.
    Context (kw : dict obj) (KO : kw_ok fam kw).
    Lemma fam_trained : forall minimise, (forall loss v st, inv s0 s v -> minimise loss st v = scipy_minimize loss st v) ->
      exists first, forall a strat, trains a strat -> exists u best, minimisation lossfn sample a minimise d kw s = Ok (u, true) /\ inv s0 s u /\
        trained a (total_score gammaln lib strong) (s_params (first strat)) (s_params u) best /\ total_score gammaln lib strong u best.
    Proof.
      intros minimise HE. destruct (loss_accepts fam (task_of d) lib kw HL KO) as [g [EG [A3 A0]]].
      set (f := (g, fun d kw s => bind (c_loss gammaln rest lml lib d kw s) (fun v => Ok (v, grad lib d kw s)))).
      assert (HF : lossfn (OCall l) = Some f) by (unfold lossfn, library; rewrite HN, EG; reflexivity).
      exists (fun strat => match fst (scipy_minimize (loss_positional f d kw) strat s) with Ok u => u | Err _ => s end). intros a strat HT.
      destruct (minimised s0 FT sample SA SF s Js lossfn (OCall l) f HA HF d kw (total_score gammaln lib strong) A3 A0 (fun u => loss_value kw u (proj1 KO)) a strat HT minimise
        (fun v Iv => HE _ v strat Iv)) as [u [first [best [E1 [E2 [E3 [E4 E5]]]]]]].
      exists u, best. rewrite E3. split; [exact E1|]. split; [exact E2|]. split; [exact E4|exact E5].
    Qed.
    Lemma fam_training : forall minimise a strat, (forall loss v st, inv s0 s v -> minimise loss st v = scipy_minimize loss st v) -> trains a strat ->
      let run a := finish a s (minimisation lossfn sample a minimise d kw s) (fun u => fit_fun (n_fit N (task_of d)) (extra (task_of d)) (fields (task_of d)) d o u) in
      exists s' s1 best v1, run a = (Ok tt, s') /\ run (no_restarts a) = (Ok tt, s1) /\
        trained a (total_score gammaln lib score) (s_params s1) (s_params s') best /\
        total_score gammaln lib score s' best /\ total_score gammaln lib score s1 v1 /\ v1 <= best /\
        (with_prior lib = false -> base_lml (lml_sig fam (task_of d)) lml s' d false false = Ok (Some best) /\ base_lml (lml_sig fam (task_of d)) lml s1 d false false = Ok (Some v1)).
    Proof.
      intros minimise a strat HE HT run. destruct (fam_trained minimise HE) as [first HM].
      destruct (HM a strat HT) as [u [best [E1 [E2 [E3 E4]]]]].
      assert (HT1 : trains (no_restarts a) strat) by (destruct HT as [T1 [T2 [T3 [T4 T5]]]]; repeat split; auto).
      destruct (HM (no_restarts a) strat HT1) as [u1 [best1 [F1 [F2 [F3 F4]]]]].
      destruct (finished a u E2) as [s' [X1 [X2 [X3 [X4 X5]]]]]. destruct (finished (no_restarts a) u1 F2) as [s1 [Y1 [Y2 [Y3 [Y4 Y5]]]]].
      pose proof (trained_single _ _ _ _ _ F3) as P1. pose proof E3 as TR. destruct TR as [states [vs [L [[u0 [N0 P0]] [FA [jj [ub [_ [_ [_ MX]]]]]]]]]].
      destruct (Forall2_nth _ _ _ _ _ FA N0) as [v1 [N1 SV]].
      destruct (finished_score u s' best X2 X3 X4 X5 E4) as [Z1 Z2].
      destruct (finished_score u0 s1 v1 ltac:(congruence) Y3 Y4 Y5 SV) as [W1 W2].
      exists s', s1, best, v1. unfold run. rewrite E1, F1. split; [exact X1|]. split; [exact Y1|]. split; [|split; [exact Z1|split; [exact W1|split; [|auto]]]].
      - rewrite X2, Y2, P1. eapply trained_mono; [|exact E3]. intros ? ? X. eapply total_mono; [|exact X]. intros ? ? Y. apply Y.
      - apply MX. eapply nth_error_In. exact N1.
    Qed.
  End Fit.
End Fam.

(** the inducing points of SGPR keep their shape and stay numbers *)
Lemma J_shaped : forall s0 u path xl0 sh, ready s0 -> J s0 u -> lookup path (s_params s0) = Some (Some xl0) -> shaped sh (p_value xl0) ->
  exists xl, lookup path (s_params u) = Some (Some xl) /\ shaped sh (p_value xl).
Proof.
  intros s0 u path xl0 sh [S0 _] [RU [E|[O [F L]]]] A H; [exists xl0; now rewrite E|]. destruct RU as [SU _]. destruct O as [_ O]. specialize (O path). rewrite A in O.
  destruct O as [v [O1 O2]]. exists (Param v (p_meta xl0)). split; [exact O1|]. cbn [p_value]. destruct (m_trainable (p_meta xl0)) eqn:Tr.
  - pose proof (every_lookup' _ _ _ _ (proj2 (proj1 SU)) O1) as [X1 X2]. pose proof (every_lookup' _ _ _ _ (proj2 (proj1 S0)) A) as [Y1 Y2]. cbn [p_value p_meta] in X1, X2.
    destruct H as [H1 [H2 [H3 H4]]]. assert (SV : a_shape v = sh) by congruence.
    pose proof (on_trainable_lookup _ _ _ _ F O1 Tr) as FL. cbn [p_value] in FL.
    pose proof (on_trainable_lookup _ _ _ _ L O1 Tr) as LL. cbn [p_value p_meta] in LL. unfold legal in LL. rewrite Forall_forall in LL.
    split; [exact SV|]. split; [congruence|]. split; [congruence|]. intros z Hz. destruct (LL z Hz) as [w [-> _]]. discriminate.
  - rewrite (O2 eq_refl). exact H.
Qed.

(** scores depend on the parameters only *)
Lemma gpr_score_params : forall ko nf m mf x y u u' v, s_params u' = s_params u -> gpr_score ko nf m mf x y u v -> gpr_score ko nf m mf x y u' v.
Proof. intros until v. intros E H. unfold gpr_score, holds in *. now rewrite E. Qed.
Lemma gpr_score_derivs_params : forall ko nf nv m x y j u u' v, s_params u' = s_params u -> gpr_score_derivs ko nf nv m x y j u v -> gpr_score_derivs ko nf nv m x y j u' v.
Proof. intros until v. intros E H. unfold gpr_score_derivs, holds in *. now rewrite E. Qed.
Lemma sgpr_score_params : forall ko nf nl m mf x y u u' v, s_params u' = s_params u -> sgpr_score ko nf nl m mf x y u v -> sgpr_score ko nf nl m mf x y u' v.
Proof. intros until v. intros E H. unfold sgpr_score, sparse_score, holds in *. now rewrite E. Qed.
Lemma rp_score_params : forall ko keyed nf nl m mf x y u u' v, s_params u' = s_params u -> rp_score ko keyed nf nl m mf x y u v -> rp_score ko keyed nf nl m mf x y u' v.
Proof. intros until v. intros E H. unfold rp_score, holds in *. now rewrite E. Qed.
(** a value of the likelihood function is what the method returns *)
Lemma lml_method : forall fam consts lml u d v neg, value_at u consts lml d v ->
  base_lml (lml_sig fam (task_of d)) lml u d false neg = Ok (Some (if neg : bool then - v else v)).
Proof.
  intros fam consts lml u d v neg H. unfold base_lml.
  assert (AC : accepts (lml_sig fam (task_of d)) 1 (data_names (task_of d) ++ lik_names)%list = true) by (destruct fam, (task_of d); reflexivity).
  unfold call. rewrite AC, (H [("iterative", OBool false)] u eq_refl eq_refl eq_refl eq_refl (fun _ _ => eq_refl)). cbn [bind]. destruct neg; reflexivity.
Qed.

Section Classes.
  Context (la : linalg) (ok : linalg_ok la) (choose : nat -> Vec -> nat) (kernels : obj -> option kobj) (means : obj -> option (nat -> nat -> Mat -> R))
    (rest : numerics) (keyed : obj -> nat -> Vec -> nat) (PR : plain_numerics rest).
  Context (gammaln : R -> R) (restl : data -> dict obj -> state -> result num) (named : obj -> option library_loss) (grad : library_loss -> data -> dict obj -> state -> array)
    (own : obj -> option (sig * (data -> dict obj -> state -> result (num * array)))).
  Context (sample : key -> prior_obj -> array) (key_precond : obj)
    (interned : string -> bool) (kernel mean : obj) (ko : kobj) (s0 : state) (os : list op) (es : list (op * result unit * state)) (s : state) (fs : files).
  Context (EK : kernels kernel = Some ko) (MO : model_ok interned ko s0) (CO : calls_ok sample s0 os).
  Context (mf : nat -> nat -> Mat -> R) (x y j : array) (m nf nv nl : nat).
  Section Dense.
    Context (kp : ptree) (sigma : param) (l : nat) (HI : gpr_init kernel mean kp sigma (OCall l) = Ok s0).
    Let lml := c_gpr_lml la kernels means restl.
    Let N := gpr_numerics la choose kernels means rest.
    Section Lossfn.
      Context (lossfn : obj -> option (sig * (data -> dict obj -> state -> result (num * array)))).
      Context (HR : Lifecycle.run lossfn sample key_precond interned (GPR N) os (s0, fun _ => None) = (es, (s, fs))).
      Lemma gpr_end : J s0 s /\ s_kernel s = kernel /\ s_mean s = mean /\ attr s "loss_fn" = Ok (OCall l).
      Proof.
        split; [exact (g_J la choose kernels means rest PR lossfn sample key_precond interned kernel mean ko s0 os es s fs MO CO kp sigma l HI HR)|].
        destruct MO as [S [B [F0 [SV _]]]], CO as [SA [SF [O0 P]]]. destruct (gpr_start _ _ _ _ _ _ HI S) as [K0 [M0 [SO KN]]].
        pose proof (c_gpr_plain la choose kernels means rest PR) as PN. fold N in PN.
        destruct (history_good N (GPR N) s0 (fun _ => []) gpr_fields gpr_names ["loss_fn"] lossfn sample key_precond interned (gpr_class N) PN SA (float_metas _ F0) (proj1 (proj2 S)) SV os es s fs SO (KN N) O0 HR) as [G1 _].
        destruct G1 as [_ [G2 [G3 [_ [_ G6]]]]]. split; [congruence|]. split; [congruence|]. unfold attr. rewrite G6 by (cbn; tauto).
        apply mk_inv in HI. destruct HI as [_ [_ ->]]. reflexivity.
      Qed.
      Lemma gpr_scores : means mean = Some mf -> shaped [m; nf] x -> shaped [m; 1%nat] y -> (0 < m)%nat ->
        exists v, gpr_score ko nf m mf x y s v /\ forall neg, base_lml (lml_sig Dense TTargets) lml s (Targets x y) false neg = Ok (Some (if neg : bool then - v else v)).
      Proof.
        intros EM SX SY Hm. destruct gpr_end as [Js [Ks [Ms _]]].
        destruct (gpr_lml_value la ok kernels means restl interned kernel mean ko s0 EK MO s Js Ks Ms mf x y m nf EM SX SY Hm) as [v [V1 V2]].
        exists v. split; [exact V2|]. intro neg. exact (lml_method Dense _ _ s (Targets x y) v neg V1).
      Qed.
      Lemma gpr_scores_derivs : (forall t k, reads ["kernel_params"] ko t k -> wf nf k /\ dgram_ok k) -> shaped [m; nf] x -> shaped [m; nv] y -> shaped [m; nf; nv] j -> (0 < m * nv)%nat ->
        exists v, gpr_score_derivs ko nf nv m x y j s v /\ forall neg, base_lml (lml_sig Dense TDerivs) lml s (Derivs x y j) false neg = Ok (Some (if neg : bool then - v else v)).
      Proof.
        intros HK SX SY SJ Hm. destruct gpr_end as [Js [Ks [Ms _]]].
        destruct (gpr_lml_derivs_value la ok kernels means restl interned kernel ko s0 EK MO s Js Ks x y j m nf nv HK SX SY SJ Hm) as [v [V1 V2]].
        exists v. split; [exact V2|]. intro neg. exact (lml_method Dense _ _ s (Derivs x y j) v neg V1).
      Qed.
    End Lossfn.
    Let lossfn := library gammaln restl Dense lml named grad own.
    Context (HR : Lifecycle.run lossfn sample key_precond interned (GPR N) os (s0, fun _ => None) = (es, (s, fs))).
    Context (lib : library_loss) (HN : named (OCall l) = Some lib) (FT : startable (s_params s0)) (NUM : with_prior lib = true -> all_numbers (s_params s0)).
    Lemma gpr_no_pivots : forall o n, o_iterative o = false -> exists np, pivots n o = Some np.
    Proof. intros o n E. unfold pivots. rewrite E. eauto. Qed.
    Section Targets.
      Context (HL : loss_for TTargets lib) (EM : means mean = Some mf) (SX : shaped [m; nf] x) (SY : shaped [m; 1%nat] y) (Hm : (0 < m)%nat).
      Let score := gpr_score ko nf m mf x y.
      Lemma gpr_values : forall u, inv s0 s u -> exists v, value_at u ["loss_fn"] lml (Targets x y) v /\ score u v.
      Proof.
        intros u [Ju [_ [Ku [Mu _]]]]. destruct (gpr_end lossfn HR) as [_ [Ks [Ms _]]].
        apply (gpr_lml_value la ok kernels means restl interned kernel mean ko s0 EK MO u Ju); auto; congruence.
      Qed.
      Lemma gpr_fits : forall o, o_iterative o = false -> forall u, inv s0 s u -> exists vs f, mapM (attr u) [] = Ok vs /\ n_fit N TTargets (s_params u) (s_kernel u) (s_mean u) vs (Targets x y) o = Ok f.
      Proof.
        intros o E u [Ju [_ [Ku [Mu _]]]]. destruct (gpr_end lossfn HR) as [_ [Ks [Ms _]]]. exists [].
        destruct (u_hyper kernels interned kernel ko s0 EK MO u Ju) as [k [sg [_ [HY _]]]]. destruct (gpr_no_pivots o m E) as [np Ep].
        cbn [N gpr_numerics n_fit]. unfold c_gpr_fit. cbv zeta.
        replace (s_kernel u) with kernel by congruence. replace (s_mean u) with mean by congruence.
        rewrite HY, EM, (mat_of_shaped _ _ _ SX), (mat_of_shaped _ _ _ SY), Ep, Nat.eqb_refl. eexists. split; reflexivity.
      Qed.
      Lemma gpr_objective : forall a strat, trains a strat -> exists f, lossfn (OCall l) = Some f /\
        forall z, like_start (ravel_backward (s_params s)) z -> exists p v g, unravel_forward (s_params s) z = Ok p /\
          objective (s_params s) s (loss_positional f (Targets x y) (fit_loss_kwargs key_precond a)) z = Ok (State (s_kernel s) (s_mean s) p (s_register s), (Some (- v), g)) /\
          total_score gammaln lib score (State (s_kernel s) (s_mean s) p (s_register s)) v.
      Proof.
        intros a strat HT. destruct (gpr_end lossfn HR) as [Js [_ [_ HA]]]. destruct CO as [SA [SF _]].
        exact (fam_objective gammaln restl Dense lml named grad own ["loss_fn"] s0 (start_ready interned ko s0 MO) FT sample SA SF s Js l lib (Targets x y) HN HL NUM score gpr_values _ (fit_kw_ok key_precond a strat HT)).
      Qed.
      Lemma gpr_training : forall a strat, trains a strat -> exists s' s1 best v1,
        base_fit lossfn sample key_precond (GPR N) (Targets x y) a s = (Ok tt, s') /\ base_fit lossfn sample key_precond (GPR N) (Targets x y) (no_restarts a) s = (Ok tt, s1) /\
        trained a (total_score gammaln lib score) (s_params s1) (s_params s') best /\
        total_score gammaln lib score s' best /\ total_score gammaln lib score s1 v1 /\ v1 <= best /\
        (with_prior lib = false -> base_lml (lml_sig Dense TTargets) lml s' (Targets x y) false false = Ok (Some best) /\ base_lml (lml_sig Dense TTargets) lml s1 (Targets x y) false false = Ok (Some v1)).
      Proof.
        intros a strat HT. destruct (gpr_end lossfn HR) as [Js [_ [_ HA]]]. destruct CO as [SA [SF _]].
        exact (fam_training gammaln restl Dense lml named grad own N (GPR N) (fun _ => []) gpr_fields gpr_names ["loss_fn"] (gpr_class N) s0 (start_ready interned ko s0 MO) FT sample SA SF s Js l lib
          (Targets x y) HA HN HL NUM score gpr_values (gpr_score_params ko nf m mf x y) (a_options a) (gpr_fits (a_options a) (proj1 (proj2 (proj2 (proj2 HT))))) _ (fit_kw_ok key_precond a strat HT)
          scipy_minimize a strat (fun _ _ _ _ => eq_refl) HT).
      Qed.
      Lemma gpr_nlopt : forall w a strat, state_ok w -> same_frozen (s_params w) (s_params s0) -> trains a strat -> exists s' s1 best v1,
        base_fit_nlopt lossfn sample (GPR N) x y w a s = (Ok tt, s') /\ base_fit_nlopt lossfn sample (GPR N) x y w (no_restarts a) s = (Ok tt, s1) /\
        trained a (total_score gammaln lib score) (s_params s1) (s_params s') best /\
        total_score gammaln lib score s' best /\ total_score gammaln lib score s1 v1 /\ v1 <= best /\
        (with_prior lib = false -> base_lml (lml_sig Dense TTargets) lml s' (Targets x y) false false = Ok (Some best) /\ base_lml (lml_sig Dense TTargets) lml s1 (Targets x y) false false = Ok (Some v1)).
      Proof.
        intros w a strat W SFr HT. destruct (gpr_end lossfn HR) as [Js [_ [_ HA]]]. destruct CO as [SA [SF _]].
        refine (fam_training gammaln restl Dense lml named grad own N (GPR N) (fun _ => []) gpr_fields gpr_names ["loss_fn"] (gpr_class N) s0 (start_ready interned ko s0 MO) FT sample SA SF s Js l lib
          (Targets x y) HA HN HL NUM score gpr_values (gpr_score_params ko nf m mf x y) (Options (o_iterative (a_options a)) ONone)
          (gpr_fits (Options (o_iterative (a_options a)) ONone) (proj1 (proj2 (proj2 (proj2 HT))))) _ (nlopt_kw_ok Dense a strat HT) (nlopt_optimize w) a strat _ HT).
        intros loss v st Iv. apply nlopt_scipy; [exact W|apply Iv|]. eapply J_same_frozen; [exact SFr|apply Iv].
      Qed.
    End Targets.
    Section Derivs.
      Context (HL : loss_for TDerivs lib) (HK : forall t k, reads ["kernel_params"] ko t k -> wf nf k /\ dgram_ok k)
        (SX : shaped [m; nf] x) (SY : shaped [m; nv] y) (SJ : shaped [m; nf; nv] j) (Hm : (0 < m * nv)%nat).
      Let score := gpr_score_derivs ko nf nv m x y j.
      Lemma gpr_values_derivs : forall u, inv s0 s u -> exists v, value_at u ["loss_fn"] lml (Derivs x y j) v /\ score u v.
      Proof.
        intros u [Ju [_ [Ku [Mu _]]]]. destruct (gpr_end lossfn HR) as [_ [Ks [Ms _]]].
        apply (gpr_lml_derivs_value la ok kernels means restl interned kernel ko s0 EK MO u Ju); auto; congruence.
      Qed.
      Lemma gpr_fits_derivs : forall o, o_iterative o = false -> forall u, inv s0 s u ->
        exists vs f, mapM (attr u) [] = Ok vs /\ n_fit N TDerivs (s_params u) (s_kernel u) (s_mean u) vs (Derivs x y j) o = Ok f.
      Proof.
        intros o E u [Ju [_ [Ku [Mu _]]]]. destruct (gpr_end lossfn HR) as [_ [Ks [Ms _]]]. exists [].
        destruct (u_hyper kernels interned kernel ko s0 EK MO u Ju) as [k [sg [_ [HY _]]]]. destruct (gpr_no_pivots o (m * nv) E) as [np Ep].
        cbn [N gpr_numerics n_fit]. unfold c_gpr_fit. cbv zeta.
        replace (s_kernel u) with kernel by congruence.
        rewrite HY, (mat_of_shaped _ _ _ SX), (mat_of_shaped _ _ _ SY), (ten_of_shaped _ _ _ _ SJ), Ep, !Nat.eqb_refl. eexists. split; reflexivity.
      Qed.
      Lemma gpr_training_derivs : forall a strat, trains a strat -> exists s' s1 best v1,
        base_fit lossfn sample key_precond (GPR N) (Derivs x y j) a s = (Ok tt, s') /\ base_fit lossfn sample key_precond (GPR N) (Derivs x y j) (no_restarts a) s = (Ok tt, s1) /\
        trained a (total_score gammaln lib score) (s_params s1) (s_params s') best /\
        total_score gammaln lib score s' best /\ total_score gammaln lib score s1 v1 /\ v1 <= best /\
        (with_prior lib = false -> base_lml (lml_sig Dense TDerivs) lml s' (Derivs x y j) false false = Ok (Some best) /\ base_lml (lml_sig Dense TDerivs) lml s1 (Derivs x y j) false false = Ok (Some v1)).
      Proof.
        intros a strat HT. destruct (gpr_end lossfn HR) as [Js [_ [_ HA]]]. destruct CO as [SA [SF _]].
        exact (fam_training gammaln restl Dense lml named grad own N (GPR N) (fun _ => []) gpr_fields gpr_names ["loss_fn"] (gpr_class N) s0 (start_ready interned ko s0 MO) FT sample SA SF s Js l lib
          (Derivs x y j) HA HN HL NUM score gpr_values_derivs (gpr_score_derivs_params ko nf nv m x y j) (a_options a) (gpr_fits_derivs (a_options a) (proj1 (proj2 (proj2 (proj2 HT))))) _ (fit_kw_ok key_precond a strat HT)
          scipy_minimize a strat (fun _ _ _ _ => eq_refl) HT).
      Qed.
    End Derivs.
  End Dense.

  Section Sparse.
    Context (x_locs : param) (jacobian_locs : option param) (kp : ptree) (sigma : param) (l : nat) (HI : sgpr_init kernel mean x_locs jacobian_locs kp sigma (OCall l) = Ok s0).
    Let lml := c_sgpr_lml la kernels means restl.
    Let N := sgpr_numerics la kernels means rest.
    Context (xl0 : param) (LX : lookup ["x_locs"] (s_params s0) = Some (Some xl0)) (SL : shaped [nl; nf] (p_value xl0)).
    Context (EM : means mean = Some mf) (SX : shaped [m; nf] x) (SY : shaped [m; 1%nat] y) (Hm : (0 < m)%nat).
    Let score := sgpr_score ko nf nl m mf x y.
    Section Lossfn.
      Context (lossfn : obj -> option (sig * (data -> dict obj -> state -> result (num * array)))).
      Context (HR : Lifecycle.run lossfn sample key_precond interned (SGPR N) os (s0, fun _ => None) = (es, (s, fs))).
      Lemma sgpr_end : J s0 s /\ s_kernel s = kernel /\ s_mean s = mean /\ attr s "loss_fn" = Ok (OCall l).
      Proof.
        split; [exact (sg_J la kernels means rest PR lossfn sample key_precond interned kernel mean ko s0 os es s fs MO CO x_locs jacobian_locs kp sigma l HI HR)|].
        destruct MO as [S [B [F0 [SV _]]]], CO as [SA [SF [O0 P]]]. destruct (sgpr_start _ _ _ _ _ _ _ _ HI S) as [K0 [M0 [SO KN]]].
        pose proof (c_sgpr_plain la kernels means rest PR) as PN. fold N in PN.
        destruct (history_good N (SGPR N) s0 (fun _ => []) sgpr_fields sgpr_names ["loss_fn"] lossfn sample key_precond interned (sgpr_class N) PN SA (float_metas _ F0) (proj1 (proj2 S)) SV os es s fs SO (KN N) O0 HR) as [G1 _].
        destruct G1 as [_ [G2 [G3 [_ [_ G6]]]]]. split; [congruence|]. split; [congruence|]. unfold attr. rewrite G6 by (cbn; tauto).
        apply mk_inv in HI. destruct HI as [_ [_ ->]]. reflexivity.
      Qed.
      Lemma sgpr_values : forall u, inv s0 s u -> exists v, value_at u ["loss_fn"] lml (Targets x y) v /\ score u v.
      Proof.
        intros u [Ju [_ [Ku [Mu _]]]]. destruct sgpr_end as [_ [Ks [Ms _]]].
        destruct (J_shaped s0 u _ _ _ (start_ready interned ko s0 MO) Ju LX SL) as [xl [L1 L2]].
        apply (sgpr_lml_value la ok kernels means restl interned kernel mean ko s0 EK MO u Ju) with (xl := xl); auto; congruence.
      Qed.
      Lemma sgpr_scores :
        exists v, score s v /\ forall neg, base_lml (lml_sig Sparse TTargets) lml s (Targets x y) false neg = Ok (Some (if neg : bool then - v else v)).
      Proof.
        destruct sgpr_end as [Js _]. destruct (sgpr_values s (inv_start s0 s Js)) as [v [V1 V2]].
        exists v. split; [exact V2|]. intro neg. exact (lml_method Sparse _ _ s (Targets x y) v neg V1).
      Qed.
    End Lossfn.
    Let lossfn := library gammaln restl Sparse lml named grad own.
    Context (HR : Lifecycle.run lossfn sample key_precond interned (SGPR N) os (s0, fun _ => None) = (es, (s, fs))).
    Context (lib : library_loss) (HN : named (OCall l) = Some lib) (FT : startable (s_params s0)) (NUM : with_prior lib = true -> all_numbers (s_params s0)) (HL : loss_for TTargets lib).
    Lemma sgpr_fits : forall o u, inv s0 s u ->
      exists vs f, mapM (attr u) [] = Ok vs /\ n_fit N TTargets (s_params u) (s_kernel u) (s_mean u) vs (Targets x y) o = Ok f.
    Proof.
      intros o u [Ju [_ [Ku [Mu _]]]]. destruct (sgpr_end lossfn HR) as [_ [Ks [Ms _]]]. exists [].
      destruct (u_hyper kernels interned kernel ko s0 EK MO u Ju) as [k [sg [_ [HY _]]]]. 
      destruct (J_shaped s0 u _ _ _ (start_ready interned ko s0 MO) Ju LX SL) as [xl [L1 L2]].
      cbn [N sgpr_numerics n_fit]. unfold c_sgpr_fit. cbv zeta.
      replace (s_kernel u) with kernel by congruence. replace (s_mean u) with mean by congruence.
      rewrite HY, EM, (mat_of_shaped _ _ _ SX), (mat_of_shaped _ _ _ SY), (param_array_of _ _ _ L1). cbn [option_map].
      rewrite (mat_of_shaped _ _ _ L2), !Nat.eqb_refl. eexists. split; reflexivity.
    Qed.
    Lemma sgpr_training : forall w a strat, state_ok w -> same_frozen (s_params w) (s_params s0) -> trains a strat -> exists s' s1 best v1,
      base_fit_nlopt lossfn sample (SGPR N) x y w a s = (Ok tt, s') /\ base_fit_nlopt lossfn sample (SGPR N) x y w (no_restarts a) s = (Ok tt, s1) /\
      trained a (total_score gammaln lib score) (s_params s1) (s_params s') best /\
      total_score gammaln lib score s' best /\ total_score gammaln lib score s1 v1 /\ v1 <= best /\
      (with_prior lib = false -> base_lml (lml_sig Sparse TTargets) lml s' (Targets x y) false false = Ok (Some best) /\ base_lml (lml_sig Sparse TTargets) lml s1 (Targets x y) false false = Ok (Some v1)).
    Proof.
      intros w a strat W SFr HT. destruct (sgpr_end lossfn HR) as [Js [_ [_ HA]]]. destruct CO as [SA [SF _]].
      refine (fam_training gammaln restl Sparse lml named grad own N (SGPR N) (fun _ => []) sgpr_fields sgpr_names ["loss_fn"] (sgpr_class N) s0 (start_ready interned ko s0 MO) FT sample SA SF s Js l lib
        (Targets x y) HA HN HL NUM score (sgpr_values lossfn HR) (sgpr_score_params ko nf nl m mf x y) (Options (o_iterative (a_options a)) ONone)
        (sgpr_fits (Options (o_iterative (a_options a)) ONone)) _ (nlopt_kw_ok Sparse a strat HT) (nlopt_optimize w) a strat _ HT).
      intros loss v st Iv. apply nlopt_scipy; [exact W|apply Iv|]. eapply J_same_frozen; [exact SFr|apply Iv].
    Qed.
  End Sparse.

  Section Pivoted.
    Context (key : array) (kp : ptree) (sigma : param) (l : nat)
      (HI : rpchol_init kernel mean (OInt (Z.of_nat nl)) (Some (OArr key)) kp sigma (OCall l) = Ok s0) (PK : plain key).
    Let lml := c_rp_lml la kernels means keyed restl.
    Let N := rp_numerics la kernels means rest keyed.
    Context (EM : means mean = Some mf) (SX : shaped [m; nf] x) (SY : shaped [m; 1%nat] y) (Hm : (0 < m)%nat) (Hn : (nl <= m)%nat).
    Let score := rp_score ko (keyed (OArr key)) nf nl m mf x y.
    Let consts := ["loss_fn"; "n_locs"; "key"].
    Section Lossfn.
      Context (lossfn : obj -> option (sig * (data -> dict obj -> state -> result (num * array)))).
      Context (HR : Lifecycle.run lossfn sample key_precond interned (SGPR_RPChol N) os (s0, fun _ => None) = (es, (s, fs))).
      Lemma rp_end : J s0 s /\ s_kernel s = kernel /\ s_mean s = mean /\ attr s "loss_fn" = Ok (OCall l) /\
        get "key" (s_register s) = Some (OArr key) /\ get "n_locs" (s_register s) = Some (OArr (int0 (Z.of_nat nl))).
      Proof.
        split; [exact (r_J la kernels means rest keyed PR lossfn sample key_precond interned kernel mean ko s0 os es s fs MO CO nl key kp sigma l HI PK HR)|].
        destruct MO as [S [B [F0 [SV _]]]], CO as [SA [SF [O0 P]]]. destruct (rp_start _ _ _ _ _ _ _ _ HI PK S) as [K0 [M0 [SO [KN EX]]]].
        pose proof (c_rp_plain la kernels means rest keyed PR) as PN. fold N in PN.
        destruct (history_good N (SGPR_RPChol N) s0 rp_extra rp_fields rp_names consts lossfn sample key_precond interned (rp_class N) PN SA (float_metas _ F0) (proj1 (proj2 S)) SV os es s fs SO (KN N) O0 HR) as [G1 _].
        destruct G1 as [_ [G2 [G3 [_ [_ G6]]]]]. split; [congruence|]. split; [congruence|]. unfold attr. rewrite !G6 by (cbn; tauto).
        cbn [mapM] in EX. unfold attr in EX.
        destruct (get "key" (s_register s0)) as [ok1|]; [|discriminate]. destruct (get "n_locs" (s_register s0)) as [ok2|]; [|discriminate].
        cbn [bind] in EX. injection EX as -> ->. split; [|split; reflexivity].
        apply mk_inv in HI. destruct HI as [_ [_ ->]]. reflexivity.
      Qed.
      Lemma int0_scalar : scalar_of (int0 (Z.of_nat nl)) = Some (INR nl).
      Proof. cbn. now rewrite <- INR_IZR_INZ. Qed.
      Lemma rp_values : forall u, inv s0 s u -> exists v, value_at u consts lml (Targets x y) v /\ score u v.
      Proof.
        intros u [Ju [_ [Ku [Mu [Ru _]]]]]. destruct rp_end as [_ [Ks [Ms [_ [Kk Kn]]]]].
        apply (rp_lml_value la ok kernels means keyed restl interned kernel mean ko s0 EK MO u Ju) with (a := int0 (Z.of_nat nl)); auto; try congruence. apply int0_scalar.
      Qed.
      Lemma rp_scores :
        exists v, score s v /\ forall neg, base_lml (lml_sig Sparse TTargets) lml s (Targets x y) false neg = Ok (Some (if neg : bool then - v else v)).
      Proof.
        destruct rp_end as [Js _]. destruct (rp_values s (inv_start s0 s Js)) as [v [V1 V2]].
        exists v. split; [exact V2|]. intro neg. exact (lml_method Sparse _ _ s (Targets x y) v neg V1).
      Qed.
    End Lossfn.
    Let lossfn := library gammaln restl Sparse lml named grad own.
    Context (HR : Lifecycle.run lossfn sample key_precond interned (SGPR_RPChol N) os (s0, fun _ => None) = (es, (s, fs))).
    Context (lib : library_loss) (HN : named (OCall l) = Some lib) (FT : startable (s_params s0)) (NUM : with_prior lib = true -> all_numbers (s_params s0)) (HL : loss_for TTargets lib).
    Lemma rp_fits : forall o u, inv s0 s u ->
      exists vs f, mapM (attr u) (rp_extra TTargets) = Ok vs /\ n_fit N TTargets (s_params u) (s_kernel u) (s_mean u) vs (Targets x y) o = Ok f.
    Proof.
      intros o u [Ju [_ [Ku [Mu [Ru _]]]]]. destruct (rp_end lossfn HR) as [_ [Ks [Ms [_ [Kk Kn]]]]]. exists [OArr key; OArr (int0 (Z.of_nat nl))].
      destruct (u_hyper kernels interned kernel ko s0 EK MO u Ju) as [k [sg [_ [HY _]]]].
      cbn [N rp_numerics n_fit]. unfold c_rp_fit. cbv zeta.
      replace (s_kernel u) with kernel by congruence. replace (s_mean u) with mean by congruence.
      rewrite HY, EM, (mat_of_shaped _ _ _ SX), (mat_of_shaped _ _ _ SY), int0_scalar. cbn [option_map].
      assert (EN : nat_of (INR nl) = Some nl).
      { unfold nat_of. rewrite Int_part_INR, Nat2Z.id. destruct (Req_EM_T (INR nl) (INR nl)); congruence. }
      rewrite EN, !Nat.eqb_refl, (proj2 (Nat.leb_le nl m)) by auto. eexists. split; [|reflexivity].
      unfold rp_extra. cbn [mapM]. unfold attr. now rewrite Ru, Kk, Kn.
    Qed.
    Lemma rp_training : forall w a strat, state_ok w -> same_frozen (s_params w) (s_params s0) -> trains a strat -> exists s' s1 best v1,
      base_fit_nlopt lossfn sample (SGPR_RPChol N) x y w a s = (Ok tt, s') /\ base_fit_nlopt lossfn sample (SGPR_RPChol N) x y w (no_restarts a) s = (Ok tt, s1) /\
      trained a (total_score gammaln lib score) (s_params s1) (s_params s') best /\
      total_score gammaln lib score s' best /\ total_score gammaln lib score s1 v1 /\ v1 <= best /\
      (with_prior lib = false -> base_lml (lml_sig Sparse TTargets) lml s' (Targets x y) false false = Ok (Some best) /\ base_lml (lml_sig Sparse TTargets) lml s1 (Targets x y) false false = Ok (Some v1)).
    Proof.
      intros w a strat W SFr HT. destruct (rp_end lossfn HR) as [Js [_ [_ [HA _]]]]. destruct CO as [SA [SF _]].
      refine (fam_training gammaln restl Sparse lml named grad own N (SGPR_RPChol N) rp_extra rp_fields rp_names consts (rp_class N) s0 (start_ready interned ko s0 MO) FT sample SA SF s Js l lib
        (Targets x y) HA HN HL NUM score (rp_values lossfn HR) (rp_score_params ko (keyed (OArr key)) nf nl m mf x y) (Options (o_iterative (a_options a)) ONone)
        (rp_fits (Options (o_iterative (a_options a)) ONone)) _ (nlopt_kw_ok Sparse a strat HT) (nlopt_optimize w) a strat _ HT).
      intros loss v st Iv. apply nlopt_scipy; [exact W|apply Iv|]. eapply J_same_frozen; [exact SFr|apply Iv].
    Qed.
  End Pivoted.
End Classes.
