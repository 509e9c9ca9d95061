(** From the construction of a model to the numbers it predicts. *)
From Coq Require Import String List Reals Arith Bool ZArith Lia Lra.
From Verif Require Import Base.Sums Base.Mat Model.Arrays Model.Kernels Model.LinAlg Model.Operations Model.RPCholesky Model.GPR Model.SGPR Model.PyDict Model.Params Model.State
  Model.Optim Model.Calls Model.Lifecycle Model.KernelObj Model.Public Model.Concrete
  Spec.KernelSpec Spec.GPSpec Spec.StateSpec Spec.RandomSpec Spec.OptimSpec Spec.LifecycleSpec Spec.KernelObjSpec Spec.EquivSpec Spec.PublicSpec Spec.ConcreteSpec
  Proofs.KernelObjFacts Proofs.KernelObjSafe Proofs.KernelObjRun Proofs.LifecyclePropLemmas Proofs.DispatchFacts Proofs.LifecycleParams Proofs.ConcreteFacts
  Proofs.LinAlgFacts Proofs.GPRFacts Proofs.GPRPack Proofs.GPREquiv Proofs.PublicFacts Proofs.SGPRIter Proofs.KernelDerivs.
Import ListNotations.
Open Scope string_scope.
Open Scope R_scope.

Lemma answer_ok : forall q r, compatible (q_full q) (q_iterative q) -> answer q r = r.
Proof. intros q r H. unfold answer. unfold compatible in H. now rewrite H. Qed.

Section Start.
  Context (interned : string -> bool) (ko : kobj) (s0 : state) (MO : model_ok interned ko s0).
  Lemma start_ready : ready s0.
  Proof. destruct MO as [A [B [C _]]]. exact (conj A (conj B C)). Qed.
  (** the parameters after a history, and the model made of them *)
  Lemma J_holds : forall s, J s0 s -> exists k sg, holds ko s k sg /\ present ["kernel_params"] ko (s_params s) /\ sub ["kernel_params"] (s_params s) <> None /\
    all_atoms (fun _ a => psd_atom a) k /\ ls_nonzero k /\ 0 < sg.
  Proof.
    intros s Js. destruct MO as [_ [_ [_ [_ [SK [SB SS]]]]]].
    pose proof (J_safe s0 start_ready s ko _ Js SK) as [SP PR]. pose proof (J_safe_at s0 start_ready s _ _ Js SS) as [p [r [A [B [C [D _]]]]]].
    destruct (safe_reads ko _ _ SP) as [k [Rd [HP L]]]. exists k, r. split; [split; [exact Rd|exists p; auto]|].
    split; [exact PR|]. split; [exact (J_sub s0 s _ Js SB)|]. auto.
  Qed.
  Lemma J_hyper : forall kernels kernel s k sg, kernels kernel = Some ko -> J s0 s -> holds ko s k sg -> hyper kernels (s_params s) kernel = Some (k, sg) /\
    all_atoms (fun _ a => psd_atom a) k /\ ls_nonzero k /\ 0 < sg.
  Proof.
    intros kernels kernel s k sg EK Js [Rd Nm]. destruct (J_holds s Js) as [k' [sg' [[Rd' Nm'] [PR [SB [HP [L P]]]]]]].
    rewrite (reads_unique _ _ _ _ _ Rd Rd'), (number_unique _ _ _ _ Nm Nm') in *. split; [|auto].
    eapply hyper_ok; eauto.
  Qed.
End Start.

Section GPR.
  Context (la : linalg) (ok : linalg_ok la) (choose : nat -> Vec -> nat) (kernels : obj -> option kobj) (means : obj -> option (nat -> nat -> Mat -> R))
    (rest : numerics) (PR : plain_numerics rest)
    (lossfn : obj -> option (sig * (data -> dict obj -> state -> result (num * array)))) (sample : key -> prior_obj -> array) (key_precond : obj)
    (interned : string -> bool) (kernel mean : obj) (ko : kobj) (s0 : state) (os : list op) (es : list (op * result unit * state)) (s : state) (fs : files).
  Context (EK : kernels kernel = Some ko) (MO : model_ok interned ko s0) (CO : calls_ok sample s0 os).
  Let N := gpr_numerics la choose kernels means rest.
  Context (kp : ptree) (sigma : param) (l : nat) (HI : gpr_init kernel mean kp sigma (OCall l) = Ok s0).
  Context (HR : Lifecycle.run lossfn sample key_precond interned (GPR N) os (s0, fun _ => None) = (es, (s, fs))).
  Lemma g_J : J s0 s.
  Proof.
    destruct MO as [S [B [F [SV _]]]], CO as [SA [SF [O P]]].
    exact (gpr_J lossfn sample key_precond interned N s0 os es s fs S SA SF B F SV (c_gpr_plain la choose kernels means rest PR) O P _ _ _ _ _ HI HR).
  Qed.
  Lemma g_holds : exists k sg, holds ko s k sg /\ all_atoms (fun _ a => psd_atom a) k /\ ls_nonzero k /\ 0 < sg.
  Proof. destruct (J_holds interned ko s0 MO s g_J) as [k [sg [A [_ [_ B]]]]]. exists k, sg. auto. Qed.
  Lemma g_serves : gpr_serves N kernel mean s (v_mode (observe es)).
  Proof.
    destruct MO as [S [B [F [SV _]]]], CO as [SA [SF [O P]]].
    exact (C15_gpr_lemma lossfn sample key_precond interned N s0 os es s fs kernel mean kp sigma l S SA (float_metas _ F) SV (c_gpr_plain la choose kernels means rest PR) O HI HR).
  Qed.
  Lemma g_fresh : v_fresh (observe es) = true -> forall t, v_mode (observe es) = Fitted t -> t_params t = s_params s.
  Proof.
    destruct MO as [S [B [F [SV _]]]], CO as [SA [SF [O P]]].
    exact (C16_gpr_lemma lossfn sample key_precond interned N s0 os es s fs kernel mean kp sigma l S SA (float_metas _ F) SV (c_gpr_plain la choose kernels means rest PR) O HI HR).
  Qed.
  Lemma gpr_predicts : forall k sg mf p x y o m nf oo, holds ko s k sg -> means mean = Some mf ->
    v_fresh (observe es) = true -> v_mode (observe es) = Fitted (Trained p (Targets x y) o) ->
    shaped [m; nf] x -> shaped [m; oo] y -> pivots_ok m o ->
    forall q n, shaped [n; nf] (q_x q) -> compatible (q_full q) (q_iterative q) ->
    answers (base_predict (GPR N) s q) (q_full q) n oo (gpr la m oo nf k sg mf (entry x) (entry y) (entry (q_x q)))
      n (predict_cov la m nf k sg (entry x) (entry (q_x q))).
  Proof.
    intros k sg mf p x y o m nf oo HH EM FR MD SX SY PO q n SQ Hc. pose proof g_serves as SV. rewrite MD in SV. cbn [gpr_serves task_of] in SV.
    pose proof (g_fresh FR _ MD) as EP. cbn [t_params] in EP. subst p. destruct SV as [f [HF SV]]. destruct (SV q) as [-> _]. rewrite answer_ok by auto.
    destruct (J_hyper interned ko s0 MO kernels kernel s k sg EK g_J HH) as [HY [HP [L Ps]]].
    eapply gpr_numbers; eauto. lra.
  Qed.
  Lemma gpr_formula : forall k sg mf p x y o m nf oo, holds ko s k sg -> means mean = Some mf ->
    v_fresh (observe es) = true -> v_mode (observe es) = Fitted (Trained p (Targets x y) o) ->
    shaped [m; nf] x -> shaped [m; oo] y -> pivots_ok m o ->
    let mu := mf m oo (entry y) in
    exists c : Mat, (forall i j, (i < m)%nat -> (j < oo)%nat ->
      entry y i j - (mu + sum m (fun t => kernel_at nf k (entry x i) (entry x t) * c t j)) = (sg ^ 2 + / 10 ^ 10) * c i j) /\
    forall q n, shaped [n; nf] (q_x q) -> compatible (q_full q) (q_iterative q) ->
    exists a more, base_predict (GPR N) s q = Ok (a :: more) /\ shaped [n; oo] a /\
    forall i j, (i < n)%nat -> (j < oo)%nat -> entry a i j = mu + sum m (fun t => kernel_at nf k (entry (q_x q) i) (entry x t) * c t j).
  Proof.
    intros k sg mf p x y o m nf oo HH EM FR MD SX SY PO mu. destruct (J_hyper interned ko s0 MO kernels kernel s k sg EK g_J HH) as [HY [HP [L Ps]]].
    exists (fst (fit_dense la m oo nf k sg (entry x) (entry y) mf)). split.
    - intros i j Hi Hj. rewrite <- (fit_residual la ok m oo nf k sg (entry x) (entry y) mf HP i j Hi Hj). now rewrite predict_dense_at.
    - intros q n SQ Hc. destruct (gpr_predicts k sg mf p x y o m nf oo HH EM FR MD SX SY PO q n SQ Hc) as [a [more [E1 [E2 [E3 _]]]]].
      exists a, more. split; [exact E1|]. split; [exact E2|]. intros i j Hi Hj. rewrite E3 by auto. unfold gpr. cbv zeta. now rewrite predict_dense_at.
  Qed.
  Lemma gpr_loaded : forall k sg mf p x y o m nf oo, holds ko s k sg -> means mean = Some mf ->
    v_fresh (observe es) = true -> v_mode (observe es) = Fitted (Trained p (Targets x y) o) ->
    shaped [m; nf] x -> shaped [m; oo] y -> pivots_ok m o ->
    forall kp' sigma' s1 os' es' t fs0 f, state_ok s1 -> tree_def (s_params s1) = tree_def (s_params s0) ->
    gpr_init kernel mean kp' sigma' (OCall l) = Ok s1 -> Forall (call_ok (s_params s0)) os' ->
    Lifecycle.run lossfn sample key_precond interned (GPR N) os' (s1, fun _ => None) = (es', (t, fs0)) ->
    exists d fs' u, save s f fs = (Ok d, fs') /\ load interned t (npz_name f) fs' = Ok u /\
    forall q n, shaped [n; nf] (q_x q) -> compatible (q_full q) (q_iterative q) ->
    answers (base_predict (GPR N) u q) (q_full q) n oo (gpr la m oo nf k sg mf (entry x) (entry y) (entry (q_x q)))
      n (predict_cov la m nf k sg (entry x) (entry (q_x q))).
  Proof.
    intros k sg mf p x y o m nf oo HH EM FR MD SX SY PO kp' sigma' s1 os' es' t fs0 f S1 D1 HI1 O1 HR1.
    destruct MO as [S [B [F [SV _]]]], CO as [SA [SF [O P]]].
    destruct (gpr_saved lossfn sample key_precond interned N s0 S SA (float_metas _ F) SV (c_gpr_plain la choose kernels means rest PR) kernel mean kp sigma l kp' sigma' HI
      s1 os es s fs os' es' t fs0 S1 D1 HI1 O O1 HR HR1 f) as [d [fs' [u [X1 [X2 [_ X4]]]]]].
    exists d, fs', u. split; [exact X1|]. split; [exact X2|]. intros q n SQ Hc. destruct (X4 q) as [-> _]. eapply gpr_predicts; eauto.
  Qed.
  Section D.
    Context (k : kexp) (sg : R) (p : ptree) (x y j : array) (o : options) (m nf nv : nat).
    Context (HH : holds ko s k sg) (W : wf nf k) (HD : dgram_ok k) (FR : v_fresh (observe es) = true)
      (MD : v_mode (observe es) = Fitted (Trained p (Derivs x y j) o))
      (SX : shaped [m; nf] x) (SY : shaped [m; nv] y) (SJ : shaped [m; nf; nv] j) (PO : pivots_ok (m * nv) o).
    Lemma gpr_predicts_derivs : forall q n jq nd, shaped [n; nf] (q_x q) -> q_jacobian q = Some jq -> shaped [n; nf; nd] jq ->
      compatible (q_full q) (q_iterative q) -> (default_mode (q_full q) (q_iterative q) -> is_sum k = false /\ no_m52 k) ->
      let D := gpr_derivs la m nf nv k sg (entry x) (entry3 j) (entry y) n nd (entry (q_x q)) (entry3 jq) in
      let V := predict_derivs_cov la m n nf nv nd k sg (entry x) (entry3 j) (entry (q_x q)) (entry3 jq) in
      if q_full q then answers (base_predict_derivs (GPR N) s q) true (n * nd) 1 (fun a _ => D (a / nd)%nat (a mod nd)%nat) (n * nd) V
      else answers (base_predict_derivs (GPR N) s q) false n nd D (n * nd) V.
    Proof.
      intros q n jq nd SQ EJ SJQ Hc Hd D V. pose proof g_serves as SV. rewrite MD in SV. cbn [gpr_serves task_of data_x] in SV.
      pose proof (g_fresh FR _ MD) as EP. cbn [t_params] in EP. subst p. destruct SV as [f [HF SV]]. destruct (SV q) as [_ [_ [-> _]]]. rewrite answer_ok by auto.
      destruct (J_hyper interned ko s0 MO kernels kernel s k sg EK g_J HH) as [HY [HP [L Ps]]].
      pose proof (gpr_derivs_numbers la choose kernels means rest ok (s_params s) kernel mean k sg HY HP ltac:(lra) L HD x y j o m nf nv f q n W SX SY SJ PO HF SQ Hc Hd jq nd EJ SJQ) as A.
      cbv zeta in A. unfold D, V. fold N in A. destruct (q_full q); exact A.
    Qed.
    Lemma gpr_predicts_y : forall q n, shaped [n; nf] (q_x q) ->
      compatible (q_full q) (q_iterative q) -> (default_mode (q_full q) (q_iterative q) -> is_sum k = false /\ no_m52 k) ->
      answers (base_predict_y_derivs (GPR N) s q) (q_full q) n 1 (gpr_y_derivs la m nf nv k sg (entry x) (entry3 j) (entry y) n (entry (q_x q)))
        n (predict_y_derivs_cov la m n nf nv k sg (entry x) (entry3 j) (entry (q_x q))).
    Proof.
      intros q n SQ Hc Hd. pose proof g_serves as SV. rewrite MD in SV. cbn [gpr_serves task_of data_x] in SV.
      pose proof (g_fresh FR _ MD) as EP. cbn [t_params] in EP. subst p. destruct SV as [f [HF SV]]. destruct (SV q) as [_ [_ [_ ->]]]. rewrite answer_ok by auto.
      destruct (J_hyper interned ko s0 MO kernels kernel s k sg EK g_J HH) as [HY [HP [L Ps]]].
      exact (gpr_y_derivs_numbers la choose kernels means rest ok (s_params s) kernel mean k sg HY HP ltac:(lra) L HD x y j o m nf nv f q n W SX SY SJ PO HF SQ Hc Hd).
    Qed.
  End D.
End GPR.
Section SGPR.
  Context (la : linalg) (ok : linalg_ok la) (kernels : obj -> option kobj) (means : obj -> option (nat -> nat -> Mat -> R))
    (rest : numerics) (PR : plain_numerics rest)
    (lossfn : obj -> option (sig * (data -> dict obj -> state -> result (num * array)))) (sample : key -> prior_obj -> array) (key_precond : obj)
    (interned : string -> bool) (kernel mean : obj) (ko : kobj) (s0 : state) (os : list op) (es : list (op * result unit * state)) (s : state) (fs : files).
  Context (EK : kernels kernel = Some ko) (MO : model_ok interned ko s0) (CO : calls_ok sample s0 os).
  Let N := sgpr_numerics la kernels means rest.
  Context (x_locs : param) (jacobian_locs : option param) (kp : ptree) (sigma : param) (l : nat)
    (HI : sgpr_init kernel mean x_locs jacobian_locs kp sigma (OCall l) = Ok s0).
  Context (HR : Lifecycle.run lossfn sample key_precond interned (SGPR N) os (s0, fun _ => None) = (es, (s, fs))).
  Lemma sg_J : J s0 s.
  Proof.
    destruct MO as [S [B [F [SV _]]]], CO as [SA [SF [O P]]].
    exact (sgpr_J lossfn sample key_precond interned N s0 os es s fs S SA SF B F SV (c_sgpr_plain la kernels means rest PR) O P _ _ _ _ _ _ _ HI HR).
  Qed.
  Lemma sg_holds : exists k sg, holds ko s k sg /\ all_atoms (fun _ a => psd_atom a) k /\ ls_nonzero k /\ 0 < sg.
  Proof. destruct (J_holds interned ko s0 MO s sg_J) as [k [sg [A [_ [_ B]]]]]. exists k, sg. auto. Qed.
  Lemma sgpr_predicts : forall k sg mf p x y o m nf oo nl xl, holds ko s k sg -> means mean = Some mf ->
    v_fresh (observe es) = true -> v_mode (observe es) = Fitted (Trained p (Targets x y) o) ->
    shaped [m; nf] x -> shaped [m; oo] y -> lookup ["x_locs"] (s_params s) = Some (Some xl) -> shaped [nl; nf] (p_value xl) ->
    forall q n, shaped [n; nf] (q_x q) -> compatible (q_full q) (q_iterative q) ->
    answers (base_predict (SGPR N) s q) (q_full q) n oo (sgpr la nl m oo nf k sg mf (entry (p_value xl)) (entry x) (entry y) (entry (q_x q)))
      n (sg_predict_cov la nl n nf k sg (entry (p_value xl)) (entry (q_x q))).
  Proof.
    intros k sg mf p x y o m nf oo nl xl HH EM FR MD SX SY LX SL q n SQ Hc.
    destruct MO as [S [B [F [SV _]]]], CO as [SA [SF [O P]]].
    pose proof (C15_sgpr_lemma lossfn sample key_precond interned N s0 os es s fs kernel mean _ _ _ _ _ S SA (float_metas _ F) SV (c_sgpr_plain la kernels means rest PR) O HI HR) as SS.
    rewrite MD in SS. cbn [sgpr_serves task_of] in SS.
    pose proof (C16_sgpr_lemma lossfn sample key_precond interned N s0 os es s fs kernel mean _ _ _ _ _ S SA (float_metas _ F) SV (c_sgpr_plain la kernels means rest PR) O HI HR FR _ MD) as EP.
    cbn [t_params] in EP. subst p. destruct SS as [f [HF SS]]. destruct (SS q xl LX) as [-> _]. rewrite answer_ok by auto.
    destruct (J_hyper interned ko s0 MO kernels kernel s k sg EK sg_J HH) as [HY [HP [L Ps]]].
    eapply sgpr_numbers; eauto.
  Qed.
End SGPR.

Section RP.
  Context (la : linalg) (ok : linalg_ok la) (kernels : obj -> option kobj) (means : obj -> option (nat -> nat -> Mat -> R))
    (rest : numerics) (keyed : obj -> nat -> Vec -> nat) (PR : plain_numerics rest)
    (lossfn : obj -> option (sig * (data -> dict obj -> state -> result (num * array)))) (sample : key -> prior_obj -> array) (key_precond : obj)
    (interned : string -> bool) (kernel mean : obj) (ko : kobj) (s0 : state) (os : list op) (es : list (op * result unit * state)) (s : state) (fs : files).
  Context (EK : kernels kernel = Some ko) (MO : model_ok interned ko s0) (CO : calls_ok sample s0 os).
  Let N := rp_numerics la kernels means rest keyed.
  Context (nl : nat) (key : array) (kp : ptree) (sigma : param) (l : nat)
    (HI : rpchol_init kernel mean (OInt (Z.of_nat nl)) (Some (OArr key)) kp sigma (OCall l) = Ok s0) (PK : plain key).
  Context (HR : Lifecycle.run lossfn sample key_precond interned (SGPR_RPChol N) os (s0, fun _ => None) = (es, (s, fs))).
  Lemma r_J : J s0 s.
  Proof.
    destruct MO as [S [B [F [SV _]]]], CO as [SA [SF [O P]]].
    exact (rp_J lossfn sample key_precond interned N s0 os es s fs S SA SF B F SV (c_rp_plain la kernels means rest keyed PR) O P _ _ _ _ _ _ _ HI PK HR).
  Qed.
  Lemma r_holds : exists k sg, holds ko s k sg /\ all_atoms (fun _ a => psd_atom a) k /\ ls_nonzero k /\ 0 < sg.
  Proof. destruct (J_holds interned ko s0 MO s r_J) as [k [sg [A [_ [_ B]]]]]. exists k, sg. auto. Qed.
  Lemma rp_predicts : forall k sg mf p x y o m nf oo, holds ko s k sg -> means mean = Some mf -> wf nf k ->
    v_fresh (observe es) = true -> v_mode (observe es) = Fitted (Trained p (Targets x y) o) ->
    shaped [m; nf] x -> shaped [m; oo] y -> (nl <= m)%nat ->
    let locs : Mat := fun i => entry x (snd (rpcholesky (keyed (OArr key)) m nf (entry x) nl k) i) in
    exists xl, shaped [nl; nf] xl /\ (forall i j, (i < nl)%nat -> (j < nf)%nat -> entry xl i j = locs i j) /\
    forall q n, shaped [n; nf] (q_x q) -> compatible (q_full q) (q_iterative q) ->
    answers (base_predict (SGPR_RPChol N) s q) (q_full q) n oo (sgpr la nl m oo nf k sg mf locs (entry x) (entry y) (entry (q_x q)))
      n (sg_predict_cov la nl n nf k sg (entry xl) (entry (q_x q))).
  Proof.
    intros k sg mf p x y o m nf oo HH EM W FR MD SX SY Hn locs.
    destruct MO as [S [B [F [SV _]]]], CO as [SA [SF [O P]]].
    pose proof (C15_rp_lemma lossfn sample key_precond interned N s0 os es s fs kernel mean _ _ _ _ _ S SA (float_metas _ F) SV (c_rp_plain la kernels means rest keyed PR) O HI PK HR) as SS.
    rewrite MD in SS. cbn [rpchol_serves task_of] in SS.
    pose proof (C16_rp_lemma lossfn sample key_precond interned N s0 os es s fs kernel mean _ _ _ _ _ S SA (float_metas _ F) SV (c_rp_plain la kernels means rest keyed PR) O HI PK HR FR _ MD) as EP.
    cbn [t_params] in EP. subst p. destruct SS as [f [HF SS]].
    destruct (J_hyper interned ko s0 MO kernels kernel s k sg EK r_J HH) as [HY [HP [L Ps]]].
    assert (EA : scalar_of (int0 (Z.of_nat nl)) = Some (INR nl)) by (cbn; now rewrite <- INR_IZR_INZ).
    pose proof (fun q n => rp_numbers la kernels means rest keyed ok (s_params s) kernel mean k sg HY HP mf x y o m nf oo f q n nl (OArr key) (int0 (Z.of_nat nl)) EM W SX SY EA Hn HF) as A.
    cbv zeta in A. exists (f "x_locs").
    pose proof (A (Query (arr2 0 nf (fun _ _ => 0)) None false false) 0%nat (arr2_shaped 0 nf _) eq_refl) as [A1 [A2 _]].
    split; [exact A1|]. split; [exact A2|]. intros q n SQ Hc. destruct (SS q) as [-> _]. rewrite answer_ok by auto. apply (A q n SQ Hc).
  Qed.
End RP.
