(** The parameters along the life of a model: frozen values stay, trainable ones stay in their ranges. *)
From Coq Require Import List String Bool Arith Reals ZArith Lia.
From Verif Require Import Model.PyDict Model.Bijectors Model.Params Model.State Model.Optim Model.Calls Model.Lifecycle Model.KernelObj
  Spec.BijectorSpec Spec.StateSpec Spec.RandomSpec Spec.OptimSpec Spec.LifecycleSpec Spec.KernelObjSpec Spec.ConcreteSpec
  Proofs.DictFacts Proofs.TreeFacts Proofs.StateFacts Proofs.UpdateFacts Proofs.RandomFacts Proofs.StatePropLemmas Proofs.OptimFacts Proofs.OptimRun
  Proofs.OptimSearch Proofs.OptimPropLemmas Proofs.OptimPso Proofs.SaveLoad Proofs.KernelObjRun Proofs.LifecycleFacts Proofs.LifecyclePropLemmas.
Import ListNotations.
Open Scope string_scope.

Definition moved (s u : state) : Prop := ready u /\ only_trainables (s_params s) (s_params u) /\ full_tree (s_params u) /\ all_legal u.
Lemma randomize_moved : forall sample s k opt u, sampler_ok sample -> sampler_full sample -> ready s -> dict_ok opt -> get "params" opt = None ->
  randomize sample s k opt = Ok u -> moved s u.
Proof.
  intros sample s k opt u SO SF [S [B F]] DO NP H.
  assert (U : state_ok u) by exact (sstep_ok (fun _ => false) sample (SRandomize k opt) s u S DO H).
  destruct (randomize_legal sample s k opt S SO (float_metas _ F) B DO NP) as [u' [E [_ [_ [_ [SN L]]]]]].
  rewrite H in E. inversion E; subst u'. clear E.
  assert (O : only_trainables (s_params s) (s_params u)).
  { split; auto. intro path. specialize (L path). destruct (lookup path (s_params s)) as [[p|]|] eqn:Lp; auto. destruct L as [v [L1 L2]].
    exists v. split; auto. intro Tr. rewrite Tr in L2. exact L2. }
  assert (R : ready u).
  { split; auto. split.
    - apply (only_metas (fun m => bij_ok (m_bijector m)) (s_params s)); auto. apply U.
    - apply (only_metas (fun m => floating (pr_dtype (m_prior m))) (s_params s)); auto. apply U. }
  split; auto. split; auto.
  assert (G : forall path x, lookup path (s_params u) = Some x -> match x with Some p => m_trainable (p_meta p) = true ->
      List.length (a_data (p_value p)) = size_of (a_shape (p_value p)) /\ legal (m_bijector (p_meta p)) (p_value p) | None => True end).
  { intros path x Lx. specialize (L path). destruct (lookup path (s_params s)) as [[p|]|] eqn:Lp.
    - destruct L as [v [L1 L2]]. rewrite L1 in Lx. inversion Lx; subst x. cbn. intro Tr. rewrite Tr in L2. destruct L2 as [L2 [k' ->]].
      split; auto. unfold forward_arr. cbn [a_data a_shape]. rewrite map_length. destruct (SO k' (m_prior (p_meta p))) as [-> _]. apply SF.
    - rewrite L in Lx. inversion Lx; subst x. exact I.
    - rewrite L in Lx. discriminate. }
  split; (apply every_lookup; [apply U|]); intros path x Lx; specialize (G path x Lx); destruct x; auto; intro Tr; now apply G.
Qed.

Section J.
  Variable s0 : state.
  Hypothesis R0 : ready s0.
  Definition J (s : state) : Prop :=
    ready s /\ (s_params s = s_params s0 \/ only_trainables (s_params s0) (s_params s) /\ full_tree (s_params s) /\ all_legal s).
  Lemma J_params : forall s u, J s -> state_ok u -> s_params u = s_params s -> J u.
  Proof.
    intros s u [[S [B F]] H] U E. split.
    - split; [exact U|]. now rewrite E.
    - unfold all_legal in *. rewrite E. exact H.
  Qed.
  Lemma J_moved : forall s u, J s -> moved s u -> J u.
  Proof.
    intros s u [_ H] [U [O [FU LU]]]. split; [exact U|]. right. split; [|split; auto].
    destruct H as [H|[H _]]; [now rewrite <- H|]. eapply only_trainables_trans; eauto.
  Qed.
  Lemma J_safe : forall s o q, J s -> safe q o (s_params s0) -> safe q o (s_params s).
  Proof.
    intros s o q [R [E|[O [F L]]]] H; [now rewrite E|]. apply (safe_kept o q (s_params s0) (s_params s)); auto; [apply R0|apply R].
  Qed.
  Lemma J_safe_at : forall s need path, J s -> safe_at need path (s_params s0) -> safe_at need path (s_params s).
  Proof.
    intros s need path [R [E|[O [F L]]]] H; [now rewrite E|]. apply (safe_at_kept need path (s_params s0) (s_params s)); auto; [apply R0|apply R].
  Qed.
  Lemma J_sub : forall s path, J s -> sub path (s_params s0) <> None -> sub path (s_params s) <> None.
  Proof. intros s path [R [E|[O _]]] H; [now rewrite E|]. apply (same_names_sub (s_params s0)); auto. apply O. Qed.
  Lemma only_same_frozen : forall t t' w, same_frozen w t -> only_trainables t t' -> same_frozen w t'.
  Proof.
    intros t t' w [N1 F1] [N2 F2]. split; [unfold same_names in *; congruence|]. intro path. specialize (F1 path). specialize (F2 path).
    destruct (lookup path w) as [[p|]|], (lookup path t) as [[p'|]|]; try contradiction; try discriminate; try (rewrite F2; exact F1).
    destruct F2 as [v [-> H]]. destruct F1 as [F1 F3]. cbn [p_meta p_value]. split; auto. intro Tr. rewrite H by congruence. auto.
  Qed.
  Section Steps.
    Context (N : numerics) (C : gp_class) (extra fields : task -> list string) (names consts : list string).
    Variable lossfn : obj -> option (sig * (data -> dict obj -> state -> result (num * array))).
    Variable sample : key -> prior_obj -> array.
    Variable key_precond : obj.
    Variable interned : string -> bool.
    Hypothesis CO : class_ok N C extra fields names consts.
    Hypothesis PN : plain_numerics N.
    Hypothesis SA : sampler_ok sample.
    Hypothesis SF : sampler_full sample.
    Hypothesis SV : savable interned (s_params s0).
    Local Notation good := (good N C s0 extra fields names consts).
    Local Notation FP := (float_metas _ (proj2 (proj2 R0))).

    Lemma J_search : forall a minimise d kw s u h, J s ->
      (forall loss strat v v', a_minimize a = Some strat -> J v -> fst (minimise loss strat v) = Ok v' -> J v') ->
      minimisation lossfn sample a minimise d kw s = Ok (u, h) -> J u.
    Proof.
      intros a minimise d kw s u h HJ HM H. unfold minimisation in H. apply bind_ok in H. destruct H as [lf [_ H]].
      destruct (lossfn lf) as [f|]; [|discriminate]. destruct (a_minimize a) as [strat|]; [|injection H as <- <-; auto].
      apply bind_ok in H. destruct H as [[[[s' i] l] l'] [H E]]. cbn [fst] in E. injection E as <- <-.
      destruct (restarts_run _ _ _ _ _ _ _ _ _ _ H) as [L [_ [_ [[i0 [s1 [H0 N0]]] [HR [j [HJ' _]]]]]]].
      assert (M : forall v v' j, J v -> bind (fst (minimise (loss_positional f d kw) strat v)) (fun u' => Ok (u', tt)) = Ok (v', j) -> J v').
      { intros v v' j0 Jv Hv. apply bind_ok in Hv. destruct Hv as [w [Hw E]]. injection E as -> _. eapply HM; [reflexivity|exact Jv|exact Hw]. }
      assert (X : forall j u, nth_error l j = Some u -> J u).
      { clear j HJ'. induction j as [|j IH]; intros u Hu.
        - assert (u = s1) by congruence. subst u. eapply M; [|exact H0]. exact HJ.
        - assert (JL : (j < a_restarts a)%nat). { assert (Datatypes.S j < List.length l)%nat by (apply nth_error_Some; congruence). lia. }
          destruct (HR j JL) as [p [b [s2 [i1 [k0 [_ [Ha [Hb [R1 R2]]]]]]]]]. rewrite Hb in Hu. injection Hu as <-. specialize (IH _ Ha).
          eapply M; [|exact R2]. eapply J_moved; [exact IH|]. eapply randomize_moved; [exact SA|exact SF|apply IH| | |exact R1]; [split; constructor|reflexivity]. }
      eapply X; exact HJ'.
    Qed.
    Lemma J_finish : forall a s found (fit : state -> result state) u r, J s ->
      (forall v h, found = Ok (v, h) -> J v) -> (forall v v', J v -> fit v = Ok v' -> state_ok v' /\ s_params v' = s_params v) ->
      finish a s found fit = (r, u) -> J u.
    Proof.
      intros a s found fit u r HJ HF HFit H. unfold finish in H. destruct found as [[s1 h]|e].
      - specialize (HF s1 h eq_refl). destruct (fit s1) as [s2|e] eqn:E; injection H as _ <-; [|exact HF].
        destruct (HFit _ _ HF E). eapply J_params; eauto.
      - injection H as _ <-. exact HJ.
    Qed.
    Lemma fit_keeps : forall t npos kw d o v v', state_ok v -> task_of d = t ->
      call_attr (k_fit C t) npos kw (fun b => b d o v) = Ok v' -> state_ok v' /\ s_params v' = s_params v.
    Proof.
      intros t npos kw d o v v' SO T H. unfold call_attr in H. destruct (k_fit C t) as [[g b]|] eqn:K; [|discriminate].
      unfold call in H. destruct (accepts g npos kw); [|discriminate]. rewrite (co_fit _ _ _ _ _ _ CO _ _ _ K) in H. subst t.
      unfold fit_fun in H. apply bind_ok in H. destruct H as [vs [_ H]]. apply bind_ok in H. destruct H as [f [_ H]]. cbv zeta in H.
      match type of H with fst (state_update v ?D) = _ => set (D0 := D) in * end.
      assert (KD : map fst D0 = (map fst (data_fields d) ++ fields (task_of d) ++ flag_names)%list).
      { unfold D0. rewrite !map_app, fields_keys. reflexivity. }
      assert (ND : NoDup (map fst D0)) by (rewrite KD; apply (co_nodup _ _ _ _ _ _ CO)).
      assert (RV : forall k, In k (map fst D0) -> ~ reserved k).
      { intros k Hk. rewrite KD in Hk. destruct (co_aux _ _ _ _ _ _ CO k) as [_ [_ [_ X]]]; [|exact X]. eapply co_names; eauto. }
      pose proof (update_attrs v D0 SO ND RV) as U. rewrite U in H. injection H as <-. split; [|reflexivity].
      eapply (sstep_ok (fun _ => false) sample (SUpdate D0) v); [exact SO| |exact U].
      split; [exact ND|]. apply Forall_forall. intros [k w] I. cbn [snd]. unfold D0 in I. rewrite !in_app_iff in I.
      destruct I as [I|[I|[I|[I|[]]]]]; [destruct d; cbn in I; repeat (destruct I as [I|I]; [injection I as <- <-; exact Logic.I|]); contradiction
        |apply in_map_iff in I; destruct I as [? [I _]]; injection I as <- <-; exact Logic.I|injection I as <- <-; exact Logic.I|injection I as <- <-; exact Logic.I].
    Qed.
    Lemma J_scipy : forall A (loss : array -> state -> result A) strat v v', (forall x, proposes_reals (strat x)) -> J v ->
      fst (scipy_minimize loss strat v) = Ok v' -> J v'.
    Proof.
      intros A loss strat v v' PR Jv H. eapply J_moved; [exact Jv|]. apply (move_ok sample v v' SA SF (proj1 Jv)).
      eapply by_minimize; [apply PR|left; exact H].
    Qed.
    Lemma J_same_frozen : forall w v, same_frozen w (s_params s0) -> J v -> same_frozen w (s_params v).
    Proof. intros w v F [_ [E|[O _]]]; [now rewrite E|]. eapply only_same_frozen; eauto. Qed.
    Lemma fit_J : forall d a s r u, J s -> optimiser_ok (s_params s0) (Fit d a) -> base_fit lossfn sample key_precond C d a s = (r, u) -> J u.
    Proof.
      intros d a s r u Js PR H. unfold base_fit in H. cbv zeta in H. eapply J_finish; [exact Js| | |exact H].
      - intros v h HF. assert (M : forall kw, minimisation lossfn sample a scipy_minimize d kw s = Ok (v, h) -> J v).
        { intros kw HM. eapply J_search; [exact Js| |exact HM]. intros loss strat w w' E Jw Hw. eapply J_scipy; [|exact Jw|exact Hw]. intro x. now apply PR. }
        destruct d; [eapply M; exact HF|eapply M; exact HF|]. destruct (a_minimize a) as [st|]; [eapply M; exact HF|]. injection HF as <- <-. exact Js.
      - intros v v' Jv Hv. eapply fit_keeps; [apply Jv|reflexivity|exact Hv].
    Qed.
    Lemma nlopt_J : forall x y w a s r u, J s -> state_ok w -> optimiser_ok (s_params s0) (FitNlopt x y w a) -> base_fit_nlopt lossfn sample C x y w a s = (r, u) -> J u.
    Proof.
      intros x y w a s r u Js W [SFz PR] H. unfold base_fit_nlopt in H. eapply J_finish; [exact Js| | |exact H].
      - intros v h HF. eapply J_search; [exact Js| |exact HF]. intros loss strat v0 v' E Jv Hv.
        rewrite nlopt_scipy in Hv; [|exact W|apply Jv|now apply J_same_frozen]. eapply J_scipy; [|exact Jv|exact Hv]. intro z. now apply PR.
      - intros v v' Jv Hv. eapply (fit_keeps TTargets _ _ (Targets x y)); [apply Jv|reflexivity|exact Hv].
    Qed.
    Lemma reset_no_params : get "params" (k_reset C) = None.
    Proof.
      apply get_none. intro X. destruct (co_aux _ _ _ _ _ _ CO "params") as [_ [_ [_ Y]]]; [now apply (co_reset_names _ _ _ _ _ _ CO)|]. apply Y. unfold reserved. tauto.
    Qed.

    Definition all_good (v : view) (w : state * files) : Prop :=
      good (v_mode v) (v_fresh v) (fst w) /\ J (fst w) /\
      forall g, match v_files v g with
        | Some (m, b) => exists t d, good m b t /\ J t /\ save_dict t = Ok d /\ snd w g = Some (dumped d)
        | None => snd w g = None end.
    Lemma all_world : forall v w, all_good v w -> world_good N C s0 extra fields names consts v w.
    Proof.
      intros v w [G [_ F]]. split; [exact G|]. intro g. specialize (F g). destruct (v_files v g) as [[m b]|]; [|exact F].
      destruct F as [t [d [A [_ [B D]]]]]. eauto.
    Qed.
    Lemma step_all : forall o v w r w', all_good v w -> call_ok (s_params s0) o -> optimiser_ok (s_params s0) o ->
      step lossfn sample key_precond interned C o w = (r, w') -> all_good (observe1 v (o, r, fst w')) w'.
    Proof.
      intros o v [s fs] r w' A O PR H.
      pose proof (step_good N C s0 extra fields names consts lossfn sample key_precond interned CO PN SA FP (proj1 (proj2 (proj1 R0))) SV o v (s, fs) r w' (all_world _ _ A) O H) as [G' F'].
      destruct A as [G [Js F]]. cbn [fst snd] in G, Js, F. split; [exact G'|].
      destruct o as [d a|x y w a|k reset|f|f|fresh]; cbn [step] in H; cbv zeta in H; cbn [fst snd] in H.
      - destruct (base_fit lossfn sample key_precond C d a s) as [r0 u] eqn:E. cbn [fst snd] in H. injection H as <- <-. cbn [fst snd].
        split; [eapply fit_J; eauto|]. destruct r0; cbn [observe1]; [exact F|destruct (a_minimize a); exact F].
      - destruct (base_fit_nlopt lossfn sample C x y w a s) as [r0 u] eqn:E. cbn [fst snd] in H. injection H as <- <-. cbn [fst snd].
        split; [eapply nlopt_J; eauto; apply O|]. destruct r0; cbn [observe1]; [exact F|destruct (a_minimize a); exact F].
      - destruct (base_randomize sample C k reset s) as [u|e] eqn:E; injection H as <- <-; cbn [fst snd].
        + split; [|destruct reset; exact F]. eapply J_moved; [exact Js|]. unfold base_randomize in E.
          destruct reset; (eapply randomize_moved; [exact SA|exact SF|apply Js| | |exact E]).
          * eapply reset_dict_ok; exact CO.
          * exact reset_no_params.
          * split; constructor.
          * reflexivity.
        + split; [exact Js|destruct reset; exact F].
      - unfold save in H. destruct (save_dict s) as [d|e] eqn:E; injection H as <- <-; cbn [observe1 fst snd]; (split; [exact Js|]); [|exact F].
        intro g. cbn [v_files]. destruct (String.eqb g (npz_name f)); [|apply F]. exists s, d. auto.
      - unfold load in H. specialize (F f) as Ff. destruct (v_files v f) as [[m b]|] eqn:EV.
        + destruct Ff as [t [d [Gt [Jt [HS HF]]]]]. rewrite HF in H. destruct (load_dict interned s (dumped d)) as [u|e] eqn:E; injection H as <- <-; cbn [observe1 fst snd].
          * rewrite EV. cbn [v_files]. split; [|exact F]. apply (J_params t); [exact Jt|apply (load_state_ok interned s (dumped d) u (proj1 (proj1 Js)) E)|].
            destruct Gt as [[T1 [T2 [T3 [T4 [T5 T6]]]]] _]. destruct G as [[S1 [S2 [S3 [S4 [S5 S6]]]]] _].
            eapply loaded_params; [exact T1|exact S1| | | |exact HS|exact E].
            -- eapply savable_def; [apply (proj1 (proj2 (proj1 R0)))|apply T1| |exact SV]. now symmetry.
            -- apply Forall_forall. intros [k v0] Hk _. cbn [fst]. apply (co_aux _ _ _ _ _ _ CO). apply (T5 k v0). apply get_in_nodup; [apply T1|exact Hk].
            -- congruence.
          * split; [exact Js|exact F].
        + rewrite Ff in H. injection H as <- <-. cbn [observe1 fst snd]. split; [exact Js|exact F].
      - injection H as <- <-. cbn [observe1 fst snd]. destruct fresh; (split; [exact Js|exact F]).
    Qed.
    Lemma run_all : forall os v w es w', all_good v w -> Forall (call_ok (s_params s0)) os -> Forall (optimiser_ok (s_params s0)) os ->
      Lifecycle.run lossfn sample key_precond interned C os w = (es, w') -> all_good (fold_left observe1 es v) w'.
    Proof.
      induction os as [|o r IH]; intros v w es w' G O P H; cbn [Lifecycle.run] in H; cbv zeta in H.
      - injection H as <- <-. exact G.
      - inversion O; inversion P; subst. destruct (step lossfn sample key_precond interned C o w) as [r0 w1] eqn:E. cbn [fst snd] in H.
        destruct (Lifecycle.run lossfn sample key_precond interned C r w1) as [es' w2] eqn:E'. cbn [fst snd] in H. injection H as <- <-. cbn [fold_left].
        eapply IH; [|eassumption|eassumption|exact E']. eapply step_all; eauto.
    Qed.
    Lemma history_J : forall os es s fs, shape_ok s0 names consts s0 -> knows N s0 extra fields Unfitted s0 ->
      Forall (call_ok (s_params s0)) os -> Forall (optimiser_ok (s_params s0)) os ->
      Lifecycle.run lossfn sample key_precond interned C os (s0, fun _ => None) = (es, (s, fs)) -> J s.
    Proof.
      intros os es s fs SO K O P H. eapply (run_all os nothing) in H; [apply H| |exact O|exact P].
      split; [split; [exact SO|]; split; [exact K|]; split; [intros _; exact I|exact I]|]. split; [|intro g; reflexivity]. split; [exact R0|now left].
    Qed.
  End Steps.
End J.

Section Thm.
  Context (lossfn : obj -> option (sig * (data -> dict obj -> state -> result (num * array)))) (sample : key -> prior_obj -> array) (key_precond : obj)
    (interned : string -> bool) (N : numerics) (s0 : state) (os : list op) (es : list (op * result unit * state)) (s : state) (fs : files).
  Context (S : state_ok s0) (SA : sampler_ok sample) (SF : sampler_full sample) (B : bijs_ok (s_params s0)) (F : float_tree (s_params s0))
    (SV : savable interned (s_params s0)) (PN : plain_numerics N)
    (O : Forall (call_ok (s_params s0)) os) (P : Forall (optimiser_ok (s_params s0)) os).
  Lemma gpr_J : forall kernel mean kp sigma l, gpr_init kernel mean kp sigma (OCall l) = Ok s0 ->
    Lifecycle.run lossfn sample key_precond interned (GPR N) os (s0, fun _ => None) = (es, (s, fs)) -> J s0 s.
  Proof.
    intros kernel mean kp sigma l HI HR. destruct (gpr_start _ _ _ _ _ _ HI S) as [EK [EM [SO K]]].
    exact (history_J s0 (conj S (conj B F)) N (GPR N) (fun _ => []) gpr_fields gpr_names ["loss_fn"] lossfn sample key_precond interned (gpr_class N) PN SA SF SV os es s fs SO (K N) O P HR).
  Qed.
  Lemma sgpr_J : forall kernel mean xl jl kp sigma l, sgpr_init kernel mean xl jl kp sigma (OCall l) = Ok s0 ->
    Lifecycle.run lossfn sample key_precond interned (SGPR N) os (s0, fun _ => None) = (es, (s, fs)) -> J s0 s.
  Proof.
    intros kernel mean xl jl kp sigma l HI HR. destruct (sgpr_start _ _ _ _ _ _ _ _ HI S) as [EK [EM [SO K]]].
    exact (history_J s0 (conj S (conj B F)) N (SGPR N) (fun _ => []) sgpr_fields sgpr_names ["loss_fn"] lossfn sample key_precond interned (sgpr_class N) PN SA SF SV os es s fs SO (K N) O P HR).
  Qed.
  Lemma rp_J : forall kernel mean n key kp sigma l, rpchol_init kernel mean (OInt n) (Some (OArr key)) kp sigma (OCall l) = Ok s0 -> plain key ->
    Lifecycle.run lossfn sample key_precond interned (SGPR_RPChol N) os (s0, fun _ => None) = (es, (s, fs)) -> J s0 s.
  Proof.
    intros kernel mean n key kp sigma l HI PK HR. destruct (rp_start _ _ _ _ _ _ _ _ HI PK S) as [EK [EM [SO [K EX]]]].
    exact (history_J s0 (conj S (conj B F)) N (SGPR_RPChol N) rp_extra rp_fields rp_names ["loss_fn"; "n_locs"; "key"] lossfn sample key_precond interned (rp_class N) PN SA SF SV os es s fs SO (K N) O P HR).
  Qed.
End Thm.
