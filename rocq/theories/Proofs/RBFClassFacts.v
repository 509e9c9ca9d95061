(** Invariant of RBFNet over histories of calls. *)
From Coq Require Import String List Bool Arith Reals Lia.
From Verif Require Import Base.Sums Base.Mat Model.Arrays Model.Kernels Model.PyDict Model.Bijectors Model.Params Model.State Model.Optim Model.Calls Model.Lifecycle Model.KernelObj
  Model.Concrete Model.RBFNet Model.RBFClass
  Spec.KernelSpec Spec.DictSpec Spec.StateSpec Spec.RandomSpec Spec.OptimSpec Spec.LifecycleSpec Spec.KernelObjSpec Spec.ConcreteSpec Spec.RBFClassSpec
  Proofs.DictFacts Proofs.TreeFacts Proofs.StateFacts Proofs.UpdateFacts Proofs.SaveLoad Proofs.RandomFacts
  Proofs.StateExamples Proofs.StatePropLemmas Proofs.OptimFacts Proofs.OptimRun Proofs.OptimSearch Proofs.OptimPropLemmas Proofs.KernelObjFacts Proofs.KernelObjSafe Proofs.KernelObjRun
  Proofs.LifecycleFacts Proofs.LifecyclePropLemmas Proofs.DispatchFacts Proofs.LifecycleParams Proofs.TDClassFacts Proofs.ConcreteFacts Proofs.RBFFacts.
Import ListNotations.
Open Scope string_scope.
Open Scope nat_scope.

Definition rbf_names : list string := ["output_layer"; "loss_fn"; "center_kernel"; "k_mean"].
Lemma rbf_aux : forall k, In k rbf_names -> aux_name k.
Proof. aux_names. Qed.
Lemma zeros_plain : forall m, storable (OArr (zeros1 m)).
Proof. intros m H. discriminate H. Qed.

Section Inv.
  Context (sample : key -> prior_obj -> array) (ident tloss layer loss : nat) (after_call : rbf_fit_kind -> state -> result state)
    (interned : string -> bool) (s0 : state) (m : nat).
  Hypothesis R0 : ready s0.
  Hypothesis SA : sampler_ok sample.
  Hypothesis SF : sampler_full sample.
  Hypothesis SV : savable interned (s_params s0).
  Let FP := float_metas _ (proj2 (proj2 R0)).
  Let reset := rbf_reset (OCall ident) (OCall tloss).
  Definition stored_mean (cleared : bool) : obj := if cleared then ONone else OArr (zeros1 m).

  Definition rshape (s : state) : Prop :=
    state_ok s /\ s_kernel s = s_kernel s0 /\ s_mean s = s_mean s0 /\ tree_def (s_params s) = tree_def (s_params s0) /\
    (forall k v, get k (s_register s) = Some v -> In k rbf_names /\ (storable v \/ is_callable v = true)).
  Definition rknows (c cl d : bool) (s : state) : Prop :=
    get "center_kernel" (s_register s) = Some (OBool c) /\ get "k_mean" (s_register s) = Some (stored_mean cl) /\
    get "output_layer" (s_register s) = Some (OCall (if d then ident else layer)) /\
    get "loss_fn" (s_register s) = Some (OCall (if d then tloss else loss)).
  Definition rgood (c cl d : bool) (s : state) : Prop := rshape s /\ rknows c cl d s /\ J s0 s.

  Lemma mean_storable : forall cl, storable (stored_mean cl).
  Proof. intros []; [exact I|apply zeros_plain]. Qed.
  Lemma reset_ok : dict_ok reset.
  Proof. split; [unfold reset; cbn; nodup|]. repeat constructor. Qed.
  Lemma r_fit : forall kind c cl d s, rgood c cl d s -> exists u, rbf_fit kind (after_call kind) s = (Err TypeError, u) /\
    rgood c (match kind with RNlopt => cl | _ => true end) d u.
  Proof.
    intros kind c cl d s [SO [K Js]]. pose proof SO as [S1 [S2 [S3 [S4 S5]]]]. unfold rbf_fit. cbv zeta.
    set (u := State (s_kernel s) (s_mean s) (s_params s) (norm (merge (s_register s) [("k_mean", ONone)]))).
    assert (U : fst (state_update s [("k_mean", ONone)]) = Ok u).
    { apply update_attrs; [exact S1|nodup|]. intros k [<-|[]] [H|[H|H]]; discriminate. }
    assert (G : forall k, get k (s_register u) = match get k [("k_mean", ONone)] with Some v => Some (as_attr v) | None => get k (s_register s) end).
    { intro k. apply get_updated; [nodup|exact S1]. }
    assert (Gu : rgood c true d u).
    { assert (SU : state_ok u) by (eapply state_update_ok; [exact S1| |exact U]; repeat constructor).
      split; [|split].
      - split; [exact SU|]. split; [exact S2|]. split; [exact S3|]. split; [exact S4|]. intros k v Hv. rewrite G in Hv. cbn [get] in Hv.
        destruct (String.eqb_spec k "k_mean") as [->|E]; [|now apply S5]. injection Hv as <-. split; [cbn; tauto|left; exact I].
      - destruct K as [K1 [K2 [K3 K4]]]. unfold rknows. rewrite !G. cbn [get]. cbn. repeat split; auto.
      - apply (J_params s0 s); [exact Js|exact SU|reflexivity]. }
    destruct kind.
    - rewrite U. exists u. split; [reflexivity|exact Gu].
    - exists s. split; [reflexivity|]. exact (conj SO (conj K Js)).
    - rewrite U. exists u. split; [reflexivity|exact Gu].
  Qed.
  Lemma r_float : forall s, rshape s -> float_params (s_params s).
  Proof. intros s H. eapply float_def; [|exact FP]. symmetry. apply H. Qed.
  Lemma r_randomize : forall k (b : bool) c cl d s, rgood c cl d s -> exists u, randomize sample s k (if b then reset else []) = Ok u /\
    rgood (if b then false else c) cl (if b then true else d) u.
  Proof.
    intros k b c cl d s [SO [K Js]]. pose proof SO as [S1 [S2 [S3 [S4 S5]]]].
    assert (DO : dict_ok (if b then reset else [])) by (destruct b; [apply reset_ok|split; constructor]).
    assert (NP : get "params" (if b then reset else []) = None) by (destruct b; reflexivity).
    destruct (randomize_ok sample s k (if b then reset else []) S1 SA (r_float s SO) DO NP) as [u [E1 [E2 [E3 [E4 [_ [_ [E7 _]]]]]]]].
    exists u. split; [exact E1|].
    assert (NK : pick "kernel" (if b then reset else []) (s_kernel s) = s_kernel s) by (destruct b; reflexivity).
    assert (NM : pick "mean_function" (if b then reset else []) (s_mean s) = s_mean s) by (destruct b; reflexivity).
    assert (RD : rest_of (if b then reset else []) = if b then reset else []) by (destruct b; reflexivity).
    assert (G : forall a, get a (s_register u) = match get a (if b then reset else @nil (string * obj)) with Some v => Some (as_attr v) | None => get a (s_register s) end).
    { intro a. rewrite E4, RD. apply get_updated; [apply DO|exact S1]. }
    split; [|split].
    - split; [exact (sstep_ok (fun _ => true) sample (SRandomize k (if b then reset else [])) s u S1 DO E1)|]. rewrite E2, E3, E7, NK, NM.
      split; [exact S2|]. split; [exact S3|]. split; [exact S4|]. intros a v Hv. rewrite G in Hv. destruct b; [|now apply S5].
      unfold reset, rbf_reset in Hv. cbn [get] in Hv.
      destruct (String.eqb_spec a "output_layer") as [->|E]; [injection Hv as <-; split; [cbn; tauto|right; reflexivity]|].
      destruct (String.eqb_spec a "loss_fn") as [->|E']; [injection Hv as <-; split; [cbn; tauto|right; reflexivity]|].
      destruct (String.eqb_spec a "center_kernel") as [->|E'']; [injection Hv as <-; split; [cbn; tauto|left; exact I]|]. now apply S5.
    - destruct K as [K1 [K2 [K3 K4]]]. unfold rknows. rewrite !G. destruct b; cbn; repeat split; auto.
    - eapply J_moved; [exact Js|]. eapply randomize_moved; [exact SA|exact SF|apply Js|exact DO|exact NP|exact E1].
  Qed.
  Lemma r_savable : forall s, rshape s -> savable interned (s_params s).
  Proof. intros s H. eapply savable_def; [apply (proj1 R0)|apply H| |exact SV]. symmetry. apply H. Qed.
  Lemma r_aux : forall s, rshape s -> Forall (fun kv => is_callable (snd kv) = false -> aux_name (fst kv)) (s_register s).
  Proof.
    intros s [T1 [_ [_ [_ T5]]]]. apply Forall_forall. intros [k v] Hk _. cbn [fst]. apply rbf_aux. apply (T5 k v). apply get_in_nodup; [apply T1|exact Hk].
  Qed.
  Lemma r_save : forall s, rshape s -> exists d, save_dict s = Ok d.
  Proof.
    intros s H. destruct (unflatten_saved interned s (proj1 H) (r_savable s H) (r_aux s H)) as [l [lk [_ [_ [_ [d [E _]]]]]]]. now exists d.
  Qed.
  Lemma r_load : forall c cl d c' cl' d' s t D, rgood c cl d s -> rgood c' cl' d' t -> save_dict t = Ok D ->
    exists u, load_dict interned s (dumped D) = Ok u /\ rgood c' cl' d u /\ s_params u = s_params t.
  Proof.
    intros c cl d c' cl' d' s t D [SO [Ks Js]] [TO [Kt Jt]] HS. pose proof (r_savable t TO) as SVt. pose proof (r_aux t TO) as AN.
    pose proof (r_savable s SO) as SVs.
    destruct SO as [S1 [S2 [S3 [S4 S5]]]]. destruct TO as [T1 [T2 [T3 [T4 T5]]]].
    assert (DE : tree_def (s_params t) = tree_def (s_params s)) by congruence.
    destruct (save_load interned t s) as [D' [u [HS' [HL [U1 [U2 [_ [_ [U5 U6]]]]]]]]]; auto.
    - apply same_names_def; auto; [apply T1|apply S1].
    - apply SVs.
    - intros path p q Lp Lq. assert (E : p_meta p = p_meta q).
      { rewrite !def_sorted in DE by (apply T1 || apply S1). assert (X : lookup path (map_tree (option_map p_meta) (s_params t)) = lookup path (map_tree (option_map p_meta) (s_params s))) by now rewrite DE.
        rewrite !lookup_map, Lp, Lq in X. cbn in X. congruence. }
      rewrite <- E. destruct T1 as [[_ T1] _]. exact (every_lookup' opt_ok _ path (Some p) T1 Lp).
    - rewrite HS in HS'. injection HS' as <-. exists u. split; [exact HL|].
      assert (P : s_params u = s_params t). { eapply loaded_params; [exact T1|exact S1|exact SVt|exact AN|congruence|exact HS|exact HL]. }
      assert (SU : state_ok u) by (eapply load_state_ok; [exact S1|exact HL]).
      split; [|exact P]. split; [|split].
      + split; [exact SU|]. rewrite U1, U2, P. split; [exact S2|]. split; [exact S3|]. split; [exact T4|].
        intros k v Hv. destruct (get k (s_register t)) as [w|] eqn:E.
        * destruct (T5 _ _ E) as [I1 [I2|I2]].
          -- rewrite (U5 _ _ E I2) in Hv. injection Hv as <-. auto.
          -- rewrite U6 in Hv by now rewrite E. now apply S5.
        * rewrite U6 in Hv by now rewrite E. now apply S5.
      + destruct Kt as [K1 [K2 [K3 K4]]], Ks as [L1 [L2 [L3 L4]]]. split; [apply U5; [exact K1|exact I]|]. split; [apply U5; [exact K2|apply mean_storable]|].
        split; rewrite U6; auto; [rewrite K3|rewrite K4]; reflexivity.
      + apply (J_params s0 t); auto.
  Qed.

  Definition rworld (v : rbf_view) (w : state * files) : Prop :=
    rgood (rv_centred v) (rv_cleared v) (rv_default_layer v) (fst w) /\
    forall g, match rv_files v g with
      | Some (c, cl) => exists d t D, rgood c cl d t /\ save_dict t = Ok D /\ snd w g = Some (dumped D)
      | None => snd w g = None end.
  Notation step := (rbf_step sample (OCall ident) (OCall tloss) after_call interned).
  Notation run := (rbf_run sample (OCall ident) (OCall tloss) after_call interned).
  (** which calls raise *)
  Definition outcome (v : rbf_view) (o : rbf_op) (r : result unit) : Prop :=
    match o with
    | RFit _ => r = Err TypeError
    | RRandomize _ _ | RSave _ => r = Ok tt
    | RLoad f => match rv_files v f with Some _ => r = Ok tt | None => r = Err FileNotFoundError end
    end.
  Lemma rstep_good : forall o v w r w', rworld v w -> step o w = (r, w') -> outcome v o r /\ rworld (rbf_observe1 v (o, r, fst w')) w'.
  Proof.
    intros o v [s fs] r w' [G F] H. cbn [fst snd] in G, F. destruct o as [kind|k b|f|f]; cbn [rbf_step] in H; cbv zeta in H; cbn [fst snd] in H.
    - destruct (r_fit kind _ _ _ _ G) as [u [E X]]. rewrite E in H. cbn [fst snd] in H. injection H as <- <-. split; [reflexivity|].
      destruct kind; (split; [exact X|exact F]).
    - destruct (r_randomize k b _ _ _ _ G) as [u [E X]]. unfold reset in E. rewrite E in H. injection H as <- <-. split; [reflexivity|].
      destruct b; (split; [exact X|exact F]).
    - unfold save in H. destruct (r_save s (proj1 G)) as [D E]. rewrite E in H. injection H as <- <-. split; [reflexivity|].
      split; [exact G|]. intro g. cbn [rv_files snd rbf_observe1]. destruct (String.eqb g (npz_name f)); [|apply F]. exists (rv_default_layer v), s, D. auto.
    - unfold load in H. specialize (F f) as Ff. cbn [outcome]. destruct (rv_files v f) as [[c cl]|] eqn:EV.
      + destruct Ff as [d [t [D [Gt [HS HF]]]]]. rewrite HF in H. destruct (r_load _ _ _ _ _ _ _ _ _ G Gt HS) as [u [E [X _]]]. rewrite E in H.
        injection H as <- <-. split; [reflexivity|]. cbn [rbf_observe1 fst]. rewrite EV. split; [exact X|exact F].
      + rewrite Ff in H. injection H as <- <-. split; [reflexivity|]. cbn [rbf_observe1 fst]. split; [exact G|exact F].
  Qed.
  Lemma rrun_good : forall os v w es w', rworld v w -> run os w = (es, w') ->
    rworld (fold_left rbf_observe1 es v) w' /\
    Forall (fun e => match fst (fst e) with RFit _ => snd (fst e) = Err TypeError | RLoad _ => True | _ => snd (fst e) = Ok tt end) es.
  Proof.
    induction os as [|o r IH]; intros v w es w' G H; cbn [rbf_run] in H; cbv zeta in H.
    - injection H as <- <-. split; [exact G|constructor].
    - destruct (step o w) as [r0 w1] eqn:E. cbn [fst snd] in H.
      destruct (run r w1) as [es' w2] eqn:E'. cbn [fst snd] in H. injection H as <- <-. cbn [fold_left].
      destruct (rstep_good _ _ _ _ _ G E) as [O1 G1]. destruct (IH _ _ _ _ G1 E') as [G2 F]. split; [exact G2|]. constructor; [|exact F].
      cbn [fst snd]. destruct o; auto.
  Qed.
End Inv.

(** construction *)
Lemma rbf_start : forall draw kernel z o kp alpha layer loss center s0 m nf interned ko oo, rbf_init draw kernel z o kp alpha (OCall layer) (OCall loss) center = Ok s0 ->
  a_shape (p_value z) = [m; nf] -> net_ok interned ko m nf oo s0 -> forall ident tloss,
  s_kernel s0 = kernel /\ s_mean s0 = ONone /\ rgood ident tloss layer loss s0 m center false false s0.
Proof.
  intros draw kernel z o kp alpha layer loss center s0 m nf interned ko oo H E MO ident tloss. unfold rbf_init in H. rewrite E in H.
  apply bind_ok in H. destruct H as [a0 [_ H]]. apply bind_ok in H. destruct H as [w [_ H]].
  apply mk_inv in H. destruct H as [H1 [H2 H3]]. destruct MO as [S [B [F _]]]. split; [exact H1|]. split; [exact H2|]. split; [|split].
  - split; [exact S|]. split; [reflexivity|]. split; [reflexivity|]. split; [reflexivity|]. rewrite H3. intros k v H. apply get_in in H. cbn in H.
    repeat (destruct H as [H|H]; [injection H as <- <-; split; [cbn; tauto|]; first [right; reflexivity|left; exact I|left; apply zeros_plain]|]). contradiction.
  - unfold rknows. rewrite H3. repeat split.
  - split; [exact (conj S (conj B F))|now left].
Qed.
