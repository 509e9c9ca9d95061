(** Models that meet the hypotheses of Props/ConcreteProps.v. *)
From Coq Require Import String List Reals Arith Bool ZArith Lia Lra.
From Verif Require Import Base.Sums Base.Mat Model.Arrays Model.Kernels Model.LinAlg Model.GPR Model.PyDict Model.Bijectors Model.Params Model.State
  Model.Optim Model.Calls Model.Lifecycle Model.KernelObj Model.Public Model.Concrete Spec.BijectorSpec
  Spec.KernelSpec Spec.DictSpec Spec.StateSpec Spec.RandomSpec Spec.OptimSpec Spec.LifecycleSpec Spec.KernelObjSpec Spec.PublicSpec Spec.ConcreteSpec
  Proofs.LinAlgFacts Proofs.TreeFacts Proofs.StateFacts Proofs.SaveLoad Proofs.StateExamples Proofs.OptimExamples Proofs.KernelObjFacts Proofs.KernelObjSafe Proofs.KernelObjRun Proofs.LifecyclePropLemmas Proofs.DispatchFacts Proofs.ConcreteFacts.
Import ListNotations.
Open Scope string_scope.
Open Scope R_scope.

(** ** a GPR with default parameters *)
Definition outer (p : string) : Prop := In p ["params"; "kernel_params"; "kernel1"; "kernel2"].
Lemma outer_not : forall path k, Forall outer path -> ~ outer k -> ~ In k path.
Proof. intros path k H N I. rewrite Forall_forall in H. now apply N, H. Qed.
Ltac notouter := unfold outer; cbn; intuition discriminate.
Lemma default_names : forall interned o path l, default_params o = Ok (Node l) -> Forall outer path -> names_ok interned path (Node l).
Proof.
  intros interned. assert (LF : forall path k (p : option param), Forall outer path -> ~ outer k -> k <> "NULL" -> k <> "NULL" /\ (interned k = true -> ~ In k path)).
  { intros path k p H1 H2 H3. split; auto. intros _. now apply outer_not. }
  assert (NB : forall path k (s : ptree), outer k -> Forall outer path ->
    (forall path l, s = Node l -> Forall outer path -> names_ok interned path (Node l)) ->
    match s with
    | Leaf _ => k <> "NULL" /\ (interned k = true -> ~ In k path)
    | Node [] => interned "NULL" = true -> ~ In "NULL" (path ++ [k])%list
    | Node _ => names_ok interned (path ++ [k])%list s
    end \/ exists a, s = Leaf a).
  { intros path k s K H1 H2. assert (H3 : Forall outer (path ++ [k])%list) by (apply Forall_app; split; auto).
    destruct s as [a|[|e l]]; [right; eauto|left|left; now apply H2]. intros _. apply outer_not; auto. notouter. }
  induction o as [c ad|o1 IH1 o2 IH2|o1 IH1 o2 IH2]; intros path l D H.
  - destruct c as [| |ni| | | | |]; cbn [default_params] in D; rewrite ?def_ok in D by reflexivity; cbn [bind] in D; injection D as <-; apply names_node;
      (split; [repeat constructor; cbn; intuition discriminate|]); repeat constructor; cbn [fst snd]; try discriminate; try (apply LF; auto; try discriminate; notouter);
      intros _; apply outer_not; auto; notouter.
  - cbn [default_params] in D. destruct (default_ok o1) as [l1 [E1 _]], (default_ok o2) as [l2 [E2 _]]. rewrite E1, E2 in D. cbn [bind] in D. injection D as <-.
    apply names_node. split; [apply kernel12_nodup|]. apply pair_forall; cbn [fst snd]; (split; [discriminate|]; split; [repeat split; discriminate|]).
    + destruct (NB path "kernel1" (Node l1)) as [X|[a X]]; [unfold outer; cbn; auto|auto| |exact X|discriminate]. intros pt l E Hp. injection E as <-. now apply IH1.
    + destruct (NB path "kernel2" (Node l2)) as [X|[a X]]; [unfold outer; cbn; auto|auto| |exact X|discriminate]. intros pt l E Hp. injection E as <-. now apply IH2.
  - cbn [default_params] in D. destruct (default_ok o1) as [l1 [E1 _]], (default_ok o2) as [l2 [E2 _]]. rewrite E1, E2 in D. cbn [bind] in D. injection D as <-.
    apply names_node. split; [apply kernel12_nodup|]. apply pair_forall; cbn [fst snd]; (split; [discriminate|]; split; [repeat split; discriminate|]).
    + destruct (NB path "kernel1" (Node l1)) as [X|[a X]]; [unfold outer; cbn; auto|auto| |exact X|discriminate]. intros pt l E Hp. injection E as <-. now apply IH1.
    + destruct (NB path "kernel2" (Node l2)) as [X|[a X]]; [unfold outer; cbn; auto|auto| |exact X|discriminate]. intros pt l E Hp. injection E as <-. now apply IH2.
Qed.
Lemma default_canon : forall o t, default_params o = Ok t -> canon t = t.
Proof.
  induction o as [c ad|o1 IH1 o2 IH2|o1 IH1 o2 IH2]; intros t D.
  - destruct c as [| |ni| | | | |]; cbn [default_params] in D; rewrite ?def_ok in D by reflexivity; cbn [bind] in D; injection D as <-; reflexivity.
  - cbn [default_params] in D. destruct (default_params o1) as [t1|]; [|discriminate]. destruct (default_params o2) as [t2|]; [|discriminate].
    cbn [bind] in D. injection D as <-. rewrite canon_node. unfold vmap. cbn [map fst snd]. rewrite (IH1 t1 eq_refl), (IH2 t2 eq_refl). reflexivity.
  - cbn [default_params] in D. destruct (default_params o1) as [t1|]; [|discriminate]. destruct (default_params o2) as [t2|]; [|discriminate].
    cbn [bind] in D. injection D as <-. rewrite canon_node. unfold vmap. cbn [map fst snd]. rewrite (IH1 t1 eq_refl), (IH2 t2 eq_refl). reflexivity.
Qed.
Lemma default_model : forall interned kernel mean l ko, obj_ok kernel -> obj_ok mean ->
  exists t s sg, default_params ko = Ok t /\ def 1 true Softplus gamma_prior = Ok (Leaf (Some sg)) /\
    gpr_init kernel mean t sg (OCall l) = Ok s /\ model_ok interned ko s.
Proof.
  intros interned kernel mean l ko HK HM. destruct (default_state kernel mean (OCall l) ko HK HM I (fun X => X)) as [t [s [sg [D [S [GI [SO [B [F [SA SB]]]]]]]]]].
  exists t, s, sg. split; [exact D|]. split; [exact S|]. split; [exact GI|].
  destruct (default_ok ko) as [lk [D' [P NN]]]. rewrite D in D'. injection D' as ->.
  rewrite def_ok in S by reflexivity. injection S as <-.
  assert (EP : s_params s = Node [("kernel_params", Node lk); ("sigma", Leaf (Some (Param (zero_d 1) (Meta true Softplus gamma_prior))))]).
  { unfold gpr_init, mk_state in GI. set (T := Node [("kernel_params", Node lk); ("sigma", Leaf (Some (Param (zero_d 1) (Meta true Softplus gamma_prior))))]) in *.
    assert (CT : canon T = T).
    { unfold T. rewrite canon_node. unfold vmap. cbn [map fst snd]. rewrite (default_canon ko (Node lk) D). reflexivity. }
    rewrite set_params_ok in GI.
    - cbn [bind] in GI. injection GI as <-. cbn [s_params]. exact CT.
    - unfold T. apply every_node. apply pair_forall; cbn [snd]; [apply P|split; reflexivity]. }
  split; [exact SO|]. split; [exact B|]. split; [exact F|]. split.
  - rewrite EP. split; [|split].
    + apply every_node. apply pair_forall; cbn [snd]; [exact NN|discriminate].
    + apply names_node. split; [repeat constructor; cbn; intuition discriminate|]. apply pair_forall; cbn [fst snd]; (split; [discriminate|]; split; [repeat split; discriminate|]).
      * assert (Forall outer (["params"] ++ ["kernel_params"])%list) by (repeat constructor; unfold outer; cbn; auto).
        destruct lk as [|e r]; [intros _; apply outer_not; auto; notouter|]. now apply (default_names interned ko).
      * split; [discriminate|]. intros _ [X|[]]. discriminate.
    + do 2 eexists. split; reflexivity.
  - split; [exact SA|]. split; [exact SB|]. rewrite EP. eexists. exists 1. split; [reflexivity|]. split; [reflexivity|]. split; [reflexivity|].
    split; [unfold positive; lra|]. intros _ y Hy. cbn in Hy. unfold positive. exact Hy.
Qed.

(** ** a history: a minimising fit, save, randomise with reset, load *)
Definition cx : array := Arr [2; 1]%nat F64 [Some 0; Some 1].
Definition cy : array := Arr [2; 1]%nat F64 [Some 1; Some 3].
Definition c_kernels (o : obj) : option kobj := match o with OCall 1 => Some (OAtom CSE None) | _ => None end.
Definition c_means (o : obj) : option (nat -> nat -> Mat -> R) := match o with OCall 2 => Some zero_mean | _ => None end.
Definition c_ops : list op := [Fit (Targets cx cy) (ex_args (ex_min 1 1) true); SaveFile "m"; Randomize (Key 0) true; LoadFile "m.npz"].
Notation up := (forward Softplus 1).
Section H.
  Variables (N : numerics) (C : Mat) (U : R).
  Hypothesis HF : n_fit N TTargets (ex_params up 1 up) (OCall 1) (OCall 2) [] (Targets cx cy) (Options false ONone) = Ok (fields [("c", arr2 2 1 C); ("mu", arr0 U)]).
  Definition c_f : state :=
    State (OCall 1) (OCall 2) (ex_params up 1 up)
      [("x_train", OArr cx); ("y_train", OArr cy); ("loss_fn", OCall 7); ("is_fitted", OBool true); ("is_fitted_derivs", OBool false);
       ("c", OArr (arr2 2 1 C)); ("mu", OArr (arr0 U))].
  Lemma c_step_min : base_fit ex_lossfn ex_sampler ONone (GPR N) (Targets cx cy) (ex_args (ex_min 1 1) true) (ex_s0 1) = (Ok tt, c_f).
  Proof.
    remember (fields [("c", arr2 2 1 C); ("mu", arr0 U)]) as f eqn:Ef. unfold c_f.
    lazy -[IZR forward cx cy arr2 arr0 fields] in HF. lazy -[IZR forward cx cy arr2 arr0 fields]. rewrite !HF. rewrite Ef. reflexivity.
  Qed.
  Lemma c_history : exists es s fs,
    Lifecycle.run ex_lossfn ex_sampler ONone cpython_interned (GPR N) c_ops (ex_s0 1, fun _ => None) = (es, (s, fs)) /\
    Forall (fun e => snd (fst e) = Ok tt) es /\ v_fresh (observe es) = true /\
    v_mode (observe es) = Fitted (Trained (ex_params up 1 up) (Targets cx cy) (Options false ONone)).
  Proof.
    unfold c_ops, Lifecycle.run, step. cbv zeta. cbn [fst snd]. rewrite c_step_min. cbn [fst snd].
    assert (E : exists u, base_randomize ex_sampler (GPR N) (Key 0) true c_f = Ok u) by (eexists; reflexivity). destruct E as [u E].
    set (sv := save _ _ _). cbn in sv. subst sv. cbn [fst snd]. rewrite E. cbn [fst snd].
    cbn in E. injection E as <-. set (ld := load _ _ _ _). cbn -[forward_arr ex_sampler] in ld. subst ld.
    cbv beta iota. do 3 eexists. split; [reflexivity|].
    split; [repeat constructor|]. split; reflexivity.
  Qed.
End H.
Lemma c_shaped : shaped [2; 1]%nat cx /\ shaped [2; 1]%nat cy.
Proof. split; repeat split; intros x H; cbn in H; intuition (subst; discriminate). Qed.
Lemma c_model : model_ok cpython_interned (OAtom CSE None) (ex_s0 1).
Proof.
  split; [apply ex_s0_ok|]. split; [cbn; repeat split; intros; exact I|]. split; [cbn; repeat split; intros; left; reflexivity|]. split; [apply ex_savable|].
  assert (SA : forall p, p = scalar_param true 1 -> forall t path, lookup path t = Some (Some p) -> safe_at positive path t).
  { intros p -> t path H. exists (scalar_param true 1), 1. split; [exact H|]. split; [reflexivity|]. split; [reflexivity|]. split; [unfold positive; lra|]. intros _ y Hy. exact Hy. }
  split; [split; [eapply SA; reflexivity|intros p []]|]. split; [discriminate|]. eapply SA; reflexivity.
Qed.
Lemma c_calls : calls_ok ex_sampler (ex_s0 1) c_ops.
Proof.
  split; [exact ex_sampler_ok|]. split; [exact ex_sampler_full|]. split; [repeat constructor; try discriminate|].
  repeat constructor. intros strat x E. injection E as <-. constructor. repeat constructor; discriminate.
Qed.
Lemma c_fits : forall choose, exists C U, n_fit (gpr_numerics ref_la choose c_kernels c_means ex_num) TTargets (ex_params up 1 up) (OCall 1) (OCall 2) [] (Targets cx cy) (Options false ONone)
  = Ok (fields [("c", arr2 2 1 C); ("mu", arr0 U)]).
Proof.
  intro choose. cbn [gpr_numerics n_fit]. unfold c_gpr_fit. cbv zeta. destruct c_shaped as [SX SY]. rewrite (mat_of_shaped _ _ _ SX), (mat_of_shaped _ _ _ SY).
  rewrite (hyper_ok c_kernels (ex_params up 1 up) (OCall 1) (OAtom CSE None) (KAtom None (ASE up)) up eq_refl).
  - cbn [c_means pivots o_iterative Nat.eqb]. do 2 eexists. reflexivity.
  - split; [reflexivity|]. eexists. split; [reflexivity|]. split; reflexivity.
  - intros p [].
  - discriminate.
  - eexists. split; [reflexivity|]. split; reflexivity.
Qed.
Lemma c_case : forall choose, let N := gpr_numerics ref_la choose c_kernels c_means ex_num in
  plain_numerics ex_num /\ c_kernels (OCall 1) = Some (OAtom CSE None) /\ c_means (OCall 2) = Some zero_mean /\
  model_ok cpython_interned (OAtom CSE None) (ex_s0 1) /\ calls_ok ex_sampler (ex_s0 1) c_ops /\
  gpr_init (OCall 1) (OCall 2) (ex_kp 1) (scalar_param true 1) (OCall 7) = Ok (ex_s0 1) /\
  shaped [2; 1]%nat cx /\ shaped [2; 1]%nat cy /\ exists es s fs,
  Lifecycle.run ex_lossfn ex_sampler ONone cpython_interned (GPR N) c_ops (ex_s0 1, fun _ => None) = (es, (s, fs)) /\
  Forall (fun e => snd (fst e) = Ok tt) es /\ v_fresh (observe es) = true /\
  v_mode (observe es) = Fitted (Trained (ex_params up 1 up) (Targets cx cy) (Options false ONone)).
Proof.
  intros choose N. split; [exact ex_plain|]. split; [reflexivity|]. split; [reflexivity|]. split; [exact c_model|]. split; [exact c_calls|].
  split; [apply ex_s0_init|]. split; [apply c_shaped|]. split; [apply c_shaped|]. destruct (c_fits choose) as [C [U HF]]. exact (c_history N C U HF).
Qed.
