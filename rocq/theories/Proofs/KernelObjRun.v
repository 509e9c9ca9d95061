(** Kernels along runs of minimisations and randomisations. *)
From Coq Require Import List String Reals Lra ZArith.
From Verif Require Import Base.Sums Base.Mat Base.PSD Model.Arrays Model.Kernels Spec.KernelSpec Model.PyDict Model.Bijectors Spec.BijectorSpec
  Model.Params Model.State Model.Optim Model.Lifecycle Spec.GPSpec Spec.StateSpec Spec.RandomSpec Spec.OptimSpec Model.KernelObj Spec.KernelObjSpec
  Proofs.DictFacts Proofs.TreeFacts Proofs.StateFacts Proofs.UpdateFacts Proofs.RandomFacts Proofs.StatePropLemmas Proofs.StateExamples Proofs.OptimFacts Proofs.OptimRun
  Proofs.OptimPropLemmas Proofs.SaveLoad Proofs.KernelPropLemmas Proofs.KernelObjFacts Proofs.KernelObjSafe.
Import ListNotations.
Open Scope string_scope.

(** ** one step *)
Lemma sub_map : forall {A B} (f : A -> B) path (t : tree A), sub path (map_tree f t) = option_map (map_tree f) (sub path t).
Proof.
  intros A B f path. induction path as [|k r IH]; intro t; [reflexivity|]. destruct t as [a|l]; [reflexivity|]. cbn [map_tree sub].
  replace (get k (map (fun kv : string * tree A => let (k0, s) := kv in (k0, map_tree f s)) l)) with (option_map (map_tree f) (get k l)).
  - destruct (get k l); cbn; auto.
  - induction l as [|[k' v] l IHl]; [reflexivity|]. cbn. destruct (String.eqb k k'); auto.
Qed.
Lemma same_names_sub : forall (t u : ptree) path, same_names u t -> sub path t <> None -> sub path u <> None.
Proof.
  intros t u path E H C. unfold same_names in E. apply (f_equal (sub path)) in E. rewrite !sub_map, C in E. destruct (sub path t); [discriminate|congruence].
Qed.
Lemma safe_at_kept : forall need path t u, ptree_ok t -> ptree_ok u -> only_trainables t u -> full_tree u ->
  on_trainable (fun p => legal (m_bijector (p_meta p)) (p_value p)) u -> safe_at need path t -> safe_at need path u.
Proof.
  intros need path t u T U [_ O] F L [p [r [A [B [C [D E]]]]]]. specialize (O path). rewrite A in O. destruct O as [v [O1 O2]].
  exists (Param v (p_meta p)). destruct (m_trainable (p_meta p)) eqn:Tr.
  - assert (SH : a_shape v = []).
    { destruct U as [_ U]. apply (every_lookup' _ _ _ _ U) in O1. destruct T as [_ T]. apply (every_lookup' _ _ _ _ T) in A. cbn in O1, A.
      destruct O1 as [O1 _], A as [A _]. cbn in O1. congruence. }
    pose proof (on_trainable_lookup _ _ _ _ F O1 Tr) as FL. cbn in FL. rewrite SH in FL. cbn in FL.
    pose proof (on_trainable_lookup _ _ _ _ L O1 Tr) as LL. cbn in LL. unfold legal in LL.
    destruct (a_data v) as [|x [|? ?]] eqn:DA; try discriminate. inversion LL as [|? ? [y [-> IR]] _]; subst.
    exists y. cbn [p_value p_meta]. rewrite Tr. repeat split; auto.
  - exists r. rewrite (O2 eq_refl) in *. cbn [p_value p_meta]. rewrite Tr. repeat split; auto; discriminate.
Qed.
Lemma safe_kept : forall o q t u, ptree_ok t -> ptree_ok u -> only_trainables t u -> full_tree u ->
  on_trainable (fun p => legal (m_bijector (p_meta p)) (p_value p)) u -> safe q o t -> safe q o u.
Proof.
  intros o q t u T U O F L [S P]. split.
  - clear P. assert (N : forall need path, safe_at need path t -> safe_at need path u) by (intros; apply (safe_at_kept need path t u); auto).
    revert q S. induction o as [c ad|o1 IH1 o2 IH2|o1 IH1 o2 IH2]; intros q S.
    + destruct c as [| |ni| | | | |]; cbn [safe_params] in *; auto; destruct S; auto.
    + destruct S as [S1 S2]. split; auto.
    + destruct S as [S1 S2]. split; auto.
  - intros path I. apply (same_names_sub t u path); [apply O|exact (P path I)].
Qed.
Lemma only_metas : forall (P : meta -> Prop) t u, ptree_ok u -> only_trainables t u ->
  on_trainable (fun p => P (p_meta p)) t -> on_trainable (fun p => P (p_meta p)) u.
Proof.
  intros P t u [U _] [_ O] H. apply every_lookup; auto. intros path x Lx. specialize (O path).
  destruct (lookup path t) as [[p|]|] eqn:Lt.
  - destruct O as [v [O1 _]]. rewrite O1 in Lx. inversion Lx; subst. cbn. intro Tr.
    exact (on_trainable_lookup (fun p => P (p_meta p)) t path p H Lt Tr).
  - rewrite O in Lx. inversion Lx; subst. exact I.
  - rewrite O in Lx. discriminate.
Qed.
Lemma scipy_full : forall A (loss : array -> state -> result A) minimize s, state_ok s ->
  forall u, fst (scipy_minimize loss minimize s) = Ok u \/ In u (snd (scipy_minimize loss minimize s)) -> full_tree (s_params u).
Proof.
  intros A loss minimize s S u [H|H].
  - cbn in H. apply bind_ok in H. destruct H as [x [_ H]]. apply bind_ok in H. destruct H as [p [Hp H]].
    destruct (reached (s_params s) s x p u) as [-> _]; auto; try apply S. cbn [s_params]. eapply unravel_full; eauto; apply S.
  - assert (F : Forall (fun u => full_tree (s_params u)) (snd (scipy_minimize loss minimize s))).
    { apply play_inv. intros x v a J. destruct (objective_inv (s_params s) s loss x v a) as [p [H1 [-> _]]]; auto; try apply S.
      cbn [s_params]. eapply unravel_full; eauto; apply S. }
    rewrite Forall_forall in F. auto.
Qed.
Definition ready (s : state) : Prop := state_ok s /\ bijs_ok (s_params s) /\ float_tree (s_params s).
Lemma float_metas : forall t, float_tree t -> float_params t.
Proof.
  intros t H. unfold float_tree, float_params, on_trainable in *. rewrite every_leaves in *. eapply Forall_impl; [|exact H].
  intros [p|] J; [|exact I]. intro Tr. specialize (J Tr). unfold float_meta, bij_dtype. destruct J as [-> | ->]; destruct (m_bijector (p_meta p)); reflexivity.
Qed.
Lemma move_ok : forall sample s u, sampler_ok sample -> sampler_full sample -> ready s -> move sample s u ->
  ready u /\ only_trainables (s_params s) (s_params u) /\ full_tree (s_params u) /\ all_legal u.
Proof.
  intros sample s u SO SF [S [B F]] M.
  assert (R : state_ok u -> only_trainables (s_params s) (s_params u) -> ready u).
  { intros U O. split; auto. split.
    - apply (only_metas (fun m => bij_ok (m_bijector m)) (s_params s)); auto. apply U.
    - apply (only_metas (fun m => floating (pr_dtype (m_prior m))) (s_params s)); auto. apply U. }
  destruct M as [A loss minimize PR H|k H].
  - destruct (scipy_states A loss minimize s S u H) as [U [[_ [_ [_ O]]] _]]. split; auto. split; auto. split; [now apply (scipy_full A loss minimize s)|].
    now apply (scipy_all_legal A loss minimize s).
  - assert (U : state_ok u).
    { apply (sstep_ok (fun _ => false) sample (SRandomize k []) s u); auto. split; constructor. }
    destruct (randomize_legal sample s k [] S SO (float_metas _ F) B) as [u' [E [_ [_ [_ [SN L]]]]]]; [split; constructor|reflexivity|].
    rewrite H in E. inversion E; subst u'. clear E.
    assert (O : only_trainables (s_params s) (s_params u)).
    { split; auto. intro path. specialize (L path). destruct (lookup path (s_params s)) as [[p|]|] eqn:Lp; auto. destruct L as [v [L1 L2]].
      exists v. split; auto. intro Tr. rewrite Tr in L2. exact L2. }
    split; auto. split; auto.
    assert (G : forall path x, lookup path (s_params u) = Some x -> match x with Some p => m_trainable (p_meta p) = true ->
        List.length (a_data (p_value p)) = size_of (a_shape (p_value p)) /\ legal (m_bijector (p_meta p)) (p_value p) | None => True end).
    { intros path x Lx. specialize (L path). destruct (lookup path (s_params s)) as [[p|]|] eqn:Lp.
      - destruct L as [v [L1 L2]]. rewrite L1 in Lx. inversion Lx; subst x. cbn. intro Tr. rewrite Tr in L2. destruct L2 as [L2 [k' ->]].
        split; auto. unfold forward_arr. cbn [a_data a_shape]. rewrite map_length. destruct (SO k' (m_prior (p_meta p))) as [-> _]. apply SF.
      - rewrite L in Lx. inversion Lx; subst x. exact I.
      - rewrite L in Lx. discriminate. }
    split; (apply every_lookup; [apply U|]); intros path x Lx; specialize (G path x Lx); destruct x; auto; intro Tr; now apply G.
Qed.
Lemma run_ok : forall sample s u, sampler_ok sample -> sampler_full sample -> ready s -> run sample s u ->
  ready u /\ forall o q, safe q o (s_params s) -> safe q o (s_params u).
Proof.
  intros sample s u SO SF R H. induction H as [|u v H [IH1 IH2] M]; [auto|].
  destruct (move_ok sample u v SO SF IH1 M) as [A [B [C D]]]. split; auto. intros o q S.
  apply (safe_kept o q (s_params u) (s_params v)); auto; [apply IH1|apply A].
Qed.
Lemma run_gram : forall sample s u o nf n X sigma, sampler_ok sample -> sampler_full sample ->
  state_ok s -> bijs_ok (s_params s) -> float_tree (s_params s) -> safe ["kernel_params"] o (s_params s) ->
  sub ["kernel_params"] (s_params s) <> None -> run sample s u ->
  exists t K, sub ["kernel_params"] (s_params u) = Some t /\ call_k nf o X X t = Ok (Some K) /\ (forall i j, K i j = K j i) /\
    (forall c : Vec, (0 <= sum n (fun i => sum n (fun j => c i * K i j * c j)))%R) /\ pd n (noisy sigma K).
Proof.
  intros sample s u o nf n X sigma SO SF S B F SA N H.
  assert (R : ready s) by (repeat split; auto; apply S). destruct (run_ok sample s u SO SF R H) as [_ G]. specialize (G o _ SA).
  assert (P : sub ["kernel_params"] (s_params u) <> None).
  { clear G. induction H as [|u v H IH M]; auto. destruct (run_ok sample s u SO SF R H) as [Ru _].
    destruct (move_ok sample u v SO SF Ru M) as [_ [[O _] _]]. now apply (same_names_sub (s_params u)). }
  destruct (sub ["kernel_params"] (s_params u)) as [t|] eqn:E; [|congruence]. exists t.
  destruct (safe_gram nf n X o ["kernel_params"] (s_params u) t sigma E G) as [K HK]. exists K. split; auto.
Qed.

(** ** a GPR built from defaults *)
Lemma every_trainable : forall (P : param -> Prop) t, every (fun o => match o with Some p => P p | None => True end) t -> on_trainable P t.
Proof.
  intros P t H. unfold on_trainable. rewrite every_leaves in *. eapply Forall_impl; [|exact H]. intros [p|] J; auto.
Qed.
Definition std (p : param) : Prop := bij_ok (m_bijector (p_meta p)) /\ floating (pr_dtype (m_prior (p_meta p))).
Lemma default_std : forall o t, default_params o = Ok t -> every (fun o => match o with Some p => std p | None => True end) t.
Proof.
  induction o as [c ad|o1 IH1 o2 IH2|o1 IH1 o2 IH2]; intros t D.
  - destruct c as [| |ni| | | | |]; cbn [default_params] in D; rewrite ?def_ok in D by reflexivity; cbn [bind] in D; inversion D; subst t;
      cbn; unfold std, floating; cbn; auto 8.
  - cbn [default_params] in D. destruct (default_params o1) as [t1|]; [|discriminate]. destruct (default_params o2) as [t2|]; [|discriminate].
    cbn [bind] in D. inversion D; subst t. apply every_node. apply pair_forall; cbn [snd]; auto.
  - cbn [default_params] in D. destruct (default_params o1) as [t1|]; [|discriminate]. destruct (default_params o2) as [t2|]; [|discriminate].
    cbn [bind] in D. inversion D; subst t. apply every_node. apply pair_forall; cbn [snd]; auto.
Qed.
Lemma canon_sub : forall q o (t : ptree), keys_distinct t -> safe_params q o t -> safe_params q o (canon t).
Proof.
  intros q o t K. assert (N : forall need path, safe_at need path t -> safe_at need path (canon t)).
  { intros need path [p [r H]]. exists p, r. rewrite (lookup_canon t K path). exact H. }
  revert q. induction o as [c ad|o1 IH1 o2 IH2|o1 IH1 o2 IH2]; intros q S.
  - destruct c as [| |ni| | | | |]; cbn [safe_params] in *; auto; destruct S; auto.
  - destruct S; split; auto.
  - destruct S; split; auto.
Qed.
Lemma sub_canon : forall path (t : ptree), keys_distinct t -> sub path (canon t) = option_map canon (sub path t).
Proof.
  induction path as [|k r IH]; intros t K; [reflexivity|]. pose proof (item_canon k t K) as E. destruct t as [a|l]; [reflexivity|].
  rewrite canon_node in *. cbn [sub]. cbn [item] in E. destruct (get k l) as [s|] eqn:G.
  - destruct (get k (sort (vmap canon l))) as [s'|]; [|discriminate]. inversion E; subst s'. apply IH.
    apply (item_distinct k (Node l) s K). cbn. now rewrite G.
  - destruct (get k (sort (vmap canon l))); [discriminate|reflexivity].
Qed.
Lemma safe_canon : forall q o (t : ptree), keys_distinct t -> safe q o t -> safe q o (canon t).
Proof.
  intros q o t K [S P]. split; [now apply canon_sub|]. intros path I. rewrite sub_canon by auto. specialize (P path I).
  destruct (sub path t); [discriminate|congruence].
Qed.
Lemma default_state : forall kernel mean loss o, obj_ok kernel -> obj_ok mean -> obj_ok loss -> ~ is_raw loss ->
  exists t s sg, default_params o = Ok t /\ def 1 true Softplus gamma_prior = Ok (Leaf (Some sg)) /\
    gpr_init kernel mean t sg loss = Ok s /\ state_ok s /\ bijs_ok (s_params s) /\ float_tree (s_params s) /\
    safe ["kernel_params"] o (s_params s) /\ sub ["kernel_params"] (s_params s) <> None.
Proof.
  intros kernel mean loss o HK HM HL HR. destruct (default_ok o) as [l [D [P _]]].
  set (sg := Param (zero_d 1) (Meta true Softplus gamma_prior)).
  set (T := Node [("kernel_params", Node l); ("sigma", Leaf (Some sg))]).
  assert (PT : ptree_ok T).
  { split; [apply kd_node; split|apply every_node].
    - cbn. constructor; [cbn; intros [E|[]]; discriminate|]. constructor; [intros []|constructor].
    - apply pair_forall; cbn [snd]; [apply P|exact I].
    - apply pair_forall; cbn [snd]; [apply P|split; reflexivity]. }
  assert (ST : every (fun o => match o with Some p => std p | None => True end) T).
  { apply every_node. apply pair_forall; cbn [snd]; [now apply (default_std o)|]. cbn. unfold std, floating. cbn. auto. }
  assert (GI : exists r, gpr_init kernel mean (Node l) sg loss = Ok (State kernel mean (canon T) r) /\ NoDup (map fst r) /\
    Forall (fun kv => obj_ok (snd kv) /\ ~ is_raw (snd kv)) r).
  { unfold gpr_init, mk_state. fold T. rewrite set_params_ok by apply PT. cbn [bind]. eexists. split; [reflexivity|]. cbn. split.
    - repeat (constructor; [cbn; intuition discriminate|]). constructor.
    - assert (AL : as_attr loss = loss) by (apply as_attr_id; auto). rewrite AL.
      repeat (apply Forall_cons; [cbn; auto|]). apply Forall_nil. }
  destruct GI as [r [GI [ND FA]]].
  exists (Node l), (State kernel mean (canon T) r), sg. split; [exact D|]. split; [apply def_ok; reflexivity|]. split; [exact GI|].
  destruct (ptree_ok_canon T PT) as [PC SC].
  assert (STC : every (fun o => match o with Some p => std p | None => True end) (canon T)) by (now apply every_canon in ST).
  split; [split; [|split; [|split; [|split; [|split]]]]; cbn [s_params s_register s_kernel s_mean]; auto|].
  cbn [s_params]. split; [|split; [|split]].
  - apply every_trainable. rewrite every_leaves in *. eapply Forall_impl; [|exact STC]. intros [p|] J; auto. apply J.
  - apply every_trainable. rewrite every_leaves in *. eapply Forall_impl; [|exact STC]. intros [p|] J; auto. apply J.
  - apply safe_canon; [apply PT|]. now apply (default_reads o ["kernel_params"] T (Node l)).
  - rewrite sub_canon by apply PT. discriminate.
Qed.

(** ** a trainable offset *)
Definition off_meta : meta := Meta true Identity normal_prior.
Definition off_params (off : R) : ptree :=
  Node [("kernel_params", Node [("degree", Leaf (Some (Param (zero_d 2) (Meta false Softplus gamma_prior))));
                                ("offset", Leaf (Some (Param (zero_d off) off_meta)))]);
        ("sigma", Leaf (Some (Param (zero_d 1) (Meta false Softplus gamma_prior))))].
Definition off_state (off : R) : state := State (OCall 1) (OCall 2) (off_params off) [].
Definition points : Mat := fun i _ => INR i.
Lemma off_ptree : forall off, ptree_ok (off_params off) /\ sorted (off_params off).
Proof.
  intro off. split; [split|]; cbn; repeat split; repeat (constructor; cbn); try (intros [E|[]]; discriminate); auto; reflexivity.
Qed.
Lemma offset_refuted : exists o s s' minimize t K t' K' (c : Vec), state_ok s /\ bijs_ok (s_params s) /\ float_tree (s_params s) /\
  proposes_reals (minimize (ravel_backward (s_params s))) /\
  fst (scipy_minimize (A := R) (fun _ _ => Ok 0%R) minimize s) = Ok s' /\
  sub ["kernel_params"] (s_params s) = Some t /\ call_k 1 o points points t = Ok (Some K) /\ psd 2 K /\
  sub ["kernel_params"] (s_params s') = Some t' /\ call_k 1 o points points t' = Ok (Some K') /\
  (sum 2 (fun i => sum 2 (fun j => c i * K' i j * c j)) < 0)%R.
Proof.
  assert (C : forall off, call_k 1 (OAtom (CPolynomial false) None) points points
     (Node [("degree", Leaf (Some (Param (zero_d 2) (Meta false Softplus gamma_prior)))); ("offset", Leaf (Some (Param (zero_d off) off_meta)))]) =
     Ok (Some (kk 1 (KAtom None (APoly 2 off)) points points))).
  { intro off. apply (call_reads 1 points points (OAtom (CPolynomial false) None) [] _ _ _ eq_refl). split; [|intros p []].
    exists (KAtom None (APoly 2 off)). split; [|reflexivity]. split; [reflexivity|]. split; eexists; split; try reflexivity; auto. }
  exists (OAtom (CPolynomial false) None), (off_state 1), (off_state (-1)), (fun _ => Done (Arr [1%nat] F64 [Some (-1)%R])).
  exists (Node [("degree", Leaf (Some (Param (zero_d 2) (Meta false Softplus gamma_prior)))); ("offset", Leaf (Some (Param (zero_d 1) off_meta)))]).
  exists (kk 1 (KAtom None (APoly 2 1)) points points).
  exists (Node [("degree", Leaf (Some (Param (zero_d 2) (Meta false Softplus gamma_prior)))); ("offset", Leaf (Some (Param (zero_d (-1)) off_meta)))]).
  exists (kk 1 (KAtom None (APoly 2 (-1))) points points).
  exists (fun i => if Nat.eqb i 0 then 1%R else (-1)%R).
  destruct (off_ptree 1) as [P S].
  split; [split; [exact P|]; split; [exact S|]; cbn; repeat split; auto; constructor|].
  split; [cbn; auto 10|]. split; [cbn; repeat split; intros; try discriminate; left; reflexivity|].
  split; [constructor; repeat constructor; discriminate|]. split; [reflexivity|]. split; [reflexivity|]. split; [apply C|]. split.
  - intro v. apply (gram_psd_kk 1 2 points (KAtom None (APoly 2 1))). cbn. lra.
  - split; [reflexivity|]. split; [apply C|]. cbn. unfold polynomial_fast, gatherM, gather, points. cbn. lra.
Qed.

(** ** examples *)
(** SquaredExponential(active_dims=[0]) * Constant() + Linear(), the constant frozen *)
Definition ex_obj : kobj := OSum (OProd (OAtom CSE (Some [0%nat])) (OAtom CConstant None)) (OAtom CLinear None).
Definition ex_kparams : ptree :=
  Node [("kernel2", Node []);
        ("kernel1", Node [("kernel2", Node [("variance", Leaf (Some (Param (zero_d 3) (Meta false Identity normal_prior))))]);
                          ("kernel1", Node [("lengthscale", Leaf (Some (Param (zero_d 2) (Meta true (SoftMin 1) gamma_prior))))])])].
Definition ex_kexp : kexp := KSum (KProd (KAtom (Some [0%nat]) (ASE 2)) (KAtom None (AConst 3))) (KAtom None ALin).
Lemma ex_obj_reads : keys_distinct ex_kparams /\ reads [] ex_obj ex_kparams ex_kexp /\ safe [] ex_obj ex_kparams.
Proof.
  split; [cbn; repeat split; repeat (constructor; cbn); try (intros [E|[]]; discriminate); auto|]. split.
  - cbn. repeat split; eexists; split; try reflexivity; auto.
  - split.
    + cbn. repeat split; eexists; eexists; (split; [reflexivity|]); cbn; (split; [reflexivity|]); (split; [reflexivity|]);
        unfold positive, nonneg, in_range, inside; (split; [lra|]); try discriminate; intros _ y Hy; lra.
    + intros path I. cbn in I. repeat (destruct I as [<-|I]; [discriminate|]). destruct I.
Qed.
Lemma ex_sampler_full : sampler_full ex_sampler.
Proof. intros k pr. cbn. apply repeat_length. Qed.
