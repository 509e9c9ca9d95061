(** Order of names, defaults, and parameter values that keep a kernel positive semidefinite. *)
From Coq Require Import List String Reals Lra ZArith Sorting.Permutation.
From Verif Require Import Base.Sums Base.Mat Base.PSD Model.Arrays Model.Kernels Spec.KernelSpec Model.PyDict Model.Bijectors Spec.BijectorSpec
  Model.Params Model.State Model.Optim Model.Lifecycle Spec.GPSpec Spec.StateSpec Spec.RandomSpec Spec.OptimSpec Model.KernelObj Spec.KernelObjSpec
  Proofs.DictFacts Proofs.TreeFacts Proofs.StateFacts Proofs.UpdateFacts Proofs.StatePropLemmas Proofs.StateExamples Proofs.OptimFacts Proofs.OptimRun
  Proofs.OptimPropLemmas Proofs.SaveLoad Proofs.KernelSym Proofs.KernelPropLemmas Proofs.KernelObjFacts.
Import ListNotations.
Open Scope string_scope.

(** ** order *)
Lemma item_canon : forall n (t : ptree), keys_distinct t ->
  item n (canon t) = match item n t with Ok s => Ok (canon s) | Err e => Err e end.
Proof.
  intros n [a|l] K; [reflexivity|]. rewrite canon_node. apply kd_node in K. destruct K as [N K]. cbn [item].
  rewrite (get_perm n _ (vmap canon l)); [|apply sort_perm|].
  - rewrite get_vmap. destruct (get n l); reflexivity.
  - eapply Permutation_NoDup; [apply Permutation_sym, sort_keys_perm|]. now rewrite vmap_keys.
Qed.
Lemma item_distinct : forall n (t s : ptree), keys_distinct t -> item n t = Ok s -> keys_distinct s.
Proof.
  intros n [a|l] s K H; [discriminate|]. cbn in H. destruct (get n l) as [s'|] eqn:G; [|discriminate]. inversion H; subst.
  apply kd_node in K. destruct K as [_ K]. apply get_in in G. rewrite Forall_forall in K. exact (K _ G).
Qed.
Lemma values_canon : forall c (t : ptree), keys_distinct t -> values c (canon t) = values c t.
Proof.
  intros c t K. unfold values. induction (names c) as [|n l IH]; [reflexivity|]. cbn [mapM]. rewrite IH. f_equal.
  rewrite item_canon by auto. destruct (item n t) as [[[p|]|m]|]; reflexivity.
Qed.
Lemma call_canon : forall nf X1 X2 o (t : ptree), keys_distinct t -> call_k nf o X1 X2 (canon t) = call_k nf o X1 X2 t.
Proof.
  intros nf X1 X2 o. induction o as [c ad|o1 IH1 o2 IH2|o1 IH1 o2 IH2]; intros t K; cbn [call_k].
  - now rewrite values_canon.
  - rewrite !item_canon by auto. destruct (item "kernel1" t) as [t1|] eqn:I1; [|reflexivity]. destruct (item "kernel2" t) as [t2|] eqn:I2; [|reflexivity].
    cbn [bind]. rewrite IH1, IH2 by (eapply item_distinct; eauto). reflexivity.
  - rewrite !item_canon by auto. destruct (item "kernel1" t) as [t1|] eqn:I1; [|reflexivity]. destruct (item "kernel2" t) as [t2|] eqn:I2; [|reflexivity].
    cbn [bind]. rewrite IH1, IH2 by (eapply item_distinct; eauto). reflexivity.
Qed.
Lemma call_same : forall nf X1 X2 o (t t' : ptree) M,
  (forall path, In path (leaves [] o) -> lookup path t = lookup path t') ->
  (forall path, In path (dicts [] o) -> sub path t' = None -> sub path t = None) ->
  call_k nf o X1 X2 t = Ok (Some M) -> call_k nf o X1 X2 t' = Ok (Some M).
Proof.
  intros nf X1 X2 o t t' M HL HD C. apply (call_reads nf X1 X2 o [] t t M eq_refl) in C. apply (call_reads nf X1 X2 o [] t' t' M eq_refl).
  destruct C as [[k [R ->]] P]. split; [|intros path I E; exact (P path I (HD path I E))]. exists k. split; [|reflexivity].
  clear -R HL. revert k R HL. generalize (@nil string) as q. induction o as [c ad|o1 IH1 o2 IH2|o1 IH1 o2 IH2]; intros q k R HL.
  - destruct k as [ad' a| |]; cbn [reads] in *; try contradiction. destruct R as [E R]. split; auto. clear E.
    assert (N : forall path r, In path (leaves q (OAtom c ad)) -> number_at path t r -> number_at path t' r).
    { intros path r I [p [A B]]. exists p. rewrite <- (HL path I). auto. }
    destruct c as [| |[|]| | | | |], a; cbn [atom_reads leaves] in *; try contradiction; auto;
      try (apply N; [left; reflexivity|exact R]);
      (destruct R as [R1 R2]; split; apply N; [left; reflexivity|exact R1|right; left; reflexivity|exact R2]).
  - destruct k as [|k1 k2|]; cbn [reads leaves] in *; try contradiction. destruct R as [R1 R2].
    split; [apply IH1; auto|apply IH2; auto]; intros path I; apply HL, in_or_app; auto.
  - destruct k as [| |k1 k2]; cbn [reads leaves] in *; try contradiction. destruct R as [R1 R2].
    split; [apply IH1; auto|apply IH2; auto]; intros path I; apply HL, in_or_app; auto.
Qed.

(** ** prefixes *)
Lemma lookup_app : forall {A} q r (T : tree A) t, sub q T = Some t -> lookup (q ++ r)%list T = lookup r t.
Proof. intros A q r T t H. now rewrite lookup_sub, sub_app, H, <- lookup_sub. Qed.
Lemma safe_at_prefix : forall need q n (T : ptree) t, sub q T = Some t -> (safe_at need (q ++ [n])%list T <-> safe_at need [n] t).
Proof. intros need q n T t H. unfold safe_at. now setoid_rewrite (lookup_app q [n] T t H). Qed.

(** ** defaults *)
Lemma def_ok : forall r b j pr, pr_shape pr = [] -> pr_dtype pr = F64 ->
  def r b j pr = Ok (Leaf (Some (Param (zero_d r) (Meta b j pr)))).
Proof. intros r b j pr S D. unfold def, mk_param. cbn [zero_d a_shape a_dtype m_prior]. rewrite S, D. reflexivity. Qed.
Lemma kernel12_nodup : forall (a b : ptree), NoDup (map fst [("kernel1", a); ("kernel2", b)]).
Proof. intros. cbn. constructor; [cbn; intros [E|[]]; discriminate|]. constructor; [intros []|constructor]. Qed.
Lemma pair_forall : forall {A} (P : A -> Prop) a b, P a -> P b -> Forall P [a; b].
Proof. intros. auto. Qed.
Lemma default_ok : forall o, exists l, default_params o = Ok (Node l) /\ ptree_ok (Node l) /\ no_none (Node l).
Proof.
  induction o as [c ad|o1 [l1 [E1 [P1 N1]]] o2 [l2 [E2 [P2 N2]]]|o1 [l1 [E1 [P1 N1]]] o2 [l2 [E2 [P2 N2]]]].
  - destruct c as [| |ni| | | | |]; cbn [default_params]; rewrite ?def_ok by reflexivity; cbn [bind]; eexists; (split; [reflexivity|]);
      unfold ptree_ok, no_none; cbn; repeat split; auto; try discriminate; repeat constructor; cbn; try intuition discriminate.
  - cbn [default_params]. rewrite E1, E2. cbn [bind]. eexists. split; [reflexivity|]. unfold ptree_ok, no_none in *. rewrite kd_node, !every_node.
    split; [split; [split|]|].
    { apply kernel12_nodup. }
    { apply pair_forall; cbn [snd]; tauto. }
    { apply pair_forall; cbn [snd]; tauto. }
    { apply pair_forall; cbn [snd]; tauto. }
  - cbn [default_params]. rewrite E1, E2. cbn [bind]. eexists. split; [reflexivity|]. unfold ptree_ok, no_none in *. rewrite kd_node, !every_node.
    split; [split; [split|]|].
    { apply kernel12_nodup. }
    { apply pair_forall; cbn [snd]; tauto. }
    { apply pair_forall; cbn [snd]; tauto. }
    { apply pair_forall; cbn [snd]; tauto. }
Qed.
Lemma default_reads : forall o q (T : ptree) t, sub q T = Some t -> default_params o = Ok t ->
  reads q o T (default_kernel o) /\ safe q o T.
Proof.
  induction o as [c ad|o1 IH1 o2 IH2|o1 IH1 o2 IH2]; intros q T t H D.
  - split; [|split; [|intros path []]].
    + cbn [reads default_kernel]. split; [reflexivity|].
      destruct c as [| |[|]| | | | |]; cbn [default_params] in D; rewrite ?def_ok in D by reflexivity; cbn [bind] in D; inversion D; subst t;
        cbn [default_atom atom_reads]; auto; try split; unfold number_at; rewrite (lookup_app q _ T _ H); cbn; eauto.
    + destruct c as [| |ni| | | | |]; cbn [default_params] in D; rewrite ?def_ok in D by reflexivity; cbn [bind] in D; inversion D; subst t;
        cbn [safe_params]; auto; try split; apply (safe_at_prefix _ q _ T _ H); eexists; eexists; (split; [reflexivity|]); cbn;
        (split; [reflexivity|]); (split; [reflexivity|]); unfold nonneg, positive, integral, in_range, inside;
        (split; [try lra; try (exists 2%nat; cbn; lra); try (pose proof PI_RGT_0; lra)|]); try discriminate; intros _ y Hy; lra.
  - cbn [default_params] in D. destruct (default_params o1) as [t1|] eqn:D1; [|discriminate]. destruct (default_params o2) as [t2|] eqn:D2; [|discriminate].
    cbn [bind] in D. inversion D; subst t.
    assert (S1 : sub (q ++ ["kernel1"])%list T = Some t1) by (rewrite sub_app, H; reflexivity).
    assert (S2 : sub (q ++ ["kernel2"])%list T = Some t2) by (rewrite sub_app, H; reflexivity).
    destruct (IH1 _ T t1 S1 eq_refl) as [A1 [B1 C1]], (IH2 _ T t2 S2 eq_refl) as [A2 [B2 C2]].
    split; [split; assumption|]. split; [split; assumption|]. unfold present. cbn [dicts]. apply present_node. rewrite S1, S2. repeat split; auto; discriminate.
  - cbn [default_params] in D. destruct (default_params o1) as [t1|] eqn:D1; [|discriminate]. destruct (default_params o2) as [t2|] eqn:D2; [|discriminate].
    cbn [bind] in D. inversion D; subst t.
    assert (S1 : sub (q ++ ["kernel1"])%list T = Some t1) by (rewrite sub_app, H; reflexivity).
    assert (S2 : sub (q ++ ["kernel2"])%list T = Some t2) by (rewrite sub_app, H; reflexivity).
    destruct (IH1 _ T t1 S1 eq_refl) as [A1 [B1 C1]], (IH2 _ T t2 S2 eq_refl) as [A2 [B2 C2]].
    split; [split; assumption|]. split; [split; assumption|]. unfold present. cbn [dicts]. apply present_node. rewrite S1, S2. repeat split; auto; discriminate.
Qed.
Lemma default_spec : forall nf o X1 X2, exists t, default_params o = Ok t /\ ptree_ok t /\ reads [] o t (default_kernel o) /\
  call_k nf o X1 X2 t = Ok (Some (kk nf (default_kernel o) X1 X2)).
Proof.
  intros nf o X1 X2. destruct (default_ok o) as [l [D [P _]]]. exists (Node l). split; auto. split; auto.
  destruct (default_reads o [] (Node l) (Node l) eq_refl D) as [R [_ S]]. split; auto. apply (call_reads nf X1 X2 o [] _ _ _ eq_refl). eauto.
Qed.
Lemma init_kernel_params : forall kernel mean t sigma loss s, ptree_ok t -> param_ok sigma -> gpr_init kernel mean t sigma loss = Ok s ->
  sub ["kernel_params"] (s_params s) = Some (canon t).
Proof.
  intros kernel mean t sigma loss s T P H. unfold gpr_init, mk_state in H. rewrite set_params_ok in H.
  - cbn [bind] in H.
    assert (E : s_params s = canon (Node [("kernel_params", t); ("sigma", Leaf (Some sigma))])) by (injection H as <-; reflexivity).
    rewrite E, canon_node. reflexivity.
  - apply every_node. apply pair_forall; cbn [snd]; [apply T|exact P].
Qed.

(** ** safety *)
Lemma safe_reads : forall o q T, safe_params q o T -> exists k, reads q o T k /\ all_atoms (fun _ a => psd_atom a) k /\ ls_nonzero k.
Proof.
  assert (N : forall need path T, safe_at need path T -> exists r, number_at path T r /\ need r).
  { intros need path T [p [r [A [B [C [D _]]]]]]. exists r. split; auto. exists p. auto. }
  induction o as [c ad|o1 IH1 o2 IH2|o1 IH1 o2 IH2]; intros q T S.
  - destruct c as [| |ni| | | | |]; cbn [safe_params] in S;
      try (destruct S as [S1 S2]; apply N in S1; apply N in S2; destruct S1 as [r1 [A1 B1]], S2 as [r2 [A2 B2]]);
      try (apply N in S; destruct S as [r [A B]]); unfold positive, nonneg, integral in *.
    + exists (KAtom ad (AConst r)). cbn. repeat split; auto.
    + exists (KAtom ad ALin). cbn. repeat split; auto.
    + destruct B1 as [n ->]. destruct ni; [exists (KAtom ad (ANoInt n r2))|exists (KAtom ad (APoly n r2))]; cbn; repeat split; auto.
    + exists (KAtom ad (ASE r)). cbn. repeat split; auto. apply Rgt_not_eq. lra.
    + exists (KAtom ad (AM12 r)). cbn. repeat split; auto. apply Rgt_not_eq. lra.
    + exists (KAtom ad (AM32 r)). cbn. repeat split; auto. apply Rgt_not_eq. lra.
    + exists (KAtom ad (AM52 r)). cbn. repeat split; auto. apply Rgt_not_eq. lra.
    + exists (KAtom ad (APer r1 r2)). cbn. repeat split; auto. apply Rgt_not_eq. lra.
  - destruct S as [S1 S2]. destruct (IH1 _ T S1) as [k1 [A1 [B1 C1]]], (IH2 _ T S2) as [k2 [A2 [B2 C2]]]. exists (KSum k1 k2). repeat split; auto.
  - destruct S as [S1 S2]. destruct (IH1 _ T S1) as [k1 [A1 [B1 C1]]], (IH2 _ T S2) as [k2 [A2 [B2 C2]]]. exists (KProd k1 k2). repeat split; auto.
Qed.
Lemma safe_gram : forall nf n X o q T t sigma, sub q T = Some t -> safe q o T ->
  exists K, call_k nf o X X t = Ok (Some K) /\ (forall i j, K i j = K j i) /\
  (forall c : Vec, (0 <= sum n (fun i => sum n (fun j => c i * K i j * c j)))%R) /\
  pd n (noisy sigma K).
Proof.
  intros nf n X o q T t sigma H [S P]. destruct (safe_reads o q T S) as [k [R [PA LS]]]. exists (kk nf k X X).
  split; [apply (call_reads nf X X o q T t _ H); eauto|]. split; [intros; apply kk_sym|]. split; [now apply gram_psd_kk|].
  assert (J : (0 < sigma ^ 2 + / 10 ^ 10)%R).
  { assert (0 < / 10 ^ 10)%R by (apply Rinv_0_lt_compat, pow_lt; lra). pose proof (pow2_ge_0 sigma). lra. }
  refine (pd_add_diag n _ _ _ J). intro v. pose proof (gram_psd_kk nf n X k PA v) as G. unfold qf, bf in *. exact G.
Qed.
