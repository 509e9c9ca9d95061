(** From arrays and parameter dictionaries to matrices and back. *)
From Coq Require Import List String Reals Arith Bool ZArith Lia Lra.
From Verif Require Import Base.Sums Base.Mat Model.Arrays Model.Kernels Model.LinAlg Model.Operations Model.GPR Model.SGPR Model.PyDict Model.Params Model.State
  Model.Calls Model.Lifecycle Model.KernelObj Model.Public Model.Concrete
  Spec.KernelSpec Spec.GPSpec Spec.StateSpec Spec.LifecycleSpec Spec.KernelObjSpec Spec.EquivSpec Spec.PublicSpec Spec.ConcreteSpec
  Proofs.LinAlgFacts Proofs.GPRFacts Proofs.GPRPack Proofs.GPREquiv Proofs.GPRCov Proofs.GPRTDFit Proofs.Loops Proofs.Contraction Proofs.KernelObjFacts Proofs.PublicFacts Proofs.SGPRIter Proofs.KernelDerivs Proofs.KernelSym Model.RPCholesky.
Import ListNotations.
Open Scope string_scope.
Open Scope R_scope.

(** ** arrays *)
Lemma shaped_float64 : forall sh a, shaped sh a -> float64 a = true.
Proof.
  intros sh [s d l] [E [E1 [E2 H]]]. unfold float64. cbn [a_shape a_dtype a_data] in *. subst s d. rewrite E2, Nat.eqb_refl. cbn [andb].
  apply forallb_forall. intros x Hx. specialize (H x Hx). destruct x; [reflexivity|congruence].
Qed.
Lemma mat_of_shaped : forall n m a, shaped [n; m] a -> mat_of a = Some (n, m, entry a).
Proof. intros n m a H. unfold mat_of, entry. rewrite (shaped_float64 _ _ H), (proj1 H). reflexivity. Qed.
Lemma ten_of_shaped : forall n m p a, shaped [n; m; p] a -> ten_of a = Some (n, m, p, entry3 a).
Proof. intros n m p a H. unfold ten_of, entry3. rewrite (shaped_float64 _ _ H), (proj1 H). reflexivity. Qed.
Lemma arr2_shaped : forall n m M, shaped [n; m] (arr2 n m M).
Proof.
  intros n m M. split; [reflexivity|]. split; [reflexivity|]. split.
  - unfold arr2, size_of. cbn [a_data fold_right]. rewrite map_length, seq_length. lia.
  - intros x H. apply in_map_iff in H. destruct H as [r [<- _]]. discriminate.
Qed.
Lemma entry_arr2 : forall n m M i j, (i < n)%nat -> (j < m)%nat -> entry (arr2 n m M) i j = M i j.
Proof.
  intros n m M i j Hi Hj. unfold entry, arr2. cbn [a_shape a_data].
  assert (H : (i * m + j < n * m)%nat) by nia.
  rewrite (nth_indep _ None (Some (M (0 / m)%nat (0 mod m)%nat))) by (rewrite map_length, seq_length; lia).
  rewrite (map_nth (fun r => Some (M (r / m)%nat (r mod m)%nat))). rewrite seq_nth by auto. cbn [Nat.add real].
  now rewrite blk_div, blk_mod by auto.
Qed.
Lemma scalar_arr0 : forall r, scalar_of (arr0 r) = Some r.
Proof. reflexivity. Qed.
Lemma mat_of_arr2 : forall n m M, mat_of (arr2 n m M) = Some (n, m, entry (arr2 n m M)).
Proof. intros. apply mat_of_shaped, arr2_shaped. Qed.

(** ** parameters *)
Lemma kernel_of_reads : forall o q (T : ptree) t k, sub q T = Some t -> (kernel_of o t = Some k <-> reads q o T k /\ present q o T).
Proof.
  induction o as [c ad|o1 IH1 o2 IH2|o1 IH1 o2 IH2]; intros q T t k H; cbn [kernel_of].
  - split.
    + intro J. destruct (values c t) as [vs|e] eqn:V; [|discriminate]. destruct (atom_of c vs) as [a|] eqn:E; [|discriminate].
      injection J as <-. split; [|intros p []]. split; [reflexivity|]. apply (atom_reads_iff q c T t a H). eauto.
    + intros [J _]. destruct k as [ad' a| |]; cbn [reads] in J; try contradiction. destruct J as [-> J].
      apply (atom_reads_iff q c T t a H) in J. destruct J as [vs [-> E]]. rewrite E. reflexivity.
  - unfold present. cbn [dicts]. rewrite present_node. rewrite !(sub_item q T t _ H). split.
    + intro J. destruct (item "kernel1" t) as [t1|] eqn:I1; [|discriminate]. destruct (item "kernel2" t) as [t2|] eqn:I2; [|discriminate].
      destruct (kernel_of o1 t1) as [k1|] eqn:C1; [|discriminate]. destruct (kernel_of o2 t2) as [k2|] eqn:C2; [|discriminate]. injection J as <-.
      apply (IH1 _ T t1 _ (item_sub q T t _ _ H I1)) in C1. apply (IH2 _ T t2 _ (item_sub q T t _ _ H I2)) in C2.
      destruct C1, C2. split; [split; auto|]. split; [discriminate|]. split; [discriminate|]. split; auto.
    + intros [J [D1 [D2 [P1 P2]]]]. destruct k as [|k1 k2|]; cbn [reads] in J; try contradiction. destruct J as [R1 R2].
      destruct (item "kernel1" t) as [t1|] eqn:I1; [|congruence]. destruct (item "kernel2" t) as [t2|] eqn:I2; [|congruence].
      rewrite (proj2 (IH1 _ T t1 k1 (item_sub q T t _ _ H I1))) by auto.
      rewrite (proj2 (IH2 _ T t2 k2 (item_sub q T t _ _ H I2))) by auto. reflexivity.
  - unfold present. cbn [dicts]. rewrite present_node. rewrite !(sub_item q T t _ H). split.
    + intro J. destruct (item "kernel1" t) as [t1|] eqn:I1; [|discriminate]. destruct (item "kernel2" t) as [t2|] eqn:I2; [|discriminate].
      destruct (kernel_of o1 t1) as [k1|] eqn:C1; [|discriminate]. destruct (kernel_of o2 t2) as [k2|] eqn:C2; [|discriminate]. injection J as <-.
      apply (IH1 _ T t1 _ (item_sub q T t _ _ H I1)) in C1. apply (IH2 _ T t2 _ (item_sub q T t _ _ H I2)) in C2.
      destruct C1, C2. split; [split; auto|]. split; [discriminate|]. split; [discriminate|]. split; auto.
    + intros [J [D1 [D2 [P1 P2]]]]. destruct k as [| |k1 k2]; cbn [reads] in J; try contradiction. destruct J as [R1 R2].
      destruct (item "kernel1" t) as [t1|] eqn:I1; [|congruence]. destruct (item "kernel2" t) as [t2|] eqn:I2; [|congruence].
      rewrite (proj2 (IH1 _ T t1 k1 (item_sub q T t _ _ H I1))) by auto.
      rewrite (proj2 (IH2 _ T t2 k2 (item_sub q T t _ _ H I2))) by auto. reflexivity.
Qed.
(** the kernel of the object is the one its method k computes *)
Lemma kernel_of_call : forall nf o X1 X2 t k, kernel_of o t = Some k -> call_k nf o X1 X2 t = Ok (Some (kk nf k X1 X2)).
Proof.
  intros nf o X1 X2 t k H. apply (kernel_of_reads o [] t t k eq_refl) in H. destruct H as [H P].
  apply (call_reads nf X1 X2 o [] t t _ eq_refl). split; [eauto|exact P].
Qed.

Section N.
  Variables (la : linalg) (choose : nat -> Vec -> nat) (kernels : obj -> option kobj) (means : obj -> option (nat -> nat -> Mat -> R)) (rest : numerics).
  Lemma hyper_ok : forall p kernel ko k sg, kernels kernel = Some ko -> reads ["kernel_params"] ko p k -> present ["kernel_params"] ko p ->
    sub ["kernel_params"] p <> None -> number_at ["sigma"] p sg -> hyper kernels p kernel = Some (k, sg).
  Proof.
    intros p kernel ko k sg EK Rd Pr Sb Sg. unfold hyper. rewrite EK.
    destruct (sub ["kernel_params"] p) as [t|] eqn:E; [|congruence].
    assert (EI : item "kernel_params" p = Ok t).
    { destruct p as [a|l]; cbn in E |- *; [discriminate|]. destruct (get "kernel_params" l); [congruence|discriminate]. }
    rewrite EI. apply (number_iff [] p p "sigma" sg eq_refl) in Sg. destruct Sg as [v [Ev Es]]. rewrite Ev, Es.
    rewrite (proj2 (kernel_of_reads ko _ p t k E)) by auto. reflexivity.
  Qed.
  Lemma pivots_some : forall m o, pivots_ok m o -> exists np, pivots m o = Some np.
  Proof.
    intros m o H. unfold pivots. destruct (o_iterative o) eqn:E; [|eauto]. destruct (H E) as [np [-> L]].
    rewrite (proj2 (Z.leb_le 0 (Z.of_nat np))) by lia. rewrite Nat2Z.id, (proj2 (Nat.leb_le np m)) by auto. eexists. reflexivity.
  Qed.
  (** what is kept in the state lies in the range the arrays have *)
  Lemma c_gpr_plain : plain_numerics rest -> plain_numerics (gpr_numerics la choose kernels means rest).
  Proof.
    intros HR t p k m vs d o f name H. cbn [gpr_numerics n_fit] in H. unfold c_gpr_fit in H. cbv zeta in H.
    assert (F : forall l, (forall n a, In (n, a) l -> plain a) -> plain (fields l name)).
    { intros l Hl. unfold fields. induction l as [|[n a] l IH]; cbn [get].
      - intros _. discriminate.
      - destruct (String.eqb name n); [apply (Hl n a); left; reflexivity|].
        apply IH. intros n' a' I. apply (Hl n' a'). now right. }
    assert (P2 : forall n m M, plain (arr2 n m M)) by (intros; intro; discriminate).
    assert (P0 : forall r, plain (arr0 r)) by (intros; intro; discriminate).
    destruct d as [x y|x y j|x y j dy].
    - repeat match type of H with context [match ?e with _ => _ end] => destruct e; try (now apply (HR _ _ _ _ _ _ _ _ name) in H) end.
      injection H as <-. apply F. intros nm a [E|[E|[]]]; injection E as <- <-; auto.
    - repeat match type of H with context [match ?e with _ => _ end] => destruct e; try (now apply (HR _ _ _ _ _ _ _ _ name) in H) end.
      injection H as <-. apply F. intros nm a [E|[E|[E|[]]]]; injection E as <- <-; auto.
    - now apply (HR _ _ _ _ _ _ _ _ name) in H.
  Qed.
  Hypothesis ok : linalg_ok la.
  Let N := gpr_numerics la choose kernels means rest.

  (** fit, then predict from what the fit left behind *)
  Lemma answers_mean : forall full n o M nc V M' V', (forall i j, (i < n)%nat -> (j < o)%nat -> M' i j = M i j) ->
    (full = true -> forall i j, (i < nc)%nat -> (j < nc)%nat -> V' i j = V i j) ->
    answers (Ok (if full then [arr2 n o M'; arr2 nc nc V'] else [arr2 n o M'])) full n o M nc V.
  Proof.
    intros full n o M nc V M' V' H HV. unfold answers. exists (arr2 n o M'). destruct full.
    - exists [arr2 nc nc V']. split; [reflexivity|]. split; [apply arr2_shaped|]. split; [intros; rewrite entry_arr2; auto|].
      eexists. split; [reflexivity|]. split; [apply arr2_shaped|]. intros. rewrite entry_arr2; auto.
    - exists []. split; [reflexivity|]. split; [apply arr2_shaped|]. split; [intros; rewrite entry_arr2; auto|reflexivity].
  Qed.
  Section H.
    Variables (p : ptree) (kernel mean : obj) (k : kexp) (sg : R).
    Hypothesis HY : hyper kernels p kernel = Some (k, sg).
    Hypothesis HP : all_atoms (fun _ a => psd_atom a) k.
    Hypothesis Hs : sg <> 0.
    Lemma gpr_numbers : forall mf x y o m nf oo f q n, means mean = Some mf -> shaped [m; nf] x -> shaped [m; oo] y -> pivots_ok m o ->
      n_fit N TTargets p kernel mean [] (Targets x y) o = Ok f ->
      shaped [n; nf] (q_x q) -> compatible (q_full q) (q_iterative q) ->
      answers (n_predict N p kernel [OArr x; OArr (f "c"); OArr (f "mu")] q) (q_full q) n oo
        (gpr la m oo nf k sg mf (entry x) (entry y) (entry (q_x q))) n (predict_cov la m nf k sg (entry x) (entry (q_x q))).
    Proof.
      intros mf x y o m nf oo f q n EM SX SY PO F SQ Hc. cbn [N gpr_numerics n_fit n_predict] in *. unfold c_gpr_fit in F. cbv zeta in F.
      rewrite HY, EM, (mat_of_shaped _ _ _ SX), (mat_of_shaped _ _ _ SY) in F. destruct (pivots_some m o PO) as [np Ep]. rewrite Ep, Nat.eqb_refl in F.
      set (s := gpr_fit la choose nf k sg mf blank m oo (entry x) (entry y) (o_iterative o) np) in F.
      match type of F with Ok ?g = Ok f => assert (EF : g = f) by congruence end. rewrite <- EF. clear F EF.
      change (fields [("c", arr2 m oo (g_c s)); ("mu", arr0 (g_mu s))] "c") with (arr2 m oo (g_c s)).
      change (fields [("c", arr2 m oo (g_c s)); ("mu", arr0 (g_mu s))] "mu") with (arr0 (g_mu s)).
      unfold c_gpr_predict. cbv zeta. rewrite HY, (mat_of_shaped _ _ _ SX), mat_of_arr2, scalar_arr0, (mat_of_shaped _ _ _ SQ), !Nat.eqb_refl. cbn [andb].
      unfold gpr_predict, guarded. cbn [g_fitted g_fitted_derivs negb g_m g_x g_c g_mu]. unfold compatible in Hc. rewrite Hc.
      destruct (pub_coef la ok choose nf k sg mf HP Hs blank m oo (entry x) (entry y) (o_iterative o) np) as [Ec Em].
      fold s in Ec, Em. cbv zeta in Ec, Em.
      assert (E : forall t j, (t < n)%nat -> (j < oo)%nat -> predict_dense m nf k sg (entry x) (entry (q_x q)) (entry (arr2 m oo (g_c s))) (g_mu s) t j
        = gpr la m oo nf k sg mf (entry x) (entry y) (entry (q_x q)) t j).
      { intros t j Ht Hj. unfold gpr, predict_dense. cbv zeta. rewrite Em. f_equal. apply (mm_arg m oo); auto.
        intros a b Ha Hb. rewrite entry_arr2 by auto. now apply Ec. }
      destruct (q_iterative q), (q_full q); try discriminate; cbn [bind].
      - apply (answers_mean false n oo _ n _ _ (fun _ _ => 0)); [|discriminate]. intros i j Hi Hj. rewrite predict_iter_eq by auto. auto.
      - apply (answers_mean true n oo _ n). exact E. reflexivity.
      - apply (answers_mean false n oo _ n _ _ (fun _ _ => 0)); [|discriminate]. exact E.
    Qed.
    Hypothesis L : ls_nonzero k.
    Hypothesis HD : dgram_ok k.
    Section D.
      Variables (x y j : array) (o : options) (m nf nv : nat) (f : string -> array) (q : query) (n : nat).
      Hypothesis W : wf nf k.
      Hypothesis SX : shaped [m; nf] x.
      Hypothesis SY : shaped [m; nv] y.
      Hypothesis SJ : shaped [m; nf; nv] j.
      Hypothesis PO : pivots_ok (m * nv) o.
      Hypothesis F : n_fit N TDerivs p kernel mean [] (Derivs x y j) o = Ok f.
      Hypothesis SQ : shaped [n; nf] (q_x q).
      Hypothesis Hc : compatible (q_full q) (q_iterative q).
      Hypothesis Hd : default_mode (q_full q) (q_iterative q) -> is_sum k = false /\ no_m52 k.
      Let c0 := fst (fit_derivs_dense la m nf nv k sg (entry x) (entry3 j) (entry y) zero_mean).
      Lemma derivs_fit : exists C U JC, f "c" = arr2 (m * nv) 1 C /\ f "mu" = arr0 U /\ f "jaccoef" = arr2 m nf JC /\
        meq (m * nv) 1 C c0 /\ U = 0 /\ JC = jaccoef_of nv C (entry3 j).
      Proof.
        pose proof F as F0. cbn [N gpr_numerics n_fit] in F0. unfold c_gpr_fit in F0. cbv zeta in F0.
        rewrite HY, (mat_of_shaped _ _ _ SX), (mat_of_shaped _ _ _ SY), (ten_of_shaped _ _ _ _ SJ) in F0.
        destruct (pivots_some _ o PO) as [np Ep]. rewrite Ep, !Nat.eqb_refl in F0. cbn [andb] in F0.
        set (s := gpr_fit_derivs la choose nf k sg m nv (entry x) (entry y) (entry3 j) (o_iterative o) np) in F0.
        match type of F0 with Ok ?g = Ok f => assert (EF : g = f) by congruence end. rewrite <- EF.
        exists (g_c s), (g_mu s), (g_jaccoef s). split; [reflexivity|]. split; [reflexivity|]. split; [reflexivity|].
        destruct (pub_dcoef la ok choose nf k sg HP Hs W L HD m nv (entry x) (entry y) (entry3 j) (o_iterative o) np) as [Ec Em].
        split; [exact Ec|]. split; [exact Em|]. reflexivity.
      Qed.
      Lemma jc_read : forall C s f, (s < m)%nat -> (f < nf)%nat -> meq (m * nv) 1 C c0 ->
        entry (arr2 m nf (jaccoef_of nv C (entry3 j))) s f = jaccoef_of nv c0 (entry3 j) s f.
      Proof.
        intros C s f0 Hs0 Hf EC. rewrite entry_arr2 by auto. unfold jaccoef_of. apply sum_ext. intros v Hv. f_equal. apply EC; [nia|lia].
      Qed.
      Lemma c_read : forall C, meq (m * nv) 1 C c0 -> meq (m * nv) 1 (entry (arr2 (m * nv) 1 C)) c0.
      Proof. intros C EC a b Ha Hb. rewrite entry_arr2 by auto. now apply EC. Qed.

      Lemma gpr_derivs_numbers : forall jq nd, q_jacobian q = Some jq -> shaped [n; nf; nd] jq ->
        let r := if q_full q then (n * nd)%nat else n in let w := if q_full q then 1%nat else nd in
        answers (n_predict_derivs N p kernel ([OArr x; OArr j; OArr (f "c")] ++ (if dense_mean q then [OArr (f "jaccoef")] else []))%list q)
          (q_full q) r w
          (fun a b => if q_full q then gpr_derivs la m nf nv k sg (entry x) (entry3 j) (entry y) n nd (entry (q_x q)) (entry3 jq) (a / nd)%nat (a mod nd)%nat
                      else gpr_derivs la m nf nv k sg (entry x) (entry3 j) (entry y) n nd (entry (q_x q)) (entry3 jq) a b)
          (n * nd) (predict_derivs_cov la m n nf nv nd k sg (entry x) (entry3 j) (entry (q_x q)) (entry3 jq)).
      Proof.
        intros jq nd EJ SJQ r w. destruct derivs_fit as [C [U [JC [-> [_ [-> [EC [_ ->]]]]]]]]. cbn [N gpr_numerics n_predict_derivs].
        unfold c_gpr_predict_derivs. cbv zeta. rewrite EJ. cbn [app].
        rewrite HY, (mat_of_shaped _ _ _ SX), (ten_of_shaped _ _ _ _ SJ), mat_of_arr2, (mat_of_shaped _ _ _ SQ), (ten_of_shaped _ _ _ _ SJQ).
        set (CC := entry (arr2 (m * nv) 1 C)). assert (ECC : meq (m * nv) 1 CC c0) by (now apply c_read).
        set (D := gpr_derivs la m nf nv k sg (entry x) (entry3 j) (entry y) n nd (entry (q_x q)) (entry3 jq)).
        assert (E : forall t u, predict_derivs_dense m n nf nv nd k sg (entry x) (entry3 j) (entry (q_x q)) (entry3 jq) CC 0 t u = D t u).
        { intros t u. unfold D, gpr_derivs, predict_derivs_dense, unflat. cbv zeta. f_equal. apply (mm_arg (m * nv) 1); auto. }
        unfold r, w, dense_mean, default_mode, compatible in *. destruct (q_full q), (q_iterative q); try discriminate; cbn [negb andb app].
        - rewrite !Nat.eqb_refl. cbn [andb]. unfold gpr_predict_derivs, guarded. cbn [g_fitted g_fitted_derivs negb andb g_m g_nv g_x g_jac g_c bind].
          apply (answers_mean true (n * nd) 1 _ (n * nd)); [|reflexivity]. intros a b Ha Hb.
          assert (0 < nd)%nat by nia. rewrite <- E. unfold predict_derivs_dense, unflat. cbv zeta.
          assert (b = 0)%nat by lia. subst b. do 2 f_equal. rewrite Nat.mul_comm, <- Nat.div_mod by lia. reflexivity.
        - rewrite !Nat.eqb_refl. cbn [andb]. unfold gpr_predict_derivs, guarded. cbn [g_fitted g_fitted_derivs negb andb g_m g_nv g_x g_jac g_c bind].
          apply (answers_mean false n nd _ (n * nd) _ _ (fun _ _ => 0)); [|discriminate]. intros a b Ha Hb. rewrite <- E.
          apply predict_derivs_iter_eq; auto. intros ? ? _ _. now apply dgram_regular.
        - rewrite mat_of_arr2, !Nat.eqb_refl. cbn [andb]. destruct (Hd (conj eq_refl eq_refl)) as [D1 D2].
          unfold gpr_predict_derivs, guarded. cbn [g_fitted g_fitted_derivs negb andb g_m g_nv g_x g_jac g_c g_jaccoef].
          unfold call. rewrite accepts_d01kjc, D1. cbn [negb bind].
          apply (answers_mean false n nd _ (n * nd) _ _ (fun _ _ => 0)); [|discriminate]. intros a b Ha Hb.
          transitivity (predict_derivs_jaccoef m n nf nd k (entry x) (entry (q_x q)) (entry3 jq) 0 (jaccoef_of nv c0 (entry3 j)) a b).
          + unfold predict_derivs_jaccoef, unflat. f_equal. apply sum_ext. intros i Hi. rewrite !d01kjc_ctr by auto.
            apply sum_ext. intros e He. apply sum_ext. intros e' He'. rewrite jc_read by auto. reflexivity.
          + rewrite (predict_derivs_jaccoef_eq m n nf nv nd k sg (entry x) (entry3 j) (entry (q_x q)) (entry3 jq)) by auto. reflexivity.
      Qed.
      Lemma gpr_y_derivs_numbers :
        answers (n_predict_y_derivs N p kernel ([OArr x; OArr j; OArr (f "c"); OArr (f "mu")] ++ (if dense_mean q then [OArr (f "jaccoef")] else []))%list q)
          (q_full q) n 1 (gpr_y_derivs la m nf nv k sg (entry x) (entry3 j) (entry y) n (entry (q_x q)))
          n (predict_y_derivs_cov la m n nf nv k sg (entry x) (entry3 j) (entry (q_x q))).
      Proof.
        destruct derivs_fit as [C [U [JC [-> [-> [-> [EC [-> ->]]]]]]]]. cbn [N gpr_numerics n_predict_y_derivs].
        unfold c_gpr_predict_y_derivs. cbv zeta. cbn [app].
        rewrite HY, (mat_of_shaped _ _ _ SX), (ten_of_shaped _ _ _ _ SJ), mat_of_arr2, scalar_arr0, (mat_of_shaped _ _ _ SQ).
        set (CC := entry (arr2 (m * nv) 1 C)). assert (ECC : meq (m * nv) 1 CC c0) by (now apply c_read).
        set (D := gpr_y_derivs la m nf nv k sg (entry x) (entry3 j) (entry y) n (entry (q_x q))).
        assert (E : forall t b, (b < 1)%nat -> predict_y_derivs_dense m n nf nv k (entry x) (entry3 j) (entry (q_x q)) CC 0 t b = D t b).
        { intros t b Hb. unfold D, gpr_y_derivs, predict_y_derivs_dense. cbv zeta.
          change (snd (fit_derivs_dense la m nf nv k sg (entry x) (entry3 j) (entry y) zero_mean)) with 0. f_equal. apply (mm_arg (m * nv) 1); auto. }
        unfold dense_mean, default_mode, compatible in *. destruct (q_full q), (q_iterative q); try discriminate; cbn [negb andb app].
        - rewrite !Nat.eqb_refl. cbn [andb]. unfold gpr_predict_y_derivs, guarded. cbn [g_fitted g_fitted_derivs negb andb g_m g_nv g_x g_jac g_c g_mu bind].
          apply (answers_mean true n 1 _ n); [|reflexivity]. intros; now apply E.
        - rewrite !Nat.eqb_refl. cbn [andb]. unfold gpr_predict_y_derivs, guarded. cbn [g_fitted g_fitted_derivs negb andb g_m g_nv g_x g_jac g_c g_mu bind].
          apply (answers_mean false n 1 _ n _ _ (fun _ _ => 0)); [|discriminate]. intros a b Ha Hb. rewrite <- E by auto.
          now apply predict_y_derivs_iter_eq.
        - rewrite mat_of_arr2, !Nat.eqb_refl. cbn [andb]. destruct (Hd (conj eq_refl eq_refl)) as [D1 D2].
          unfold gpr_predict_y_derivs, guarded. cbn [g_fitted g_fitted_derivs negb andb g_m g_nv g_x g_jac g_c g_mu g_jaccoef].
          unfold call. rewrite accepts_d0kjc, D1. cbn [negb bind].
          apply (answers_mean false n 1 _ n _ _ (fun _ _ => 0)); [|discriminate]. intros a b Ha Hb. assert (b = 0)%nat by lia. subst b.
          transitivity (predict_y_derivs_jaccoef m n nf k (entry x) (entry (q_x q)) 0 (jaccoef_of nv c0 (entry3 j)) a 0%nat).
          + unfold predict_y_derivs_jaccoef. f_equal. apply sum_ext. intros i Hi. rewrite !d0kjc_ctr by auto.
            apply sum_ext. intros e He. rewrite jc_read by auto. reflexivity.
          + rewrite (predict_y_derivs_jaccoef_eq m n nf nv k (entry x) (entry3 j) (entry (q_x q))) by auto. reflexivity.
      Qed.
    End D.
  End H.
End N.

(** ** sparse models *)
Section S.
  Variables (la : linalg) (choose : nat -> Vec -> nat) (kernels : obj -> option kobj) (means : obj -> option (nat -> nat -> Mat -> R)) (rest : numerics).
  Variable keyed : obj -> nat -> Vec -> nat.
  Lemma fields_plain : forall l name, (forall n a, In (n, a) l -> plain a) -> plain (fields l name).
  Proof.
    intros l name Hl. unfold fields. induction l as [|[n a] l IH]; cbn [get].
    - intros _. discriminate.
    - destruct (String.eqb name n); [apply (Hl n a); left; reflexivity|]. apply IH. intros n' a' I. apply (Hl n' a'). now right.
  Qed.
  Lemma c_sgpr_plain : plain_numerics rest -> plain_numerics (sgpr_numerics la kernels means rest).
  Proof.
    intros HR t p k m vs d o f name H. cbn [sgpr_numerics n_fit] in H. unfold c_sgpr_fit in H. cbv zeta in H.
    destruct d as [x y|x y j|x y j dy]; try (now apply (HR _ _ _ _ _ _ _ _ name) in H).
    - repeat match type of H with context [match ?e with _ => _ end] => destruct e; try (now apply (HR _ _ _ _ _ _ _ _ name) in H) end.
      injection H as <-. apply fields_plain. intros nm a [E|[E|[]]]; injection E as <- <-; intro; discriminate.
    - repeat match type of H with context [match ?e with _ => _ end] => destruct e; try (now apply (HR _ _ _ _ _ _ _ _ name) in H) end.
      injection H as <-. apply fields_plain. intros nm a [E|[E|[E|[]]]]; injection E as <- <-; intro; discriminate.
  Qed.
  Lemma c_rp_plain : plain_numerics rest -> plain_numerics (rp_numerics la kernels means rest keyed).
  Proof.
    intros HR t p k m vs d o f name H. cbn [rp_numerics n_fit] in H. unfold c_rp_fit in H. cbv zeta in H.
    destruct d as [x y|x y j|x y j dy]; try (now apply (HR _ _ _ _ _ _ _ _ name) in H).
    - repeat match type of H with context [match ?e with _ => _ end] => destruct e; try (now apply (HR _ _ _ _ _ _ _ _ name) in H) end.
      injection H as <-. apply fields_plain. intros nm b0 [E|[E|[E|[]]]]; injection E as <- <-; intro; discriminate.
    - repeat match type of H with context [match ?e with _ => _ end] => destruct e; try (now apply (HR _ _ _ _ _ _ _ _ name) in H) end.
      injection H as <-. apply fields_plain. intros nm b0 [E|[E|[E|[E|[E|[]]]]]]; injection E as <- <-; intro; discriminate.
  Qed.
  Hypothesis ok : linalg_ok la.
  Section H.
    Variables (p : ptree) (kernel mean : obj) (k : kexp) (sg : R).
    Hypothesis HY : hyper kernels p kernel = Some (k, sg).
    Hypothesis HP : all_atoms (fun _ a => psd_atom a) k.
    Lemma sgpr_numbers : forall mf x y o m nf oo f q n nl xl, means mean = Some mf -> shaped [m; nf] x -> shaped [m; oo] y ->
      lookup ["x_locs"] p = Some (Some xl) -> shaped [nl; nf] (p_value xl) ->
      n_fit (sgpr_numerics la kernels means rest) TTargets p kernel mean [] (Targets x y) o = Ok f ->
      shaped [n; nf] (q_x q) -> compatible (q_full q) (q_iterative q) ->
      answers (n_predict (sgpr_numerics la kernels means rest) p kernel [OArr (p_value xl); OArr (f "c"); OArr (f "mu")] q) (q_full q) n oo
        (sgpr la nl m oo nf k sg mf (entry (p_value xl)) (entry x) (entry y) (entry (q_x q)))
        n (sg_predict_cov la nl n nf k sg (entry (p_value xl)) (entry (q_x q))).
    Proof.
      intros mf x y o m nf oo f q n nl xl EM SX SY LX SL F SQ Hc. cbn [sgpr_numerics n_fit n_predict] in *. unfold c_sgpr_fit in F. cbv zeta in F.
      assert (EL : param_array p "x_locs" = Some (p_value xl)).
      { unfold param_array. destruct p as [a|d]; [discriminate|]. cbn [lookup] in LX. cbn [item]. destruct (get "x_locs" d) as [t|]; [|discriminate]. cbn [bind].
        destruct t as [a|d']; cbn in LX; [|discriminate]. injection LX as ->. reflexivity. }
      rewrite HY, EM, (mat_of_shaped _ _ _ SX), (mat_of_shaped _ _ _ SY), EL in F. cbn [option_map] in F. rewrite (mat_of_shaped _ _ _ SL), !Nat.eqb_refl in F. cbn [andb] in F.
      set (s := sgpr_fit la nf k sg mf (s_blank nl (entry (p_value xl))) m oo (entry x) (entry y) (o_iterative o)) in F.
      match type of F with Ok ?g = Ok f => assert (EF : g = f) by congruence end. rewrite <- EF. clear F EF.
      change (fields [("c", arr2 nl oo (s_c s)); ("mu", arr0 (s_mu s))] "c") with (arr2 nl oo (s_c s)).
      change (fields [("c", arr2 nl oo (s_c s)); ("mu", arr0 (s_mu s))] "mu") with (arr0 (s_mu s)).
      unfold c_sgpr_predict. cbv zeta. rewrite HY, (mat_of_shaped _ _ _ SL), mat_of_arr2, scalar_arr0, (mat_of_shaped _ _ _ SQ), !Nat.eqb_refl. cbn [andb].
      unfold sgpr_predict, guarded. cbn [s_fitted s_fitted_derivs negb s_m s_locs s_c s_mu]. pose proof Hc as Hc'. unfold compatible in Hc'. rewrite Hc'. clear Hc'.
      assert (E : forall t j, (t < n)%nat -> (j < oo)%nat -> sg_predict_dense nl nf k (entry (p_value xl)) (entry (q_x q)) (entry (arr2 nl oo (s_c s))) (s_mu s) t j
        = sgpr la nl m oo nf k sg mf (entry (p_value xl)) (entry x) (entry y) (entry (q_x q)) t j).
      { intros t j Ht Hj. destruct (sg_pub_predict la ok nf k sg mf HP (s_blank nl (entry (p_value xl))) m oo (entry x) (entry y) (o_iterative o) n (entry (q_x q)) false false eq_refl) as [out [E1 E2]].
        fold s in E1. unfold sgpr_predict, guarded in E1. cbn [s_blank s_m s_locs] in E2. rewrite <- E2 by auto.
        assert (EO : out = Mean (sg_predict_dense nl nf k (entry (p_value xl)) (entry (q_x q)) (s_c s) (s_mu s))) by (unfold s in E1 |- *; cbn in E1 |- *; congruence).
        rewrite EO. cbn [mean_of]. unfold sg_predict_dense. cbv zeta. f_equal. apply (mm_arg nl oo); auto. intros a b Ha Hb. now rewrite entry_arr2. }
      unfold compatible in Hc. destruct (q_iterative q), (q_full q); try discriminate; cbn [bind].
      - apply (answers_mean false n oo _ n _ _ (fun _ _ => 0)); [|discriminate]. intros i j Hi Hj. rewrite sg_predict_iter_eq by auto. auto.
      - apply (answers_mean true n oo _ n). exact E. reflexivity.
      - apply (answers_mean false n oo _ n _ _ (fun _ _ => 0)); [|discriminate]. exact E.
    Qed.
    Lemma rp_numbers : forall mf x y o m nf oo f q n nl key a, means mean = Some mf -> wf nf k -> shaped [m; nf] x -> shaped [m; oo] y ->
      scalar_of a = Some (INR nl) -> (nl <= m)%nat ->
      n_fit (rp_numerics la kernels means rest keyed) TTargets p kernel mean [key; OArr a] (Targets x y) o = Ok f ->
      shaped [n; nf] (q_x q) -> compatible (q_full q) (q_iterative q) ->
      let locs : Mat := fun l => entry x (snd (rpcholesky (keyed key) m nf (entry x) nl k) l) in
      shaped [nl; nf] (f "x_locs") /\ (forall i j, (i < nl)%nat -> (j < nf)%nat -> entry (f "x_locs") i j = locs i j) /\
      answers (n_predict (rp_numerics la kernels means rest keyed) p kernel [OArr (f "x_locs"); OArr (f "c"); OArr (f "mu")] q) (q_full q) n oo
        (sgpr la nl m oo nf k sg mf locs (entry x) (entry y) (entry (q_x q)))
        n (sg_predict_cov la nl n nf k sg (entry (f "x_locs")) (entry (q_x q))).
    Proof.
      intros mf x y o m nf oo f q n nl key a EM W SX SY EA Hn F SQ Hc locs. cbn [rp_numerics n_fit n_predict] in *. unfold c_rp_fit in F. cbv zeta in F.
      rewrite HY, EM, (mat_of_shaped _ _ _ SX), (mat_of_shaped _ _ _ SY), EA in F. cbn [option_map] in F.
      assert (EN : nat_of (INR nl) = Some nl).
      { unfold nat_of. rewrite Int_part_INR, Nat2Z.id. destruct (Req_EM_T (INR nl) (INR nl)); congruence. }
      rewrite EN, Nat.eqb_refl, (proj2 (Nat.leb_le nl m)) in F by auto. cbn [andb] in F.
      set (s := rp_fit la (keyed key) nf k sg mf (s_blank 0 (fun _ _ => 0)) nl m oo (entry x) (entry y) (o_iterative o)) in F.
      match type of F with Ok ?g = Ok f => assert (EF : g = f) by congruence end. rewrite <- EF. clear F EF.
      change (fields [("c", arr2 nl oo (s_c s)); ("mu", arr0 (s_mu s)); ("x_locs", arr2 nl nf (s_locs s))] "c") with (arr2 nl oo (s_c s)).
      change (fields [("c", arr2 nl oo (s_c s)); ("mu", arr0 (s_mu s)); ("x_locs", arr2 nl nf (s_locs s))] "mu") with (arr0 (s_mu s)).
      change (fields [("c", arr2 nl oo (s_c s)); ("mu", arr0 (s_mu s)); ("x_locs", arr2 nl nf (s_locs s))] "x_locs") with (arr2 nl nf (s_locs s)).
      assert (ES : s_locs s = locs) by (unfold s, rp_fit; destruct (o_iterative o); reflexivity).
      split; [apply arr2_shaped|]. split; [intros i j Hi Hj; rewrite entry_arr2 by auto; now rewrite ES|].
      unfold c_sgpr_predict. cbv zeta. rewrite HY, !mat_of_arr2, scalar_arr0, (mat_of_shaped _ _ _ SQ), !Nat.eqb_refl. cbn [andb].
      unfold sgpr_predict, guarded. cbn [s_fitted s_fitted_derivs negb s_m s_locs s_c s_mu]. pose proof Hc as Hc'. unfold compatible in Hc'. rewrite Hc'. clear Hc'.
      assert (E : forall t j, (t < n)%nat -> (j < oo)%nat -> sg_predict_dense nl nf k (entry (arr2 nl nf (s_locs s))) (entry (q_x q)) (entry (arr2 nl oo (s_c s))) (s_mu s) t j
        = sgpr la nl m oo nf k sg mf locs (entry x) (entry y) (entry (q_x q)) t j).
      { intros t j Ht Hj. destruct (rp_pub_predict la ok (keyed key) nf k sg mf HP (s_blank 0 (fun _ _ => 0)) nl m oo (entry x) (entry y) (o_iterative o) n (entry (q_x q)) false false eq_refl) as [out [E1 E2]].
        fold s in E1. fold locs in E2. unfold sgpr_predict, guarded in E1. rewrite <- E2 by auto.
        assert (EO : out = Mean (sg_predict_dense nl nf k (s_locs s) (entry (q_x q)) (s_c s) (s_mu s))) by (unfold s in E1 |- *; cbn in E1 |- *; congruence).
        rewrite EO. cbn [mean_of]. unfold sg_predict_dense. cbv zeta. f_equal. unfold mm. apply sum_ext. intros i Hi. rewrite entry_arr2 by auto. f_equal.
        rewrite !kk_at. apply kernel_active. generalize (s_locs s). intro M0. clear - W Hi. unfold wf in W. induction k as [ad at0|k1 IH1 k2 IH2|k1 IH1 k2 IH2]; cbn [all_atoms] in *;
          [|destruct W; split; auto|destruct W; split; auto].
        split; [reflexivity|]. intros d Hd. apply entry_arr2; [exact Hi|]. destruct ad as [ds|]; cbn [active] in Hd; [now apply W|]. apply in_seq in Hd. lia. }
      unfold compatible in Hc. destruct (q_iterative q), (q_full q); try discriminate; cbn [bind].
      - apply (answers_mean false n oo _ n _ _ (fun _ _ => 0)); [|discriminate]. intros i j Hi Hj. rewrite sg_predict_iter_eq by auto. auto.
      - apply (answers_mean true n oo _ n). exact E. reflexivity.
      - apply (answers_mean false n oo _ n _ _ (fun _ _ => 0)); [|discriminate]. exact E.
    Qed.
  End H.
End S.
