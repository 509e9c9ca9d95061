(** Sparse models fitted to derivatives, from arrays and parameter dictionaries. *)
From Coq Require Import List String Reals Arith Bool ZArith Lia Lra.
From Verif Require Import Base.Sums Base.Mat Model.Arrays Model.Kernels Model.LinAlg Model.Operations Model.RPCholesky Model.GPR Model.SGPR Model.PyDict Model.Params Model.State
  Model.Optim Model.Calls Model.Lifecycle Model.KernelObj Model.Public Model.Concrete
  Spec.KernelSpec Spec.GPSpec Spec.StateSpec Spec.LifecycleSpec Spec.KernelObjSpec Spec.EquivSpec Spec.PublicSpec Spec.ConcreteSpec
  Proofs.LinAlgFacts Proofs.GPRFacts Proofs.GPRPack Proofs.GPREquiv Proofs.GPRCov Proofs.GPRTDFit Proofs.Loops Proofs.Contraction Proofs.KernelObjFacts Proofs.PublicFacts
  Proofs.SGPRIter Proofs.SGPRPack Proofs.KernelDerivs Proofs.KernelSym Proofs.Local Proofs.LocalRange Proofs.ConcreteFacts.
Import ListNotations.
Open Scope string_scope.
Open Scope R_scope.

Lemma arr3_shaped : forall n m p T, shaped [n; m; p] (arr3 n m p T).
Proof.
  intros n m p T. split; [reflexivity|]. split; [reflexivity|]. split.
  - unfold arr3, size_of. cbn [a_data fold_right]. rewrite map_length, seq_length. lia.
  - intros x H. apply in_map_iff in H. destruct H as [r [<- _]]. discriminate.
Qed.
Lemma entry3_arr3 : forall n m p T i j k, (i < n)%nat -> (j < m)%nat -> (k < p)%nat -> entry3 (arr3 n m p T) i j k = T i j k.
Proof.
  intros n m p T i j k Hi Hj Hk. unfold entry3, arr3. cbn [a_shape a_data].
  assert (HM : (j * p + k < m * p)%nat) by nia.
  assert (H : ((i * m + j) * p + k = i * (m * p) + (j * p + k))%nat) by lia. rewrite H.
  assert (B : (i * (m * p) + (j * p + k) < n * (m * p))%nat) by nia.
  set (g := fun r => Some (T (r / (m * p))%nat (r mod (m * p) / p)%nat (r mod p)%nat)).
  rewrite (nth_indep _ None (g O)) by (rewrite map_length, seq_length; lia).
  rewrite (map_nth g). rewrite seq_nth by auto. cbn [Nat.add]. unfold g. cbn [real].
  rewrite blk_div, blk_mod, blk_div by auto. do 1 f_equal.
  rewrite <- H. rewrite blk_mod by auto. reflexivity.
Qed.
Lemma ten_of_arr3 : forall n m p T, ten_of (arr3 n m p T) = Some (n, m, p, entry3 (arr3 n m p T)).
Proof. intros. apply ten_of_shaped, arr3_shaped. Qed.
Lemma param_array_of : forall (p : ptree) name xl, lookup [name] p = Some (Some xl) -> param_array p name = Some (p_value xl).
Proof.
  intros p name xl LX. unfold param_array. destruct p as [a|d]; [discriminate|]. cbn [lookup] in LX. cbn [item]. destruct (get name d) as [t|]; [|discriminate]. cbn [bind].
  destruct t as [a|d']; cbn in LX; [|discriminate]. injection LX as ->. reflexivity.
Qed.

(** predictions read the arrays of the state within their range only *)
Section Reread.
  Variables (nf : nat) (k : kexp) (sg : R).
  Hypothesis W : wf nf k.
  Hypothesis L : ls_nonzero k.
  Hypothesis HD : dgram_ok k.
  Variables (m nv : nat) (XL XL' : Mat) (JL JL' : Ten) (C C' JC' : Mat) (mu : R).
  Hypothesis EX : forall s d, (s < m)%nat -> (d < nf)%nat -> XL' s d = XL s d.
  Hypothesis EJ : forall s d v, (s < m)%nat -> (d < nf)%nat -> (v < nv)%nat -> JL' s d v = JL s d v.
  Hypothesis EC : meq (m * nv) 1 C' C.
  Variable iter : bool.
  Hypothesis EK : iter = false -> forall s f, (s < m)%nat -> (f < nf)%nat -> JC' s f = jaccoef_of nv C JL s f.
  Hypothesis H5 : iter = false -> no_m52 k.
  Lemma reread_derivs : forall n nd xs jacs, exists M, sgpr_predict_derivs nf k sg (SGPRState m nv XL' JL' C' mu JC' false true) n nd xs jacs iter = Ok (Mean M) /\
    forall t u, (t < n)%nat -> (u < nd)%nat -> M t u = sg_predict_derivs_dense m n nf nv nd k XL JL xs jacs C 0 t u.
  Proof.
    intros n nd xs jacs. unfold sgpr_predict_derivs, guarded. cbn [s_fitted s_fitted_derivs negb andb s_m s_nv s_locs s_jac_locs s_c s_mu s_jaccoef].
    destruct iter.
    - eexists. split; [reflexivity|]. intros t u Ht Hu. rewrite sg_predict_derivs_iter_eq by auto.
      unfold sg_predict_derivs_dense, unflat. cbv zeta. f_equal. unfold mm. apply sum_ext. intros i Hi. rewrite (EC i O) by lia. f_equal.
      apply d01kj_agree; auto using blk_lt.
    - unfold call. rewrite accepts_pos_d01kjc. eexists. split; [reflexivity|]. intros t u Ht Hu.
      rewrite <- (sg_jaccoef_eq m n nf nv nd k XL JL xs jacs) by (auto; intros a b _ _; now apply dgram_regular).
      unfold sg_predict_derivs_jaccoef, unflat. f_equal. apply sum_ext. intros s Hs. rewrite !d01kjc_ctr by auto.
      apply sum_ext. intros f Hf. apply sum_ext. intros e He. rewrite EK by auto. rewrite !d01k_loc by auto. do 2 f_equal.
      apply D01_agree; auto using agree_refl. intros d Hd. now apply EX.
  Qed.
  Lemma reread_y_derivs : forall n xs, exists M, sgpr_predict_y_derivs nf k (SGPRState m nv XL' JL' C' mu JC' false true) n xs iter = Ok (Mean M) /\
    forall t, (t < n)%nat -> M t O = sg_predict_y_derivs_dense m n nf nv k XL JL xs C mu t O.
  Proof.
    intros n xs. unfold sgpr_predict_y_derivs, guarded. cbn [s_fitted s_fitted_derivs negb andb s_m s_nv s_locs s_jac_locs s_c s_mu s_jaccoef].
    destruct iter.
    - eexists. split; [reflexivity|]. intros t Ht. rewrite sg_predict_y_derivs_iter_eq by auto.
      unfold sg_predict_y_derivs_dense. cbv zeta. f_equal. unfold mm, tr. apply sum_ext. intros i Hi. rewrite (EC i O) by lia. f_equal.
      now apply d0kj_agree.
    - unfold call. rewrite accepts_pos_d0kjc. eexists. split; [reflexivity|]. intros t Ht.
      rewrite <- (sg_jaccoef_values_eq m n nf nv k XL JL xs) by auto.
      unfold sg_predict_y_derivs_jaccoef. f_equal. apply sum_ext. intros s Hs. rewrite !d0kjc_ctr by auto.
      apply sum_ext. intros f Hf. rewrite EK by auto. rewrite !d0k_loc by auto. f_equal.
      apply D0_agree; auto using agree_refl. intros d Hd. now apply EX.
  Qed.
End Reread.

Lemma returns_arr : forall n o M D, (forall i j, (i < n)%nat -> (j < o)%nat -> M i j = D i j) -> returns (Ok [arr2 n o M]) n o D.
Proof. intros n o M D H. exists (arr2 n o M). split; [reflexivity|]. split; [apply arr2_shaped|]. intros. rewrite entry_arr2 by auto. auto. Qed.

Section Numbers.
  Variables (la : linalg) (kernels : obj -> option kobj) (means : obj -> option (nat -> nat -> Mat -> R)) (rest : numerics) (keyed : obj -> nat -> Vec -> nat).
  Hypothesis ok : linalg_ok la.
  Variables (p : ptree) (kernel mean : obj) (k : kexp) (sg : R).
  Hypothesis HY : hyper kernels p kernel = Some (k, sg).
  Hypothesis HP : all_atoms (fun _ a => psd_atom a) k.
  Hypothesis L : ls_nonzero k.
  Hypothesis HD : dgram_ok k.
  Variables (x y j : array) (o : options) (m nf nd : nat).
  Hypothesis W : wf nf k.
  Hypothesis SX : shaped [m; nf] x.
  Hypothesis SY : shaped [m; nd] y.
  Hypothesis SJ : shaped [m; nf; nd] j.
  Variables (q : query) (n : nat).
  Hypothesis SQ : shaped [n; nf] (q_x q).
  Hypothesis QF : q_full q = false.
  Hypothesis Q5 : q_iterative q = false -> no_m52 k.

  (** from any arrays holding the inducing points, their jacobians and the coefficients of the dense fit *)
  Section Core.
    Variables (nl nv : nat) (XL : Mat) (JL : Ten) (C : Mat).
    Variables (xl jl c : array) (jc : option array).
    Hypothesis SL : shaped [nl; nf] xl.
    Hypothesis SJL : shaped [nl; nf; nv] jl.
    Hypothesis SC : shaped [(nl * nv)%nat; 1%nat] c.
    Hypothesis EX : forall s d, (s < nl)%nat -> (d < nf)%nat -> entry xl s d = XL s d.
    Hypothesis EJ : forall s d v, (s < nl)%nat -> (d < nf)%nat -> (v < nv)%nat -> entry3 jl s d v = JL s d v.
    Hypothesis EC : meq (nl * nv) 1 (entry c) C.
    Hypothesis SJC : match jc with Some a => shaped [nl; nf] a /\ forall s f, (s < nl)%nat -> (f < nf)%nat -> entry a s f = jaccoef_of nv C JL s f | None => q_iterative q = true end.
    Lemma core_jc : exists JC, (match jc with Some a => mat_of a | None => Some (nl, nf, fun _ _ => 0) end) = Some (nl, nf, JC) /\
      (q_iterative q = false -> forall s f, (s < nl)%nat -> (f < nf)%nat -> JC s f = jaccoef_of nv C JL s f).
    Proof.
      destruct jc as [a|].
      - destruct SJC as [S1 S2]. exists (entry a). split; [now apply mat_of_shaped|auto].
      - eexists. split; [reflexivity|]. congruence.
    Qed.
    Lemma core_derivs : forall jq ndq un, q_jacobian q = Some jq -> shaped [n; nf; ndq] jq ->
      returns (s_derivs kernels p kernel xl jl c jc q un) n ndq (sg_predict_derivs_dense nl n nf nv ndq k XL JL (entry (q_x q)) (entry3 jq) C 0).
    Proof.
      intros jq ndq un EQ SJQ. destruct core_jc as [JC [E1 E2]]. unfold s_derivs. rewrite EQ. cbn [option_map].
      rewrite HY, (mat_of_shaped _ _ _ SL), (ten_of_shaped _ _ _ _ SJL), (mat_of_shaped _ _ _ SC), (mat_of_shaped _ _ _ SQ), (ten_of_shaped _ _ _ _ SJQ), E1, QF, !Nat.eqb_refl.
      cbn [andb negb].
      destruct (reread_derivs nf k sg W L HD nl nv XL (entry xl) JL (entry3 jl) C (entry c) JC 0 EX EJ EC (q_iterative q) E2 Q5 n ndq (entry (q_x q)) (entry3 jq)) as [M [-> EM]].
      cbn [bind]. now apply returns_arr.
    Qed.
    Lemma core_y_derivs : forall mu u un, scalar_of mu = Some u ->
      returns (s_y_derivs kernels p kernel xl jl c mu jc q un) n 1 (sg_predict_y_derivs_dense nl n nf nv k XL JL (entry (q_x q)) C u).
    Proof.
      intros mu u un EU. destruct core_jc as [JC [E1 E2]]. unfold s_y_derivs.
      rewrite HY, (mat_of_shaped _ _ _ SL), (ten_of_shaped _ _ _ _ SJL), (mat_of_shaped _ _ _ SC), EU, (mat_of_shaped _ _ _ SQ), E1, QF, !Nat.eqb_refl.
      cbn [andb negb].
      destruct (reread_y_derivs nf k W L nl nv XL (entry xl) JL (entry3 jl) C (entry c) JC u EX EJ EC (q_iterative q) E2 Q5 n (entry (q_x q))) as [M [-> EM]].
      cbn [bind]. apply returns_arr. intros i j0 Hi Hj. assert (j0 = 0)%nat by lia. subst j0. now apply EM.
    Qed.
  End Core.

  (** what a fit leaves behind *)
  Section Fitted.
    Variables (nl nv : nat) (XL : Mat) (JL : Ten).
    Hypothesis HI : o_iterative o = true -> nl = 1%nat \/ nv = 1%nat.
    Let st := sgpr_fit_derivs la nf k sg (SGPRState nl nv XL JL (fun _ _ => 0) 0 (fun _ _ => 0) false false) m nd (entry x) (entry y) (entry3 j) (o_iterative o).
    Let c0 := fst (sg_fit_derivs_dense la nl m nf nv nd k sg XL JL (entry x) (entry y) (entry3 j) zero_mean).
    Lemma fitted_c : meq (nl * nv) 1 (entry (arr2 (nl * nv) 1 (s_c st))) c0.
    Proof.
      destruct (sg_pub_coef la nf k sg ok HP W L HD (SGPRState nl nv XL JL (fun _ _ => 0) 0 (fun _ _ => 0) false false) m nd (entry x) (entry y) (entry3 j) (o_iterative o) HI) as [EC _].
      intros a b Ha Hb. rewrite entry_arr2 by auto. now apply EC.
    Qed.
    Lemma fitted_mu : s_mu st = snd (sg_fit_derivs_dense la nl m nf nv nd k sg XL JL (entry x) (entry y) (entry3 j) zero_mean).
    Proof.
      exact (proj2 (sg_pub_coef la nf k sg ok HP W L HD (SGPRState nl nv XL JL (fun _ _ => 0) 0 (fun _ _ => 0) false false) m nd (entry x) (entry y) (entry3 j) (o_iterative o) HI)).
    Qed.
    Lemma fitted_jc : forall s f, (s < nl)%nat -> (f < nf)%nat -> entry (arr2 nl nf (s_jaccoef st)) s f = jaccoef_of nv c0 JL s f.
    Proof.
      intros s f Hs Hf. rewrite entry_arr2 by auto. unfold st, sgpr_fit_derivs. cbn [s_jaccoef s_nv s_jac_locs]. unfold jaccoef_of. apply sum_ext. intros v Hv. f_equal.
      pose proof (fitted_c (s * nv + v)%nat O ltac:(nia) ltac:(lia)) as E. rewrite entry_arr2 in E by (nia || lia). exact E.
    Qed.
  End Fitted.

  Lemma sgpr_derivs_numbers : forall f nl nv xl jl, lookup ["x_locs"] p = Some (Some xl) -> lookup ["jacobian_locs"] p = Some (Some jl) ->
    shaped [nl; nf] (p_value xl) -> shaped [nl; nf; nv] (p_value jl) -> (o_iterative o = true -> nl = 1%nat \/ nv = 1%nat) ->
    n_fit (sgpr_numerics la kernels means rest) TDerivs p kernel mean [] (Derivs x y j) o = Ok f ->
    (forall jq ndq, q_jacobian q = Some jq -> shaped [n; nf; ndq] jq ->
     returns (n_predict_derivs (sgpr_numerics la kernels means rest) p kernel [OArr (f "jaccoef"); OArr (p_value xl); OArr (p_value jl); OArr (f "c")] q) n ndq
       (sgpr_derivs la nl m nf nv nd k sg (entry (p_value xl)) (entry3 (p_value jl)) (entry x) (entry3 j) (entry y) n ndq (entry (q_x q)) (entry3 jq))) /\
    returns (n_predict_y_derivs (sgpr_numerics la kernels means rest) p kernel [OArr (f "jaccoef"); OArr (p_value xl); OArr (p_value jl); OArr (f "c"); OArr (f "mu")] q) n 1
       (sgpr_y_derivs la nl m nf nv nd k sg (entry (p_value xl)) (entry3 (p_value jl)) (entry x) (entry3 j) (entry y) n (entry (q_x q))).
  Proof.
    intros f nl nv xl jl LX LJ SL SJL HI HF. cbn [sgpr_numerics n_fit n_predict_derivs n_predict_y_derivs] in *. unfold c_sgpr_fit in HF. cbv zeta in HF.
    rewrite HY, (mat_of_shaped _ _ _ SX), (mat_of_shaped _ _ _ SY), (ten_of_shaped _ _ _ _ SJ), (param_array_of _ _ _ LX), (param_array_of _ _ _ LJ) in HF. cbn [option_map] in HF.
    rewrite (mat_of_shaped _ _ _ SL), (ten_of_shaped _ _ _ _ SJL), !Nat.eqb_refl in HF. cbn [andb] in HF.
    match type of HF with Ok ?g = Ok f => assert (EF : g = f) by congruence end. rewrite <- EF. clear HF EF.
    unfold c_sgpr_predict_derivs, c_sgpr_predict_y_derivs. cbv zeta.
    set (s := sgpr_fit_derivs la nf k sg (SGPRState nl nv (entry (p_value xl)) (entry3 (p_value jl)) (fun _ _ => 0) 0 (fun _ _ => 0) false false) m nd (entry x) (entry y) (entry3 j) (o_iterative o)).
    change (fields [("jaccoef", arr2 nl nf (s_jaccoef s)); ("c", arr2 (nl * nv) 1 (s_c s)); ("mu", arr0 (s_mu s))] "c") with (arr2 (nl * nv) 1 (s_c s)).
    change (fields [("jaccoef", arr2 nl nf (s_jaccoef s)); ("c", arr2 (nl * nv) 1 (s_c s)); ("mu", arr0 (s_mu s))] "mu") with (arr0 (s_mu s)).
    change (fields [("jaccoef", arr2 nl nf (s_jaccoef s)); ("c", arr2 (nl * nv) 1 (s_c s)); ("mu", arr0 (s_mu s))] "jaccoef") with (arr2 nl nf (s_jaccoef s)).
    pose proof (fitted_c nl nv (entry (p_value xl)) (entry3 (p_value jl)) HI) as EC. pose proof (fitted_mu nl nv (entry (p_value xl)) (entry3 (p_value jl)) HI) as EM.
    pose proof (fitted_jc nl nv (entry (p_value xl)) (entry3 (p_value jl)) HI) as EJ. fold s in EC, EM, EJ.
    split.
    - intros jq ndq EQ SJQ. unfold sgpr_derivs. cbv zeta. apply core_derivs; auto using arr2_shaped.
    - unfold sgpr_y_derivs. cbv zeta. apply core_y_derivs; auto using arr2_shaped. now rewrite <- EM.
  Qed.

  Lemma rp_derivs_numbers : forall f nl key a, scalar_of a = Some (INR nl) -> (nl <= m)%nat -> (o_iterative o = true -> nl = 1%nat \/ nd = 1%nat) ->
    n_fit (rp_numerics la kernels means rest keyed) TDerivs p kernel mean [key; OArr a] (Derivs x y j) o = Ok f ->
    let pv := snd (rpcholesky (keyed key) m nf (entry x) nl k) in
    let xl : Mat := fun l => entry x (pv l) in let jl : Ten := fun l => entry3 j (pv l) in
    let jc := if dense_mean q then [OArr (f "jaccoef")] else [] in
    (forall jq ndq, q_jacobian q = Some jq -> shaped [n; nf; ndq] jq ->
     returns (n_predict_derivs (rp_numerics la kernels means rest keyed) p kernel ([OArr (f "x_locs"); OArr (f "jacobian_locs"); OArr (f "c")] ++ jc)%list q) n ndq
       (sgpr_derivs la nl m nf nd nd k sg xl jl (entry x) (entry3 j) (entry y) n ndq (entry (q_x q)) (entry3 jq))) /\
    returns (n_predict_y_derivs (rp_numerics la kernels means rest keyed) p kernel ([OArr (f "x_locs"); OArr (f "jacobian_locs"); OArr (f "c"); OArr (f "mu")] ++ jc)%list q) n 1
       (sgpr_y_derivs la nl m nf nd nd k sg xl jl (entry x) (entry3 j) (entry y) n (entry (q_x q))).
  Proof.
    intros f nl key a EA Hn HI HF pv xl jl jc. cbn [rp_numerics n_fit n_predict_derivs n_predict_y_derivs] in *. unfold c_rp_fit in HF. cbv zeta in HF.
    rewrite HY, (mat_of_shaped _ _ _ SX), (mat_of_shaped _ _ _ SY), (ten_of_shaped _ _ _ _ SJ), EA in HF. cbn [option_map] in HF.
    assert (EN : nat_of (INR nl) = Some nl).
    { unfold nat_of. rewrite Int_part_INR, Nat2Z.id. destruct (Req_EM_T (INR nl) (INR nl)); congruence. }
    rewrite EN, !Nat.eqb_refl, (proj2 (Nat.leb_le nl m)) in HF by auto. cbn [andb] in HF.
    rewrite rp_as_sgpr_derivs in HF. fold pv in HF. change (fun l : nat => entry x (pv l)) with xl in HF. change (fun l : nat => entry3 j (pv l)) with jl in HF.
    set (s := sgpr_fit_derivs la nf k sg (SGPRState nl nd xl jl (fun _ _ => 0) 0 (fun _ _ => 0) false false) m nd (entry x) (entry y) (entry3 j) (o_iterative o)) in HF.
    match type of HF with Ok ?g = Ok f => assert (EF : g = f) by congruence end.
    assert (Ec : f "c" = arr2 (nl * nd) 1 (s_c s)) by (rewrite <- EF; reflexivity).
    assert (Em : f "mu" = arr0 (s_mu s)) by (rewrite <- EF; reflexivity).
    assert (Ej : f "jaccoef" = arr2 nl nf (s_jaccoef s)) by (rewrite <- EF; reflexivity).
    assert (Ex : f "x_locs" = arr2 nl nf xl) by (rewrite <- EF; reflexivity).
    assert (El : f "jacobian_locs" = arr3 nl nf nd jl) by (rewrite <- EF; reflexivity).
    clear HF EF.
    pose proof (fitted_c nl nd xl jl HI) as EC. pose proof (fitted_mu nl nd xl jl HI) as EM. pose proof (fitted_jc nl nd xl jl HI) as EJ. fold s in EC, EM, EJ.
    set (jo := if dense_mean q then Some (arr2 nl nf (s_jaccoef s)) else None).
    assert (SO : match jo with Some a => shaped [nl; nf] a /\ forall s f, (s < nl)%nat -> (f < nf)%nat -> entry a s f =
        jaccoef_of nd (fst (sg_fit_derivs_dense la nl m nf nd nd k sg xl jl (entry x) (entry y) (entry3 j) zero_mean)) jl s f | None => q_iterative q = true end).
    { unfold jo, dense_mean. rewrite QF. destruct (q_iterative q); cbn [negb andb]; [reflexivity|]. split; [apply arr2_shaped|exact EJ]. }
    unfold jc. rewrite Ec, Em, Ej, Ex, El. split.
    - intros jq ndq EQ SJQ.
      assert (E : forall un, returns (s_derivs kernels p kernel (arr2 nl nf xl) (arr3 nl nf nd jl) (arr2 (nl * nd) 1 (s_c s)) jo q un) n ndq
        (sgpr_derivs la nl m nf nd nd k sg xl jl (entry x) (entry3 j) (entry y) n ndq (entry (q_x q)) (entry3 jq))).
      { intro un. unfold sgpr_derivs. cbv zeta. apply core_derivs; auto using arr2_shaped, arr3_shaped, entry_arr2, entry3_arr3. }
      unfold c_rp_predict_derivs. cbv zeta. unfold jo in E. destruct (dense_mean q); cbn [app]; apply E.
    - assert (E : forall un, returns (s_y_derivs kernels p kernel (arr2 nl nf xl) (arr3 nl nf nd jl) (arr2 (nl * nd) 1 (s_c s)) (arr0 (s_mu s)) jo q un) n 1
        (sgpr_y_derivs la nl m nf nd nd k sg xl jl (entry x) (entry3 j) (entry y) n (entry (q_x q)))).
      { intro un. unfold sgpr_y_derivs. cbv zeta. rewrite <- EM. apply core_y_derivs; auto using arr2_shaped, arr3_shaped, entry_arr2, entry3_arr3. }
      unfold c_rp_predict_y_derivs. cbv zeta. unfold jo in E. destruct (dense_mean q); cbn [app]; apply E.
  Qed.
  Lemma sgpr_fits_derivs : forall nl nv xl jl, lookup ["x_locs"] p = Some (Some xl) -> lookup ["jacobian_locs"] p = Some (Some jl) ->
    shaped [nl; nf] (p_value xl) -> shaped [nl; nf; nv] (p_value jl) ->
    exists f, n_fit (sgpr_numerics la kernels means rest) TDerivs p kernel mean [] (Derivs x y j) o = Ok f.
  Proof.
    intros nl nv xl jl LX LJ SL SJL. cbn [sgpr_numerics n_fit]. unfold c_sgpr_fit. cbv zeta.
    rewrite HY, (mat_of_shaped _ _ _ SX), (mat_of_shaped _ _ _ SY), (ten_of_shaped _ _ _ _ SJ), (param_array_of _ _ _ LX), (param_array_of _ _ _ LJ). cbn [option_map].
    rewrite (mat_of_shaped _ _ _ SL), (ten_of_shaped _ _ _ _ SJL), !Nat.eqb_refl. cbn [andb]. eexists. reflexivity.
  Qed.
  Lemma rp_fits_derivs : forall nl key a, scalar_of a = Some (INR nl) -> (nl <= m)%nat ->
    exists f, n_fit (rp_numerics la kernels means rest keyed) TDerivs p kernel mean [key; OArr a] (Derivs x y j) o = Ok f.
  Proof.
    intros nl key a EA Hn. cbn [rp_numerics n_fit]. unfold c_rp_fit. cbv zeta.
    rewrite HY, (mat_of_shaped _ _ _ SX), (mat_of_shaped _ _ _ SY), (ten_of_shaped _ _ _ _ SJ), EA. cbn [option_map].
    assert (EN : nat_of (INR nl) = Some nl).
    { unfold nat_of. rewrite Int_part_INR, Nat2Z.id. destruct (Req_EM_T (INR nl) (INR nl)); congruence. }
    rewrite EN, !Nat.eqb_refl, (proj2 (Nat.leb_le nl m)) by auto. cbn [andb]. eexists. reflexivity.
  Qed.
End Numbers.

From Verif Require Import Spec.RandomSpec Spec.OptimSpec Proofs.KernelObjRun Proofs.LifecycleFacts Proofs.LifecyclePropLemmas Proofs.DispatchFacts Proofs.LifecycleParams Proofs.ConcretePropLemmas.
(** fit_fun on a state from which the attributes it needs can be read *)
Lemma fit_runs_extra : forall (num : fit_numerics) (extra fields : list string) vs d o s f, state_ok s ->
  NoDup (map fst (data_fields d) ++ fields ++ flag_names) ->
  (forall k, In k (map fst (data_fields d) ++ fields ++ flag_names) -> ~ reserved k) -> mapM (attr s) extra = Ok vs ->
  num (s_params s) (s_kernel s) (s_mean s) vs d o = Ok f -> exists u, fit_fun num extra fields d o s = Ok u /\ s_params u = s_params s.
Proof.
  intros num extra fields vs d o s f S ND NR EV H. unfold fit_fun. rewrite EV. cbn [bind]. rewrite H. cbn [bind]. cbv zeta.
  match goal with |- exists u, fst (state_update s ?D) = _ /\ _ => assert (KD : map fst D = (map fst (data_fields d) ++ fields ++ flag_names)%list) end.
  { rewrite !map_app, fields_keys. reflexivity. }
  eexists. split; [apply update_attrs; [exact S| |]; rewrite KD; auto|]. reflexivity.
Qed.
Lemma shaped_plain : forall sh a, shaped sh a -> plain a.
Proof. intros sh a [_ [E _]] _. rewrite E. discriminate. Qed.

(** over the history of a model *)
Section History.
  Context (la : linalg) (ok : linalg_ok la) (kernels : obj -> option kobj) (means : obj -> option (nat -> nat -> Mat -> R))
    (rest : numerics) (keyed : obj -> nat -> Vec -> nat) (PR : plain_numerics rest)
    (lossfn : obj -> option (sig * (data -> dict obj -> state -> result (num * array)))) (sample : key -> prior_obj -> array) (key_precond : obj)
    (interned : string -> bool) (kernel mean : obj) (ko : kobj) (s0 : state) (os : list op) (es : list (op * result unit * state)) (s : state) (fs : files).
  Context (EK : kernels kernel = Some ko) (MO : model_ok interned ko s0) (CO : calls_ok sample s0 os).
  Context (k : kexp) (sg : R) (x y j : array) (o : options) (m nf nd : nat).
  Lemma data_plain : shaped [m; nf] x -> shaped [m; nd] y -> shaped [m; nf; nd] j -> plain_data (Derivs x y j).
  Proof. intros. repeat split; eapply shaped_plain; eauto. Qed.
  Lemma sgpr_predicts_derivs : forall x_locs jacobian_locs kp sigma l,
    sgpr_init kernel mean x_locs jacobian_locs kp sigma (OCall l) = Ok s0 ->
    let C := SGPR (sgpr_numerics la kernels means rest) in
    Lifecycle.run lossfn sample key_precond interned C os (s0, fun _ => None) = (es, (s, fs)) ->
    holds ko s k sg -> wf nf k -> dgram_ok k -> shaped [m; nf] x -> shaped [m; nd] y -> shaped [m; nf; nd] j ->
    forall nl nv xl jl, lookup ["x_locs"] (s_params s) = Some (Some xl) -> lookup ["jacobian_locs"] (s_params s) = Some (Some jl) ->
    shaped [nl; nf] (p_value xl) -> shaped [nl; nf; nv] (p_value jl) -> (o_iterative o = true -> nl = 1%nat \/ nv = 1%nat) ->
    let XL := entry (p_value xl) in let JL := entry3 (p_value jl) in
    exists u, state_fit C (Derivs x y j) o s = Ok u /\ s_params u = s_params s /\
    forall q n, shaped [n; nf] (q_x q) -> q_full q = false -> (q_iterative q = false -> no_m52 k) ->
    (forall jq ndq, q_jacobian q = Some jq -> shaped [n; nf; ndq] jq ->
     returns (base_predict_derivs C u q) n ndq (sgpr_derivs la nl m nf nv nd k sg XL JL (entry x) (entry3 j) (entry y) n ndq (entry (q_x q)) (entry3 jq))) /\
    returns (base_predict_y_derivs C u q) n 1 (sgpr_y_derivs la nl m nf nv nd k sg XL JL (entry x) (entry3 j) (entry y) n (entry (q_x q))).
  Proof.
    intros x_locs jacobian_locs kp sigma l HI C HR HH W HD SX SY SJ nl nv xl jl LX LJ SL SJL HO XL JL.
    pose proof (sg_J la kernels means rest PR lossfn sample key_precond interned kernel mean ko s0 os es s fs MO CO x_locs jacobian_locs kp sigma l HI HR) as JJ.
    destruct (J_hyper interned ko s0 MO kernels kernel s k sg EK JJ HH) as [HY [HP [L Ps]]].
    destruct MO as [S [B [F0 [SV _]]]], CO as [SA [SF [O0 P]]].
    destruct (sgpr_start _ _ _ _ _ _ _ _ HI S) as [K0 [M0 [SO KN]]].
    set (N := sgpr_numerics la kernels means rest) in *. pose proof (c_sgpr_plain la kernels means rest PR) as PN. fold N in PN.
    destruct (history_good N (SGPR N) s0 (fun _ => []) sgpr_fields sgpr_names ["loss_fn"] lossfn sample key_precond interned (sgpr_class N) PN SA (float_metas _ F0) (proj1 (proj2 S)) SV os es s fs SO (KN N) O0 HR) as [G1 _].
    assert (Ek : s_kernel s = kernel) by (rewrite (proj1 (proj2 G1)); exact K0). assert (Em : s_mean s = mean) by (rewrite (proj1 (proj2 (proj2 G1))); exact M0).
    destruct (sgpr_fits_derivs la kernels means rest (s_params s) kernel mean k sg HY x y j o m nf nd SX SY SJ nl nv xl jl LX LJ SL SJL) as [f0 HF0]. fold N in HF0.
    assert (CL := sgpr_class N).
    destruct (fit_runs_extra (n_fit N TDerivs) [] (sgpr_fields TDerivs) [] (Derivs x y j) o s f0 (proj1 G1) (co_nodup _ _ _ _ _ _ CL (Derivs x y j))) as [u [HU PU]].
    { intros z Hz. apply (co_names _ _ _ _ _ _ CL (Derivs x y j)) in Hz. apply (co_aux _ _ _ _ _ _ CL) in Hz. apply Hz. }
    { reflexivity. }
    { rewrite Ek, Em. exact HF0. }
    exists u. split; [exact HU|]. split; [exact PU|].
    destruct (fit_good N (SGPR N) s0 (fun _ => []) sgpr_fields sgpr_names ["loss_fn"] TDerivs _ _ (Derivs x y j) o s u CL PN (data_plain SX SY SJ) G1 eq_refl eq_refl HU) as [U1 [U2 [U3 U4]]].
    pose proof (sgpr_answers N s0 _ u (proj1 (proj2 U1)) U4 U2) as SS. rewrite K0, M0 in SS. cbn [sgpr_serves task_of] in SS. destruct SS as [f [HF SS]]. rewrite PU in HF, SS.
    intros q n SQ QF Q5. destruct (SS q xl LX) as [_ SS1]. destruct (SS1 jl LJ) as [A1 A2]. rewrite QF in A1, A2. cbn [app] in A1, A2.
    assert (Hc : compatible (q_full q) (q_iterative q)) by (unfold compatible; now rewrite QF).
    destruct (sgpr_derivs_numbers la kernels means rest ok (s_params s) kernel mean k sg HY HP L HD x y j o m nf nd W SX SY SJ q n SQ QF Q5 f nl nv xl jl LX LJ SL SJL HO HF) as [B1 B2].
    unfold C, XL, JL. rewrite A1, A2, !answer_ok by exact Hc. split; [exact B1|exact B2].
  Qed.
  Lemma rp_predicts_derivs : forall nl key kp sigma l, rpchol_init kernel mean (OInt (Z.of_nat nl)) (Some (OArr key)) kp sigma (OCall l) = Ok s0 -> plain key ->
    let C := SGPR_RPChol (rp_numerics la kernels means rest keyed) in
    Lifecycle.run lossfn sample key_precond interned C os (s0, fun _ => None) = (es, (s, fs)) ->
    holds ko s k sg -> wf nf k -> dgram_ok k -> shaped [m; nf] x -> shaped [m; nd] y -> shaped [m; nf; nd] j ->
    (nl <= m)%nat -> (o_iterative o = true -> nl = 1%nat \/ nd = 1%nat) ->
    let pv := snd (rpcholesky (keyed (OArr key)) m nf (entry x) nl k) in
    let XL : Mat := fun i => entry x (pv i) in let JL : Ten := fun i => entry3 j (pv i) in
    exists u, state_fit C (Derivs x y j) o s = Ok u /\ s_params u = s_params s /\
    forall q n, shaped [n; nf] (q_x q) -> q_full q = false -> (q_iterative q = false -> no_m52 k) ->
    (forall jq ndq, q_jacobian q = Some jq -> shaped [n; nf; ndq] jq ->
     returns (base_predict_derivs C u q) n ndq (sgpr_derivs la nl m nf nd nd k sg XL JL (entry x) (entry3 j) (entry y) n ndq (entry (q_x q)) (entry3 jq))) /\
    returns (base_predict_y_derivs C u q) n 1 (sgpr_y_derivs la nl m nf nd nd k sg XL JL (entry x) (entry3 j) (entry y) n (entry (q_x q))).
  Proof.
    intros nl key kp sigma l HI PK C HR HH W HD SX SY SJ Hn HO pv XL JL.
    pose proof (r_J la kernels means rest keyed PR lossfn sample key_precond interned kernel mean ko s0 os es s fs MO CO nl key kp sigma l HI PK HR) as JJ.
    destruct (J_hyper interned ko s0 MO kernels kernel s k sg EK JJ HH) as [HY [HP [L Ps]]].
    destruct MO as [S [B [F0 [SV _]]]], CO as [SA [SF [O0 P]]].
    destruct (rp_start _ _ _ _ _ _ _ _ HI PK S) as [K0 [M0 [SO [KN EX]]]].
    set (N := rp_numerics la kernels means rest keyed) in *. pose proof (c_rp_plain la kernels means rest keyed PR) as PN. fold N in PN.
    destruct (history_good N (SGPR_RPChol N) s0 rp_extra rp_fields rp_names ["loss_fn"; "n_locs"; "key"] lossfn sample key_precond interned (rp_class N) PN SA (float_metas _ F0) (proj1 (proj2 S)) SV os es s fs SO (KN N) O0 HR) as [G1 _].
    assert (Ek : s_kernel s = kernel) by (rewrite (proj1 (proj2 G1)); exact K0). assert (Em : s_mean s = mean) by (rewrite (proj1 (proj2 (proj2 G1))); exact M0).
    assert (EV : mapM (attr s) ["key"; "n_locs"] = Ok [OArr key; OArr (int0 (Z.of_nat nl))]).
    { rewrite <- EX. destruct G1 as [_ [_ [_ [_ [_ G6]]]]]. cbn [mapM]. unfold attr. now rewrite !G6 by (cbn; tauto). }
    assert (EA : scalar_of (int0 (Z.of_nat nl)) = Some (INR nl)) by (cbn; now rewrite <- INR_IZR_INZ).
    destruct (rp_fits_derivs la kernels means rest keyed (s_params s) kernel mean k sg HY x y j o m nf nd SX SY SJ nl (OArr key) _ EA Hn) as [f0 HF0]. fold N in HF0.
    assert (CL := rp_class N).
    destruct (fit_runs_extra (n_fit N TDerivs) (rp_extra TDerivs) (rp_fields TDerivs) [OArr key; OArr (int0 (Z.of_nat nl))] (Derivs x y j) o s f0 (proj1 G1) (co_nodup _ _ _ _ _ _ CL (Derivs x y j))) as [u [HU PU]].
    { intros z Hz. apply (co_names _ _ _ _ _ _ CL (Derivs x y j)) in Hz. apply (co_aux _ _ _ _ _ _ CL) in Hz. apply Hz. }
    { exact EV. }
    { rewrite Ek, Em. exact HF0. }
    exists u. split; [exact HU|]. split; [exact PU|].
    destruct (fit_good N (SGPR_RPChol N) s0 rp_extra rp_fields rp_names ["loss_fn"; "n_locs"; "key"] TDerivs _ _ (Derivs x y j) o s u CL PN (data_plain SX SY SJ) G1 eq_refl eq_refl HU) as [U1 [U2 [U3 U4]]].
    pose proof (rp_answers N s0 _ u _ _ (proj1 (proj2 U1)) EX U4 U2) as SS. rewrite K0, M0 in SS. cbn [rpchol_serves task_of] in SS. destruct SS as [f [HF SS]]. rewrite PU in HF, SS.
    intros q n SQ QF Q5. destruct (SS q) as [_ [A1 A2]].
    assert (Hc : compatible (q_full q) (q_iterative q)) by (unfold compatible; now rewrite QF).
    destruct (rp_derivs_numbers la kernels means rest keyed ok (s_params s) kernel mean k sg HY HP L HD x y j o m nf nd W SX SY SJ q n SQ QF Q5 f nl (OArr key) _ EA Hn HO HF) as [B1 B2].
    unfold C. rewrite A1, A2, !answer_ok by exact Hc. split; [exact B1|exact B2].
  Qed.
End History.
