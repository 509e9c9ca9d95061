(** From the construction of an RBFNet over its history to its predictions. *)
From Coq Require Import String List Bool Arith Reals Lia Lra.
From Verif Require Import Base.Sums Base.Mat Model.Arrays Model.Kernels Model.Operations Model.PyDict Model.Bijectors Model.Params Model.State Model.Optim Model.Calls Model.Lifecycle Model.KernelObj
  Model.Concrete Model.RBFNet Model.RBFClass
  Spec.KernelSpec Spec.DictSpec Spec.StateSpec Spec.RandomSpec Spec.OptimSpec Spec.LifecycleSpec Spec.KernelObjSpec Spec.ConcreteSpec Spec.RBFClassSpec
  Proofs.DictFacts Proofs.TreeFacts Proofs.StateFacts Proofs.SaveLoad Proofs.StatePropLemmas Proofs.OptimFacts Proofs.KernelObjFacts Proofs.KernelObjSafe Proofs.KernelObjRun Proofs.KernelSym Proofs.KernelDerivs
  Proofs.LifecycleFacts Proofs.LifecyclePropLemmas Proofs.DispatchFacts Proofs.LifecycleParams Proofs.ConcreteFacts Proofs.RBFFacts Proofs.RBFClassFacts.
Import ListNotations.
Open Scope string_scope.
Open Scope R_scope.

(** the kernel mean of one point, or over one inducing point, drops out *)
Lemma rbf_one : forall nf m n k z w x, (0 < n)%nat -> m = 1%nat \/ n = 1%nat -> exists p q, predict_linear nf m n k z w x true None = Some (p, q) /\
  forall j o, p j o = net_centred m nf k z w x j o.
Proof.
  intros nf m n k z w x Hn H. unfold predict_linear. cbv zeta. cbn [fst snd].
  assert (ME : forall j, mean0 m (kk nf k z x) j = / INR m * sum m (fun l => kernel_at nf k (z l) (x j))).
  { intro j. unfold mean0, Rdiv. rewrite Rmult_comm. f_equal. apply sum_ext. intros. apply kk_at. }
  destruct H as [->| ->].
  - unfold kernel_center_b. assert (B : bcast 1 n = Some n). { unfold bcast. destruct (Nat.eqb_spec 1 n) as [<-|E]; reflexivity. }
    rewrite B. unfold einsum_ij_io. assert (B' : bcast n 1 = Some n). { unfold bcast. destruct (Nat.eqb_spec n 1) as [->|E]; reflexivity. }
    rewrite B'. do 2 eexists. split; [reflexivity|]. intros j o. cbv beta. unfold net_centred. cbn [sum]. change (INR 1) with 1.
    set (km := mean0 1 (kk nf k z x)). assert (I0 : INR n <> 0) by (apply not_0_INR; lia).
    rewrite (sum_ext n _ (fun i => (vmean n km - km i) * w 0%nat o)).
    + rewrite (sum_scal_r n (w 0%nat o)), sum_minus, sum_const. unfold vmean. change (sum n (fun i => km i)) with (sum n km).
      replace (INR n * (sum n km / INR n) - sum n km) with 0 by (field; auto). rewrite Rinv_1. ring.
    + intros i Hi. rewrite !(bix_lt n i) by auto. fold km. unfold bix. cbn [Nat.eqb]. f_equal.
      unfold km at 1. unfold mean0. cbn [sum]. change (INR 1) with 1. field.
  - unfold kernel_center_b. assert (B : bcast m 1 = Some m). { unfold bcast. destruct (Nat.eqb_spec m 1) as [->|E]; [reflexivity|reflexivity]. }
    rewrite B. destruct (einsum_same m (fun i j => kk nf k z x (bix m i) j - mean0 m (kk nf k z x) j - mean0 m (kk nf k z x) (bix 1 i) + vmean 1 (mean0 m (kk nf k z x))) w) as [p [-> Hp]].
    do 2 eexists. split; [reflexivity|]. intros j o. rewrite Hp. apply sum_ext. intros i Hi. rewrite bix_lt by auto. f_equal.
    rewrite ME, kk_at. unfold bix, vmean. cbn [Nat.eqb sum]. change (INR 1) with 1. unfold Rdiv. rewrite Rinv_1. ring.
Qed.

(** ** arrays along a history *)
Lemma shaped_kept : forall sh path t u, ptree_ok t -> ptree_ok u -> only_trainables t u -> full_tree u ->
  on_trainable (fun p => legal (m_bijector (p_meta p)) (p_value p)) u ->
  (exists p, lookup path t = Some (Some p) /\ shaped sh (p_value p)) -> exists p, lookup path u = Some (Some p) /\ shaped sh (p_value p).
Proof.
  intros sh path t u T U [_ O] F L [p [A B]]. specialize (O path). rewrite A in O. destruct O as [v [O1 O2]].
  exists (Param v (p_meta p)). split; [exact O1|]. cbn [p_value]. destruct (m_trainable (p_meta p)) eqn:Tr.
  - pose proof O1 as O3. destruct U as [_ U]. apply (every_lookup' _ _ _ _ U) in O3. destruct T as [_ T]. apply (every_lookup' _ _ _ _ T) in A. cbn in O3, A.
    destruct O3 as [O3 O4], A as [A3 A4]. cbn in O3, O4. destruct B as [B1 [B2 [B3 B4]]].
    pose proof (on_trainable_lookup _ _ _ _ F O1 Tr) as FL. cbn in FL.
    pose proof (on_trainable_lookup _ _ _ _ L O1 Tr) as LL. cbn in LL. unfold legal in LL.
    assert (ES : a_shape v = sh) by congruence.
    split; [exact ES|]. split; [congruence|]. split; [congruence|]. intros x Hx. rewrite Forall_forall in LL. destruct (LL x Hx) as [y [-> _]]. discriminate.
  - now rewrite O2.
Qed.
Lemma J_shaped : forall s0 s sh path, ready s0 -> J s0 s -> (exists p, lookup path (s_params s0) = Some (Some p) /\ shaped sh (p_value p)) ->
  exists p, lookup path (s_params s) = Some (Some p) /\ shaped sh (p_value p).
Proof.
  intros s0 s sh path R0 [R [E|[O [F L]]]] H; [now rewrite E|]. apply (shaped_kept sh path (s_params s0) (s_params s)); auto; [apply R0|apply R].
Qed.
Lemma param_array_of : forall t name p, lookup [name] t = Some (Some p) -> param_array t name = Some (p_value p).
Proof.
  intros t name p LX. unfold param_array. destruct t as [a|d]; [discriminate|]. cbn [lookup] in LX. cbn [item]. destruct (get name d) as [t|]; [|discriminate]. cbn [bind].
  destruct t as [a|d']; cbn in LX; [|discriminate]. injection LX as ->. reflexivity.
Qed.
Lemma zeros_at : forall m i, at_ (zeros1 m) i = 0.
Proof.
  intros m i. unfold at_, zeros1. cbn [a_data]. revert i. induction m as [|m IH]; intros [|i]; cbn [repeat nth]; auto.
Qed.
Lemma zeros_vec : forall m, vec_of (OArr (zeros1 m)) = Some (Some (m, at_ (zeros1 m))).
Proof.
  intro m. unfold vec_of. cbn [a_shape zeros1]. assert (E : float64 (zeros1 m) = true).
  { unfold float64, zeros1. cbn [a_dtype a_data a_shape]. rewrite repeat_length. unfold size_of. cbn [fold_right]. rewrite Nat.mul_1_r, Nat.eqb_refl. cbn [andb].
    apply forallb_forall. intros x H. apply repeat_spec in H. now subst x. }
  now rewrite E.
Qed.

Section History.
  Context (kernels : obj -> option kobj) (layers : obj -> option (array -> result array)) (unmodelled : state -> array -> bool -> result array)
    (sample : key -> prior_obj -> array) (ident tloss : nat) (after_call : rbf_fit_kind -> state -> result state) (interned : string -> bool).
  Context (draw : list nat -> array) (kernel : obj) (ko : kobj) (zp : param) (kp : ptree) (alpha : option param) (layer loss : nat) (center : bool)
    (s0 : state) (m nf oo : nat).
  Context (EK : kernels kernel = Some ko) (SA : sampler_ok sample) (SF : sampler_full sample)
    (ES : a_shape (p_value zp) = [m; nf]) (HI : rbf_init draw kernel zp oo kp alpha (OCall layer) (OCall loss) center = Ok s0)
    (NO : net_ok interned ko m nf oo s0).
  Lemma n_ready : ready s0.
  Proof. destruct NO as [A [B [C _]]]. exact (conj A (conj B C)). Qed.
  Lemma n_savable : savable interned (s_params s0).
  Proof. apply NO. Qed.
  Let good := rgood ident tloss layer loss s0 m.
  Lemma n_start : s_kernel s0 = kernel /\ s_mean s0 = ONone /\ good center false false s0.
  Proof. eapply rbf_start; eauto. Qed.
  Lemma n_J : forall s, J s0 s -> exists k z w, net_holds ko m nf oo s k z w /\ present ["kernel_params"] ko (s_params s) /\
    all_atoms (fun _ a => psd_atom a) k /\ ls_nonzero k.
  Proof.
    intros s Js. destruct NO as [_ [_ [_ [_ [SK [HZ HW]]]]]].
    pose proof (J_safe s0 n_ready s ko _ Js SK) as [SP PR]. destruct (safe_reads ko _ _ SP) as [k [Rd [HP L]]].
    destruct (J_shaped _ _ _ _ n_ready Js HZ) as [z [Z1 Z2]], (J_shaped _ _ _ _ n_ready Js HW) as [w [W1 W2]].
    exists k, (p_value z), (p_value w). split; [|auto]. split; [exact Rd|]. split; [exists z; auto|]. split; [exact Z2|]. split; [exists w; auto|exact W2].
  Qed.
  (** the prediction of a network in a known situation *)
  Lemma n_linear : forall c cl d s k z w, good c cl d s -> net_holds ko m nf oo s k z w -> forall x n, shaped [n; nf] x -> forall lin,
    net_predict kernels layers unmodelled s x lin =
    match predict_linear nf m n k (entry z) (entry w) (entry x) c (if cl then None else Some (m, at_ (zeros1 m))) with
    | None => Err TypeError
    | Some (p, _) => if lin then Ok (arr2 n oo p) else
        match layers (OCall (if d then ident else layer)) with Some f => f (arr2 n oo p) | None => Err TypeError end
    end.
  Proof.
    intros c cl d s k z w [SO [[K1 [K2 [K3 _]]] Js]] [Rd [[pz [Z1 <-]] [SZ [[pw [W1 <-]] SW]]]] x n SX lin. unfold net_predict.
    destruct (n_J s Js) as [_ [_ [_ [_ [PR _]]]]].
    assert (EI : exists t, item "kernel_params" (s_params s) = Ok t /\ kernel_of ko t = Some k).
    { destruct (r_savable interned s0 n_ready n_savable s SO) as [_ [_ [l [lk [E G]]]]].
      exists (Node lk). rewrite E. cbn [item]. rewrite G. split; [reflexivity|]. apply (proj2 (kernel_of_reads ko ["kernel_params"] (s_params s) (Node lk) k ltac:(rewrite E; cbn; now rewrite G))). auto. }
    destruct EI as [t [EI EKk]].
    assert (A3 : (if lin then Ok ONone else attr s "output_layer") = Ok (if lin then ONone else OCall (if d then ident else layer))) by (destruct lin; [reflexivity|now apply attr_get]).
    rewrite A3, (attr_get _ _ _ K1), (attr_get _ _ _ K2). cbn [bind truth]. rewrite (proj1 (proj2 SO)), (proj1 n_start), EK, EI, (param_array_of _ _ _ Z1), (param_array_of _ _ _ W1), EKk.
    rewrite (mat_of_shaped _ _ _ SZ), (mat_of_shaped _ _ _ SW), (mat_of_shaped _ _ _ SX).
    assert (V : vec_of (stored_mean m cl) = Some (if cl then None else Some (m, at_ (zeros1 m)))) by (destruct cl; [reflexivity|apply zeros_vec]).
    rewrite V, !Nat.eqb_refl. cbn [andb]. destruct (predict_linear _ _ _ _ _ _ _ _ _) as [[p q]|]; [|reflexivity]. now destruct lin.
  Qed.
  Lemma answers_of : forall r (lin : bool) (f : array -> result array) n p M, r = (if lin then Ok (arr2 n oo p) else f (arr2 n oo p)) ->
    (forall i j, (i < n)%nat -> (j < oo)%nat -> p i j = M i j) -> net_answers r lin f n oo M.
  Proof.
    intros r lin f n p M E H. exists (arr2 n oo p). split; [apply arr2_shaped|]. split; [|exact E]. intros i j Hi Hj. rewrite entry_arr2 by auto. auto.
  Qed.
  Lemma n_answers : forall c cl d s k z w f, good c cl d s -> net_holds ko m nf oo s k z w -> layers (OCall (if d then ident else layer)) = Some f ->
    forall x n, shaped [n; nf] x -> forall lin,
    let r := net_predict kernels layers unmodelled s x lin in
    (c = false -> net_answers r lin f n oo (net m nf k (entry z) (entry w) (entry x))) /\
    (c = true -> cl = false \/ m = 1%nat \/ n = 1%nat -> (0 < n)%nat -> net_answers r lin f n oo (net_centred m nf k (entry z) (entry w) (entry x))) /\
    (c = true -> cl = true -> n = m -> net_answers r lin f n oo (fun j o => sum m (fun i =>
        (kernel_at nf k (entry z i) (entry x j) - / INR m * sum m (fun l => kernel_at nf k (entry z l) (entry x j))
         - (/ INR m * sum m (fun l => kernel_at nf k (entry z l) (entry x i)) - / INR m * sum m (fun a => / INR m * sum m (fun l => kernel_at nf k (entry z l) (entry x a)))))
        * entry w i o))) /\
    (c = true -> cl = true -> n <> m -> m <> 1%nat -> n <> 1%nat -> r = Err TypeError).
  Proof.
    intros c cl d s k z w f G H EL x n SX lin r.
    assert (E : r = match predict_linear nf m n k (entry z) (entry w) (entry x) c (if cl then None else Some (m, at_ (zeros1 m))) with
      | None => Err TypeError | Some (p, _) => if lin then Ok (arr2 n oo p) else f (arr2 n oo p) end).
    { unfold r. rewrite (n_linear c cl d s k z w G H x n SX lin), EL. reflexivity. }
    split; [|split; [|split]].
    - intros ->. destruct (rbf_plain nf m n k (entry z) (entry w) (entry x) (if cl then None else Some (m, at_ (zeros1 m)))) as [p [Hp Ep]].
      setoid_rewrite Hp in E. apply (answers_of r lin f n p); [exact E|]. intros. apply Ep.
    - intros -> Hc Hn. assert (X : cl = false \/ cl = true /\ (m = 1%nat \/ n = 1%nat)) by (destruct cl; intuition congruence). destruct X as [->|[-> X]]; cbv beta iota in E.
      + destruct (rbf_centered nf m n k (entry z) (entry w) (entry x) (at_ (zeros1 m))) as [p [Hp Ep]].
        setoid_rewrite Hp in E. apply (answers_of r lin f n p); [exact E|]. intros i j _ _. rewrite Ep. unfold net_centred. apply sum_ext. intros a Ha. f_equal.
        rewrite zeros_at, (sum_ext m (at_ (zeros1 m)) (fun _ => 0)) by (intros; apply zeros_at). rewrite sum_const. ring.
      + destruct (rbf_one nf m n k (entry z) (entry w) (entry x) Hn X) as [p [q [Hp Ep]]].
        setoid_rewrite Hp in E. apply (answers_of r lin f n p); [exact E|]. intros. apply Ep.
    - intros -> -> ->. cbv beta iota in E. destruct (rbf_training nf m k (entry z) (entry w) (entry x)) as [p [v [Hp [Ev Hp2]]]].
      destruct (rbf_centered nf m m k (entry z) (entry w) (entry x) v) as [p' [Hp' Ep]]. rewrite Hp2 in Hp'. injection Hp' as <-.
      rewrite Hp in E. apply (answers_of r lin f m p); [exact E|]. intros i j _ _. rewrite Ep. apply sum_ext. intros a Ha. f_equal. rewrite Ev. f_equal. f_equal. f_equal.
      apply sum_ext. intros b Hb. apply Ev.
    - intros -> -> H1 H2 H3. assert (P : predict_linear nf m n k (entry z) (entry w) (entry x) true None = None).
      { apply predict_linear_raises. split; [reflexivity|]. cbv zeta. auto. }
      cbv beta iota in E. now rewrite P in E.
  Qed.

  Context (os : list rbf_op) (es : list (rbf_op * result unit * state)) (s : state) (fs : files).
  Context (HR : rbf_run sample (OCall ident) (OCall tloss) after_call interned os (s0, fun _ => None) = (es, (s, fs))).
  Let v := rbf_observe center es.
  Lemma n_world : rworld ident tloss layer loss s0 m v (s, fs) /\
    Forall (fun e => match fst (fst e) with RFit _ => snd (fst e) = Err TypeError | RLoad _ => True | _ => snd (fst e) = Ok tt end) es.
  Proof.
    eapply (rrun_good sample ident tloss layer loss after_call interned s0 m n_ready SA SF n_savable os (rbf_new center)); [|exact HR].
    split; [apply n_start|]. intro g. reflexivity.
  Qed.
  Lemma rbf_history : Forall (fun e => match fst (fst e) with RFit _ => snd (fst e) = Err TypeError | RLoad _ => True | _ => snd (fst e) = Ok tt end) es.
  Proof. apply n_world. Qed.
  Lemma rbf_parameters : exists k z w, net_holds ko m nf oo s k z w /\ all_atoms (fun _ a => psd_atom a) k /\ ls_nonzero k.
  Proof. destruct n_world as [[[_ [_ Js]] _] _]. destruct (n_J s Js) as [k [z [w [A [_ B]]]]]. exists k, z, w. auto. Qed.
  Lemma rbf_frozen : forall path p, lookup path (s_params s0) = Some (Some p) -> m_trainable (p_meta p) = false -> lookup path (s_params s) = Some (Some p).
  Proof.
    intros path p L Tr. destruct n_world as [[[_ [_ [_ Js]]] _] _]. cbn [fst] in Js. destruct Js as [->|[[_ O] _]]; [exact L|].
    specialize (O path). rewrite L in O. destruct O as [x [O1 O2]]. rewrite (O2 Tr) in O1. destruct p. exact O1.
  Qed.
  Lemma rbf_plain_history : forall k z w f, net_holds ko m nf oo s k z w -> layers (OCall (if rv_default_layer v then ident else layer)) = Some f ->
    rv_centred v = false -> forall x n lin, shaped [n; nf] x ->
    net_answers (net_predict kernels layers unmodelled s x lin) lin f n oo (net m nf k (entry z) (entry w) (entry x)).
  Proof.
    intros k z w f H EL EC x n lin SX. destruct n_world as [[G _] _]. cbn [fst] in G. apply (n_answers _ _ _ s k z w f G H EL x n SX lin). exact EC.
  Qed.
  Lemma rbf_centred_history : forall k z w f, net_holds ko m nf oo s k z w -> layers (OCall (if rv_default_layer v then ident else layer)) = Some f ->
    rv_centred v = true -> forall x n lin, shaped [n; nf] x -> (0 < n)%nat -> rv_cleared v = false \/ m = 1%nat \/ n = 1%nat ->
    net_answers (net_predict kernels layers unmodelled s x lin) lin f n oo (net_centred m nf k (entry z) (entry w) (entry x)).
  Proof.
    intros k z w f H EL EC x n lin SX Hn Hc. destruct n_world as [[G _] _]. cbn [fst] in G.
    destruct (n_answers _ _ _ s k z w f G H EL x n SX lin) as [_ [X _]]. apply X; auto.
  Qed.
  Lemma rbf_cleared_history : forall k z w f, net_holds ko m nf oo s k z w -> layers (OCall (if rv_default_layer v then ident else layer)) = Some f ->
    rv_centred v = true -> rv_cleared v = true -> forall x n lin, shaped [n; nf] x -> n <> m -> m <> 1%nat -> n <> 1%nat ->
    net_predict kernels layers unmodelled s x lin = Err TypeError.
  Proof.
    intros k z w f H EL EC EX x n lin SX H1 H2 H3. destruct n_world as [[G _] _]. cbn [fst] in G.
    destruct (n_answers _ _ _ s k z w f G H EL x n SX lin) as [_ [_ [_ X]]]. apply X; auto.
  Qed.
  Lemma rbf_cleared_square : forall k z w f, net_holds ko m nf oo s k z w -> layers (OCall (if rv_default_layer v then ident else layer)) = Some f ->
    rv_centred v = true -> rv_cleared v = true -> forall x lin, shaped [m; nf] x ->
    net_answers (net_predict kernels layers unmodelled s x lin) lin f m oo (fun j o => sum m (fun i =>
        (kernel_at nf k (entry z i) (entry x j) - / INR m * sum m (fun l => kernel_at nf k (entry z l) (entry x j))
         - (/ INR m * sum m (fun l => kernel_at nf k (entry z l) (entry x i)) - / INR m * sum m (fun a => / INR m * sum m (fun l => kernel_at nf k (entry z l) (entry x a)))))
        * entry w i o)).
  Proof.
    intros k z w f H EL EC EX x lin SX. destruct n_world as [[G _] _]. cbn [fst] in G.
    destruct (n_answers _ _ _ s k z w f G H EL x m SX lin) as [_ [_ [X _]]]. apply X; auto.
  Qed.
  (** one more failed fit, then a prediction *)
  Lemma rbf_fit_breaks : forall kind f, layers (OCall (if rv_default_layer v then ident else layer)) = Some f -> kind <> RNlopt -> rv_centred v = true -> rv_cleared v = false ->
    forall x n, shaped [n; nf] x -> n <> m -> m <> 1%nat -> (1 < n)%nat ->
    (exists a, net_predict kernels layers unmodelled s x true = Ok a) /\
    exists u, rbf_step sample (OCall ident) (OCall tloss) after_call interned (RFit kind) (s, fs) = (Err TypeError, (u, fs)) /\
      net_predict kernels layers unmodelled u x true = Err TypeError.
  Proof.
    intros kind f EL KN EC EX x n SX H1 H2 H3. destruct n_world as [[G _] _]. cbn [fst] in G.
    destruct (n_J s (proj2 (proj2 G))) as [k [z [w [H _]]]]. split.
    - destruct (n_answers _ _ _ s k z w f G H EL x n SX true) as [_ [X _]]. destruct (X EC (or_introl EX)) as [a [_ [_ Ha]]]; [lia|]. now exists a.
    - destruct (r_fit ident tloss layer loss after_call s0 m kind _ _ _ _ G) as [u [E Gu]]. exists u. cbn [rbf_step fst snd]. rewrite E. split; [reflexivity|].
      assert (Gu' : good (rv_centred v) true (rv_default_layer v) u) by (destruct kind; [exact Gu|congruence|exact Gu]).
      destruct (n_J u (proj2 (proj2 Gu'))) as [k' [z' [w' [H' _]]]].
      destruct (n_answers _ _ _ u k' z' w' f Gu' H' EL x n SX true) as [_ [_ [_ X]]]. apply X; auto; lia.
  Qed.
  (** a load succeeds exactly when the file has been written *)
  Lemma rbf_load : forall f, fst (rbf_step sample (OCall ident) (OCall tloss) after_call interned (RLoad f) (s, fs)) =
    if rv_files v f then Ok tt else Err FileNotFoundError.
  Proof.
    intro f. destruct n_world as [W _]. destruct (rbf_step sample (OCall ident) (OCall tloss) after_call interned (RLoad f) (s, fs)) as [r w'] eqn:E.
    destruct (rstep_good sample ident tloss layer loss after_call interned s0 m n_ready SA SF n_savable (RLoad f) v (s, fs) r w' W E) as [O1 _].
    cbn [outcome fst] in *. now destruct (rv_files v f).
  Qed.
  (** save, randomise with reset, load: the parameters are back, the output layer is not *)
  Lemma rbf_reset_layer : forall f g g' key0, rv_default_layer v = false -> layers (OCall layer) = Some g -> layers (OCall ident) = Some g' ->
    exists w, rbf_run sample (OCall ident) (OCall tloss) after_call interned [RSave f; RRandomize key0 true; RLoad (npz_name f)] (s, fs) = w /\
    Forall (fun e => snd (fst e) = Ok tt) (fst w) /\ s_params (fst (snd w)) = s_params s /\
    forall x n a, shaped [n; nf] x -> net_predict kernels layers unmodelled s x true = Ok a ->
      net_predict kernels layers unmodelled s x false = g a /\
      net_predict kernels layers unmodelled (fst (snd w)) x true = Ok a /\ net_predict kernels layers unmodelled (fst (snd w)) x false = g' a.
  Proof.
    intros f g g' key0 ED EG EG'. destruct n_world as [[G _] _]. cbn [fst] in G.
    destruct (r_save interned s0 n_ready n_savable s (proj1 G)) as [D HS].
    destruct (r_randomize sample ident tloss layer loss s0 m n_ready SA SF key0 true _ _ _ s G) as [t [ET Gt]].
    destruct (r_load ident tloss layer loss interned s0 m n_ready n_savable _ _ _ _ _ _ t s D Gt G HS) as [u [EU [Gu EP]]].
    assert (SS : forall fs, save s f fs = (Ok D, fun g => if String.eqb g (npz_name f) then Some (dumped D) else fs g)) by (intro; unfold save; now rewrite HS).
    eexists (_, _). cbn [fst snd]. split; [|split; [|split]].
    - cbn [rbf_run rbf_step]. cbv zeta. cbn [fst snd]. rewrite SS. cbn [fst snd]. rewrite ET. cbn [fst snd]. unfold load. rewrite String.eqb_refl, EU. cbn [fst snd]. reflexivity.
    - repeat constructor.
    - exact EP.
    - cbn [fst snd]. intros x n a SX HP. destruct (n_J s (proj2 (proj2 G))) as [k [z [w [H _]]]].
      assert (Hu : net_holds ko m nf oo u k z w) by (unfold net_holds in *; now rewrite EP).
      rewrite (n_linear _ _ _ s k z w G H x n SX true) in HP. rewrite (n_linear _ _ _ s k z w G H x n SX false), (n_linear _ _ _ u k z w Gu Hu x n SX true), (n_linear _ _ _ u k z w Gu Hu x n SX false).
      rewrite ED. destruct (predict_linear _ _ _ _ _ _ _ _ _) as [[p q]|]; [|discriminate]. injection HP as <-. now rewrite EG, EG'.
  Qed.
End History.

(** saved, and loaded by a network built alike from other values and with another history *)
Lemma rbf_saved : forall kernels layers unmodelled sample ident tloss after_call interned kernel ko layer m nf oo, kernels kernel = Some ko -> sampler_ok sample -> sampler_full sample ->
  forall draw zp kp alpha loss center s0, a_shape (p_value zp) = [m; nf] ->
  rbf_init draw kernel zp oo kp alpha (OCall layer) (OCall loss) center = Ok s0 -> net_ok interned ko m nf oo s0 ->
  forall os es s fs, rbf_run sample (OCall ident) (OCall tloss) after_call interned os (s0, fun _ => None) = (es, (s, fs)) ->
  forall draw' zp' kp' alpha' loss' center' s1 m', a_shape (p_value zp') = [m'; nf] ->
  rbf_init draw' kernel zp' oo kp' alpha' (OCall layer) (OCall loss') center' = Ok s1 -> net_ok interned ko m' nf oo s1 ->
  tree_def (s_params s1) = tree_def (s_params s0) ->
  forall os' es' t fs0, rbf_run sample (OCall ident) (OCall tloss) after_call interned os' (s1, fun _ => None) = (es', (t, fs0)) ->
  rv_default_layer (rbf_observe center' es') = rv_default_layer (rbf_observe center es) ->
  forall f, exists d fs' u, save s f fs = (Ok d, fs') /\ load interned t (npz_name f) fs' = Ok u /\ s_params u = s_params s /\
  forall x n lin, shaped [n; nf] x -> net_predict kernels layers unmodelled u x lin = net_predict kernels layers unmodelled s x lin.
Proof.
  intros kernels layers unmodelled sample ident tloss after_call interned kernel ko layer m nf oo EK SA SF draw zp kp alpha loss center s0 ES HI NO os es s fs HR
    draw' zp' kp' alpha' loss' center' s1 m' ES' HI' NO' DE os' es' t fs0 HR' EL f.
  destruct (n_world sample ident tloss after_call interned draw kernel ko zp kp alpha layer loss center s0 m nf oo SA SF ES HI NO os es s fs HR) as [[[SO [Ks Js]] _] _].
  destruct (n_world sample ident tloss after_call interned draw' kernel ko zp' kp' alpha' layer loss' center' s1 m' nf oo SA SF ES' HI' NO' os' es' t fs0 HR') as [[[TO [Kt Jt]] _] _].
  cbn [fst] in *. pose proof (r_savable interned s0 (n_ready interned ko s0 m nf oo NO) (n_savable interned ko s0 m nf oo NO) s SO) as SVs.
  pose proof (r_savable interned s1 (n_ready interned ko s1 m' nf oo NO') (n_savable interned ko s1 m' nf oo NO') t TO) as SVt. pose proof (r_aux s0 s SO) as AN.
  destruct (proj1 (n_start ident tloss interned draw kernel ko zp kp alpha layer loss center s0 m nf oo ES HI NO)).
  pose proof (proj1 (n_start ident tloss interned draw' (s_kernel s0) ko zp' kp' alpha' layer loss' center' s1 m' nf oo ES' HI' NO')) as K1.
  destruct SO as [S1 [S2 [S3 [S4 S5]]]]. destruct TO as [T1 [T2 [T3 [T4 T5]]]].
  assert (DD : tree_def (s_params s) = tree_def (s_params t)) by congruence.
  destruct (save_load interned s t) as [D [u [HS [HL [U1 [U2 [_ [_ [U5 U6]]]]]]]]]; auto.
  - apply same_names_def; auto; [apply S1|apply T1].
  - apply SVt.
  - intros path p q Lp Lq. assert (E : p_meta p = p_meta q).
    { rewrite !def_sorted in DD by (apply T1 || apply S1). assert (X : lookup path (map_tree (option_map p_meta) (s_params s)) = lookup path (map_tree (option_map p_meta) (s_params t))) by now rewrite DD.
      rewrite !lookup_map, Lp, Lq in X. cbn in X. congruence. }
    rewrite <- E. destruct S1 as [[_ S1] _]. exact (every_lookup' opt_ok _ path (Some p) S1 Lp).
  - assert (P : s_params u = s_params s). { eapply loaded_params; [exact S1|exact T1|exact SVs|exact AN|congruence|exact HS|exact HL]. }
    do 2 eexists. exists u. split; [unfold save; rewrite HS; reflexivity|]. split; [unfold load; rewrite String.eqb_refl; exact HL|]. split; [exact P|].
    destruct Ks as [L1 [L2 [L3 L4]]], Kt as [K1' [K2' [K3' K4']]].
    assert (A1 : attr u "center_kernel" = attr s "center_kernel") by (rewrite (attr_get _ _ _ L1); apply attr_get; apply U5; [exact L1|exact I]).
    assert (A2 : attr u "k_mean" = attr s "k_mean") by (rewrite (attr_get _ _ _ L2); apply attr_get; apply U5; [exact L2|apply mean_storable]).
    assert (A3 : attr u "output_layer" = attr s "output_layer").
    { rewrite (attr_get _ _ _ L3). apply attr_get. rewrite U6 by now rewrite L3. rewrite K3'. now rewrite EL. }
    intros x n lin SX.
    assert (EU : net_predict kernels layers unmodelled u x lin = net_predict kernels layers (fun _ => unmodelled u) s x lin).
    { unfold net_predict. now rewrite A1, A2, A3, P, U1, T2, S2, K1. }
    rewrite EU. destruct (n_J interned ko s0 m nf oo NO s Js) as [k [z [w [H _]]]].
    assert (Gs : rgood ident tloss layer loss s0 m (rv_centred (rbf_observe center es)) (rv_cleared (rbf_observe center es)) (rv_default_layer (rbf_observe center es)) s).
    { split; [|split; [|exact Js]]; [exact (conj S1 (conj S2 (conj S3 (conj S4 S5))))|exact (conj L1 (conj L2 (conj L3 L4)))]. }
    rewrite (n_linear kernels layers (fun _ => unmodelled u) ident tloss interned draw (s_kernel s0) ko zp kp alpha layer loss center s0 m nf oo EK ES HI NO _ _ _ s k z w Gs H x n SX lin).
    now rewrite (n_linear kernels layers unmodelled ident tloss interned draw (s_kernel s0) ko zp kp alpha layer loss center s0 m nf oo EK ES HI NO _ _ _ s k z w Gs H x n SX lin).
Qed.

(** ** with the arguments in the order of the theorems *)
Lemma rbf_history_q : forall sample ident tloss after_call interned,
  forall draw kernel ko zp kp alpha layer loss center s0 m nf oo, sampler_ok sample -> sampler_full sample -> a_shape (p_value zp) = [m; nf] ->
  rbf_init draw kernel zp oo kp alpha (OCall layer) (OCall loss) center = Ok s0 -> net_ok interned ko m nf oo s0 ->
  forall os es s fs, rbf_run sample (OCall ident) (OCall tloss) after_call interned os (s0, fun _ => None) = (es, (s, fs)) ->
  Forall (fun e => match fst (fst e) with RFit _ => snd (fst e) = Err TypeError | RLoad _ => True | _ => snd (fst e) = Ok tt end) es.
Proof. intros; eapply rbf_history; eauto. Qed.
Lemma rbf_load_q : forall sample ident tloss after_call interned,
  forall draw kernel ko zp kp alpha layer loss center s0 m nf oo, sampler_ok sample -> sampler_full sample -> a_shape (p_value zp) = [m; nf] ->
  rbf_init draw kernel zp oo kp alpha (OCall layer) (OCall loss) center = Ok s0 -> net_ok interned ko m nf oo s0 ->
  forall os es s fs, rbf_run sample (OCall ident) (OCall tloss) after_call interned os (s0, fun _ => None) = (es, (s, fs)) ->
  forall f, fst (rbf_step sample (OCall ident) (OCall tloss) after_call interned (RLoad f) (s, fs)) =
    if rv_files (rbf_observe center es) f then Ok tt else Err FileNotFoundError.
Proof. intros; eapply rbf_load; eauto. Qed.
Lemma rbf_parameters_q : forall sample ident tloss after_call interned,
  forall draw kernel ko zp kp alpha layer loss center s0 m nf oo, sampler_ok sample -> sampler_full sample -> a_shape (p_value zp) = [m; nf] ->
  rbf_init draw kernel zp oo kp alpha (OCall layer) (OCall loss) center = Ok s0 -> net_ok interned ko m nf oo s0 ->
  forall os es s fs, rbf_run sample (OCall ident) (OCall tloss) after_call interned os (s0, fun _ => None) = (es, (s, fs)) ->
  exists k z w, net_holds ko m nf oo s k z w /\ all_atoms (fun _ a => psd_atom a) k /\ ls_nonzero k.
Proof. intros; eapply rbf_parameters; eauto. Qed.
Lemma rbf_frozen_q : forall sample ident tloss after_call interned,
  forall draw kernel ko zp kp alpha layer loss center s0 m nf oo, sampler_ok sample -> sampler_full sample -> a_shape (p_value zp) = [m; nf] ->
  rbf_init draw kernel zp oo kp alpha (OCall layer) (OCall loss) center = Ok s0 -> net_ok interned ko m nf oo s0 ->
  forall os es s fs, rbf_run sample (OCall ident) (OCall tloss) after_call interned os (s0, fun _ => None) = (es, (s, fs)) ->
  forall path p, lookup path (s_params s0) = Some (Some p) -> m_trainable (p_meta p) = false -> lookup path (s_params s) = Some (Some p).
Proof. intros; eapply rbf_frozen; eauto. Qed.
Lemma rbf_plain_q : forall kernels layers unmodelled sample ident tloss after_call interned,
  forall draw kernel ko zp kp alpha layer loss center s0 m nf oo, kernels kernel = Some ko -> sampler_ok sample -> sampler_full sample -> a_shape (p_value zp) = [m; nf] ->
  rbf_init draw kernel zp oo kp alpha (OCall layer) (OCall loss) center = Ok s0 -> net_ok interned ko m nf oo s0 ->
  forall os es s fs, rbf_run sample (OCall ident) (OCall tloss) after_call interned os (s0, fun _ => None) = (es, (s, fs)) ->
  forall k z w f, net_holds ko m nf oo s k z w ->
  let v := rbf_observe center es in layers (OCall (if rv_default_layer v then ident else layer)) = Some f ->
  rv_centred v = false -> forall x n linear_only, shaped [n; nf] x ->
  net_answers (net_predict kernels layers unmodelled s x linear_only) linear_only f n oo (net m nf k (entry z) (entry w) (entry x)).
Proof. intros; eapply rbf_plain_history; eauto. Qed.
Lemma rbf_centred_q : forall kernels layers unmodelled sample ident tloss after_call interned,
  forall draw kernel ko zp kp alpha layer loss center s0 m nf oo, kernels kernel = Some ko -> sampler_ok sample -> sampler_full sample -> a_shape (p_value zp) = [m; nf] ->
  rbf_init draw kernel zp oo kp alpha (OCall layer) (OCall loss) center = Ok s0 -> net_ok interned ko m nf oo s0 ->
  forall os es s fs, rbf_run sample (OCall ident) (OCall tloss) after_call interned os (s0, fun _ => None) = (es, (s, fs)) ->
  forall k z w f, net_holds ko m nf oo s k z w ->
  let v := rbf_observe center es in layers (OCall (if rv_default_layer v then ident else layer)) = Some f ->
  rv_centred v = true -> forall x n linear_only, shaped [n; nf] x -> (0 < n)%nat -> rv_cleared v = false \/ m = 1%nat \/ n = 1%nat ->
  net_answers (net_predict kernels layers unmodelled s x linear_only) linear_only f n oo (net_centred m nf k (entry z) (entry w) (entry x)).
Proof. intros; eapply rbf_centred_history; eauto. Qed.
Lemma rbf_cleared_q : forall kernels layers unmodelled sample ident tloss after_call interned,
  forall draw kernel ko zp kp alpha layer loss center s0 m nf oo, kernels kernel = Some ko -> sampler_ok sample -> sampler_full sample -> a_shape (p_value zp) = [m; nf] ->
  rbf_init draw kernel zp oo kp alpha (OCall layer) (OCall loss) center = Ok s0 -> net_ok interned ko m nf oo s0 ->
  forall os es s fs, rbf_run sample (OCall ident) (OCall tloss) after_call interned os (s0, fun _ => None) = (es, (s, fs)) ->
  forall k z w f, net_holds ko m nf oo s k z w ->
  let v := rbf_observe center es in layers (OCall (if rv_default_layer v then ident else layer)) = Some f ->
  rv_centred v = true -> rv_cleared v = true -> forall x n linear_only, shaped [n; nf] x -> n <> m -> m <> 1%nat -> n <> 1%nat ->
  net_predict kernels layers unmodelled s x linear_only = Err TypeError.
Proof. intros; eapply rbf_cleared_history; eauto. Qed.
Lemma rbf_square_q : forall kernels layers unmodelled sample ident tloss after_call interned,
  forall draw kernel ko zp kp alpha layer loss center s0 m nf oo, kernels kernel = Some ko -> sampler_ok sample -> sampler_full sample -> a_shape (p_value zp) = [m; nf] ->
  rbf_init draw kernel zp oo kp alpha (OCall layer) (OCall loss) center = Ok s0 -> net_ok interned ko m nf oo s0 ->
  forall os es s fs, rbf_run sample (OCall ident) (OCall tloss) after_call interned os (s0, fun _ => None) = (es, (s, fs)) ->
  forall k z w f, net_holds ko m nf oo s k z w ->
  let v := rbf_observe center es in layers (OCall (if rv_default_layer v then ident else layer)) = Some f ->
  rv_centred v = true -> rv_cleared v = true -> forall x linear_only, shaped [m; nf] x ->
  net_answers (net_predict kernels layers unmodelled s x linear_only) linear_only f m oo (fun j o => sum m (fun i =>
    (kernel_at nf k (entry z i) (entry x j) - / INR m * sum m (fun l => kernel_at nf k (entry z l) (entry x j))
     - (/ INR m * sum m (fun l => kernel_at nf k (entry z l) (entry x i)) - / INR m * sum m (fun a => / INR m * sum m (fun l => kernel_at nf k (entry z l) (entry x a)))))
    * entry w i o)).
Proof. intros; eapply rbf_cleared_square; eauto. Qed.
Lemma rbf_breaks_q : forall kernels layers unmodelled sample ident tloss after_call interned,
  forall draw kernel ko zp kp alpha layer loss center s0 m nf oo, kernels kernel = Some ko -> sampler_ok sample -> sampler_full sample -> a_shape (p_value zp) = [m; nf] ->
  rbf_init draw kernel zp oo kp alpha (OCall layer) (OCall loss) center = Ok s0 -> net_ok interned ko m nf oo s0 ->
  forall os es s fs, rbf_run sample (OCall ident) (OCall tloss) after_call interned os (s0, fun _ => None) = (es, (s, fs)) ->
  forall kind f, let v := rbf_observe center es in layers (OCall (if rv_default_layer v then ident else layer)) = Some f ->
  kind <> RNlopt -> rv_centred v = true -> rv_cleared v = false ->
  forall x n, shaped [n; nf] x -> n <> m -> m <> 1%nat -> (1 < n)%nat ->
  (exists a, net_predict kernels layers unmodelled s x true = Ok a) /\
  exists u, rbf_step sample (OCall ident) (OCall tloss) after_call interned (RFit kind) (s, fs) = (Err TypeError, (u, fs)) /\
    net_predict kernels layers unmodelled u x true = Err TypeError.
Proof. intros; eapply rbf_fit_breaks; eauto. Qed.
Lemma rbf_layer_q : forall kernels layers unmodelled sample ident tloss after_call interned,
  forall draw kernel ko zp kp alpha layer loss center s0 m nf oo, kernels kernel = Some ko -> sampler_ok sample -> sampler_full sample -> a_shape (p_value zp) = [m; nf] ->
  rbf_init draw kernel zp oo kp alpha (OCall layer) (OCall loss) center = Ok s0 -> net_ok interned ko m nf oo s0 ->
  forall os es s fs, rbf_run sample (OCall ident) (OCall tloss) after_call interned os (s0, fun _ => None) = (es, (s, fs)) ->
  forall f g g' key0, rv_default_layer (rbf_observe center es) = false -> layers (OCall layer) = Some g -> layers (OCall ident) = Some g' ->
  exists w, rbf_run sample (OCall ident) (OCall tloss) after_call interned [RSave f; RRandomize key0 true; RLoad (npz_name f)] (s, fs) = w /\
  Forall (fun e => snd (fst e) = Ok tt) (fst w) /\ s_params (fst (snd w)) = s_params s /\
  forall x n a, shaped [n; nf] x -> net_predict kernels layers unmodelled s x true = Ok a ->
    net_predict kernels layers unmodelled s x false = g a /\
    net_predict kernels layers unmodelled (fst (snd w)) x true = Ok a /\ net_predict kernels layers unmodelled (fst (snd w)) x false = g' a.
Proof. intros; eapply rbf_reset_layer; eauto. Qed.
