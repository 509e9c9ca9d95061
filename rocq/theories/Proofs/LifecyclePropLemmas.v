(** Lemmas in the form in which Props/LifecycleProps.v states them. *)
From Coq Require Import String List Bool Arith Reals Lia Lra ZArith.
From Verif Require Import Model.PyDict Model.Bijectors Model.Params Model.State Model.Optim Model.Calls Model.Lifecycle
  Spec.DictSpec Spec.StateSpec Spec.RandomSpec Spec.OptimSpec Spec.LifecycleSpec
  Proofs.DictFacts Proofs.TreeFacts Proofs.StateFacts Proofs.UpdateFacts Proofs.SaveLoad Proofs.RandomFacts
  Proofs.StatePropLemmas Proofs.OptimFacts Proofs.OptimRun Proofs.OptimSearch Proofs.StateExamples Proofs.OptimPropLemmas Proofs.LifecycleFacts.
Import ListNotations.
Open Scope string_scope.
Open Scope nat_scope.

(** ** the classes *)
Definition gpr_fields (t : task) : list string := match t with TDerivs => ["jaccoef"; "c"; "mu"] | _ => ["c"; "mu"] end.
Definition gpr_names : list string :=
  ["x_train"; "y_train"; "loss_fn"; "is_fitted"; "is_fitted_derivs"; "c"; "mu"; "jacobian_train"; "y_derivs_train"; "jaccoef"].
Definition sgpr_fields (t : task) : list string := match t with TTargets => ["c"; "mu"] | TDerivs => ["jaccoef"; "c"; "mu"] | TBoth => [] end.
Definition sgpr_names : list string := "y_mean" :: gpr_names.
Definition rp_extra (t : task) : list string := match t with TBoth => [] | _ => ["key"; "n_locs"] end.
Definition rp_fields (t : task) : list string :=
  match t with TTargets => ["c"; "mu"; "x_locs"] | TDerivs => ["jaccoef"; "c"; "mu"; "x_locs"; "jacobian_locs"] | TBoth => [] end.
Definition rp_names : list string := "x_locs" :: "jacobian_locs" :: "n_locs" :: "key" :: sgpr_names.
Ltac aux_names := intros k H; cbn in H; repeat (destruct H as [<-|H]; [repeat split; try discriminate; intros [X|[X|X]]; discriminate X|]); contradiction.
Ltac each d k H := destruct d; cbn in H; cbn; repeat (destruct H as [<-|H]; [tauto|]); contradiction.
Ltac each_not d k H := destruct d; cbn in H; cbn; repeat (destruct H as [<-|H]; [intuition discriminate|]); contradiction.
Lemma gpr_class : forall N, class_ok N (GPR N) (fun _ => []) gpr_fields gpr_names ["loss_fn"].
Proof.
  intro N. split.
  - intros [] g b H; cbn in H; injection H as <- <-; reflexivity.
  - intros []; nodup.
  - intros d k H; each d k H.
  - aux_names.
  - intros d k H; each_not d k H.
  - intros t k [].
  - nodup.
  - intros k H. cbn in H. cbn. repeat (destruct H as [<-|H]; [intuition discriminate|]). contradiction.
  - intros k v H. apply get_in in H. cbn in H. repeat (destruct H as [H|H]; [injection H as <- <-; exact I|]). contradiction.
  - split; reflexivity.
Qed.
Lemma sgpr_class : forall N, class_ok N (SGPR N) (fun _ => []) sgpr_fields sgpr_names ["loss_fn"].
Proof.
  intro N. split.
  - intros [] g b H; cbn in H; try discriminate; injection H as <- <-; reflexivity.
  - intros []; nodup.
  - intros d k H; each d k H.
  - aux_names.
  - intros d k H; each_not d k H.
  - intros t k [].
  - nodup.
  - intros k H. cbn in H. cbn. repeat (destruct H as [<-|H]; [intuition discriminate|]). contradiction.
  - intros k v H. apply get_in in H. cbn in H. repeat (destruct H as [H|H]; [injection H as <- <-; exact I|]). contradiction.
  - split; reflexivity.
Qed.
Lemma rp_class : forall N, class_ok N (SGPR_RPChol N) rp_extra rp_fields rp_names ["loss_fn"; "n_locs"; "key"].
Proof.
  intro N. split.
  - intros [] g b H; cbn in H; try discriminate; injection H as <- <-; reflexivity.
  - intros []; nodup.
  - intros d k H; each d k H.
  - aux_names.
  - intros d k H; each_not d k H.
  - intros [] k H; cbn in *; tauto.
  - nodup.
  - intros k H. cbn in H. cbn. repeat (destruct H as [<-|H]; [intuition discriminate|]). contradiction.
  - intros k v H. apply get_in in H. cbn in H. repeat (destruct H as [H|H]; [injection H as <- <-; exact I|]). contradiction.
  - split; reflexivity.
Qed.

(** ** initial states *)
Lemma mk_inv : forall k m p r s, mk_state k m p r = Ok s -> s_kernel s = k /\ s_mean s = m /\ s_register s = norm r.
Proof. intros k m p r s H. rewrite mk_state_eq in H. apply bind_ok in H. destruct H as [t [_ H]]. injection H as <-. auto. Qed.
Lemma shape_init : forall s0 names consts, state_ok s0 ->
  (forall k v, get k (s_register s0) = Some v -> In k names /\ (storable v \/ is_callable v = true)) -> shape_ok s0 names consts s0.
Proof. intros. split; auto. Qed.
Ltac init_reg := intros k v H; apply get_in in H; cbn in H; repeat (destruct H as [H|H]; [injection H as <- <-; split; [cbn; tauto|cbn; try tauto]|]); try contradiction.
Lemma gpr_start : forall kernel mean kp sigma l s0, gpr_init kernel mean kp sigma (OCall l) = Ok s0 -> state_ok s0 ->
  s_kernel s0 = kernel /\ s_mean s0 = mean /\ shape_ok s0 gpr_names ["loss_fn"] s0 /\ forall N, knows N s0 (fun _ => []) gpr_fields Unfitted s0.
Proof.
  intros kernel mean kp sigma l s0 H S. apply mk_inv in H. destruct H as [H1 [H2 H3]]. split; [auto|]. split; [auto|]. split.
  - apply shape_init; auto. rewrite H3. init_reg.
  - intro N. cbn [knows]. rewrite H3. split; reflexivity.
Qed.
Lemma sgpr_start : forall kernel mean xl jl kp sigma l s0, sgpr_init kernel mean xl jl kp sigma (OCall l) = Ok s0 -> state_ok s0 ->
  s_kernel s0 = kernel /\ s_mean s0 = mean /\ shape_ok s0 sgpr_names ["loss_fn"] s0 /\ forall N, knows N s0 (fun _ => []) sgpr_fields Unfitted s0.
Proof.
  intros kernel mean xl jl kp sigma l s0 H S. apply mk_inv in H. destruct H as [H1 [H2 H3]]. split; [auto|]. split; [auto|]. split.
  - apply shape_init; auto. rewrite H3. init_reg.
  - intro N. cbn [knows]. rewrite H3. split; reflexivity.
Qed.
Lemma rp_start : forall kernel mean n key kp sigma l s0, rpchol_init kernel mean (OInt n) (Some (OArr key)) kp sigma (OCall l) = Ok s0 -> plain key -> state_ok s0 ->
  s_kernel s0 = kernel /\ s_mean s0 = mean /\ shape_ok s0 rp_names ["loss_fn"; "n_locs"; "key"] s0 /\
  (forall N, knows N s0 rp_extra rp_fields Unfitted s0) /\ mapM (attr s0) ["key"; "n_locs"] = Ok [OArr key; OArr (int0 n)].
Proof.
  intros kernel mean n key kp sigma l s0 H PK S. apply mk_inv in H. destruct H as [H1 [H2 H3]].
  assert (K : as_attr (OArr key) = OArr key) by (unfold as_attr; destruct (is_numeric (OArr key)); reflexivity).
  split; [auto|]. split; [auto|]. split; [|split].
  - apply shape_init; auto. rewrite H3. unfold norm. cbn [vmap map fst snd]. rewrite K. init_reg; left; first [exact PK|discriminate].
  - intro N. cbn [knows]. rewrite H3. split; reflexivity.
  - unfold attr. rewrite H3. unfold norm. cbn [vmap map fst snd]. rewrite K. reflexivity.
Qed.

(** ** answers *)
Lemma attr_get : forall s k v, get k (s_register s) = Some v -> attr s k = Ok v.
Proof. intros s k v H. unfold attr. now rewrite H. Qed.
Ltac flags H1 H2 := unfold base_predict, base_predict_ol, base_predict_derivs, base_predict_y_derivs, check_is_fitted, predict_fun, predict_ol_fun, predict_derivs_fun;
  cbn [negb andb bind call_attr k_predict k_predict_ol k_predict_derivs k_predict_y_derivs GPR SGPR SGPR_RPChol];
  rewrite andb_false_r; cbn [bind]; rewrite (attr_get _ _ _ H1), (attr_get _ _ _ H2); cbn [bind truth].
Lemma gpr_answers : forall N s0 m s, s_kernel s = s_kernel s0 -> knows N s0 (fun _ => []) gpr_fields m s -> gpr_serves N (s_kernel s0) (s_mean s0) s m.
Proof.
  intros N s0 m s EK K. destruct m as [|[p d o]]; cbn [knows gpr_serves] in *.
  - destruct K as [K1 K2]. intro q.
    assert (A1 := attr_get _ _ _ K1). assert (A2 := attr_get _ _ _ K2).
    unfold base_predict, base_predict_ol, base_predict_derivs, base_predict_y_derivs, check_is_fitted. rewrite !andb_false_r.
    cbn -[attr param_of]. unfold predict_fun, predict_ol_fun, predict_derivs_fun. rewrite A1, A2. cbn -[attr param_of]. auto.
  - destruct K as [vs [f [E [HF [HD [HC [K1 K2]]]]]]]. cbn in E. injection E as <-. exists f. split; [exact HF|]. intro q. cbv zeta.
    assert (A1 := attr_get _ _ _ K1). assert (A2 := attr_get _ _ _ K2).
    unfold base_predict, base_predict_ol, base_predict_derivs, base_predict_y_derivs, check_is_fitted. rewrite !andb_false_r.
    assert (GC : forall k, In k (gpr_fields (task_of d)) -> attr s k = Ok (OArr (f k))) by (intros; apply attr_get; now apply HC).
    assert (GD : forall k v, In (k, v) (data_fields d) -> attr s k = Ok v) by (intros; apply attr_get; now apply HD).
    unfold answer, dense_mean.
    destruct d as [x y|x y j|x y j dy]; cbn [gpr_fields task_of data_fields data_x] in *.
    + pose proof (GD "x_train" (OArr x) (or_introl eq_refl)) as X. pose proof (GC "c" ltac:(cbn; tauto)) as XC. pose proof (GC "mu" ltac:(cbn; tauto)) as XM.
      cbn -[attr param_of]. unfold predict_fun, predict_ol_fun, predict_derivs_fun. rewrite A1, A2. cbn -[attr param_of]. rewrite X, XC, XM. cbn -[attr param_of]. rewrite EK. destruct (q_full q), (q_iterative q); cbn -[attr param_of]; auto.
    + pose proof (GD "x_train" (OArr x) ltac:(cbn; tauto)) as X. pose proof (GD "jacobian_train" (OArr j) ltac:(cbn; tauto)) as XJ.
      pose proof (GC "c" ltac:(cbn; tauto)) as XC. pose proof (GC "mu" ltac:(cbn; tauto)) as XM. pose proof (GC "jaccoef" ltac:(cbn; tauto)) as XJC.
      cbn -[attr param_of]. unfold predict_fun, predict_ol_fun, predict_derivs_fun. rewrite A1, A2. cbn -[attr param_of]. rewrite X, XC, XM, XJ. cbn -[attr param_of]. rewrite EK. unfold jaccoef_reads. destruct (q_full q), (q_iterative q); cbn -[attr param_of]; try rewrite XJC; cbn -[attr param_of]; auto.
    + pose proof (GD "x_train" (OArr x) ltac:(cbn; tauto)) as X. pose proof (GC "c" ltac:(cbn; tauto)) as XC. pose proof (GC "mu" ltac:(cbn; tauto)) as XM.
      cbn -[attr param_of]. unfold predict_fun, predict_ol_fun, predict_derivs_fun. rewrite A1, A2. cbn -[attr param_of]. rewrite X, XC, XM. cbn -[attr param_of]. rewrite EK. destruct (q_full q), (q_iterative q); cbn -[attr param_of]; auto.
Qed.
Lemma param_of_lookup : forall s k p, lookup [k] (s_params s) = Some (Some p) -> param_of s k = Ok (OArr (p_value p)).
Proof.
  intros s k p H. unfold param_of. cbn in H. destruct (s_params s) as [o|l]; [discriminate|]. destruct (get k l) as [[o|l']|]; try discriminate. now injection H as ->.
Qed.
Lemma sgpr_answers : forall N s0 m s, s_kernel s = s_kernel s0 -> possible (SGPR N) m -> knows N s0 (fun _ => []) sgpr_fields m s -> sgpr_serves N (s_kernel s0) (s_mean s0) s m.
Proof.
  intros N s0 m s EK PO K. destruct m as [|[p d o]]; cbn [knows sgpr_serves possible t_data] in *.
  - destruct K as [K1 K2]. intro q.
    assert (A1 := attr_get _ _ _ K1). assert (A2 := attr_get _ _ _ K2).
    unfold base_predict, base_predict_ol, base_predict_derivs, base_predict_y_derivs, check_is_fitted. rewrite !andb_false_r.
    cbn -[attr param_of]. unfold predict_fun, predict_ol_fun, predict_derivs_fun. rewrite A1, A2. cbn -[attr param_of]. auto.
  - destruct K as [vs [f [E [HF [HD [HC [K1 K2]]]]]]]. cbn in E. injection E as <-. exists f. split; [exact HF|]. intros q xl LX. cbv zeta.
    apply param_of_lookup in LX.
    assert (A1 := attr_get _ _ _ K1). assert (A2 := attr_get _ _ _ K2).
    unfold base_predict, base_predict_ol, base_predict_derivs, base_predict_y_derivs, check_is_fitted. rewrite !andb_false_r.
    assert (GC : forall k, In k (sgpr_fields (task_of d)) -> attr s k = Ok (OArr (f k))) by (intros; apply attr_get; now apply HC).
    unfold answer.
    destruct d as [x y|x y j|x y j dy]; cbn [sgpr_fields task_of] in *; [| |now apply PO].
    + pose proof (GC "c" ltac:(cbn; tauto)) as XC. pose proof (GC "mu" ltac:(cbn; tauto)) as XM.
      cbn -[attr param_of]. unfold predict_fun, predict_ol_fun, predict_derivs_fun. rewrite A1, A2. cbn -[attr param_of]. rewrite LX, XC, XM. cbn -[attr param_of]. rewrite EK. destruct (q_full q), (q_iterative q); cbn -[attr param_of]; auto.
    + pose proof (GC "c" ltac:(cbn; tauto)) as XC. pose proof (GC "mu" ltac:(cbn; tauto)) as XM. pose proof (GC "jaccoef" ltac:(cbn; tauto)) as XJC.
      split; [cbn -[attr param_of]; unfold predict_fun; rewrite A1; reflexivity|]. intros jl LJ. apply param_of_lookup in LJ.
      cbn -[attr param_of]. unfold predict_fun, predict_ol_fun, predict_derivs_fun. rewrite A1, A2. cbn -[attr param_of]. rewrite EK. destruct (q_full q), (q_iterative q); cbn -[attr param_of]; rewrite ?XJC; cbn -[attr param_of]; rewrite ?LX, ?LJ, ?XC, ?XM; cbn -[attr param_of]; auto.
Qed.
Lemma rp_answers : forall N s0 m s n key, s_kernel s = s_kernel s0 -> mapM (attr s0) ["key"; "n_locs"] = Ok [OArr key; OArr n] ->
  possible (SGPR_RPChol N) m -> knows N s0 rp_extra rp_fields m s -> rpchol_serves N (s_kernel s0) (s_mean s0) n key s m.
Proof.
  intros N s0 m s n key EK EX PO K. destruct m as [|[p d o]]; cbn [knows rpchol_serves possible t_data] in *.
  - destruct K as [K1 K2]. intro q.
    assert (A1 := attr_get _ _ _ K1). assert (A2 := attr_get _ _ _ K2).
    unfold base_predict, base_predict_ol, base_predict_derivs, base_predict_y_derivs, check_is_fitted. rewrite !andb_false_r.
    cbn -[attr param_of]. unfold predict_fun, predict_ol_fun, predict_derivs_fun. rewrite A1, A2. cbn -[attr param_of]. auto.
  - destruct K as [vs [f [E [HF [HD [HC [K1 K2]]]]]]].
    assert (A1 := attr_get _ _ _ K1). assert (A2 := attr_get _ _ _ K2).
    assert (GC : forall k, In k (rp_fields (task_of d)) -> attr s k = Ok (OArr (f k))) by (intros; apply attr_get; now apply HC).
    destruct d as [x y|x y j|x y j dy]; cbn [rp_extra rp_fields task_of] in *; [| |now apply PO]; rewrite EX in E; injection E as <-; exists f; (split; [exact HF|]); intro q; cbv zeta;
      unfold base_predict, base_predict_ol, base_predict_derivs, base_predict_y_derivs, check_is_fitted; rewrite !andb_false_r; unfold answer, dense_mean.
    + pose proof (GC "c" ltac:(cbn; tauto)) as XC. pose proof (GC "mu" ltac:(cbn; tauto)) as XM. pose proof (GC "x_locs" ltac:(cbn; tauto)) as LX.
      cbn -[attr param_of]. unfold predict_fun, predict_ol_fun, predict_derivs_fun. rewrite A1, A2. cbn -[attr param_of]. rewrite LX, XC, XM. cbn -[attr param_of]. rewrite EK. destruct (q_full q), (q_iterative q); cbn -[attr param_of]; auto.
    + pose proof (GC "c" ltac:(cbn; tauto)) as XC. pose proof (GC "mu" ltac:(cbn; tauto)) as XM. pose proof (GC "jaccoef" ltac:(cbn; tauto)) as XJC.
      pose proof (GC "x_locs" ltac:(cbn; tauto)) as LX. pose proof (GC "jacobian_locs" ltac:(cbn; tauto)) as LJ.
      cbn -[attr param_of]. unfold predict_fun, predict_ol_fun, predict_derivs_fun. rewrite A1, A2. cbn -[attr param_of]. rewrite EK. rewrite LX, LJ, XC, XM. unfold jaccoef_reads. destruct (q_full q), (q_iterative q); cbn -[attr param_of]; rewrite ?XJC; cbn -[attr param_of]; auto.
Qed.

(** ** two models in the same mode *)
Lemma param_of_same : forall s u k, s_params u = s_params s -> param_of u k = param_of s k.
Proof. intros s u k H. unfold param_of. now rewrite H. Qed.
Lemma no_ol : forall C s, k_predict_ol C = None -> forall q u, base_predict_ol C u q = base_predict_ol C s q.
Proof. intros C s H q u. unfold base_predict_ol, check_is_fitted. rewrite !andb_false_r, H. reflexivity. Qed.
Lemma gpr_same : forall N kernel mean s u m, gpr_serves N kernel mean s m -> gpr_serves N kernel mean u m -> s_params u = s_params s -> same_predictions (GPR N) u s.
Proof.
  intros N kernel mean s u m A B P q. destruct m as [|[p d o]]; cbn [gpr_serves] in A, B.
  - destruct (A q) as [A1 [A2 [A3 A4]]], (B q) as [B1 [B2 [B3 B4]]]. rewrite A1, A2, A3, A4, B1, B2, B3, B4. auto.
  - destruct A as [f [HF A]], B as [f' [HF' B]]. rewrite HF in HF'. injection HF' as <-. specialize (A q). specialize (B q). cbv zeta in A, B. rewrite P in B.
    destruct d; destruct A as [A1 [A2 [A3 A4]]], B as [B1 [B2 [B3 B4]]]; rewrite A1, A2, A3, A4, B1, B2, B3, B4; auto.
Qed.
Lemma rp_same : forall N kernel mean n key s u m, rpchol_serves N kernel mean n key s m -> rpchol_serves N kernel mean n key u m -> s_params u = s_params s ->
  same_predictions (SGPR_RPChol N) u s.
Proof.
  intros N kernel mean n key s u m A B P q. pose proof (no_ol (SGPR_RPChol N) s eq_refl q u) as OL. destruct m as [|[p d o]]; cbn [rpchol_serves] in A, B.
  - destruct (A q) as [A1 [A2 A3]], (B q) as [B1 [B2 B3]]. rewrite A1, A2, A3, B1, B2, B3. auto.
  - destruct d as [x y|x y j|x y j dy]; [| |destruct A]; destruct A as [f [HF A]], B as [f' [HF' B]]; rewrite HF in HF'; injection HF' as <-; specialize (A q); specialize (B q); cbv zeta in A, B; rewrite P in B;
    destruct A as [A1 [A2 A3]], B as [B1 [B2 B3]]; rewrite A1, A2, A3, B1, B2, B3; auto.
Qed.
Lemma sgpr_same : forall N s0 s u m, possible (SGPR N) m -> s_kernel u = s_kernel s -> s_params u = s_params s ->
  knows N s0 (fun _ => []) sgpr_fields m s -> knows N s0 (fun _ => []) sgpr_fields m u -> same_predictions (SGPR N) u s.
Proof.
  intros N s0 s u m PO EK P A B q. pose proof (no_ol (SGPR N) s eq_refl q u) as OL. destruct m as [|[p d o]]; cbn [knows possible t_data] in *.
  - destruct A as [A1 A2], B as [B1 B2]. apply attr_get in A1, A2, B1, B2. rewrite OL.
    unfold base_predict, base_predict_derivs, base_predict_y_derivs, check_is_fitted. rewrite !andb_false_r.
    cbn -[attr param_of base_predict_ol]. unfold predict_fun, predict_derivs_fun. rewrite A1, A2, B1, B2. cbn -[attr param_of base_predict_ol]. auto.
  - destruct A as [vs [f [E [HF [_ [A3 [A4 A5]]]]]]], B as [vs' [f' [E' [HF' [_ [B3 [B4 B5]]]]]]]. rewrite E in E'. injection E' as <-. rewrite HF in HF'. injection HF' as <-.
    apply attr_get in A4, A5, B4, B5. rewrite OL.
    assert (GA : forall k, In k (sgpr_fields (task_of d)) -> attr s k = Ok (OArr (f k))) by (intros; apply attr_get; now apply A3).
    assert (GB : forall k, In k (sgpr_fields (task_of d)) -> attr u k = Ok (OArr (f k))) by (intros; apply attr_get; now apply B3).
    unfold base_predict, base_predict_derivs, base_predict_y_derivs, check_is_fitted. rewrite !andb_false_r.
    destruct d as [x y|x y j|x y j dy]; cbn [sgpr_fields task_of] in *; [| |exfalso; now apply PO].
    + cbn -[attr param_of base_predict_ol]. unfold predict_fun, predict_derivs_fun. rewrite A4, A5, B4, B5. cbn -[attr param_of base_predict_ol].
      rewrite (GA "c"), (GA "mu"), (GB "c"), (GB "mu") by (cbn; tauto). rewrite (param_of_same s u _ P), P, EK. auto.
    + cbn -[attr param_of base_predict_ol]. unfold predict_fun, predict_derivs_fun. rewrite A4, A5, B4, B5. cbn -[attr param_of base_predict_ol].
      destruct (q_full q), (q_iterative q); cbn -[attr param_of base_predict_ol]; rewrite ?(GA "jaccoef"), ?(GB "jaccoef") by (cbn; tauto); cbn -[attr param_of base_predict_ol];
      rewrite ?(GA "c"), ?(GA "mu"), ?(GB "c"), ?(GB "mu") by (cbn; tauto); rewrite ?(param_of_same s u _ P), ?P, ?EK; auto.
Qed.

(** ** C15, C16 *)
Section Thm.
  Context (lossfn : obj -> option (sig * (data -> dict obj -> state -> result (num * array)))) (sample : key -> prior_obj -> array) (key_precond : obj)
    (interned : string -> bool) (N : numerics) (s0 : state) (os : list op) (es : list (op * result unit * state)) (s : state) (fs : files).
  Context (S : state_ok s0) (SA : sampler_ok sample) (F : float_params (s_params s0)) (SV : savable interned (s_params s0)) (PN : plain_numerics N)
    (O : Forall (call_ok (s_params s0)) os).
  Lemma gpr_history : forall kernel mean kp sigma l, gpr_init kernel mean kp sigma (OCall l) = Ok s0 ->
    run lossfn sample key_precond interned (GPR N) os (s0, fun _ => None) = (es, (s, fs)) ->
    gpr_serves N kernel mean s (v_mode (observe es)) /\
    (v_fresh (observe es) = true -> forall t, v_mode (observe es) = Fitted t -> t_params t = s_params s).
  Proof.
    intros kernel mean kp sigma l HI HR. destruct (gpr_start _ _ _ _ _ _ HI S) as [EK [EM [SO K]]].
    destruct (history_good N (GPR N) s0 (fun _ => []) gpr_fields gpr_names ["loss_fn"] lossfn sample key_precond interned (gpr_class N) PN SA F (proj1 (proj2 S)) SV os es s fs SO (K N) O HR) as [G1 [G2 [G3 G4]]].
    split; [|intros B t Et; specialize (G3 B); now rewrite Et in G3]. rewrite <- EK, <- EM. apply gpr_answers; [apply G1|exact G2].
  Qed.
  Lemma sgpr_history : forall kernel mean xl jl kp sigma l, sgpr_init kernel mean xl jl kp sigma (OCall l) = Ok s0 ->
    run lossfn sample key_precond interned (SGPR N) os (s0, fun _ => None) = (es, (s, fs)) ->
    sgpr_serves N kernel mean s (v_mode (observe es)) /\
    (v_fresh (observe es) = true -> forall t, v_mode (observe es) = Fitted t -> t_params t = s_params s).
  Proof.
    intros kernel mean xl jl kp sigma l HI HR. destruct (sgpr_start _ _ _ _ _ _ _ _ HI S) as [EK [EM [SO K]]].
    destruct (history_good N (SGPR N) s0 (fun _ => []) sgpr_fields sgpr_names ["loss_fn"] lossfn sample key_precond interned (sgpr_class N) PN SA F (proj1 (proj2 S)) SV os es s fs SO (K N) O HR) as [G1 [G2 [G3 G4]]].
    split; [|intros B t Et; specialize (G3 B); now rewrite Et in G3]. rewrite <- EK, <- EM. apply sgpr_answers; [apply G1|exact G4|exact G2].
  Qed.
  Lemma rp_history : forall kernel mean n key kp sigma l, rpchol_init kernel mean (OInt n) (Some (OArr key)) kp sigma (OCall l) = Ok s0 -> plain key ->
    run lossfn sample key_precond interned (SGPR_RPChol N) os (s0, fun _ => None) = (es, (s, fs)) ->
    rpchol_serves N kernel mean (int0 n) key s (v_mode (observe es)) /\
    (v_fresh (observe es) = true -> forall t, v_mode (observe es) = Fitted t -> t_params t = s_params s).
  Proof.
    intros kernel mean n key kp sigma l HI PK HR. destruct (rp_start _ _ _ _ _ _ _ _ HI PK S) as [EK [EM [SO [K EX]]]].
    destruct (history_good N (SGPR_RPChol N) s0 rp_extra rp_fields rp_names ["loss_fn"; "n_locs"; "key"] lossfn sample key_precond interned (rp_class N) PN SA F (proj1 (proj2 S)) SV os es s fs SO (K N) O HR) as [G1 [G2 [G3 G4]]].
    split; [|intros B t Et; specialize (G3 B); now rewrite Et in G3]. rewrite <- EK, <- EM. apply rp_answers; [apply G1|exact EX|exact G4|exact G2].
  Qed.
End Thm.
(** a model built with other values *)
Lemma gpr_shape : forall kernel mean kp sigma l kp' sigma' s0 s1, gpr_init kernel mean kp sigma (OCall l) = Ok s0 -> gpr_init kernel mean kp' sigma' (OCall l) = Ok s1 ->
  state_ok s1 -> tree_def (s_params s1) = tree_def (s_params s0) ->
  shape_ok s0 gpr_names ["loss_fn"] s1 /\ forall N, knows N s0 (fun _ => []) gpr_fields Unfitted s1.
Proof.
  intros kernel mean kp sigma l kp' sigma' s0 s1 H H' S D. destruct (gpr_start _ _ _ _ _ _ H' S) as [E1 [E2 [[_ [_ [_ [_ [R _]]]]] K]]].
  apply mk_inv in H, H'. destruct H as [H1 [H2 H3]], H' as [H1' [H2' H3']]. split; [|exact K].
  split; [exact S|]. split; [congruence|]. split; [congruence|]. split; [exact D|]. split; [exact R|]. intros k _. now rewrite H3, H3'.
Qed.
Lemma sgpr_shape : forall kernel mean xl jl kp sigma l xl' jl' kp' sigma' s0 s1, sgpr_init kernel mean xl jl kp sigma (OCall l) = Ok s0 ->
  sgpr_init kernel mean xl' jl' kp' sigma' (OCall l) = Ok s1 -> state_ok s1 -> tree_def (s_params s1) = tree_def (s_params s0) ->
  shape_ok s0 sgpr_names ["loss_fn"] s1 /\ forall N, knows N s0 (fun _ => []) sgpr_fields Unfitted s1.
Proof.
  intros kernel mean xl jl kp sigma l xl' jl' kp' sigma' s0 s1 H H' S D. destruct (sgpr_start _ _ _ _ _ _ _ _ H' S) as [E1 [E2 [[_ [_ [_ [_ [R _]]]]] K]]].
  apply mk_inv in H, H'. destruct H as [H1 [H2 H3]], H' as [H1' [H2' H3']]. split; [|exact K].
  split; [exact S|]. split; [congruence|]. split; [congruence|]. split; [exact D|]. split; [exact R|]. intros k _. now rewrite H3, H3'.
Qed.
Lemma rp_shape : forall kernel mean n key kp sigma l kp' sigma' s0 s1, rpchol_init kernel mean (OInt n) (Some (OArr key)) kp sigma (OCall l) = Ok s0 ->
  rpchol_init kernel mean (OInt n) (Some (OArr key)) kp' sigma' (OCall l) = Ok s1 -> plain key -> state_ok s1 -> tree_def (s_params s1) = tree_def (s_params s0) ->
  shape_ok s0 rp_names ["loss_fn"; "n_locs"; "key"] s1 /\ forall N, knows N s0 rp_extra rp_fields Unfitted s1.
Proof.
  intros kernel mean n key kp sigma l kp' sigma' s0 s1 H H' PK S D. destruct (rp_start _ _ _ _ _ _ _ _ H' PK S) as [E1 [E2 [[_ [_ [_ [_ [R _]]]]] [K _]]]].
  apply mk_inv in H, H'. destruct H as [H1 [H2 H3]], H' as [H1' [H2' H3']]. split; [|exact K].
  split; [exact S|]. split; [congruence|]. split; [congruence|]. split; [exact D|]. split; [exact R|]. intros k _. now rewrite H3, H3'.
Qed.
Section Saved.
  Context (lossfn : obj -> option (sig * (data -> dict obj -> state -> result (num * array)))) (sample : key -> prior_obj -> array) (key_precond : obj)
    (interned : string -> bool) (N : numerics) (s0 : state).
  Context (S : state_ok s0) (SA : sampler_ok sample) (F : float_params (s_params s0)) (SV : savable interned (s_params s0)) (PN : plain_numerics N).
  Lemma gpr_saved : forall kernel mean kp sigma l kp' sigma', gpr_init kernel mean kp sigma (OCall l) = Ok s0 ->
    forall s1 os es s fs os' es' t fs0, state_ok s1 -> tree_def (s_params s1) = tree_def (s_params s0) -> gpr_init kernel mean kp' sigma' (OCall l) = Ok s1 ->
    Forall (call_ok (s_params s0)) os -> Forall (call_ok (s_params s0)) os' ->
    run lossfn sample key_precond interned (GPR N) os (s0, fun _ => None) = (es, (s, fs)) ->
    run lossfn sample key_precond interned (GPR N) os' (s1, fun _ => None) = (es', (t, fs0)) ->
    forall f, exists d fs' u, save s f fs = (Ok d, fs') /\ load interned t (npz_name f) fs' = Ok u /\ s_params u = s_params s /\ same_predictions (GPR N) u s.
  Proof.
    intros kernel mean kp sigma l kp' sigma' HI s1 os es s fs os' es' t fs0 S1 D1 HI1 O O' H H' f. destruct (gpr_start _ _ _ _ _ _ HI S) as [EK [EM [SO K]]].
    pose proof (gpr_shape _ _ _ _ _ _ _ _ _ HI HI1 S1 D1) as [SO1 K1].
    destruct (saved_good N (GPR N) s0 (fun _ => []) gpr_fields gpr_names ["loss_fn"] lossfn sample key_precond interned (gpr_class N) PN SA F (proj1 (proj2 S)) SV
      s1 os es s fs os' es' t fs0 SO (K N) SO1 (K1 N) O O' H H' f) as [d [fs' [u [X1 [X2 [X3 [[G1 [G2 G3]] [G1' [G2' G3']]]]]]]]].
    exists d, fs', u. split; [exact X1|]. split; [exact X2|]. split; [exact X3|].
    eapply gpr_same; [apply gpr_answers; [apply G1|exact G2]|apply gpr_answers; [apply G1'|exact G2']|exact X3].
  Qed.
  Lemma sgpr_saved : forall kernel mean xl jl kp sigma l xl' jl' kp' sigma', sgpr_init kernel mean xl jl kp sigma (OCall l) = Ok s0 ->
    forall s1 os es s fs os' es' t fs0, state_ok s1 -> tree_def (s_params s1) = tree_def (s_params s0) -> sgpr_init kernel mean xl' jl' kp' sigma' (OCall l) = Ok s1 ->
    Forall (call_ok (s_params s0)) os -> Forall (call_ok (s_params s0)) os' ->
    run lossfn sample key_precond interned (SGPR N) os (s0, fun _ => None) = (es, (s, fs)) ->
    run lossfn sample key_precond interned (SGPR N) os' (s1, fun _ => None) = (es', (t, fs0)) ->
    forall f, exists d fs' u, save s f fs = (Ok d, fs') /\ load interned t (npz_name f) fs' = Ok u /\ s_params u = s_params s /\ same_predictions (SGPR N) u s.
  Proof.
    intros kernel mean xl jl kp sigma l xl' jl' kp' sigma' HI s1 os es s fs os' es' t fs0 S1 D1 HI1 O O' H H' f. destruct (sgpr_start _ _ _ _ _ _ _ _ HI S) as [EK [EM [SO K]]].
    pose proof (sgpr_shape _ _ _ _ _ _ _ _ _ _ _ _ _ HI HI1 S1 D1) as [SO1 K1].
    destruct (saved_good N (SGPR N) s0 (fun _ => []) sgpr_fields sgpr_names ["loss_fn"] lossfn sample key_precond interned (sgpr_class N) PN SA F (proj1 (proj2 S)) SV
      s1 os es s fs os' es' t fs0 SO (K N) SO1 (K1 N) O O' H H' f) as [d [fs' [u [X1 [X2 [X3 [[G1 [G2 [G3 G4]]] [G1' [G2' G3']]]]]]]]].
    exists d, fs', u. split; [exact X1|]. split; [exact X2|]. split; [exact X3|].
    eapply sgpr_same; [exact G4| |exact X3|exact G2|exact G2']. destruct G1 as [_ [-> _]], G1' as [_ [-> _]]. reflexivity.
  Qed.
  Lemma rp_saved : forall kernel mean n key kp sigma l kp' sigma', rpchol_init kernel mean (OInt n) (Some (OArr key)) kp sigma (OCall l) = Ok s0 -> plain key ->
    forall s1 os es s fs os' es' t fs0, state_ok s1 -> tree_def (s_params s1) = tree_def (s_params s0) -> rpchol_init kernel mean (OInt n) (Some (OArr key)) kp' sigma' (OCall l) = Ok s1 ->
    Forall (call_ok (s_params s0)) os -> Forall (call_ok (s_params s0)) os' ->
    run lossfn sample key_precond interned (SGPR_RPChol N) os (s0, fun _ => None) = (es, (s, fs)) ->
    run lossfn sample key_precond interned (SGPR_RPChol N) os' (s1, fun _ => None) = (es', (t, fs0)) ->
    forall f, exists d fs' u, save s f fs = (Ok d, fs') /\ load interned t (npz_name f) fs' = Ok u /\ s_params u = s_params s /\ same_predictions (SGPR_RPChol N) u s.
  Proof.
    intros kernel mean n key kp sigma l kp' sigma' HI PK s1 os es s fs os' es' t fs0 S1 D1 HI1 O O' H H' f. destruct (rp_start _ _ _ _ _ _ _ _ HI PK S) as [EK [EM [SO [K EX]]]].
    pose proof (rp_shape _ _ _ _ _ _ _ _ _ _ _ HI HI1 PK S1 D1) as [SO1 K1].
    destruct (saved_good N (SGPR_RPChol N) s0 rp_extra rp_fields rp_names ["loss_fn"; "n_locs"; "key"] lossfn sample key_precond interned (rp_class N) PN SA F (proj1 (proj2 S)) SV
      s1 os es s fs os' es' t fs0 SO (K N) SO1 (K1 N) O O' H H' f) as [d [fs' [u [X1 [X2 [X3 [[G1 [G2 [G3 G4]]] [G1' [G2' [G3' G4']]]]]]]]]].
    exists d, fs', u. split; [exact X1|]. split; [exact X2|]. split; [exact X3|].
    eapply rp_same; [eapply rp_answers; [apply G1|exact EX|exact G4|exact G2]|eapply rp_answers; [apply G1'|exact EX|exact G4'|exact G2']|exact X3].
  Qed.
End Saved.
