(** Which calls reach functions that accept their arguments (C17), and stale models (C15, C16). *)
From Coq Require Import String List Bool Arith Reals Lia Lra ZArith.
From Verif Require Import Model.PyDict Model.Bijectors Model.Params Model.State Model.Optim Model.Calls Model.Lifecycle
  Spec.DictSpec Spec.StateSpec Spec.RandomSpec Spec.OptimSpec Spec.LifecycleSpec
  Proofs.DictFacts Proofs.TreeFacts Proofs.StateFacts Proofs.UpdateFacts Proofs.SaveLoad Proofs.RandomFacts
  Proofs.StatePropLemmas Proofs.OptimFacts Proofs.OptimRun Proofs.OptimSearch Proofs.StateExamples Proofs.OptimPropLemmas Proofs.OptimExamples
  Proofs.LifecycleFacts Proofs.LifecyclePropLemmas.
Import ListNotations.
Open Scope string_scope.
Open Scope nat_scope.

Section Dispatch.
  Context (lossfn : obj -> option (sig * (data -> dict obj -> state -> result (num * array)))) (sample : key -> prior_obj -> array) (key_precond : obj)
    (N : numerics).
  Lemma fit_runs : forall (num : fit_numerics) (fields : list string) d o s f, state_ok s ->
    NoDup (map fst (data_fields d) ++ fields ++ flag_names) ->
    (forall k, In k (map fst (data_fields d) ++ fields ++ flag_names) -> ~ reserved k) ->
    num (s_params s) (s_kernel s) (s_mean s) [] d o = Ok f -> exists u, fit_fun num [] fields d o s = Ok u.
  Proof.
    intros num fields d o s f S ND NR H. unfold fit_fun. cbn [mapM bind]. rewrite H. cbn [bind]. cbv zeta.
    match goal with |- exists u, fst (state_update s ?D) = _ => assert (KD : map fst D = (map fst (data_fields d) ++ fields ++ flag_names)%list) end.
    { rewrite !map_app, fields_keys. reflexivity. }
    eexists. apply update_attrs; [exact S| |]; rewrite KD; auto.
  Qed.
  Lemma gpr_fit_dispatch : forall d a s lf l f, state_ok s -> a_minimize a = None -> a_history a = false ->
    get "loss_fn" (s_register s) = Some lf -> lossfn lf = Some l ->
    n_fit N (task_of d) (s_params s) (s_kernel s) (s_mean s) [] d (a_options a) = Ok f ->
    exists u, base_fit lossfn sample key_precond (GPR N) d a s = (Ok tt, u).
  Proof.
    intros d a s lf l f S M H HL HF E. unfold base_fit. cbv zeta. rewrite M.
    assert (MIN : forall kw, minimisation lossfn sample a scipy_minimize d kw s = Ok (s, false)).
    { intro kw. unfold minimisation, attr. rewrite HL. cbn [bind]. rewrite HF, M. reflexivity. }
    assert (FD : exists u, call_attr (k_fit (GPR N) (task_of d)) 1 (fit_names (task_of d)) (fun b => b d (a_options a) s) = Ok u).
    { assert (CL := gpr_class N). assert (X : exists u, fit_fun (n_fit N (task_of d)) [] (gpr_fields (task_of d)) d (a_options a) s = Ok u).
      { eapply fit_runs; [exact S|apply (co_nodup _ _ _ _ _ _ CL)| |exact E]. intros k Hk. apply (co_names _ _ _ _ _ _ CL) in Hk. apply (co_aux _ _ _ _ _ _ CL) in Hk. apply Hk. }
      destruct d; exact X. }
    destruct FD as [u FD]. exists u. unfold finish. destruct d; rewrite ?MIN; cbn [task_of] in *; rewrite FD, H; reflexivity.
  Qed.
  Lemma nlopt_dispatch : forall C x y w a s lf l f, C = GPR N \/ C = SGPR N -> state_ok s -> a_minimize a = None -> a_history a = false ->
    get "loss_fn" (s_register s) = Some lf -> lossfn lf = Some l ->
    n_fit N TTargets (s_params s) (s_kernel s) (s_mean s) [] (Targets x y) (Options (o_iterative (a_options a)) ONone) = Ok f ->
    exists u, base_fit_nlopt lossfn sample C x y w a s = (Ok tt, u).
  Proof.
    intros C x y w a s lf l f HC S M H HL HF E. unfold base_fit_nlopt.
    assert (MIN : minimisation lossfn sample a (nlopt_optimize w) (Targets x y) (nlopt_loss_kwargs a) s = Ok (s, false)).
    { unfold minimisation, attr. rewrite HL. cbn [bind]. rewrite HF, M. reflexivity. }
    rewrite MIN. unfold finish.
    assert (X : exists u, fit_fun (n_fit N TTargets) [] ["c"; "mu"] (Targets x y) (Options (o_iterative (a_options a)) ONone) s = Ok u).
    { assert (CL := gpr_class N). eapply fit_runs; [exact S|apply (co_nodup _ _ _ _ _ _ CL (Targets x y))| |exact E].
      intros k Hk. apply (co_names _ _ _ _ _ _ CL (Targets x y)) in Hk. apply (co_aux _ _ _ _ _ _ CL) in Hk. apply Hk. }
    destruct X as [u X]. exists u. destruct HC as [-> | ->]; cbn [call_attr k_fit GPR SGPR];
      (match goal with |- context [call ?g ?n ?k ?b] => change (call g n k b) with b end); rewrite X, H; reflexivity.
  Qed.
  (** self._fit_fun of the sparse classes takes neither n_pivots nor key_precond, and there is no fit_ol *)
  Lemma sparse_call : forall C d o u, C = SGPR N \/ C = SGPR_RPChol N ->
    call_attr (k_fit C (task_of d)) 1 (fit_names (task_of d)) (fun b => b d o u) =
    Err (match d with Both _ _ _ _ => AttributeError | _ => TypeError end).
  Proof. intros C d o u [-> | ->]; destruct d; reflexivity. Qed.
  Lemma sparse_fit : forall C d a s, C = SGPR N \/ C = SGPR_RPChol N ->
    exists e u, base_fit lossfn sample key_precond C d a s = (Err e, u) /\
    (a_minimize a = None -> u = s /\ forall lf l, get "loss_fn" (s_register s) = Some lf -> lossfn lf = Some l ->
       e = match d with Both _ _ _ _ => AttributeError | _ => TypeError end).
  Proof.
    intros C d a s HC. unfold base_fit, finish. cbv zeta.
    match goal with |- context [match ?X with Ok _ => _ | Err _ => _ end] => destruct X as [[s1 h]|e] eqn:E end.
    - rewrite sparse_call by auto. do 2 eexists. split; [reflexivity|]. intro M. split; [|reflexivity].
      assert (MIN : forall kw, minimisation lossfn sample a scipy_minimize d kw s = Ok (s1, h) -> s1 = s).
      { intros kw X. unfold minimisation in X. apply bind_ok in X. destruct X as [lf [_ X]]. destruct (lossfn lf); [|discriminate]. rewrite M in X. now injection X as <- _. }
      destruct d; [eapply MIN; exact E|eapply MIN; exact E|]. rewrite M in E. now injection E as <- _.
    - do 2 eexists. split; [reflexivity|]. intro M. split; [reflexivity|]. intros lf l HL HF.
      assert (MIN : forall kw, minimisation lossfn sample a scipy_minimize d kw s = Ok (s, false)).
      { intro kw. unfold minimisation, attr. rewrite HL. cbn [bind]. rewrite HF, M. reflexivity. }
      rewrite M in E. destruct d; rewrite ?MIN in E; discriminate.
  Qed.
  (** a loss that does not take the arguments it is given *)
  Lemma loss_rejected : forall C d a s lf g f strat, get "loss_fn" (s_register s) = Some lf -> lossfn lf = Some (g, f) ->
    a_minimize a = Some strat ->
    accepts g 0 (["state"; "x"; "y"] ++ map fst (match d with Both _ _ _ _ => [] | _ => fit_loss_kwargs key_precond a end) ++ more_names (task_of d))%list = false ->
    exists e, base_fit lossfn sample key_precond C d a s = (Err e, s).
  Proof.
    intros C d a s lf g f strat HL HF M A. unfold base_fit, finish. cbv zeta.
    assert (MIN : forall kw, accepts g 0 (["state"; "x"; "y"] ++ map fst kw ++ more_names (task_of d))%list = false ->
      exists e, minimisation lossfn sample a scipy_minimize d kw s = Err e).
    { intros kw X. unfold minimisation, attr. rewrite HL. cbn [bind]. rewrite HF, M. unfold randomized_minimization.
      destruct (check_random_key (a_key a) (a_restarts a)); [|cbn; eauto]. cbn [bind].
      match goal with |- context [bind (bind ?q _) _] => destruct q as [u|e] end; [|cbn; eauto]. cbn [bind fst].
      unfold loss_keywords. cbn [fst snd]. unfold call. rewrite X. cbn [bind]. eauto. }
    rewrite M. destruct d; destruct (MIN _ A) as [e E]; rewrite E; eauto.
  Qed.
  Lemma predict_ol_sparse : forall C s q, C = SGPR N \/ C = SGPR_RPChol N -> base_predict_ol C s q = Err AttributeError.
  Proof. intros C s q [-> | ->]; unfold base_predict_ol, check_is_fitted; rewrite andb_false_r; reflexivity. Qed.
  Lemma never_checked : forall s, check_is_fitted s = Ok tt.
  Proof. intro s. unfold check_is_fitted. now rewrite andb_false_r. Qed.
End Dispatch.
Lemma mem_name_in : forall k l, mem_name k l = true <-> In k l.
Proof. intros k l. unfold mem_name. rewrite existsb_exists. split; [intros [x [H E]]; apply String.eqb_eq in E; now subst|]. intro H. exists k. split; [auto|apply String.eqb_refl]. Qed.
Lemma in_set_keys : forall {A} k k' (v : A) d, In k (map fst (set k' v d)) <-> k = k' \/ In k (map fst d).
Proof. exact @in_set. Qed.
Lemma accepts_iff : forall g kw, accepts g 0 kw = true <-> (forall k, In k kw -> In k (names_of g)) /\ (forall k, In k (required g) -> In k kw).
Proof.
  intros g kw. unfold accepts. rewrite !skipn_O, !andb_true_iff, !forallb_forall. cbn [Nat.leb]. split.
  - intros [[_ H1] H2]. split; intros k H; apply mem_name_in; auto.
  - intros [H1 H2]. split; [split; [reflexivity|]|]; intros k H; apply mem_name_in; auto.
Qed.
Lemma rejects_kw : forall g kw k, In k kw -> mem_name k (names_of g) = false -> accepts g 0 kw = false.
Proof.
  intros g kw k H E. destruct (accepts g 0 kw) eqn:A; [|reflexivity]. apply accepts_iff in A. destruct A as [A _]. apply A in H. apply mem_name_in in H. congruence.
Qed.
Lemma rejects_req : forall g kw k, In k (required g) -> ~ In k kw -> accepts g 0 kw = false.
Proof. intros g kw k H E. destruct (accepts g 0 kw) eqn:A; [|reflexivity]. apply accepts_iff in A. destruct A as [_ A]. exfalso. auto. Qed.
Lemma usable_spec : forall fam t l g kp a, loss_sig fam l = Some g ->
  (forall k, In k (map fst (a_loss_kwargs a)) -> In k loss_options) ->
  accepts g 0 (["state"; "x"; "y"] ++ map fst (match t with TBoth => [] | _ => fit_loss_kwargs kp a end) ++ more_names t)%list = usable fam t l.
Proof.
  intros fam t l g kp a HG HK.
  assert (KW : forall k, In k (map fst (fit_loss_kwargs kp a)) <-> k = "key_precond" \/ k = "n_pivots" \/ k = "iterative" \/ In k (map fst (a_loss_kwargs a))).
  { intro k. unfold fit_loss_kwargs. rewrite !in_set_keys. tauto. }
  set (F := fit_loss_kwargs kp a) in *. clearbody F.
  destruct fam; destruct t; destruct l; cbn in HG; try discriminate; injection HG as <-; cbn [usable].
  all: try (apply accepts_iff; split;
    [ intros k H; rewrite !in_app_iff in H; cbn in H; cbn; rewrite ?KW in H; intuition (subst; try tauto);
      match goal with X : In k _ |- _ => apply HK in X; cbn in X end; intuition (subst; tauto)
    | intros k H; cbn in H; rewrite !in_app_iff; cbn; intuition (subst; tauto) ]; fail).
  all: try (apply (rejects_kw _ _ "n_pivots"); [rewrite !in_app_iff, KW; tauto|reflexivity]; fail).
  all: try (apply (rejects_kw _ _ "jacobian"); [rewrite !in_app_iff; cbn; tauto|reflexivity]; fail).
  all: try (apply (rejects_kw _ _ "y_derivs"); [rewrite !in_app_iff; cbn; tauto|reflexivity]; fail).
  all: apply (rejects_req _ _ "jacobian"); [cbn; tauto|]; rewrite !in_app_iff, KW; cbn; intro H; intuition (try discriminate);
    match goal with X : In _ _ |- _ => apply HK in X; cbn in X end; intuition discriminate.
Qed.

(** ** concrete models *)
Definition ex_lossfn (o : obj) : option (sig * (data -> dict obj -> state -> result (num * array))) :=
  match o with
  | OCall 7 => Some (Sig ["state"; "x"; "y"] ["iterative"; "n_pivots"; "key_precond"], fun _ _ _ => Ok (Some 0%R, Arr [] F64 [Some 0%R]))
  | _ => None
  end.
(** the coefficient is the length scale; two training points are refused *)
Definition ex_coef (p : ptree) : array :=
  match lookup ["kernel_params"; "lengthscale"] p with Some (Some q) => Arr [1] F64 (a_data (p_value q)) | _ => Arr [1] F64 [None] end.
Definition ex_fit : fit_numerics := fun p _ _ _ d _ =>
  match a_shape (data_x d) with [1] => Ok (fun _ => ex_coef p) | _ => Err ValueError end.
Definition ex_predict : predict_numerics := fun _ _ vs _ => match vs with [_; OArr c; _] => Ok [c] | _ => Err TypeError end.
Definition ex_num : numerics := Numerics (fun _ => ex_fit) ex_predict ex_predict ex_predict ex_predict.
Definition ex_x1 : array := Arr [1] F64 [Some 0%R].
Definition ex_x2 : array := Arr [2] F64 [Some 0%R; Some 1%R].
Definition ex_args (m : option (array -> strategy (num * array) array)) (h : bool) : fit_args := FitArgs m 0 None h (Options false ONone) [].
Definition ex_q : query := Query ex_x1 None false false.
Definition ex_s0 (l : R) : state :=
  State (OCall 1) (OCall 2) (ex_params l 1 1)
    [("x_train", ONone); ("y_train", ONone); ("loss_fn", OCall 7); ("is_fitted", OBool false); ("is_fitted_derivs", OBool false); ("c", ONone); ("mu", ONone)].
Definition ex_kp (l : R) : ptree := Node [("lengthscale", Leaf (Some (scalar_param true l))); ("variance", Leaf (Some (scalar_param false 1)))].
Lemma ex_s0_init : forall l, gpr_init (OCall 1) (OCall 2) (ex_kp l) (scalar_param true 1) (OCall 7) = Ok (ex_s0 l).
Proof. reflexivity. Qed.
Lemma ex_s0_ok : forall l, state_ok (ex_s0 l).
Proof.
  intro l. destruct (ex_params_ok l 1 1) as [H1 H2]. split; auto. split; auto. split; [nodup|]. split; [|split; exact I]. repeat constructor; simpl; tauto.
Qed.
Lemma ex_plain : plain_numerics ex_num.
Proof.
  intros t p k m vs d o f name H. cbn in H. unfold ex_fit in H. destruct (a_shape (data_x d)) as [|[|[|n]] [|b r]]; try discriminate. injection H as <-.
  unfold plain, ex_coef. destruct (lookup _ p) as [[q|]|]; intro X; discriminate.
Qed.
(** the state after a fit on [ex_x1]: [c] is the coefficient *)
Definition ex_f (p : ptree) (c : R) : state :=
  State (OCall 1) (OCall 2) p
    [("x_train", OArr ex_x1); ("y_train", OArr ex_x1); ("loss_fn", OCall 7); ("is_fitted", OBool true); ("is_fitted_derivs", OBool false);
     ("c", OArr (Arr [1] F64 [Some c])); ("mu", OArr (Arr [1] F64 [Some c]))].
Notation up := (forward Softplus 1).
Lemma softplus_gt : forall x, (x < forward Softplus x)%R.
Proof.
  intro x. simpl. unfold softplus, logaddexp, eps300. assert (0 < / 10 ^ 300)%R by (apply Rinv_0_lt_compat, pow_lt; lra).
  assert (ln (exp x) < ln (exp x + exp 0))%R by (apply ln_increasing; [apply exp_pos|pose proof (exp_pos 0); lra]). rewrite ln_exp in H0. lra.
Qed.
Definition ex_keep : op := Randomize (Key 0) false.
Definition ex_data : data := Targets ex_x1 ex_x1.
(** a fit that fails after the minimisation *)
Definition ex_min (a b : R) : option (array -> strategy (num * array) array) := Some (fun _ => Done (vec [a; b])).
Definition ex_bad : data := Targets ex_x2 ex_x2.
Lemma ex_step_fit : forall l, base_fit ex_lossfn ex_sampler ONone (GPR ex_num) ex_data (ex_args None false) (ex_s0 l) = (Ok tt, ex_f (ex_params l 1 1) l).
Proof. reflexivity. Qed.
Lemma ex_step_refit : forall l v c, base_fit ex_lossfn ex_sampler ONone (GPR ex_num) ex_data (ex_args None false) (ex_f (ex_params l 1 v) c) = (Ok tt, ex_f (ex_params l 1 v) l).
Proof. reflexivity. Qed.
Lemma ex_step_keep : forall l v c, base_randomize ex_sampler (GPR ex_num) (Key 0) false (ex_f (ex_params l 1 v) c) = Ok (ex_f (ex_params up 1 up) c).
Proof. reflexivity. Qed.
Lemma ex_step_predict : forall p c, base_predict (GPR ex_num) (ex_f p c) ex_q = Ok [Arr [1] F64 [Some c]].
Proof. reflexivity. Qed.
Lemma ex_step_fail : forall p c, s_params (ex_f p c) = ex_params 1 1 1 ->
  base_fit ex_lossfn ex_sampler ONone (GPR ex_num) ex_bad (ex_args (ex_min 1 1) false) (ex_f p c) = (Err ValueError, ex_f (ex_params up 1 up) c).
Proof. intros p c H. cbn in H. subst p. reflexivity. Qed.
Lemma arr_up : [Arr [1] F64 [Some 1%R]] <> [Arr [1] F64 [Some up]].
Proof. intro H. injection H as H. pose proof (softplus_gt 1) as X. cbn in X. lra. Qed.
Lemma params_up : forall v, ex_params up 1 v <> ex_params 1 1 1.
Proof. intros v H. injection H as H _. pose proof (softplus_gt 1) as X. cbn in X. lra. Qed.
(** randomised without a reset: the old coefficients are served *)
Lemma stale_randomize : exists s es fs r s' r',
  run ex_lossfn ex_sampler ONone cpython_interned (GPR ex_num) [Fit ex_data (ex_args None false); ex_keep] (ex_s0 1, fun _ => None) = (es, (s, fs)) /\
  Forall (fun e => snd (fst e) = Ok tt) es /\ base_predict (GPR ex_num) s ex_q = Ok r /\
  base_fit ex_lossfn ex_sampler ONone (GPR ex_num) ex_data (ex_args None false) s = (Ok tt, s') /\
  base_predict (GPR ex_num) s' ex_q = Ok r' /\ r <> r'.
Proof.
  exists (ex_f (ex_params up 1 up) 1), [(Fit ex_data (ex_args None false), Ok tt, ex_f (ex_params 1 1 1) 1); (ex_keep, Ok tt, ex_f (ex_params up 1 up) 1)], (fun _ => None).
  exists [Arr [1] F64 [Some 1%R]], (ex_f (ex_params up 1 up) up), [Arr [1] F64 [Some up]].
  split. { unfold run, step, ex_keep. cbv zeta. cbn [fst snd]. rewrite ex_step_fit. cbn [fst snd]. rewrite ex_step_keep. reflexivity. }
  split; [repeat constructor|]. split; [apply ex_step_predict|]. split; [apply ex_step_refit|]. split; [apply ex_step_predict|apply arr_up].
Qed.
Lemma stale_failed_fit : exists s es fs r s' r',
  run ex_lossfn ex_sampler ONone cpython_interned (GPR ex_num) [Fit ex_data (ex_args None false); Fit ex_bad (ex_args (ex_min 1 1) false)] (ex_s0 1, fun _ => None) = (es, (s, fs)) /\
  map (fun e => snd (fst e)) es = [Ok tt; Err ValueError] /\ base_predict (GPR ex_num) s ex_q = Ok r /\
  base_fit ex_lossfn ex_sampler ONone (GPR ex_num) ex_data (ex_args None false) s = (Ok tt, s') /\
  base_predict (GPR ex_num) s' ex_q = Ok r' /\ r <> r'.
Proof.
  exists (ex_f (ex_params up 1 up) 1), [(Fit ex_data (ex_args None false), Ok tt, ex_f (ex_params 1 1 1) 1); (Fit ex_bad (ex_args (ex_min 1 1) false), Err ValueError, ex_f (ex_params up 1 up) 1)], (fun _ => None).
  exists [Arr [1] F64 [Some 1%R]], (ex_f (ex_params up 1 up) up), [Arr [1] F64 [Some up]].
  split. { unfold run, step. cbv zeta. cbn [fst snd]. rewrite ex_step_fit. cbn [fst snd]. rewrite ex_step_fail by reflexivity. reflexivity. }
  split; [reflexivity|]. split; [apply ex_step_predict|]. split; [apply ex_step_refit|]. split; [apply ex_step_predict|apply arr_up].
Qed.
Lemma failed_call_changes : exists u, base_fit ex_lossfn ex_sampler ONone (GPR ex_num) ex_bad (ex_args (ex_min 1 1) false) (ex_f (ex_params 1 1 1) 1) = (Err ValueError, u) /\
  s_params u <> s_params (ex_f (ex_params 1 1 1) 1).
Proof. exists (ex_f (ex_params up 1 up) 1). split; [now apply ex_step_fail|apply params_up]. Qed.
Lemma history_without_minimise : exists u r, base_fit ex_lossfn ex_sampler ONone (GPR ex_num) ex_data (ex_args None true) (ex_s0 1) = (Err UnboundLocalError, u) /\
  base_predict (GPR ex_num) (ex_s0 1) ex_q = Err RuntimeError /\ base_predict (GPR ex_num) u ex_q = Ok r.
Proof. do 2 eexists. split; [reflexivity|]. split; reflexivity. Qed.
Definition ex_up : state :=
  State (OCall 1) (OCall 2) (ex_params up 1 up) (s_register (ex_s0 1)).
Lemma sparse_damage : exists u, base_fit ex_lossfn ex_sampler ONone (SGPR ex_num) ex_data (ex_args (ex_min 1 1) false) (ex_s0 1) = (Err TypeError, u) /\
  s_params u <> s_params (ex_s0 1).
Proof. exists ex_up. split; [reflexivity|apply params_up]. Qed.
Lemma rbf_never_fits : forall kind rest s, state_ok s -> exists u, rbf_fit kind rest s = (Err TypeError, u) /\
  match kind with RNlopt => u = s | _ => get "k_mean" (s_register u) = Some ONone end.
Proof.
  intros kind rest s S. unfold rbf_fit. cbv zeta.
  assert (U : fst (state_update s [("k_mean", ONone)]) = Ok (State (s_kernel s) (s_mean s) (s_params s) (norm (merge (s_register s) [("k_mean", ONone)])))).
  { apply update_attrs; [exact S|nodup|]. intros k [<-|[]] [H|[H|H]]; discriminate. }
  assert (G : get "k_mean" (norm (merge (s_register s) [("k_mean", ONone)])) = Some ONone) by (rewrite get_updated; [reflexivity|nodup|exact S]).
  destruct kind; rewrite ?U; eexists; (split; [reflexivity|]); [exact G|reflexivity|exact G].
Qed.
(** a whole history: fit, save, randomise, load, predict *)
Lemma ex_step_min : base_fit ex_lossfn ex_sampler ONone (GPR ex_num) ex_data (ex_args (ex_min 1 1) true) (ex_s0 1) = (Ok tt, ex_f (ex_params up 1 up) up).
Proof. reflexivity. Qed.
Lemma ex_step_reset : forall l v c, exists u, base_randomize ex_sampler (GPR ex_num) (Key 0) true (ex_f (ex_params l 1 v) c) = Ok u.
Proof. intros. eexists. reflexivity. Qed.
Definition ex_ops : list op := [Fit ex_data (ex_args (ex_min 1 1) true); SaveFile "m"; Randomize (Key 0) true; LoadFile "m.npz"].
Lemma ex_ops_ok : Forall (call_ok (s_params (ex_s0 1))) ex_ops.
Proof. repeat constructor; try discriminate. Qed.
Lemma ex_history : exists es s fs,
  run ex_lossfn ex_sampler ONone cpython_interned (GPR ex_num) ex_ops (ex_s0 1, fun _ => None) = (es, (s, fs)) /\
  Forall (fun e => snd (fst e) = Ok tt) es /\ v_fresh (observe es) = true /\
  v_mode (observe es) = Fitted (Trained (ex_params up 1 up) ex_data (Options false ONone)).
Proof.
  unfold ex_ops, run, step. cbv zeta. cbn [fst snd]. rewrite ex_step_min. cbn [fst snd].
  destruct (ex_step_reset up up up) as [u E].
  set (sv := save _ _ _). cbn in sv. subst sv. cbn [fst snd]. rewrite E. cbn [fst snd].
  cbn in E. injection E as <-. set (ld := load _ _ _ _). cbn -[forward_arr ex_sampler] in ld. subst ld.
  cbv beta iota. do 3 eexists. split; [reflexivity|].
  split; [repeat constructor|]. split; reflexivity.
Qed.

(** ** the theorems of Props/LifecycleProps.v that need packaging *)
Lemma C15_gpr_lemma : forall lossfn sample key_precond interned N s0 os es s fs kernel mean kp sigma l,
  state_ok s0 -> sampler_ok sample -> float_params (s_params s0) -> savable interned (s_params s0) -> plain_numerics N ->
  Forall (call_ok (s_params s0)) os ->
  gpr_init kernel mean kp sigma (OCall l) = Ok s0 ->
  run lossfn sample key_precond interned (GPR N) os (s0, fun _ => None) = (es, (s, fs)) ->
  gpr_serves N kernel mean s (v_mode (observe es)).
Proof. intros lossfn sample kp0 i N s0 os es s fs kernel mean kp sigma l H1 H2 H3 H4 H5 H6 H7 H8. exact (proj1 (gpr_history _ _ _ _ _ _ _ _ _ _ H1 H2 H3 H4 H5 H6 _ _ _ _ _ H7 H8)). Qed.
Lemma C16_gpr_lemma : forall lossfn sample key_precond interned N s0 os es s fs kernel mean kp sigma l,
  state_ok s0 -> sampler_ok sample -> float_params (s_params s0) -> savable interned (s_params s0) -> plain_numerics N ->
  Forall (call_ok (s_params s0)) os ->
  gpr_init kernel mean kp sigma (OCall l) = Ok s0 ->
  run lossfn sample key_precond interned (GPR N) os (s0, fun _ => None) = (es, (s, fs)) ->
  v_fresh (observe es) = true -> forall t, v_mode (observe es) = Fitted t -> t_params t = s_params s.
Proof. intros lossfn sample kp0 i N s0 os es s fs kernel mean kp sigma l H1 H2 H3 H4 H5 H6 H7 H8. exact (proj2 (gpr_history _ _ _ _ _ _ _ _ _ _ H1 H2 H3 H4 H5 H6 _ _ _ _ _ H7 H8)). Qed.
Lemma C15_sgpr_lemma : forall lossfn sample key_precond interned N s0 os es s fs kernel mean x_locs jacobian_locs kp sigma l,
  state_ok s0 -> sampler_ok sample -> float_params (s_params s0) -> savable interned (s_params s0) -> plain_numerics N ->
  Forall (call_ok (s_params s0)) os ->
  sgpr_init kernel mean x_locs jacobian_locs kp sigma (OCall l) = Ok s0 ->
  run lossfn sample key_precond interned (SGPR N) os (s0, fun _ => None) = (es, (s, fs)) ->
  sgpr_serves N kernel mean s (v_mode (observe es)).
Proof. intros lossfn sample kp0 i N s0 os es s fs kernel mean xl jl kp sigma l H1 H2 H3 H4 H5 H6 H7 H8. exact (proj1 (sgpr_history _ _ _ _ _ _ _ _ _ _ H1 H2 H3 H4 H5 H6 _ _ _ _ _ _ _ H7 H8)). Qed.
Lemma C16_sgpr_lemma : forall lossfn sample key_precond interned N s0 os es s fs kernel mean x_locs jacobian_locs kp sigma l,
  state_ok s0 -> sampler_ok sample -> float_params (s_params s0) -> savable interned (s_params s0) -> plain_numerics N ->
  Forall (call_ok (s_params s0)) os ->
  sgpr_init kernel mean x_locs jacobian_locs kp sigma (OCall l) = Ok s0 ->
  run lossfn sample key_precond interned (SGPR N) os (s0, fun _ => None) = (es, (s, fs)) ->
  v_fresh (observe es) = true -> forall t, v_mode (observe es) = Fitted t -> t_params t = s_params s.
Proof. intros lossfn sample kp0 i N s0 os es s fs kernel mean xl jl kp sigma l H1 H2 H3 H4 H5 H6 H7 H8. exact (proj2 (sgpr_history _ _ _ _ _ _ _ _ _ _ H1 H2 H3 H4 H5 H6 _ _ _ _ _ _ _ H7 H8)). Qed.
Lemma C15_rp_lemma : forall lossfn sample key_precond interned N s0 os es s fs kernel mean n key kp sigma l,
  state_ok s0 -> sampler_ok sample -> float_params (s_params s0) -> savable interned (s_params s0) -> plain_numerics N ->
  Forall (call_ok (s_params s0)) os ->
  rpchol_init kernel mean (OInt n) (Some (OArr key)) kp sigma (OCall l) = Ok s0 -> plain key ->
  run lossfn sample key_precond interned (SGPR_RPChol N) os (s0, fun _ => None) = (es, (s, fs)) ->
  rpchol_serves N kernel mean (int0 n) key s (v_mode (observe es)).
Proof. intros lossfn sample kp0 i N s0 os es s fs kernel mean n key kp sigma l H1 H2 H3 H4 H5 H6 H7 H8 H9. exact (proj1 (rp_history _ _ _ _ _ _ _ _ _ _ H1 H2 H3 H4 H5 H6 _ _ _ _ _ _ _ H7 H8 H9)). Qed.
Lemma C16_rp_lemma : forall lossfn sample key_precond interned N s0 os es s fs kernel mean n key kp sigma l,
  state_ok s0 -> sampler_ok sample -> float_params (s_params s0) -> savable interned (s_params s0) -> plain_numerics N ->
  Forall (call_ok (s_params s0)) os ->
  rpchol_init kernel mean (OInt n) (Some (OArr key)) kp sigma (OCall l) = Ok s0 -> plain key ->
  run lossfn sample key_precond interned (SGPR_RPChol N) os (s0, fun _ => None) = (es, (s, fs)) ->
  v_fresh (observe es) = true -> forall t, v_mode (observe es) = Fitted t -> t_params t = s_params s.
Proof. intros lossfn sample kp0 i N s0 os es s fs kernel mean n key kp sigma l H1 H2 H3 H4 H5 H6 H7 H8 H9. exact (proj2 (rp_history _ _ _ _ _ _ _ _ _ _ H1 H2 H3 H4 H5 H6 _ _ _ _ _ _ _ H7 H8 H9)). Qed.
Lemma ex_f_ok : forall l v c, state_ok (ex_f (ex_params l 1 v) c).
Proof.
  intros l v c. destruct (ex_params_ok l 1 v) as [H1 H2]. split; auto. split; auto. split; [nodup|]. split; [|split; exact I]. repeat constructor; simpl; tauto.
Qed.
Lemma failed_call : exists lossfn sample key_precond N d a s e u, state_ok s /\
  base_fit lossfn sample key_precond (GPR N) d a s = (Err e, u) /\ s_params u <> s_params s.
Proof.
  destruct failed_call_changes as [u [H1 H2]]. do 9 eexists. split; [|split; [exact H1|exact H2]]. apply ex_f_ok.
Qed.
Lemma history_unbound : exists lossfn sample key_precond N d a s u q r, state_ok s /\ a_minimize a = None /\ a_history a = true /\
  base_predict (GPR N) s q = Err RuntimeError /\
  base_fit lossfn sample key_precond (GPR N) d a s = (Err UnboundLocalError, u) /\ base_predict (GPR N) u q = Ok r.
Proof.
  destruct history_without_minimise as [u [r [H1 [H2 H3]]]]. do 10 eexists. split; [apply (ex_s0_ok 1)|]. split; [|split; [|split; [exact H2|split; [exact H1|exact H3]]]]; reflexivity.
Qed.
Lemma randomize_stale : exists lossfn sample key_precond N s0 d a k es s fs q r s' r', state_ok s0 /\ sampler_ok sample /\
  run lossfn sample key_precond cpython_interned (GPR N) [Fit d a; Randomize k false] (s0, fun _ => None) = (es, (s, fs)) /\
  Forall (fun e => snd (fst e) = Ok tt) es /\ base_predict (GPR N) s q = Ok r /\
  base_fit lossfn sample key_precond (GPR N) d a s = (Ok tt, s') /\ a_minimize a = None /\
  base_predict (GPR N) s' q = Ok r' /\ r <> r'.
Proof.
  destruct stale_randomize as [s [es [fs [r [s' [r' [H1 [H2 [H3 [H4 [H5 H6]]]]]]]]]]].
  exists ex_lossfn, ex_sampler, ONone, ex_num, (ex_s0 1), ex_data, (ex_args None false), (Key 0), es, s, fs, ex_q, r, s', r'.
  split; [apply ex_s0_ok|]. split; [apply ex_sampler_ok|]. split; [exact H1|]. split; [exact H2|]. split; [exact H3|]. split; [exact H4|]. split; [reflexivity|]. split; [exact H5|exact H6].
Qed.
Lemma failed_fit_stale : exists lossfn sample key_precond N s0 d d' a a' es s fs q r s' r', state_ok s0 /\ sampler_ok sample /\
  run lossfn sample key_precond cpython_interned (GPR N) [Fit d a; Fit d' a'] (s0, fun _ => None) = (es, (s, fs)) /\
  map (fun e => snd (fst e)) es = [Ok tt; Err ValueError] /\ base_predict (GPR N) s q = Ok r /\
  base_fit lossfn sample key_precond (GPR N) d a s = (Ok tt, s') /\ a_minimize a = None /\
  base_predict (GPR N) s' q = Ok r' /\ r <> r'.
Proof.
  destruct stale_failed_fit as [s [es [fs [r [s' [r' [H1 [H2 [H3 [H4 [H5 H6]]]]]]]]]]].
  exists ex_lossfn, ex_sampler, ONone, ex_num, (ex_s0 1), ex_data, ex_bad, (ex_args None false), (ex_args (ex_min 1 1) false), es, s, fs, ex_q, r, s', r'.
  split; [apply ex_s0_ok|]. split; [apply ex_sampler_ok|]. split; [exact H1|]. split; [exact H2|]. split; [exact H3|]. split; [exact H4|]. split; [reflexivity|]. split; [exact H5|exact H6].
Qed.
Lemma init_inert : forall lossfn sample key_precond interned C fresh s fs, snd (step lossfn sample key_precond interned C (Init (Ok fresh)) (s, fs)) = (s, fs).
Proof. reflexivity. Qed.
Lemma unusable_loss : forall lossfn sample key_precond C fam l g f d a s lf strat,
  get "loss_fn" (s_register s) = Some lf -> lossfn lf = Some (g, f) -> a_minimize a = Some strat ->
  loss_sig fam l = Some g -> (forall k, In k (map fst (a_loss_kwargs a)) -> In k loss_options) -> usable fam (task_of d) l = false ->
  exists e, base_fit lossfn sample key_precond C d a s = (Err e, s).
Proof.
  intros lossfn sample kp C fam l g f d a s lf strat H1 H2 H3 H4 H5 H6. eapply loss_rejected; [exact H1|exact H2|exact H3|].
  pose proof (usable_spec fam (task_of d) l g kp a H4 H5) as X. rewrite H6 in X. destruct d; exact X.
Qed.
Lemma sparse_moves : exists lossfn sample key_precond N d a s u, state_ok s /\
  base_fit lossfn sample key_precond (SGPR N) d a s = (Err TypeError, u) /\ s_params u <> s_params s.
Proof. destruct sparse_damage as [u [H1 H2]]. do 8 eexists. split; [apply (ex_s0_ok 1)|split; [exact H1|exact H2]]. Qed.
Lemma rpchol_no_key : forall kernel mean n kp sigma l, exists e, rpchol_init kernel mean n None kp sigma l = Err e.
Proof. intros. eexists. reflexivity. Qed.
Lemma history_case :
  (state_ok (ex_s0 1) /\ sampler_ok ex_sampler /\ float_params (s_params (ex_s0 1)) /\ savable cpython_interned (s_params (ex_s0 1)) /\
   plain_numerics ex_num /\ Forall (call_ok (s_params (ex_s0 1))) ex_ops /\
   gpr_init (OCall 1) (OCall 2) (ex_kp 1) (scalar_param true 1) (OCall 7) = Ok (ex_s0 1)) /\
  exists es s fs,
  run ex_lossfn ex_sampler ONone cpython_interned (GPR ex_num) ex_ops (ex_s0 1, fun _ => None) = (es, (s, fs)) /\
  Forall (fun e => snd (fst e) = Ok tt) es /\ v_fresh (observe es) = true /\
  v_mode (observe es) = Fitted (Trained (ex_params (forward Softplus 1) 1 (forward Softplus 1)) ex_data (Options false ONone)).
Proof.
  split; [|exact ex_history]. split; [apply ex_s0_ok|]. split; [apply ex_sampler_ok|]. split; [apply (ex_float 1 1 1)|]. split; [apply ex_savable|].
  split; [apply ex_plain|]. split; [apply ex_ops_ok|]. apply ex_s0_init.
Qed.

(** histories of the sparse classes; fit_nlopt is the way to train them *)
Definition ex_sg_params : ptree :=
  Node [("kernel_params", Node [("lengthscale", Leaf (Some (scalar_param true 1))); ("variance", Leaf (Some (scalar_param false 1)))]);
        ("sigma", Leaf (Some (scalar_param true 1))); ("x_locs", Leaf (Some (scalar_param false 0)))].
Definition ex_sg : state :=
  State (OCall 1) (OCall 2) ex_sg_params [("loss_fn", OCall 7); ("is_fitted", OBool false); ("is_fitted_derivs", OBool false); ("c", ONone); ("mu", ONone)].
Definition ex_rp : state :=
  State (OCall 1) (OCall 2) (ex_params 1 1 1)
    [("loss_fn", OCall 7); ("is_fitted", OBool false); ("is_fitted_derivs", OBool false); ("c", ONone); ("mu", ONone); ("n_locs", OArr (int0 2)); ("key", OArr ex_x1)].
Definition ex_nl (w : state) : list op := [FitNlopt ex_x1 ex_x1 w (ex_args None false)].
Lemma ex_x1_plain : plain ex_x1.
Proof. intro H. discriminate H. Qed.
Lemma sg_case :
  (state_ok ex_sg /\ sampler_ok ex_sampler /\ float_params (s_params ex_sg) /\ savable cpython_interned (s_params ex_sg) /\
   plain_numerics ex_num /\ Forall (call_ok (s_params ex_sg)) (ex_nl ex_sg) /\
   sgpr_init (OCall 1) (OCall 2) (scalar_param false 0) None (ex_kp 1) (scalar_param true 1) (OCall 7) = Ok ex_sg) /\
  exists es s fs, run ex_lossfn ex_sampler ONone cpython_interned (SGPR ex_num) (ex_nl ex_sg) (ex_sg, fun _ => None) = (es, (s, fs)) /\
  v_mode (observe es) = Fitted (Trained ex_sg_params ex_data (Options false ONone)).
Proof.
  assert (P : ptree_ok ex_sg_params). { split; simpl; repeat split; nodup. }
  assert (S : state_ok ex_sg).
  { split; auto. split; [simpl; repeat split; repeat constructor|]. split; [nodup|]. split; [|split; exact I]. repeat constructor; simpl; tauto. }
  split.
  - split; [exact S|]. split; [apply ex_sampler_ok|]. split; [simpl; repeat split|]. split.
    { split; [simpl; repeat split; discriminate|]. split; [|do 2 eexists; split; reflexivity]. simpl. repeat split; try discriminate; try (intros; discriminate); nodup. }
    split; [apply ex_plain|]. split; [|reflexivity]. constructor; [|constructor]. cbn [call_ok].
    split; [discriminate|]. split; [apply ex_x1_plain|]. split; [apply ex_x1_plain|]. split; [exact S|reflexivity].
  - do 3 eexists. split; reflexivity.
Qed.
Lemma rp_case :
  (state_ok ex_rp /\ sampler_ok ex_sampler /\ float_params (s_params ex_rp) /\ savable cpython_interned (s_params ex_rp) /\
   plain_numerics ex_num /\ Forall (call_ok (s_params ex_rp)) (ex_nl ex_rp) /\
   rpchol_init (OCall 1) (OCall 2) (OInt 2) (Some (OArr ex_x1)) (ex_kp 1) (scalar_param true 1) (OCall 7) = Ok ex_rp /\ plain ex_x1) /\
  exists es s fs, run ex_lossfn ex_sampler ONone cpython_interned (SGPR_RPChol ex_num) (ex_nl ex_rp) (ex_rp, fun _ => None) = (es, (s, fs)) /\
  v_mode (observe es) = Fitted (Trained (ex_params 1 1 1) ex_data (Options false ONone)).
Proof.
  assert (S : state_ok ex_rp).
  { destruct (ex_params_ok 1 1 1) as [H1 H2]. split; auto. split; auto. split; [nodup|]. split; [|split; exact I]. repeat constructor; simpl; tauto. }
  split.
  - split; [exact S|]. split; [apply ex_sampler_ok|]. split; [apply (ex_float 1 1 1)|]. split; [apply ex_savable|].
    split; [apply ex_plain|]. split; [|split; [reflexivity|apply ex_x1_plain]]. constructor; [|constructor]. cbn [call_ok].
    split; [discriminate|]. split; [apply ex_x1_plain|]. split; [apply ex_x1_plain|]. split; [exact S|reflexivity].
  - do 3 eexists. split; reflexivity.
Qed.
Lemma saved_case : state_ok (ex_s0 3) /\ tree_def (s_params (ex_s0 3)) = tree_def (s_params (ex_s0 1)) /\ s_params (ex_s0 3) <> s_params (ex_s0 1) /\
  gpr_init (OCall 1) (OCall 2) (ex_kp 3) (scalar_param true 1) (OCall 7) = Ok (ex_s0 3) /\ Forall (call_ok (s_params (ex_s0 1))) ex_ops.
Proof.
  split; [apply ex_s0_ok|]. split; [reflexivity|]. split; [|split; [apply ex_s0_init|apply ex_ops_ok]].
  intro H. apply (f_equal (lookup ["kernel_params"; "lengthscale"])) in H. cbn in H. injection H as H. lra.
Qed.
