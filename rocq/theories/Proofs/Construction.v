(** What the constructors of the models store. *)
From Coq Require Import String List Bool Arith Reals.
From Verif Require Import Model.PyDict Model.Bijectors Model.Priors Model.Params Model.State Model.Calls Model.Lifecycle Model.KernelObj Model.TDClass Model.Concrete Model.RBFClass
  Spec.DictSpec Spec.StateSpec Spec.RandomSpec
  Proofs.DictFacts Proofs.TreeFacts Proofs.StateFacts Proofs.UpdateFacts Proofs.StateExamples Proofs.DispatchFacts.
Import ListNotations.
Open Scope string_scope.

Lemma kd_list : forall l : list (string * ptree), NoDup (map fst l) -> Forall (fun e => ptree_ok (snd e)) l -> ptree_ok (Node l).
Proof.
  intros l N F. split; [apply kd_node; split; [exact N|]|apply every_node]; eapply Forall_impl; try exact F; intros [k t] [A B]; assumption.
Qed.
Lemma leaf_ok : forall o, opt_ok o -> ptree_ok (Leaf o).
Proof. intros o H. split; [exact I|exact H]. Qed.
Lemma built : forall kernel mean l r, ptree_ok (Node l) -> obj_ok kernel -> obj_ok mean -> NoDup (map fst r) ->
  Forall (fun kv => obj_ok (snd kv) /\ ~ is_raw (snd kv)) r -> exists s0, mk_state kernel mean (OParams (Node l)) r = Ok s0 /\
  s_kernel s0 = kernel /\ s_mean s0 = mean /\ s_register s0 = r /\ state_ok s0 /\ same_leaves (s_params s0) (Node l).
Proof.
  intros kernel mean l r P HK HM N F. unfold mk_state. rewrite set_params_ok by apply P. cbn [bind]. eexists. split; [reflexivity|]. cbn [s_kernel s_mean s_register s_params].
  assert (E : map (fun kv => (fst kv, as_attr (snd kv))) r = r).
  { clear N. induction F as [|[k v] r [_ H] F IH]; [reflexivity|]. cbn. rewrite IH. f_equal. f_equal. apply as_attr_id. exact H. }
  split; [reflexivity|]. split; [reflexivity|]. split; [exact E|]. split.
  - destruct (ptree_ok_canon _ P) as [PC SC]. split; [exact PC|]. split; [exact SC|]. cbn [s_register]. rewrite E. auto.
  - apply lookup_canon. apply P.
Qed.
Ltac regs := repeat (apply Forall_cons; [cbn; tauto|]); apply Forall_nil.
Lemma gpr_built : forall kernel mean kp sigma l, obj_ok kernel -> obj_ok mean -> ptree_ok kp -> param_ok sigma ->
  exists s0, gpr_init kernel mean kp sigma (OCall l) = Ok s0 /\ s_kernel s0 = kernel /\ s_mean s0 = mean /\ state_ok s0 /\
  same_leaves (s_params s0) (Node [("kernel_params", kp); ("sigma", Leaf (Some sigma))]).
Proof.
  intros kernel mean kp sigma l HK HM P S. edestruct built as [s0 [A [B [C [D [E F]]]]]]; [| | | | |exists s0; split; [exact A|auto]]; auto; [|nodup|regs].
  apply kd_list; [nodup|]. repeat constructor; try apply P; try apply S.
Qed.
Lemma sgpr_built : forall kernel mean x_locs jacobian_locs kp sigma l, obj_ok kernel -> obj_ok mean -> ptree_ok kp -> param_ok sigma -> param_ok x_locs ->
  opt_ok jacobian_locs ->
  exists s0, sgpr_init kernel mean x_locs jacobian_locs kp sigma (OCall l) = Ok s0 /\ s_kernel s0 = kernel /\ s_mean s0 = mean /\ state_ok s0 /\
  lookup ["sigma"] (s_params s0) = Some (Some sigma) /\ lookup ["x_locs"] (s_params s0) = Some (Some x_locs) /\
  lookup ["jacobian_locs"] (s_params s0) = option_map Some jacobian_locs /\
  forall path, lookup ("kernel_params" :: path) (s_params s0) = lookup path kp.
Proof.
  intros kernel mean x_locs jacobian_locs kp sigma l HK HM P S X J. edestruct built as [s0 [A [B [C [D [E F]]]]]]; [| | | | |exists s0; split; [exact A|]]; auto.
  - apply kd_list; destruct jacobian_locs as [j|]; cbn; try nodup; repeat constructor; try apply P; try apply S; try apply X; try apply J.
  - nodup.
  - regs.
  - split; [auto|]. split; [auto|]. split; [auto|]. unfold same_leaves in F. destruct jacobian_locs as [j|]; repeat split; try (rewrite F; reflexivity); intro; rewrite F; reflexivity.
Qed.
Lemma rpchol_built : forall kernel mean n_locs k kp sigma l, obj_ok kernel -> obj_ok mean -> ptree_ok kp -> param_ok sigma ->
  obj_ok n_locs -> ~ is_raw n_locs -> obj_ok k -> ~ is_raw k ->
  exists s0, rpchol_init kernel mean n_locs (Some k) kp sigma (OCall l) = Ok s0 /\ s_kernel s0 = kernel /\ s_mean s0 = mean /\ state_ok s0 /\
  get "n_locs" (s_register s0) = Some n_locs /\ get "key" (s_register s0) = Some k /\
  same_leaves (s_params s0) (Node [("kernel_params", kp); ("sigma", Leaf (Some sigma))]).
Proof.
  intros kernel mean n_locs k kp sigma l HK HM P S N1 N2 K1 K2. edestruct built as [s0 [A [B [C [D [E F]]]]]]; [| | | | |exists s0; split; [exact A|]]; auto.
  - apply kd_list; [nodup|]. repeat constructor; try apply P; try apply S.
  - nodup.
  - repeat (apply Forall_cons; [cbn; tauto|]); apply Forall_nil.
  - rewrite D. split; [exact B|]. split; [exact C|]. split; [exact E|]. split; [reflexivity|]. split; [reflexivity|exact F].
Qed.
Lemma td_built : forall kernel mean kp st sd sd2 l, obj_ok kernel -> obj_ok mean -> ptree_ok kp -> opt_ok st -> opt_ok sd -> opt_ok sd2 ->
  exists s0, td_init kernel mean (Some kp) st sd sd2 (OCall l) = Ok s0 /\ s_kernel s0 = kernel /\ s_mean s0 = mean /\ state_ok s0 /\
  same_leaves (s_params s0) (Node [("kernel_params", kp); ("sigma_targets", Leaf st); ("sigma_derivs", Leaf sd); ("sigma_derivs2", Leaf sd2)]).
Proof.
  intros kernel mean kp st sd sd2 l HK HM P S1 S2 S3. edestruct built as [s0 [A [B [C [D [E F]]]]]]; [| | | | |exists s0; split; [exact A|auto]]; auto; [|nodup|regs].
  apply kd_list; [nodup|]. repeat constructor; try apply P; assumption.
Qed.
(** RBFNet: the weights are drawn; without alpha it is one *)
Lemma rbf_built : forall draw kernel z m sh oo kp alpha layer loss center, obj_ok kernel -> ptree_ok kp -> param_ok z -> opt_ok alpha ->
  a_shape (p_value z) = m :: sh -> a_shape (draw [m; oo]) = [m; oo] -> a_dtype (draw [m; oo]) = F64 ->
  exists s0 a w, rbf_init draw kernel z oo kp alpha (OCall layer) (OCall loss) center = Ok s0 /\ s_kernel s0 = kernel /\ state_ok s0 /\
  get "center_kernel" (s_register s0) = Some (OBool center) /\ get "output_layer" (s_register s0) = Some (OCall layer) /\ get "loss_fn" (s_register s0) = Some (OCall loss) /\
  same_leaves (s_params s0) (Node [("alpha", Leaf (Some a)); ("inducing_points", Leaf (Some z)); ("kernel_params", kp); ("weights", Leaf (Some w))]) /\
  match alpha with Some b => a = b | None => p_value a = arr0 1 /\ m_trainable (p_meta a) = true /\ m_bijector (p_meta a) = Softplus end /\
  p_value w = draw [m; oo] /\ m_trainable (p_meta w) = true /\ m_bijector (p_meta w) = Identity.
Proof.
  intros draw kernel z m sh oo kp alpha layer loss center HK P Z AL ES WS WD. unfold rbf_init. rewrite ES.
  assert (E0 : exists a0, rbf_default_alpha = Ok a0 /\ param_ok a0 /\ p_value a0 = arr0 1 /\ m_trainable (p_meta a0) = true /\ m_bijector (p_meta a0) = Softplus).
  { eexists. split; [reflexivity|]. repeat split. }
  destruct E0 as [a0 [-> [A0 AV]]].
  assert (EW : exists w, rbf_default_weights draw m oo = Ok w /\ param_ok w /\ p_value w = draw [m; oo] /\ m_trainable (p_meta w) = true /\ m_bijector (p_meta w) = Identity).
  { eexists. split; [apply mk_param_ok; split; [split; cbn; eassumption|reflexivity]|]. repeat split; assumption. }
  destruct EW as [w [-> [W0 WV]]]. cbn [bind].
  set (a := match alpha with Some a => a | None => a0 end).
  assert (PA : param_ok a) by (unfold a; destruct alpha; assumption).
  edestruct (built kernel ONone) as [s0 [A [B [C [D [E F]]]]]]; [| | | | |exists s0, a, w; split; [exact A|]]; auto.
  - apply kd_list; [nodup|]. repeat constructor; try apply P; try apply PA; try apply Z; try apply W0.
  - exact I.
  - nodup.
  - regs.
  - rewrite D. split; [auto|]. split; [auto|]. split; [reflexivity|]. split; [reflexivity|]. split; [reflexivity|]. split; [exact F|]. split; [unfold a; destruct alpha; auto|exact WV].
Qed.
Lemma construction_case : forall l, ptree_ok (ex_kp l) /\ param_ok (scalar_param true 1) /\ gpr_init (OCall 1) (OCall 2) (ex_kp l) (scalar_param true 1) (OCall 7) = Ok (ex_s0 l) /\
  obj_ok (OCall 3) /\ ~ is_raw (OCall 3).
Proof.
  intro l. split; [|split; [split; reflexivity|]; split; [apply ex_s0_init|]; split; [exact I|intro H; exact H]].
  apply kd_list; [nodup|]. repeat constructor.
Qed.
