(** Property C73: the views of a state, the table of parameters and the accessors of a model. *)
From Coq Require Import String List Bool Reals Sorted.
From Verif Require Import Model.PyDict Model.Bijectors Model.Params Model.State Model.Lifecycle Model.Views
  Spec.DictSpec Spec.StateSpec Spec.ViewsSpec Proofs.StateExamples Proofs.ViewsFacts Proofs.ViewsExamples.
Import ListNotations.
Open Scope string_scope.

(** ** C73 *)
(** position by position, all the lists speak about the same parameter, each parameter once, in the order of the names *)
Theorem C73_views : forall s, state_ok s -> exists L : list (list string * param),
  StronglySorted path_lt (map fst L) /\
  (forall path p, In (path, p) L <-> lookup path (s_params s) = Some (Some p)) /\
  params_value s = map (fun q => p_value (snd q)) L /\
  params_trainable s = map (fun q => m_trainable (p_meta (snd q))) L /\
  params_priors s = map (fun q => m_prior (p_meta (snd q))) L /\
  params_forward_transforms s = map (fun q => forward_arr (m_bijector (p_meta (snd q)))) L /\
  params_backward_transforms s = map (fun q => backward_arr (m_bijector (p_meta (snd q)))) L /\
  fst (state_flatten s) = map (fun q => p_value (snd q)) L.
Proof. exact views. Qed.
Print Assumptions C73_views.
(** the table has one line per parameter, those of the kernel first, each with the data of its own parameter *)
Theorem C73_table : forall s l kp, state_ok s -> s_params s = Node l -> get "kernel_params" l = Some kp ->
  (forall k t, In (k, t) l -> k <> "kernel_params" -> exists o, t = Leaf o) ->
  exists L1 L2 : list (list string * param), print_params s = Ok (map named_row (L1 ++ L2)%list) /\
    Forall in_kernel L1 /\ Forall not_kernel L2 /\
    StronglySorted path_lt (map fst L1) /\ StronglySorted path_lt (map fst L2) /\
    (forall path p, In (path, p) (L1 ++ L2)%list <-> lookup path (s_params s) = Some (Some p)).
Proof. exact table. Qed.
Print Assumptions C73_table.
(** without kernel_params, or with a nested dictionary elsewhere, there is no table *)
Theorem C73_table_raises : forall s l, state_ok s -> s_params s = Node l ->
  (get "kernel_params" l = None -> print_params s = Err KeyError) /\
  (forall k d, get "kernel_params" l <> None -> k <> "kernel_params" -> get k l = Some (Node d) -> print_params s = Err AttributeError).
Proof. exact table_raises. Qed.
Print Assumptions C73_table_raises.
(** the names shown tell the parameters apart *)
Theorem C73_names : forall s l kp rows, state_ok s -> s_params s = Node l -> get "kernel_params" l = Some kp ->
  all_names no_colon kp -> (forall k, In k (map fst l) -> forall r, k <> "kernel " ++ r) ->
  print_params s = Ok rows -> NoDup (map r_name rows).
Proof. exact names. Qed.
Print Assumptions C73_names.
(** ... unless a name contains ':' *)
Theorem C73_names_refuted : exists s l kp rows, state_ok s /\ s_params s = Node l /\ get "kernel_params" l = Some kp /\
  print_params s = Ok rows /\ ~ NoDup (map r_name rows).
Proof. exact same_name. Qed.
Print Assumptions C73_names_refuted.
(** repr(model) says nothing: two models with different parameters have the same one *)
Theorem C73_repr_refuted : exists s s', state_ok s /\ state_ok s' /\ params_value s <> params_value s' /\
  gp_repr s = Ok "None" /\ gp_repr s' = Ok "None".
Proof. exact repr_silent. Qed.
Print Assumptions C73_repr_refuted.
(** after a fit the accessors give the data of that fit and what it computed; jacobian_train is left by a fit to targets *)
Theorem C73_accessors : forall N (cl : gp_class) t sg body d o s s', In cl [GPR N; SGPR N; SGPR_RPChol N] ->
  k_fit cl t = Some (sg, body) -> task_of d = t -> state_ok s -> body d o s = Ok s' ->
  exists vs f, n_fit N t (s_params s) (s_kernel s) (s_mean s) vs d o = Ok f /\
    gp_c s' = Ok (OArr (f "c")) /\ gp_mu s' = Ok (OArr (f "mu")) /\
    match d with
    | Targets x y => gp_x_train s' = Ok (OArr x) /\ gp_y_train s' = Ok (OArr y) /\ gp_jacobian_train s' = gp_jacobian_train s
    | Derivs x y j | Both x y j _ => gp_x_train s' = Ok (OArr x) /\ gp_y_train s' = Ok (OArr y) /\ gp_jacobian_train s' = Ok (OArr j)
    end.
Proof. exact class_accessors. Qed.
Print Assumptions C73_accessors.
(** randomize(reset=True) clears what a GPR learnt and keeps the data *)
Theorem C73_reset : forall N sample s key s', state_ok s -> randomize sample s key (k_reset (GPR N)) = Ok s' ->
  gp_c s' = Ok ONone /\ gp_mu s' = Ok ONone /\ attr s' "is_fitted" = Ok (OBool false) /\ attr s' "is_fitted_derivs" = Ok (OBool false) /\
  gp_x_train s' = gp_x_train s /\ gp_y_train s' = gp_y_train s /\ gp_jacobian_train s' = gp_jacobian_train s.
Proof. exact reset_gpr. Qed.
Print Assumptions C73_reset.
(** the sparse classes keep the mean of the last fit: they reset y_mean, which is not an attribute of their states *)
Theorem C73_reset_sparse_refuted : forall N sample s key s' cl, In cl [SGPR N; SGPR_RPChol N] -> state_ok s ->
  randomize sample s key (k_reset cl) = Ok s' ->
  gp_c s' = Ok ONone /\ gp_mu s' = gp_mu s /\ attr s' "is_fitted" = Ok (OBool false) /\ attr s' "is_fitted_derivs" = Ok (OBool false) /\
  attr s' "y_mean" = Ok ONone.
Proof. exact reset_sparse. Qed.
Print Assumptions C73_reset_sparse_refuted.
Example C73_case : forall l v s, state_ok (ex_state l v s) /\ state_ok nested_state /\
  (exists d kp, s_params (ex_state l v s) = Node d /\ get "kernel_params" d = Some kp /\
    (forall k t, In (k, t) d -> k <> "kernel_params" -> exists o, t = Leaf o) /\
    all_names no_colon kp /\ (forall k, In k (map fst d) -> forall r, k <> "kernel " ++ r)) /\
  params_value (ex_state l v s) = [scalar l; scalar v; scalar s] /\ params_trainable (ex_state l v s) = [true; false; true] /\
  print_params (ex_state l v s) =
    Ok [scalar_row "kernel lengthscale" true l; scalar_row "kernel variance" false v; scalar_row "sigma" true s] /\
  print_params nested_state = Err AttributeError /\
  (exists sg body s', k_fit (SGPR any_numerics) TTargets = Some (sg, body) /\
    body (Targets (scalar 1) (scalar 2)) (Options false ONone) (ex_state l v s) = Ok s') /\
  (forall cl, In cl [GPR any_numerics; SGPR any_numerics; SGPR_RPChol any_numerics] ->
    exists s', randomize (fun _ _ => scalar 1) (ex_state l v s) (Key 0) (k_reset cl) = Ok s').
Proof.
  intros l v s. split; [apply ex_state_ok|]. split; [exact nested_ok|]. split; [apply ex_conditions|].
  split; [apply ex_views|]. split; [apply ex_views|]. split; [apply ex_table|]. split; [reflexivity|]. split; [apply ex_fit|]. intro. apply ex_reset.
Qed.
