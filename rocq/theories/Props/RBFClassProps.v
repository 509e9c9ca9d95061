(** C68: an RBFNet over its whole history, from construction to predictions. *)
From Coq Require Import String List Bool Arith Reals.
From Verif Require Import Base.Sums Base.Mat Model.Arrays Model.Kernels Model.PyDict Model.Bijectors Model.Params Model.State Model.Lifecycle Model.KernelObj Model.Concrete Model.RBFNet Model.RBFClass
  Spec.KernelSpec Spec.StateSpec Spec.RandomSpec Spec.OptimSpec Spec.KernelObjSpec Spec.ConcreteSpec Spec.RBFClassSpec
  Proofs.StateExamples Proofs.KernelObjRun Proofs.RBFClassLemmas Proofs.RBFClassExamples Proofs.Construction.
Import ListNotations.
Open Scope string_scope.
Open Scope R_scope.

(** In all theorems: a network built by RBFNet.init with any kernel, any inducing points, any output layer and loss
    function, and any sequence of fit (scipy, NLopt, optax), randomize with and without reset, save and load; the
    samplers of the priors, the code of fit after the call that raises, and the identity and train_loss used by reset
    are arguments. *)
(** construction: valid parameters are accepted, and the state holds these, the drawn weights and, without alpha, one *)
Theorem C68_construction : forall draw kernel z m sh oo kp alpha layer loss center, obj_ok kernel -> ptree_ok kp -> param_ok z -> opt_ok alpha ->
  a_shape (p_value z) = m :: sh -> a_shape (draw [m; oo]) = [m; oo] -> a_dtype (draw [m; oo]) = F64 ->
  exists s0 a w, rbf_init draw kernel z oo kp alpha (OCall layer) (OCall loss) center = Ok s0 /\ s_kernel s0 = kernel /\ state_ok s0 /\
  get "center_kernel" (s_register s0) = Some (OBool center) /\ get "output_layer" (s_register s0) = Some (OCall layer) /\ get "loss_fn" (s_register s0) = Some (OCall loss) /\
  same_leaves (s_params s0) (Node [("alpha", Leaf (Some a)); ("inducing_points", Leaf (Some z)); ("kernel_params", kp); ("weights", Leaf (Some w))]) /\
  match alpha with Some b => a = b | None => p_value a = arr0 1 /\ m_trainable (p_meta a) = true /\ m_bijector (p_meta a) = Softplus end /\
  p_value w = draw [m; oo] /\ m_trainable (p_meta w) = true /\ m_bijector (p_meta w) = Identity.
Proof. exact rbf_built. Qed.
Print Assumptions C68_construction.
(** no fit ever succeeds: each raises TypeError, for all data, options and histories; randomize and save always succeed *)
Theorem C68_fit_refuted : forall sample ident tloss after_call interned,
  forall draw kernel ko zp kp alpha layer loss center s0 m nf oo, sampler_ok sample -> sampler_full sample -> a_shape (p_value zp) = [m; nf] ->
  rbf_init draw kernel zp oo kp alpha (OCall layer) (OCall loss) center = Ok s0 -> net_ok interned ko m nf oo s0 ->
  forall os es s fs, rbf_run sample (OCall ident) (OCall tloss) after_call interned os (s0, fun _ => None) = (es, (s, fs)) ->
  Forall (fun e => match fst (fst e) with RFit _ => snd (fst e) = Err TypeError | RLoad _ => True | _ => snd (fst e) = Ok tt end) es.
Proof. exact rbf_history_q. Qed.
Print Assumptions C68_fit_refuted.
(** load succeeds exactly for the files written before (with the suffix numpy adds) *)
Theorem C68_load : forall sample ident tloss after_call interned,
  forall draw kernel ko zp kp alpha layer loss center s0 m nf oo, sampler_ok sample -> sampler_full sample -> a_shape (p_value zp) = [m; nf] ->
  rbf_init draw kernel zp oo kp alpha (OCall layer) (OCall loss) center = Ok s0 -> net_ok interned ko m nf oo s0 ->
  forall os es s fs, rbf_run sample (OCall ident) (OCall tloss) after_call interned os (s0, fun _ => None) = (es, (s, fs)) ->
  forall f, fst (rbf_step sample (OCall ident) (OCall tloss) after_call interned (RLoad f) (s, fs)) =
    if rv_files (rbf_observe center es) f then Ok tt else Err FileNotFoundError.
Proof. exact rbf_load_q. Qed.
Print Assumptions C68_load.
(** whatever happened, the parameters hold a valid kernel, inducing points and weights of the shapes of the construction *)
Theorem C68_parameters : forall sample ident tloss after_call interned,
  forall draw kernel ko zp kp alpha layer loss center s0 m nf oo, sampler_ok sample -> sampler_full sample -> a_shape (p_value zp) = [m; nf] ->
  rbf_init draw kernel zp oo kp alpha (OCall layer) (OCall loss) center = Ok s0 -> net_ok interned ko m nf oo s0 ->
  forall os es s fs, rbf_run sample (OCall ident) (OCall tloss) after_call interned os (s0, fun _ => None) = (es, (s, fs)) ->
  exists k z w, net_holds ko m nf oo s k z w /\ all_atoms (fun _ a => psd_atom a) k /\ ls_nonzero k.
Proof. exact rbf_parameters_q. Qed.
Print Assumptions C68_parameters.
(** and parameters that are not trainable are those of the construction *)
Theorem C68_frozen : forall sample ident tloss after_call interned,
  forall draw kernel ko zp kp alpha layer loss center s0 m nf oo, sampler_ok sample -> sampler_full sample -> a_shape (p_value zp) = [m; nf] ->
  rbf_init draw kernel zp oo kp alpha (OCall layer) (OCall loss) center = Ok s0 -> net_ok interned ko m nf oo s0 ->
  forall os es s fs, rbf_run sample (OCall ident) (OCall tloss) after_call interned os (s0, fun _ => None) = (es, (s, fs)) ->
  forall path p, lookup path (s_params s0) = Some (Some p) -> m_trainable (p_meta p) = false -> lookup path (s_params s) = Some (Some p).
Proof. exact rbf_frozen_q. Qed.
Print Assumptions C68_frozen.
(** the prediction of a network that is not centred: sum_i k(z_i, x) w_i with the current parameters, given to the output layer of the construction, or to the identity after a randomize with reset *)
Theorem C68_prediction : forall kernels layers unmodelled sample ident tloss after_call interned,
  forall draw kernel ko zp kp alpha layer loss center s0 m nf oo, kernels kernel = Some ko -> sampler_ok sample -> sampler_full sample -> a_shape (p_value zp) = [m; nf] ->
  rbf_init draw kernel zp oo kp alpha (OCall layer) (OCall loss) center = Ok s0 -> net_ok interned ko m nf oo s0 ->
  forall os es s fs, rbf_run sample (OCall ident) (OCall tloss) after_call interned os (s0, fun _ => None) = (es, (s, fs)) ->
  forall k z w f, net_holds ko m nf oo s k z w ->
  let v := rbf_observe center es in layers (OCall (if rv_default_layer v then ident else layer)) = Some f ->
  rv_centred v = false -> forall x n linear_only, shaped [n; nf] x ->
  net_answers (net_predict kernels layers unmodelled s x linear_only) linear_only f n oo (net m nf k (entry z) (entry w) (entry x)).
Proof. exact rbf_plain_q. Qed.
Print Assumptions C68_prediction.
(** the same of a centred one, unless a fit has cleared the stored mean *)
Theorem C68_centred_prediction : forall kernels layers unmodelled sample ident tloss after_call interned,
  forall draw kernel ko zp kp alpha layer loss center s0 m nf oo, kernels kernel = Some ko -> sampler_ok sample -> sampler_full sample -> a_shape (p_value zp) = [m; nf] ->
  rbf_init draw kernel zp oo kp alpha (OCall layer) (OCall loss) center = Ok s0 -> net_ok interned ko m nf oo s0 ->
  forall os es s fs, rbf_run sample (OCall ident) (OCall tloss) after_call interned os (s0, fun _ => None) = (es, (s, fs)) ->
  forall k z w f, net_holds ko m nf oo s k z w ->
  let v := rbf_observe center es in layers (OCall (if rv_default_layer v then ident else layer)) = Some f ->
  rv_centred v = true -> forall x n linear_only, shaped [n; nf] x -> (0 < n)%nat -> rv_cleared v = false \/ m = 1%nat \/ n = 1%nat ->
  net_answers (net_predict kernels layers unmodelled s x linear_only) linear_only f n oo (net_centred m nf k (entry z) (entry w) (entry x)).
Proof. exact rbf_centred_q. Qed.
Print Assumptions C68_centred_prediction.
(** after a fit that raised, a centred network raises unless the number of points is one or that of the inducing points *)
Theorem C68_cleared_refuted : forall kernels layers unmodelled sample ident tloss after_call interned,
  forall draw kernel ko zp kp alpha layer loss center s0 m nf oo, kernels kernel = Some ko -> sampler_ok sample -> sampler_full sample -> a_shape (p_value zp) = [m; nf] ->
  rbf_init draw kernel zp oo kp alpha (OCall layer) (OCall loss) center = Ok s0 -> net_ok interned ko m nf oo s0 ->
  forall os es s fs, rbf_run sample (OCall ident) (OCall tloss) after_call interned os (s0, fun _ => None) = (es, (s, fs)) ->
  forall k z w f, net_holds ko m nf oo s k z w ->
  let v := rbf_observe center es in layers (OCall (if rv_default_layer v then ident else layer)) = Some f ->
  rv_centred v = true -> rv_cleared v = true -> forall x n linear_only, shaped [n; nf] x -> n <> m -> m <> 1%nat -> n <> 1%nat ->
  net_predict kernels layers unmodelled s x linear_only = Err TypeError.
Proof. exact rbf_cleared_q. Qed.
Print Assumptions C68_cleared_refuted.
(** and for as many points as inducing points the prediction at a point depends on the other points of the call *)
Theorem C68_batch_refuted : forall kernels layers unmodelled sample ident tloss after_call interned,
  forall draw kernel ko zp kp alpha layer loss center s0 m nf oo, kernels kernel = Some ko -> sampler_ok sample -> sampler_full sample -> a_shape (p_value zp) = [m; nf] ->
  rbf_init draw kernel zp oo kp alpha (OCall layer) (OCall loss) center = Ok s0 -> net_ok interned ko m nf oo s0 ->
  forall os es s fs, rbf_run sample (OCall ident) (OCall tloss) after_call interned os (s0, fun _ => None) = (es, (s, fs)) ->
  forall k z w f, net_holds ko m nf oo s k z w ->
  let v := rbf_observe center es in layers (OCall (if rv_default_layer v then ident else layer)) = Some f ->
  rv_centred v = true -> rv_cleared v = true -> forall x linear_only, shaped [m; nf] x ->
  net_answers (net_predict kernels layers unmodelled s x linear_only) linear_only f m oo (fun j o => sum m (fun i =>
    (kernel_at nf k (entry z i) (entry x j) - / INR m * sum m (fun l => kernel_at nf k (entry z l) (entry x j))
     - (/ INR m * sum m (fun l => kernel_at nf k (entry z l) (entry x i)) - / INR m * sum m (fun a => / INR m * sum m (fun l => kernel_at nf k (entry z l) (entry x a)))))
    * entry w i o)).
Proof. exact rbf_square_q. Qed.
Print Assumptions C68_batch_refuted.
(** so one fit that raises breaks a working centred network: it predicts before and raises after *)
Theorem C68_fit_breaks_refuted : forall kernels layers unmodelled sample ident tloss after_call interned,
  forall draw kernel ko zp kp alpha layer loss center s0 m nf oo, kernels kernel = Some ko -> sampler_ok sample -> sampler_full sample -> a_shape (p_value zp) = [m; nf] ->
  rbf_init draw kernel zp oo kp alpha (OCall layer) (OCall loss) center = Ok s0 -> net_ok interned ko m nf oo s0 ->
  forall os es s fs, rbf_run sample (OCall ident) (OCall tloss) after_call interned os (s0, fun _ => None) = (es, (s, fs)) ->
  forall kind f, let v := rbf_observe center es in layers (OCall (if rv_default_layer v then ident else layer)) = Some f ->
  kind <> RNlopt -> rv_centred v = true -> rv_cleared v = false ->
  forall x n, shaped [n; nf] x -> n <> m -> m <> 1%nat -> (1 < n)%nat ->
  (exists a, net_predict kernels layers unmodelled s x true = Ok a) /\
  exists u, rbf_step sample (OCall ident) (OCall tloss) after_call interned (RFit kind) (s, fs) = (Err TypeError, (u, fs)) /\
    net_predict kernels layers unmodelled u x true = Err TypeError.
Proof. exact rbf_breaks_q. Qed.
Print Assumptions C68_fit_breaks_refuted.
(** save, randomize with reset, load: the parameters and the linear part are back, the output layer is not *)
Theorem C68_layer_refuted : forall kernels layers unmodelled sample ident tloss after_call interned,
  forall draw kernel ko zp kp alpha layer loss center s0 m nf oo, kernels kernel = Some ko -> sampler_ok sample -> sampler_full sample -> a_shape (p_value zp) = [m; nf] ->
  rbf_init draw kernel zp oo kp alpha (OCall layer) (OCall loss) center = Ok s0 -> net_ok interned ko m nf oo s0 ->
  forall os es s fs, rbf_run sample (OCall ident) (OCall tloss) after_call interned os (s0, fun _ => None) = (es, (s, fs)) ->
  forall f g g' key0, rv_default_layer (rbf_observe center es) = false -> layers (OCall layer) = Some g -> layers (OCall ident) = Some g' ->
  exists w, rbf_run sample (OCall ident) (OCall tloss) after_call interned [RSave f; RRandomize key0 true; RLoad (npz_name f)] (s, fs) = w /\
  Forall (fun e => snd (fst e) = Ok tt) (fst w) /\ s_params (fst (snd w)) = s_params s /\
  forall x n a, shaped [n; nf] x -> net_predict kernels layers unmodelled s x true = Ok a ->
    net_predict kernels layers unmodelled s x false = g a /\
    net_predict kernels layers unmodelled (fst (snd w)) x true = Ok a /\ net_predict kernels layers unmodelled (fst (snd w)) x false = g' a.
Proof. exact rbf_layer_q. Qed.
Print Assumptions C68_layer_refuted.
(** saved, and loaded by a network built alike from other values and with another history: the same parameters and predictions *)
Theorem C68_saved : forall kernels layers unmodelled sample ident tloss after_call interned kernel ko layer m nf oo, kernels kernel = Some ko -> sampler_ok sample -> sampler_full sample ->
  forall draw zp kp alpha loss center s0, a_shape (p_value zp) = [m; nf] ->
  rbf_init draw kernel zp oo kp alpha (OCall layer) (OCall loss) center = Ok s0 -> net_ok interned ko m nf oo s0 ->
  forall os es s fs, rbf_run sample (OCall ident) (OCall tloss) after_call interned os (s0, fun _ => None) = (es, (s, fs)) ->
  forall draw' zp' kp' alpha' loss' center' s1 m', a_shape (p_value zp') = [m'; nf] ->
  rbf_init draw' kernel zp' oo kp' alpha' (OCall layer) (OCall loss') center' = Ok s1 -> net_ok interned ko m' nf oo s1 ->
  tree_def (s_params s1) = tree_def (s_params s0) ->
  forall os' es' t fs0, rbf_run sample (OCall ident) (OCall tloss) after_call interned os' (s1, fun _ => None) = (es', (t, fs0)) ->
  rv_default_layer (rbf_observe center' es') = rv_default_layer (rbf_observe center es) ->
  forall f, exists d fs' u, save s f fs = (Ok d, fs') /\ load interned t (npz_name f) fs' = Ok u /\ s_params u = s_params s /\
  forall x n linear_only, shaped [n; nf] x -> net_predict kernels layers unmodelled u x linear_only = net_predict kernels layers unmodelled s x linear_only.
Proof. exact rbf_saved. Qed.
Print Assumptions C68_saved.

(** ** a network meeting the hypotheses: two inducing points, an output layer of its own, centred *)
Example C68_built : forall a b c, rbf_init net_draw (OCall 1) (net_points a b) 1 net_kp None (OCall 5) (OCall 6) c = Ok (net_state a b c) /\
  a_shape (p_value (net_points a b)) = [2; 1]%nat /\ net_ok cpython_interned (OAtom CSE None) 2 1 1 (net_state a b c) /\
  net_kernels (OCall 1) = Some (OAtom CSE None) /\ sampler_ok ex_sampler /\ sampler_full ex_sampler /\
  (exists g, net_layers (OCall 5) = Some g) /\ (exists g, net_layers (OCall 8) = Some g) /\ shaped [3; 1]%nat net_x.
Proof.
  intros a b c. exact (conj (net_init a b c) (conj eq_refl (conj (net_state_ok a b c) (conj eq_refl (conj ex_sampler_ok (conj ex_sampler_full
    (conj (ex_intro _ _ eq_refl) (conj (ex_intro _ _ eq_refl) net_x_shaped)))))))).
Qed.
(** save, a fit that raises, load, randomize: centred, with the mean back from the file; files known under their full name *)
Example C68_history : exists es s fs, net_run net_ops (net_state 0 1 true, fun _ => None) = (es, (s, fs)) /\
  rv_centred (rbf_observe true es) = true /\ rv_cleared (rbf_observe true es) = false /\ rv_default_layer (rbf_observe true es) = false /\
  rv_files (rbf_observe true es) "n.npz" = Some (true, false) /\ rv_files (rbf_observe true es) "n" = None.
Proof. exact net_history. Qed.
(** the formula of C68_batch_refuted at the first point, when the second point of the call is 0 and when it is 4 *)
Example C68_batch_case : batch_value (fun _ _ => 0) = 0 /\ batch_value (fun i _ => 4 * INR i) = 1.
Proof. exact batch_depends. Qed.
(** two networks built alike *)
Example C68_alike : tree_def (s_params (net_state 0 1 true)) = tree_def (s_params (net_state 3 5 false)) /\ s_params (net_state 0 1 true) <> s_params (net_state 3 5 false).
Proof. exact net_alike. Qed.
