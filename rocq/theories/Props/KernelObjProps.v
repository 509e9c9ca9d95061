(** C62 and C63: kernel objects and the parameters given with each call. *)
From Coq Require Import List String Reals.
From Verif Require Import Base.Sums Base.Mat Model.Arrays Model.Kernels Spec.KernelSpec Model.PyDict Model.Bijectors Spec.BijectorSpec
  Model.Params Model.State Model.Optim Model.Lifecycle Spec.GPSpec Spec.StateSpec Spec.RandomSpec Spec.OptimSpec Model.KernelObj Model.KernelMethods Spec.KernelObjSpec Spec.KernelMethodsSpec
  Proofs.StateExamples Proofs.KernelObjFacts Proofs.KernelObjSafe Proofs.KernelObjRun Proofs.KernelMethodsFacts.
Import ListNotations.
Open Scope string_scope.

(** ** C62 *)
(** a call computes the kernel whose numbers stand at the documented paths, wherever in T the dictionary t
    given to the call comes from *)
Theorem C62_call : forall nf o q X1 X2 (T : ptree) t M, sub q T = Some t ->
  (call_k nf o X1 X2 t = Ok (Some M) <-> (exists k, reads q o T k /\ M = kk nf k X1 X2) /\ present q o T).
Proof. exact call_at. Qed.
Print Assumptions C62_call.
Theorem C62_one_kernel : forall o q T k k', reads q o T k -> reads q o T k' -> k = k'.
Proof. exact reads_unique. Qed.
Print Assumptions C62_one_kernel.
(** no exception exactly when all dictionaries and Parameters are there *)
Theorem C62_succeeds : forall nf X1 X2 o q (T : ptree) t, sub q T = Some t ->
  ((exists m, call_k nf o X1 X2 t = Ok m) <->
   present q o T /\ forall path, In path (leaves q o) -> exists p, lookup path T = Some (Some p)).
Proof. exact call_ok_iff. Qed.
Print Assumptions C62_succeeds.
Theorem C62_key_error : forall nf X1 X2 o q (T : ptree) t, sub q T = Some t -> call_k nf o X1 X2 t = Err KeyError ->
  exists path, In path (dicts q o ++ leaves q o)%list /\ sub path T = None.
Proof. exact call_key_error. Qed.
Print Assumptions C62_key_error.
(** other entries do not matter *)
Theorem C62_only_these : forall nf X1 X2 o (t t' : ptree) M,
  (forall path, In path (leaves [] o) -> lookup path t = lookup path t') ->
  (forall path, In path (dicts [] o) -> sub path t' = None -> sub path t = None) ->
  call_k nf o X1 X2 t = Ok (Some M) -> call_k nf o X1 X2 t' = Ok (Some M).
Proof. exact call_same. Qed.
Print Assumptions C62_only_these.
(** nor does the order of the entries: what a state stores gives what the user's dictionary gave *)
Theorem C62_order : forall nf X1 X2 o (t : ptree), keys_distinct t -> call_k nf o X1 X2 (canon t) = call_k nf o X1 X2 t.
Proof. exact call_canon. Qed.
Print Assumptions C62_order.
Theorem C62_stored : forall kernel mean t sigma loss s, ptree_ok t -> param_ok sigma -> gpr_init kernel mean t sigma loss = Ok s ->
  sub ["kernel_params"] (s_params s) = Some (canon t).
Proof. exact init_kernel_params. Qed.
Print Assumptions C62_stored.
(** default_params always fits the kernel and holds the documented values *)
Theorem C62_default : forall nf o X1 X2, exists t, default_params o = Ok t /\ ptree_ok t /\ reads [] o t (default_kernel o) /\
  call_k nf o X1 X2 t = Ok (Some (kk nf (default_kernel o) X1 X2)).
Proof. exact default_spec. Qed.
Print Assumptions C62_default.
(** all nine methods compute those of the same kernel *)
Theorem C62_methods : forall o q (T : ptree) t k, sub q T = Some t -> reads q o T k -> present q o T -> computes (build o) t k.
Proof. exact build_computes. Qed.
Print Assumptions C62_methods.
Theorem C62_methods_k : forall o nf X1 X2 t, o_k (build o) nf X1 X2 t = call_k nf o X1 X2 t.
Proof. exact build_k. Qed.
Print Assumptions C62_methods_k.
(** if the kernel can be evaluated once, no method raises for this dictionary *)
Theorem C62_methods_succeed : forall o nf X1 X2 t, ok (o_k (build o) nf X1 X2 t) -> succeeds (build o) t.
Proof. exact build_succeeds. Qed.
Print Assumptions C62_methods_succeed.
Theorem C62_methods_default : forall o, exists t, default_params o = Ok t /\ computes (build o) t (default_kernel o).
Proof. exact default_computes. Qed.
Print Assumptions C62_methods_default.
Example C62_example : keys_distinct ex_kparams /\ reads [] ex_obj ex_kparams ex_kexp /\
  (exists M, call_k 2 ex_obj points points ex_kparams = Ok (Some M)) /\
  call_k 2 ex_obj points points (Node [("kernel1", Node [])]) = Err KeyError.
Proof.
  destruct ex_obj_reads as [K [R [_ P]]]. repeat (split; [assumption|]). split; [|reflexivity]. eexists.
  apply (call_reads 2 points points ex_obj [] ex_kparams ex_kparams _ eq_refl). eauto.
Qed.

(** ** C63 *)
(** safe parameters give a symmetric positive semidefinite Gram matrix, and with noise a positive definite one *)
Theorem C63_gram : forall nf n X o q T t sigma, sub q T = Some t -> safe q o T ->
  exists K, call_k nf o X X t = Ok (Some K) /\ (forall i j, K i j = K j i) /\
  (forall c : Vec, (0 <= sum n (fun i => sum n (fun j => c i * K i j * c j)))%R) /\ pd n (noisy sigma K).
Proof. exact safe_gram. Qed.
Print Assumptions C63_gram.
(** after any sequence of minimisations and randomisations, also at every state visited on the way *)
Theorem C63_runs : forall sample s u o nf n X sigma, sampler_ok sample -> sampler_full sample ->
  state_ok s -> bijs_ok (s_params s) -> float_tree (s_params s) -> safe ["kernel_params"] o (s_params s) ->
  sub ["kernel_params"] (s_params s) <> None -> run sample s u ->
  exists t K, sub ["kernel_params"] (s_params u) = Some t /\ call_k nf o X X t = Ok (Some K) /\ (forall i j, K i j = K j i) /\
    (forall c : Vec, (0 <= sum n (fun i => sum n (fun j => c i * K i j * c j)))%R) /\ pd n (noisy sigma K).
Proof. exact run_gram. Qed.
Print Assumptions C63_runs.
(** a model built with default parameters satisfies all this *)
Theorem C63_defaults : forall kernel mean loss o, obj_ok kernel -> obj_ok mean -> obj_ok loss -> ~ is_raw loss ->
  exists t s sg, default_params o = Ok t /\ def 1 true Softplus gamma_prior = Ok (Leaf (Some sg)) /\
    gpr_init kernel mean t sg loss = Ok s /\ state_ok s /\ bijs_ok (s_params s) /\ float_tree (s_params s) /\
    safe ["kernel_params"] o (s_params s) /\ sub ["kernel_params"] (s_params s) <> None.
Proof. exact default_state. Qed.
Print Assumptions C63_defaults.
(** the default offset of Polynomial is frozen; made trainable, its bijector lets it become negative *)
Theorem C63_trainable_offset_refuted : exists o s s' minimize t K t' K' (c : Vec), state_ok s /\ bijs_ok (s_params s) /\ float_tree (s_params s) /\
  proposes_reals (minimize (ravel_backward (s_params s))) /\
  fst (scipy_minimize (A := R) (fun _ _ => Ok 0%R) minimize s) = Ok s' /\
  sub ["kernel_params"] (s_params s) = Some t /\ call_k 1 o points points t = Ok (Some K) /\ psd 2 K /\
  sub ["kernel_params"] (s_params s') = Some t' /\ call_k 1 o points points t' = Ok (Some K') /\
  (sum 2 (fun i => sum 2 (fun j => c i * K' i j * c j)) < 0)%R.
Proof. exact offset_refuted. Qed.
Print Assumptions C63_trainable_offset_refuted.
Example C63_example : safe [] ex_obj ex_kparams /\ sampler_ok ex_sampler /\ sampler_full ex_sampler.
Proof. split; [apply ex_obj_reads|]. split; [exact ex_sampler_ok|exact ex_sampler_full]. Qed.
