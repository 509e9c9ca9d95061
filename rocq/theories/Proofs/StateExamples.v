(** Concrete states, and the counterexamples of Props/StateProps.v. *)
From Coq Require Import String List Bool Arith Reals Lia Lra Sorted.
From Verif Require Import Model.PyDict Model.Bijectors Model.Priors Model.Params Model.State Spec.DictSpec Spec.StateSpec Spec.BijectorSpec
  Spec.RandomSpec Proofs.DictFacts Proofs.StateFacts Proofs.UpdateFacts Proofs.SaveLoad.
Import ListNotations.
Open Scope string_scope.
Open Scope nat_scope.

Definition gamma_meta (tr : bool) : meta := Meta tr Softplus (PriorObj [] F64 (GammaPrior 2 1)).
Definition scalar (x : R) : array := Arr [] F64 [Some x].
Definition scalar_param (tr : bool) (x : R) : param := Param (scalar x) (gamma_meta tr).
Definition ex_params (l v s : R) : ptree :=
  Node [("kernel_params", Node [("lengthscale", Leaf (Some (scalar_param true l))); ("variance", Leaf (Some (scalar_param false v)))]);
        ("sigma", Leaf (Some (scalar_param true s)))].
Definition ex_register : dict obj :=
  [("is_fitted", OBool true); ("c", OArr (Arr [3; 1] F64 [Some 1%R; None; Some 2%R])); ("c_targets", ONone); ("loss_fn", OCall 7)].
Definition ex_state (l v s : R) : state := State (OCall 1) (OCall 2) (ex_params l v s) ex_register.

Ltac nodup := repeat constructor; simpl; intuition discriminate.
Lemma ex_params_ok : forall l v s, ptree_ok (ex_params l v s) /\ sorted (ex_params l v s).
Proof.
  intros. split.
  - split; simpl; repeat split; nodup.
  - simpl. repeat split; repeat constructor.
Qed.
Lemma ex_state_ok : forall l v s, state_ok (ex_state l v s).
Proof.
  intros l v s. destruct (ex_params_ok l v s) as [H1 H2]. split; auto. split; auto. split; [nodup|]. split; [|split; exact I].
  repeat constructor; simpl; tauto.
Qed.
Lemma ex_names : forall l v s, names_ok cpython_interned ["params"] (ex_params l v s).
Proof. intros. simpl. repeat split; try discriminate; try (intros; discriminate); nodup. Qed.
Lemma ex_savable : forall l v s, savable cpython_interned (ex_params l v s).
Proof. intros l v s. split; [simpl; repeat split; discriminate|]. split; [apply ex_names|]. do 2 eexists. split; reflexivity. Qed.
Lemma ex_aux : Forall (fun kv => is_callable (snd kv) = false -> aux_name (fst kv)) ex_register.
Proof.
  assert (H : forall k, no_colon k -> k <> "NULL" -> k <> "file" -> k <> "kernel" -> k <> "mean_function" -> k <> "params" -> aux_name k).
  { intros. repeat split; auto. intros [->|[->| ->]]; auto. }
  repeat (constructor; [intro C; try discriminate C; apply H; simpl; repeat split; discriminate|]). constructor.
Qed.
Lemma ex_fits : forall l v s l' v' s' path p q, lookup path (ex_params l v s) = Some (Some p) -> lookup path (ex_params l' v' s') = Some (Some q) ->
  fits (p_meta q) (p_value p).
Proof.
  intros l v s l' v' s' path p q L1 L2.
  destruct (ex_params_ok l v s) as [[KD O] _].
  assert (E : every (fun o => forall p, o = Some p -> a_shape (p_value p) = [] /\ a_dtype (p_value p) = F64) (ex_params l v s))
    by (simpl; repeat split; inversion H; reflexivity).
  assert (E' : every (fun o => forall p, o = Some p -> pr_shape (m_prior (p_meta p)) = [] /\ pr_dtype (m_prior (p_meta p)) = F64) (ex_params l' v' s'))
    by (simpl; repeat split; inversion H; reflexivity).
  assert (G : forall (P : option param -> Prop) t path x, every P t -> lookup path t = Some x -> P x).
  { clear. intros P t path x. revert path. induction t as [y|m IH] using tree_ind'; intros path H L.
    - destruct path; [|discriminate]. inversion L; subst. exact H.
    - destruct path as [|k r]; [discriminate|]. simpl in L. destruct (get k m) as [s'|] eqn:Gk; [|discriminate].
      apply get_in in Gk. apply TreeFacts.every_node in H. rewrite Forall_forall in IH, H. exact (IH _ Gk _ (H _ Gk) L). }
  pose proof (G _ _ _ _ E L1 _ eq_refl) as [A1 A2]. pose proof (G _ _ _ _ E' L2 _ eq_refl) as [B1 B2]. split; congruence.
Qed.

(** C01 *)
Lemma colon_breaks : exists (l : list (string * tree nat)) d m, flatten_dict 0 (fun a => Ok a) (Node l) [] "" = Ok d /\
  unflatten_dict cpython_interned d = Ok m /\ Node m <> Node l /\ Forall (fun kv => fst kv <> "" /\ fst kv <> "NULL") l.
Proof.
  exists [("a:b", Leaf 5)]. do 2 eexists. split; [reflexivity|]. split; [reflexivity|]. split; [discriminate|]. repeat constructor; discriminate.
Qed.
Lemma repeated_breaks : exists (l : list (string * tree nat)) d m, flatten_dict 0 (fun a => Ok a) (Node l) [] "" = Ok d /\
  unflatten_dict cpython_interned d = Ok m /\ Node m <> Node l /\
  names_ok (fun _ => false) [] (Node l).
Proof.
  exists [("a", Node [("b", Node [("a", Leaf 5)])])]. do 2 eexists. split; [reflexivity|]. split; [reflexivity|]. split; [discriminate|].
  simpl. repeat split; try discriminate; nodup.
Qed.
Lemma null_breaks : exists (l : list (string * tree nat)) d m, flatten_dict 0 (fun a => Ok a) (Node l) [] "" = Ok d /\
  unflatten_dict cpython_interned d = Ok m /\ Node m <> Node l /\ Forall (fun kv => fst kv <> "" /\ no_colon (fst kv)) l.
Proof.
  exists [("NULL", Leaf 5)]. do 2 eexists. split; [reflexivity|]. split; [reflexivity|]. split; [discriminate|]. repeat constructor; try discriminate.
Qed.
Definition ex_tree : list (string * tree nat) :=
  [("kernel_params", Node [("k", Node []); ("lengthscale", Leaf 1); ("inner", Node [("x", Leaf 2); ("k", Leaf 4)])]); ("sigma", Leaf 3); ("empty", Node [])].
Lemma ex_tree_ok : names_ok cpython_interned [] (Node ex_tree).
Proof.
  simpl. repeat split; try discriminate; try (intros; discriminate); try nodup; try (intros _ [H|[H|[]]]; discriminate).
Qed.

(** C02 *)
Lemma string_boxed : exists s d t', state_ok s /\ savable cpython_interned (s_params s) /\
  save_dict s = Ok d /\ load_dict cpython_interned s (dumped d) = Ok t' /\
  get "label" (s_register s) = Some (OStr "run") /\ get "label" (s_register t') = Some (OBox (OStr "run")).
Proof.
  exists (State (OCall 1) (OCall 2) (ex_params 1 1 1) [("label", OStr "run")]). do 2 eexists. split.
  { destruct (ex_params_ok 1 1 1) as [H1 H2]. split; auto. split; auto. split; [nodup|]. split; [|split; exact I]. repeat constructor; simpl; tauto. }
  split; [apply ex_savable|]. split; [reflexivity|]. split; [reflexivity|]. split; reflexivity.
Qed.
Lemma bool_array_scalar : exists s d t', state_ok s /\ savable cpython_interned (s_params s) /\
  save_dict s = Ok d /\ load_dict cpython_interned s (dumped d) = Ok t' /\
  get "flag" (s_register s) = Some (OArr (Arr [] BoolT [Some 1%R])) /\ get "flag" (s_register t') = Some (OBool true).
Proof.
  exists (State (OCall 1) (OCall 2) (ex_params 1 1 1) [("flag", OArr (Arr [] BoolT [Some 1%R]))]). do 2 eexists. split.
  { destruct (ex_params_ok 1 1 1) as [H1 H2]. split; auto. split; auto. split; [nodup|]. split; [|split; exact I]. repeat constructor; simpl; tauto. }
  split; [apply ex_savable|]. split; [reflexivity|]. split; [reflexivity|]. split; [reflexivity|].
  simpl. destruct (Req_EM_T 1 0); [lra|reflexivity].
Qed.
Lemma file_attr : exists s, state_ok s /\ savable cpython_interned (s_params s) /\ save_dict s = Err TypeError.
Proof.
  exists (State (OCall 1) (OCall 2) (ex_params 1 1 1) [("file", OBool true)]). split.
  { destruct (ex_params_ok 1 1 1) as [H1 H2]. split; auto. split; auto. split; [nodup|]. split; [|split; exact I]. repeat constructor; simpl; tauto. }
  split; [apply ex_savable|reflexivity].
Qed.
(** C03 *)
Definition renamed (v s : R) : state :=
  State (OCall 1) (OCall 2) (Node [("kernel_params", Node [("degree", Leaf (Some (scalar_param true v)))]); ("sigma", Leaf (Some (scalar_param true s)))]) [].
Definition renamed' (v s : R) : state :=
  State (OCall 1) (OCall 2) (Node [("kernel_params", Node [("lengthscale", Leaf (Some (scalar_param true v)))]); ("sigma", Leaf (Some (scalar_param true s)))]) [].
Lemma names_not_checked : forall v s v' s', exists d, save_dict (renamed v s) = Ok d /\
  load_dict cpython_interned (renamed' v' s') (dumped d) = Ok (renamed' v s).
Proof. intros. eexists. split; reflexivity. Qed.
(** C04 *)
Lemma twice : exists s d s1, state_ok s /\ dict_ok d /\ fst (state_update s d) = Ok s1 /\
  fst (state_update s (snd (state_update s d))) <> Ok s1.
Proof.
  exists (ex_state 1 1 1), [("params", OParams (ex_params 2 2 2))]. eexists. split; [apply ex_state_ok|]. split.
  { split; [nodup|]. constructor; [|constructor]. exact (proj1 (ex_params_ok 2 2 2)). }
  split; [reflexivity|]. simpl. intro H. inversion H. lra.
Qed.
(** C07 *)
Definition ex_sampler (k : key) (pr : prior_obj) : array := Arr (pr_shape pr) (pr_dtype pr) (repeat (Some 1%R) (size_of (pr_shape pr))).
Lemma ex_sampler_ok : sampler_ok ex_sampler.
Proof. intros k pr. split; auto. split; auto. simpl. induction (size_of (pr_shape pr)); simpl; constructor; auto. discriminate. Qed.
Lemma ex_float : forall l v s, float_params (ex_params l v s) /\ bijs_ok (ex_params l v s).
Proof. intros. split; simpl; repeat split. Qed.
