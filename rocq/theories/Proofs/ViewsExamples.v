(** Concrete tables, and the counterexamples of Props/ViewsProps.v. *)
From Coq Require Import String List Bool Reals.
From Verif Require Import Model.PyDict Model.Bijectors Model.Params Model.State Model.Lifecycle Model.Views
  Spec.DictSpec Spec.StateSpec Spec.ViewsSpec Proofs.StateExamples Proofs.ViewsFacts.
Import ListNotations.
Open Scope string_scope.

Definition scalar_row (name : string) (tr : bool) (x : R) : row :=
  Row name tr Softplus (m_prior (gamma_meta tr)) F64 [] (scalar x).
Lemma ex_table : forall l v s, print_params (ex_state l v s) =
  Ok [scalar_row "kernel lengthscale" true l; scalar_row "kernel variance" false v; scalar_row "sigma" true s].
Proof. reflexivity. Qed.
Lemma ex_views : forall l v s, params_value (ex_state l v s) = [scalar l; scalar v; scalar s] /\
  params_trainable (ex_state l v s) = [true; false; true].
Proof. split; reflexivity. Qed.
Definition colon_state : state := State (OCall 1) (OCall 2)
  (Node [("kernel_params", Node [("a", Node [("b", Leaf (Some (scalar_param true 1)))]); ("a:b", Leaf (Some (scalar_param true 2)))]);
         ("sigma", Leaf (Some (scalar_param true 3)))]) [].
Lemma colon_ok : state_ok colon_state.
Proof.
  split; [split; simpl; repeat split; nodup|]. split; [simpl; repeat split; repeat constructor|]. repeat split; constructor.
Qed.
Lemma same_name : exists s l kp rows, state_ok s /\ s_params s = Node l /\ get "kernel_params" l = Some kp /\
  print_params s = Ok rows /\ ~ NoDup (map r_name rows).
Proof.
  exists colon_state. do 3 eexists. split; [exact colon_ok|]. split; [reflexivity|]. split; [reflexivity|]. split; [reflexivity|].
  cbn. intro H. inversion H as [|? ? N _]. apply N. left. reflexivity.
Qed.
Definition nested_state : state := State (OCall 1) (OCall 2)
  (Node [("kernel_params", Node []); ("sigma", Node [("x", Leaf (Some (scalar_param true 3)))])]) [].
Lemma nested_ok : state_ok nested_state.
Proof.
  split; [split; simpl; repeat split; nodup|]. split; [simpl; repeat split; repeat constructor|]. repeat split; constructor.
Qed.
Lemma ex_conditions : forall l v s, exists d kp, s_params (ex_state l v s) = Node d /\ get "kernel_params" d = Some kp /\
  (forall k t, In (k, t) d -> k <> "kernel_params" -> exists o, t = Leaf o) /\
  all_names no_colon kp /\ (forall k, In k (map fst d) -> forall r, k <> "kernel " ++ r).
Proof.
  intros l v s. do 2 eexists. split; [reflexivity|]. split; [reflexivity|]. split; [|split].
  - intros k t [H|[H|[]]] N; injection H as <- <-; [congruence|]. eauto.
  - simpl. repeat split; discriminate.
  - intros k [<-|[<-|[]]] r; discriminate.
Qed.
Lemma repr_same : forall s r, gp_repr s = Ok r -> r = "None".
Proof. intros s r H. unfold gp_repr in H. destruct (print_params s); cbn in H; [|discriminate]. now injection H as <-. Qed.
Lemma repr_silent : exists s s', state_ok s /\ state_ok s' /\ params_value s <> params_value s' /\ gp_repr s = Ok "None" /\ gp_repr s' = Ok "None".
Proof.
  exists (ex_state 1 1 1), (ex_state 2 1 1). do 2 (split; [apply ex_state_ok|]). split; [|split; reflexivity].
  cbn. unfold scalar. intro H. injection H as H. revert H. apply Rlt_not_eq. change (1 < 1 + 1)%R. apply Rlt_plus_1.
Qed.
Definition any_numerics : numerics := Numerics (fun _ _ _ _ _ _ _ => Ok (fun _ => scalar 1)) (fun _ _ _ _ => Ok []) (fun _ _ _ _ => Ok [])
  (fun _ _ _ _ => Ok []) (fun _ _ _ _ => Ok []).
Lemma ex_fit : forall l v s, exists sg body s', k_fit (SGPR any_numerics) TTargets = Some (sg, body) /\
  body (Targets (scalar 1) (scalar 2)) (Options false ONone) (ex_state l v s) = Ok s'.
Proof. intros. do 3 eexists. split; reflexivity. Qed.
Lemma ex_reset : forall l v s cl, In cl [GPR any_numerics; SGPR any_numerics; SGPR_RPChol any_numerics] ->
  exists s', randomize (fun _ _ => scalar 1) (ex_state l v s) (Key 0) (k_reset cl) = Ok s'.
Proof. intros l v s cl [<-|[<-|[<-|[]]]]; eexists; reflexivity. Qed.
