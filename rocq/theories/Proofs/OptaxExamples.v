(** A concrete optax run. *)
From Coq Require Import String List Bool Arith Reals Lia Lra ZArith.
From Verif Require Import Model.PyDict Model.Bijectors Model.Priors Model.Params Model.State Model.Optim Model.Optax Spec.DictSpec Spec.StateSpec Spec.BijectorSpec
  Spec.RandomSpec Spec.OptimSpec Spec.SearchSpec Proofs.OptimExamples Proofs.OptaxHistory.
Import ListNotations.
Open Scope string_scope.
Open Scope nat_scope.

(** one real parameter, the square of it as loss, gradient descent *)
Definition w_meta : meta := Meta true Identity (PriorObj [] F64 (NormalPrior 0 1)).
Definition w_state (r : R) : state := State (OCall 1) (OCall 2) (Node [("w", Leaf (Some (Param (Arr [] F64 [Some r]) w_meta)))]) [].
Definition w_loss (t : state) (x y : array) : result num :=
  match params_of (s_params t) with
  | [p] => match a_data (p_value p) with [Some r] => Ok (Some (r * r)%R) | _ => Err TypeError end
  | _ => Err TypeError
  end.
Definition w_grad (x y : array) (t : state) : list array := map (fun p => scale 2 (p_value p)) (params_of (s_params t)).
Definition w_data : array := Arr [0; 1] F64 [].

Lemma w_ok : forall r, state_ok (w_state r).
Proof.
  intro r. unfold state_ok, w_state. cbn [s_params s_register s_kernel s_mean map]. split; [|split; [|split; [constructor|split; [constructor|split; exact Logic.I]]]].
  - split; cbn; [|unfold param_ok; cbn; auto]. split; [|auto]. constructor; [intros []|constructor].
  - cbn. split; [|auto]. constructor; constructor.
Qed.
Lemma w_float : forall r, on_params (fun p => floating (pr_dtype (m_prior (p_meta p)))) (s_params (w_state r)).
Proof. intro r. cbn. unfold floating. cbn. auto. Qed.
Lemma w_run : forall r, optax_run w_loss w_grad (fun _ => descent 3) (w_state r) w_data w_data None None None 1 1 1 =
  Ok (w_state (r + -3 * (2 * r)), [Some (r * r)%R], []).
Proof. reflexivity. Qed.
Lemma w_run_validation : forall r, optax_run w_loss w_grad (fun _ => descent 3) (w_state r) w_data w_data None (Some w_data) (Some w_data) 1 1 1 =
  Ok (w_state (r + -3 * (2 * r)), [Some (r * r)%R], [Some (r * r)%R]).
Proof. reflexivity. Qed.
Lemma last_not_best : exists loss grad adam s x y u l l', state_ok s /\
  optax_run loss grad adam s x y None None None 1 1 1 = Ok (u, [Some l], []) /\ loss u x y = Ok (Some l') /\ (l < l')%R.
Proof.
  exists w_loss, w_grad, (fun _ => descent 3), (w_state 1), w_data, w_data, (w_state (1 + -3 * (2 * 1))), (1 * 1)%R, ((1 + -3 * (2 * 1)) * (1 + -3 * (2 * 1)))%R.
  split; [apply w_ok|]. split; [apply w_run|]. split; [reflexivity|lra].
Qed.
