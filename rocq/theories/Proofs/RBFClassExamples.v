(** A network with two inducing points, and a history of it. *)
From Coq Require Import String List Bool Arith Reals Lra.
From Verif Require Import Base.Sums Base.Mat Model.Arrays Model.Kernels Model.PyDict Model.Bijectors Model.Priors Model.Params Model.State Model.Lifecycle Model.KernelObj Model.Concrete Model.RBFNet Model.RBFClass
  Spec.BijectorSpec Spec.KernelSpec Spec.DictSpec Spec.StateSpec Spec.RandomSpec Spec.OptimSpec Spec.KernelObjSpec Spec.ConcreteSpec Spec.RBFClassSpec
  Proofs.DictFacts Proofs.TreeFacts Proofs.StateFacts Proofs.SaveLoad Proofs.StateExamples Proofs.KernelObjRun Proofs.RBFClassFacts.
Import ListNotations.
Open Scope string_scope.
Open Scope R_scope.

Definition net_draw (sh : list nat) : array := Arr sh F64 (repeat (Some 1) (size_of sh)).
Definition net_points (a b : R) : param := Param (Arr [2; 1]%nat F64 [Some a; Some b]) (Meta true Identity (PriorObj [2; 1]%nat F64 (NormalPrior 0 1))).
Definition net_kp : ptree := Node [("lengthscale", Leaf (Some (scalar_param true 1)))].
Definition net_params (a b : R) : ptree :=
  Node [("alpha", Leaf (Some (Param (arr0 1) (Meta true Softplus (PriorObj [] F64 (NormalPrior 0 1)))))); ("inducing_points", Leaf (Some (net_points a b)));
        ("kernel_params", net_kp); ("weights", Leaf (Some (Param (net_draw [2; 1]%nat) (Meta true Identity (PriorObj [2; 1]%nat F64 (NormalPrior 0 1))))))].
Definition net_state (a b : R) (c : bool) : state :=
  State (OCall 1) ONone (net_params a b) [("output_layer", OCall 5); ("loss_fn", OCall 6); ("center_kernel", OBool c); ("k_mean", OArr (zeros1 2))].
Definition net_kernels (o : obj) : option kobj := match o with OCall 1 => Some (OAtom CSE None) | _ => None end.
(** layer 5 gives back a constant, layer 8 is the identity *)
Definition net_layers (o : obj) : option (array -> result array) :=
  match o with OCall 5 => Some (fun _ => Ok (Arr [] F64 [Some 7])) | OCall 8 => Some (fun a => Ok a) | _ => None end.
Lemma net_init : forall a b c, rbf_init net_draw (OCall 1) (net_points a b) 1 net_kp None (OCall 5) (OCall 6) c = Ok (net_state a b c).
Proof. reflexivity. Qed.
Lemma net_state_ok : forall a b c, net_ok cpython_interned (OAtom CSE None) 2 1 1 (net_state a b c).
Proof.
  intros a b c. split; [|split; [|split; [|split; [|split; [|split]]]]].
  - split; [split; [cbn; repeat split; nodup|cbn; repeat split]|]. split; [cbn; repeat split; repeat constructor|]. split; [nodup|]. split; [|split; exact I]. repeat constructor; cbn; tauto.
  - cbn; repeat split; intros; exact I.
  - cbn; repeat split; intros; left; reflexivity.
  - split; [cbn; repeat split; discriminate|]. split; [|do 2 eexists; split; reflexivity].
    apply names_node. split; [nodup|]. repeat constructor; cbn; try discriminate; repeat split; try discriminate; try (intros _ H; cbn in H; intuition discriminate); try nodup.
  - split; [|intros p []]. exists (scalar_param true 1), 1. split; [reflexivity|]. split; [reflexivity|]. split; [reflexivity|]. split; [unfold positive; lra|]. intros _ y Hy. exact Hy.
  - eexists. split; [reflexivity|]. repeat split; intros x H; cbn in H; intuition (subst; discriminate).
  - eexists. split; [reflexivity|]. repeat split; intros x H; cbn in H; intuition (subst; discriminate).
Qed.
Definition net_x : array := Arr [3; 1]%nat F64 [Some 0; Some 1; Some 2].
Lemma net_x_shaped : shaped [3; 1]%nat net_x.
Proof. repeat split; intros x H; cbn in H; intuition (subst; discriminate). Qed.
Notation net_run := (rbf_run ex_sampler (OCall 8) (OCall 9) (fun _ s => Ok s) cpython_interned).
(** save, a fit (raises), load, randomise: centred, the mean back from the file *)
Definition net_ops : list rbf_op := [RSave "n"; RFit RScipy; RLoad "n.npz"; RRandomize (Key 0) false].
Lemma net_history : exists es s fs, net_run net_ops (net_state 0 1 true, fun _ => None) = (es, (s, fs)) /\
  rv_centred (rbf_observe true es) = true /\ rv_cleared (rbf_observe true es) = false /\ rv_default_layer (rbf_observe true es) = false /\
  rv_files (rbf_observe true es) "n.npz" = Some (true, false) /\ rv_files (rbf_observe true es) "n" = None.
Proof.
  unfold net_ops. cbn [rbf_run]. cbv zeta.
  set (q1 := rbf_step ex_sampler (OCall 8) (OCall 9) (fun _ s => Ok s) cpython_interned (RSave "n") _). cbn -[IZR] in q1.
  set (q2 := rbf_step ex_sampler (OCall 8) (OCall 9) (fun _ s => Ok s) cpython_interned (RFit RScipy) _). cbn -[IZR] in q2. subst q1.
  set (q3 := rbf_step ex_sampler (OCall 8) (OCall 9) (fun _ s => Ok s) cpython_interned (RLoad "n.npz") _). cbn -[IZR] in q3. subst q2.
  set (q4 := rbf_step ex_sampler (OCall 8) (OCall 9) (fun _ s => Ok s) cpython_interned (RRandomize (Key 0) false) _). cbn -[IZR forward_arr] in q4. subst q3 q4.
  do 3 eexists. split; [cbn [fst snd]; reflexivity|]. repeat split.
Qed.
Lemma net_alike : tree_def (s_params (net_state 0 1 true)) = tree_def (s_params (net_state 3 5 false)) /\ s_params (net_state 0 1 true) <> s_params (net_state 3 5 false).
Proof. split; [reflexivity|]. intro H. cbn in H. injection H as H _. lra. Qed.
(** the formula of a cleared centred network, for two inducing points 0 and 1 with weights 1 and 0 *)
Definition batch_value (x : Mat) : R :=
  let k := KAtom None ALin in let z := fun (i _ : nat) => INR i in let w := fun (i _ : nat) => 1 - INR i in
  sum 2 (fun i => (kernel_at 1 k (z i) (x 0%nat) - / INR 2 * sum 2 (fun l => kernel_at 1 k (z l) (x 0%nat))
     - (/ INR 2 * sum 2 (fun l => kernel_at 1 k (z l) (x i)) - / INR 2 * sum 2 (fun a => / INR 2 * sum 2 (fun l => kernel_at 1 k (z l) (x a))))) * w i 0%nat).
Lemma batch_depends : batch_value (fun _ _ => 0) = 0 /\ batch_value (fun i _ => 4 * INR i) = 1.
Proof. unfold batch_value. split; cbn; unfold tr, gatherM, gather; cbn; field. Qed.
