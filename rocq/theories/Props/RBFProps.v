(** C54, the RBF network. *)
From Coq Require Import Reals Arith Lia.
From Verif Require Import Base.Sums Base.Mat Model.Arrays Model.Kernels Model.Operations Model.RBFNet Spec.KernelSpec
  Proofs.SGPRExamples Proofs.RBFFacts.
Open Scope R_scope.

(** C54: without centring the prediction is the combination of kernels at the inducing points *)
Theorem C54_prediction : forall nf m n k z w x km, exists p, predict_linear nf m n k z w x false km = Some (p, km) /\
  forall j o, p j o = sum m (fun i => kernel_at nf k (z i) (x j) * w i o).
Proof. exact rbf_plain. Qed.
Print Assumptions C54_prediction.
(** C54: with centring and a stored mean v, one entry per inducing point *)
Theorem C54_centered : forall nf m n k z w x v, exists p, predict_linear nf m n k z w x true (Some (m, v)) = Some (p, Some (m, v)) /\
  forall j o, p j o = sum m (fun i => (kernel_at nf k (z i) (x j) - / INR m * sum m (fun l => kernel_at nf k (z l) (x j))
    - (v i - / INR m * sum m v)) * w i o).
Proof. exact rbf_centered. Qed.
Print Assumptions C54_centered.
(** C54: when there are as many inducing as training points, the stored mean is the mean over the inducing points of the
    training gram, and predicting the training points with it gives the prediction made in training *)
Theorem C54_training_prediction : forall nf m k z w x, exists p v, predict_linear nf m m k z w x true None = Some (p, Some (m, v)) /\
  (forall l, v l = / INR m * sum m (fun i => kernel_at nf k (z i) (x l))) /\
  predict_linear nf m m k z w x true (Some (m, v)) = Some (p, Some (m, v)).
Proof. exact rbf_training. Qed.
Print Assumptions C54_training_prediction.
(** C54: linear in the weights, centred or not *)
Theorem C54_linear : forall nf m n k z w1 w2 c x center km p1 p2 q1 q2,
  predict_linear nf m n k z w1 x center km = Some (p1, q1) -> predict_linear nf m n k z w2 x center km = Some (p2, q2) ->
  exists p, predict_linear nf m n k z (fun i o => w1 i o + c * w2 i o) x center km = Some (p, q1) /\
  forall j o, p j o = p1 j o + c * p2 j o.
Proof. exact rbf_linear. Qed.
Print Assumptions C54_linear.
Example C54_linear_example : exists p q, predict_linear 1 1 1 lin ones ones ones true None = Some (p, q).
Proof. destruct (rbf_training 1 1 lin ones ones ones) as [p [v [H _]]]. eauto. Qed.
(** C54: centred predictions do not see a constant added to the weights of an output *)
Theorem C54_shift : forall nf m n k z w (b : Vec) x v, (0 < m)%nat -> exists p p',
  predict_linear nf m n k z w x true (Some (m, v)) = Some (p, Some (m, v)) /\
  predict_linear nf m n k z (fun i o => w i o + b o) x true (Some (m, v)) = Some (p', Some (m, v)) /\
  forall j o, p j o = p' j o.
Proof. exact rbf_shift. Qed.
Print Assumptions C54_shift.
(** C54: with a stored mean a predicted row depends on its own point only *)
Theorem C54_pointwise : forall nf m n n' k z w x x' center v j j', x j = x' j' -> exists p p',
  predict_linear nf m n k z w x center (Some (m, v)) = Some (p, Some (m, v)) /\
  predict_linear nf m n' k z w x' center (Some (m, v)) = Some (p', Some (m, v)) /\ forall o, p j o = p' j' o.
Proof. exact rbf_pointwise. Qed.
Print Assumptions C54_pointwise.
(** C54: a prediction raises exactly when centring meets a mean of another length; without a stored mean that is the
    number of points to predict *)
Theorem C54_raises : forall nf m n k z w x center km, predict_linear nf m n k z w x center km = None <->
  center = true /\ let l := match km with None => n | Some q => fst q end in m <> l /\ m <> 1%nat /\ l <> 1%nat.
Proof. exact predict_linear_raises. Qed.
Print Assumptions C54_raises.
(** C54 (refutation): so training with centring raises for 1 < m < n inducing points, the use the model is made for *)
Theorem C54_centering_refuted : forall out nf m n o k alpha z w x y, (1 < m < n)%nat ->
  train_loss out nf m n o k alpha z w x y true None = None.
Proof. intros. apply loss_raises_none. split; [reflexivity|lia]. Qed.
Print Assumptions C54_centering_refuted.
(** C54 (refutation): and the loss of a model that still has the k_mean of init raises, for all data *)
Theorem C54_fresh_loss_refuted : forall out nf m n o k alpha z w x y center,
  train_loss out nf m n o k alpha z w x y center (init_k_mean m) = None.
Proof. intros. apply loss_raises. Qed.
Print Assumptions C54_fresh_loss_refuted.
(** C54: the training loss is the mean squared error plus alpha / n times the squared norm of the weights *)
Theorem C54_loss : forall out nf m n o k alpha z w x y, exists p, predict_linear nf m n k z w x false None = Some (p, None) /\
  train_loss out nf m n o k alpha z w x y false None
  = Some (/ INR (n * o) * sum n (fun j => sum o (fun q => (out p j q - y j q) ^ 2)) + alpha / INR n * sum m (fun i => sum o (fun q => w i q ^ 2))).
Proof. exact loss_plain. Qed.
Print Assumptions C54_loss.
(** C54: weights where the gradient of that loss vanishes (half of it is written out) are its only minimiser, when the
    output layer is the identity and alpha is positive: an optimiser that stops there has found the best weights *)
Theorem C54_stationary_is_minimum : forall nf m n o k alpha z x y w, (0 < n)%nat -> (0 < o)%nat -> 0 < alpha ->
  (forall i q, (i < m)%nat -> (q < o)%nat ->
     / INR (n * o) * sum n (fun j => kernel_at nf k (z i) (x j) * (sum m (fun l => kernel_at nf k (z l) (x j) * w l q) - y j q))
     + alpha / INR n * w i q = 0) ->
  forall w', exists l l', train_loss (fun p => p) nf m n o k alpha z w x y false None = Some l /\
    train_loss (fun p => p) nf m n o k alpha z w' x y false None = Some l' /\ l <= l' /\
    (l' <= l -> forall i q, (i < m)%nat -> (q < o)%nat -> w' i q = w i q).
Proof. exact loss_stationary. Qed.
Print Assumptions C54_stationary_is_minimum.
Example C54_stationary_example : forall i q, (i < 1)%nat -> (q < 1)%nat ->
  / INR (1 * 1) * sum 1 (fun j => kernel_at 1 lin (ones i) (ones j) * (sum 1 (fun l => kernel_at 1 lin (ones l) (ones j) * (/ 2)) - 1))
  + 1 / INR 1 * (/ 2) = 0.
Proof. exact ex_stationary. Qed.
