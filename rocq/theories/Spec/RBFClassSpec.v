(** What a user of RBFNet knows after a history of calls. *)
From Coq Require Import List String Bool Reals.
From Verif Require Import Base.Sums Base.Mat Model.Arrays Model.Kernels Model.PyDict Model.Params Model.State Model.Lifecycle Model.KernelObj Model.RBFClass
  Spec.KernelSpec Spec.StateSpec Spec.RandomSpec Spec.OptimSpec Spec.KernelObjSpec Spec.ConcreteSpec.
Import ListNotations.
Open Scope string_scope.
Open Scope R_scope.

(** whether the kernel is centred, whether the stored mean has been cleared, whether the output layer has been
    replaced by the default one; the first two for each file as well *)
Record rbf_view : Type := RBFView {
  rv_centred : bool; rv_cleared : bool; rv_default_layer : bool; rv_files : string -> option (bool * bool) }.
Definition rbf_new (center : bool) : rbf_view := RBFView center false false (fun _ => None).
Definition rbf_observe1 (v : rbf_view) (e : rbf_op * result unit * state) : rbf_view :=
  match e with
  | (RFit (RScipy | ROptax), _, _) => RBFView (rv_centred v) true (rv_default_layer v) (rv_files v)
  | (RRandomize _ true, Ok _, _) => RBFView false (rv_cleared v) true (rv_files v)
  | (RSave f, Ok _, _) => RBFView (rv_centred v) (rv_cleared v) (rv_default_layer v)
      (fun g => if String.eqb g (npz_name f) then Some (rv_centred v, rv_cleared v) else rv_files v g)
  | (RLoad f, Ok _, _) =>
      match rv_files v f with Some q => RBFView (fst q) (snd q) (rv_default_layer v) (rv_files v) | None => v end
  | _ => v
  end.
Definition rbf_observe (center : bool) (es : list (rbf_op * result unit * state)) : rbf_view := fold_left rbf_observe1 es (rbf_new center).

(** a network whose kernel object is ko, with m inducing points of nf features and oo outputs, whose parameters stay
    valid whatever the priors do to them *)
Definition net_ok (interned : string -> bool) (ko : kobj) (m nf oo : nat) (s : state) : Prop :=
  state_ok s /\ bijs_ok (s_params s) /\ float_tree (s_params s) /\ savable interned (s_params s) /\
  safe ["kernel_params"] ko (s_params s) /\
  (exists z, lookup ["inducing_points"] (s_params s) = Some (Some z) /\ shaped [m; nf] (p_value z)) /\
  (exists w, lookup ["weights"] (s_params s) = Some (Some w) /\ shaped [m; oo] (p_value w)).
(** the kernel, the inducing points and the weights held by the parameters *)
Definition net_holds (ko : kobj) (m nf oo : nat) (s : state) (k : kexp) (z w : array) : Prop :=
  reads ["kernel_params"] ko (s_params s) k /\
  (exists p, lookup ["inducing_points"] (s_params s) = Some (Some p) /\ p_value p = z) /\ shaped [m; nf] z /\
  (exists p, lookup ["weights"] (s_params s) = Some (Some p) /\ p_value p = w) /\ shaped [m; oo] w.
(** the answer is an array with these entries, given to the output layer unless linear_only *)
Definition net_answers (r : result array) (linear_only : bool) (layer : array -> result array) (n o : nat) (M : Mat) : Prop :=
  exists a, shaped [n; o] a /\ (forall i j, (i < n)%nat -> (j < o)%nat -> entry a i j = M i j) /\
  r = if linear_only then Ok a else layer a.
(** sum_i k(z_i, x) w_i, and the same with the mean over the inducing points taken off the kernel *)
Definition net (m nf : nat) (k : kexp) (z w : Mat) (x : Mat) : Mat :=
  fun j o => sum m (fun i => kernel_at nf k (z i) (x j) * w i o).
Definition net_centred (m nf : nat) (k : kexp) (z w : Mat) (x : Mat) : Mat :=
  fun j o => sum m (fun i => (kernel_at nf k (z i) (x j) - / INR m * sum m (fun l => kernel_at nf k (z l) (x j))) * w i o).
