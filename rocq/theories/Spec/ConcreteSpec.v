(** Reading numpy arrays. *)
From Coq Require Import List String Reals Arith.
From Verif Require Import Base.Sums Base.Mat Model.Arrays Model.Kernels Model.Params Model.State Model.Optim Model.Lifecycle Model.KernelObj
  Spec.StateSpec Spec.RandomSpec Spec.OptimSpec Spec.LifecycleSpec Spec.KernelObjSpec.
Import ListNotations.
Open Scope R_scope.

(** a[i, j] and a[i, j, k]: row-major storage *)
Definition real (x : num) : R := match x with Some r => r | None => 0 end.
Definition entry (a : array) : Mat :=
  match a_shape a with [_; m] => fun i j => real (nth (i * m + j) (a_data a) None) | _ => fun _ _ => 0 end.
Definition entry3 (a : array) : Ten :=
  match a_shape a with [_; m; p] => fun i j k => real (nth ((i * m + j) * p + k) (a_data a) None) | _ => fun _ _ _ => 0 end.
(** a float64 array of this shape, without NaN *)
Definition shaped (sh : list nat) (a : array) : Prop :=
  a_shape a = sh /\ a_dtype a = F64 /\ List.length (a_data a) = size_of sh /\ forall x, In x (a_data a) -> x <> None.
(** the iterative routines are given an integer between 0 and m as n_pivots *)
Definition pivots_ok (m : nat) (o : options) : Prop :=
  o_iterative o = true -> exists np, o_n_pivots o = OInt (Z.of_nat np) /\ (np <= m)%nat.
(** the answer is an array with these entries and, if asked for, a second one *)
Definition answers (r : PyDict.result (list array)) (full : bool) (n o : nat) (M : Mat) (nc : nat) (V : Mat) : Prop :=
  exists a more, r = PyDict.Ok (a :: more) /\ shaped [n; o] a /\
  (forall i j, (i < n)%nat -> (j < o)%nat -> entry a i j = M i j) /\
  (if full then exists v, more = [v] /\ shaped [nc; nc] v /\ forall i j, (i < nc)%nat -> (j < nc)%nat -> entry v i j = V i j
   else more = []).
(** the function fit, fit_derivs or fit_ol of the module of the class, called with a state *)
Definition state_fit (C : gp_class) (d : data) (o : options) (s : state) : PyDict.result state :=
  match k_fit C (task_of d) with Some (_, f) => f d o s | None => PyDict.Err PyDict.AttributeError end.
(** the answer is one array with these entries *)
Definition returns (r : PyDict.result (list array)) (n o : nat) (M : Mat) : Prop :=
  exists a, r = PyDict.Ok [a] /\ shaped [n; o] a /\ forall i j, (i < n)%nat -> (j < o)%nat -> entry a i j = M i j.

(** the optimisers propose numbers, and an NLopt optimiser was built with the frozen values of t0 *)
Definition optimiser_ok (t0 : ptree) (o : op) : Prop :=
  match o with
  | Fit _ a => forall strat x, a_minimize a = Some strat -> proposes_reals (strat x)
  | FitNlopt _ _ w a => same_frozen (s_params w) t0 /\ forall strat x, a_minimize a = Some strat -> proposes_reals (strat x)
  | _ => True
  end.
(** a model whose kernel object is ko, with parameters that stay valid whatever the optimisers and priors do to them *)
Definition model_ok (interned : string -> bool) (ko : kobj) (s : state) : Prop :=
  state_ok s /\ bijs_ok (s_params s) /\ float_tree (s_params s) /\ savable interned (s_params s) /\
  safe ["kernel_params"%string] ko (s_params s) /\ sub ["kernel_params"%string] (s_params s) <> None /\
  safe_at positive ["sigma"%string] (s_params s).
(** the kernel and the noise held by the parameters *)
Definition holds (ko : kobj) (s : state) (k : kexp) (sigma : R) : Prop :=
  reads ["kernel_params"%string] ko (s_params s) k /\ number_at ["sigma"%string] (s_params s) sigma.
(** calls of Model/Lifecycle.v, priors that give arrays of their shape *)
Definition calls_ok (sample : key -> prior_obj -> array) (s0 : state) (os : list op) : Prop :=
  sampler_ok sample /\ sampler_full sample /\ Forall (call_ok (s_params s0)) os /\ Forall (optimiser_ok (s_params s0)) os.
