(** Models class RBFNet of gpx/models/rbfnet.py (lines 150-457): construction, predict, fit, randomize, save, load.
    Puts together Model/RBFNet.v (the numerics), Model/KernelObj.v (the kernel object and its parameters),
    Model/Lifecycle.v (rbf_fit) and Model/State.v. Arrays as in Model/Concrete.v; for all others the prediction is
    that of unmodelled, an argument. Not modelled: the attributes optimize_results_, x_train, y_train and the
    histories, which no method reads, and print. *)
From Coq Require Import List String Bool Arith Reals.
From Verif Require Import Base.Sums Base.Mat Model.Arrays Model.Kernels Model.PyDict Model.Bijectors Model.Priors Model.Params Model.State Model.Calls
  Model.Lifecycle Model.KernelObj Model.Concrete Model.RBFNet.
Import ListNotations.
Open Scope string_scope.
Open Scope R_scope.

(** rbfnet.py:150-166 default_params; draw is random.normal(key, .) *)
Definition rbf_default_alpha : result param :=
  mk_param (arr0 1) (Meta true Softplus (PriorObj [] F64 (NormalPrior 0 1))).
Definition rbf_default_weights (draw : list nat -> array) (m o : nat) : result param :=
  mk_param (draw [m; o]) (Meta true Identity (PriorObj [m; o] F64 (NormalPrior 0 1))).
(** jnp.zeros(m) *)
Definition zeros1 (m : nat) : array := Arr [m] F64 (repeat (Some 0) m).
(** rbfnet.py:169-216 init, after the argument checks of models/utils.py:32-52. shape[0] of a 0-d array raises *)
Definition rbf_init (draw : list nat -> array) (kernel : obj) (inducing_points : param) (num_output : nat) (kernel_params : ptree)
    (alpha : option param) (output_layer loss_fn : obj) (center_kernel : bool) : result state :=
  match a_shape (p_value inducing_points) with
  | [] => Err ValueError
  | m :: _ =>
      bind rbf_default_alpha (fun a0 => bind (rbf_default_weights draw m num_output) (fun w =>
      mk_state kernel ONone
        (OParams (Node [("alpha", Leaf (Some (match alpha with Some a => a | None => a0 end))); ("inducing_points", Leaf (Some inducing_points));
                        ("kernel_params", kernel_params); ("weights", Leaf (Some w))]))
        [("output_layer", output_layer); ("loss_fn", loss_fn); ("center_kernel", OBool center_kernel); ("k_mean", OArr (zeros1 m))]))
  end.

(** state.k_mean: None or a vector *)
Definition vec_of (o : obj) : option (option (nat * Vec)) :=
  match o with
  | ONone => Some None
  | OArr a => match a_shape a with [l] => if float64 a then Some (Some (l, at_ a)) else None | _ => None end
  | _ => None
  end.

Section Class.
  (** the kernel object and the layer behind a Python object *)
  Variables (kernels : obj -> option kobj) (layers : obj -> option (array -> result array)).
  Variable unmodelled : state -> array -> bool -> result array.
  (** rbfnet.py:130-147 predict and 440-442 RBFNet.predict, which drops k_mean *)
  Definition net_predict (s : state) (x : array) (linear_only : bool) : result array :=
    bind (if linear_only then Ok ONone else attr s "output_layer") (fun layer =>
    bind (attr s "center_kernel") (fun c => bind (attr s "k_mean") (fun km => bind (truth c) (fun center =>
    match kernels (s_kernel s), item "kernel_params" (s_params s), param_array (s_params s) "inducing_points", param_array (s_params s) "weights" with
    | Some o, Ok t, Some z, Some w =>
        match kernel_of o t, mat_of z, mat_of w, mat_of x, vec_of km with
        | Some k, Some (m, nf, Z), Some (m', oo, W), Some (n, nf', X), Some q =>
            if Nat.eqb m m' && Nat.eqb nf nf' then
              match predict_linear nf m n k Z W X center q with
              | None => Err TypeError
              | Some (p, _) =>
                  let a := arr2 n oo p in
                  if linear_only then Ok a else match layers layer with Some f => f a | None => Err TypeError end
              end
            else unmodelled s x linear_only
        | _, _, _, _, _ => unmodelled s x linear_only
        end
    | _, _, _, _ => unmodelled s x linear_only
    end)))).

  (** prior.sample; the identity and train_loss of rbfnet.py:44 and 77; what fit would do after the call that raises *)
  Variable sample : key -> prior_obj -> array.
  Variables identity train_loss_fn : obj.
  Variable after_call : rbf_fit_kind -> state -> result state.
  (** rbfnet.py:227 _init_default *)
  Definition rbf_reset : dict obj := [("output_layer", identity); ("loss_fn", train_loss_fn); ("center_kernel", OBool false)].
  (** one step of a user: m.fit(...) and its variants, m = m.randomize(...), m.save(f), m.load(f); 331-457 *)
  Inductive rbf_op : Type := RFit (kind : rbf_fit_kind) | RRandomize (k : key) (reset : bool) | RSave (f : string) | RLoad (f : string).
  Definition rbf_step (interned : string -> bool) (o : rbf_op) (w : state * files) : result unit * (state * files) :=
    match o with
    | RFit kind => let r := rbf_fit kind (after_call kind) (fst w) in (fst r, (snd r, snd w))
    | RRandomize k reset =>
        match randomize sample (fst w) k (if reset then rbf_reset else []) with Ok s' => (Ok tt, (s', snd w)) | Err e => (Err e, w) end
    | RSave f =>
        match save (fst w) f (snd w) with (Ok _, fs) => (Ok tt, (fst w, fs)) | (Err e, fs) => (Err e, (fst w, fs)) end
    | RLoad f =>
        match load interned (fst w) f (snd w) with Ok s' => (Ok tt, (s', snd w)) | Err e => (Err e, w) end
    end.
  (** the calls, whether they raised, and the state after each *)
  Fixpoint rbf_run (interned : string -> bool) (os : list rbf_op) (w : state * files)
      : list (rbf_op * result unit * state) * (state * files) :=
    match os with
    | [] => ([], w)
    | o :: r =>
        let q := rbf_step interned o w in
        let t := rbf_run interned r (snd q) in
        ((o, fst q, fst (snd q)) :: fst t, snd t)
    end.
End Class.
