(** Models class GPR_TD of gpx/models/gpr_td.py (lines 947-1170) down to its numerics, and
    randomized_minimization_ol of gpx/models/utils.py (254-361). The numerics and the loss are arguments.
    Not modelled: warnings, the attributes optimize_results_, states_history_, losses_history_, and
    traced evaluation. *)
From Coq Require Import List String Bool Arith Reals ZArith.
From Verif Require Import Model.PyDict Model.Params Model.State Model.Optim Model.Calls Model.Lifecycle.
Import ListNotations.
Open Scope string_scope.
Open Scope nat_scope.

(** gpr_td.py:982-993, the data given to fit; jacobian_2 and y_derivs_2 default to None *)
Record td_data : Type := TDData {
  td_x : array; td_y : array; td_jacobian : array; td_y_derivs : array;
  td_jacobian_2 : option array; td_y_derivs_2 : option array }.
(** an argument that may be None *)
Definition or_none (o : option array) : obj := match o with Some a => OArr a | None => ONone end.
(** gpr_td.py:994-998, the remaining arguments of fit *)
Record td_args : Type := TDArgs {
  ta_iterative : bool; ta_n_pivots : obj; ta_key_precond : obj; ta_c_guess : obj;
  ta_minimize : option (array -> strategy (num * array) array); (* None: minimize=False *)
  ta_restarts : nat; ta_key : option key; ta_history : bool; ta_loss_kwargs : dict obj }.
(** what reaches _fit_dense or _fit_iter, gpr_td.py:1052-1073 *)
Record td_options : Type := TDOptions { tdo_iterative : bool; tdo_n_pivots : obj; tdo_key : obj; tdo_c_guess : obj }.
(** c, mu and the contractions c_targets, jaccoef, jaccoef_2 computed from c (gpr_td.py:1063-1087) *)
Definition td_numerics : Type := ptree -> obj -> obj -> td_data -> td_options -> result (string -> array).
(** points, jacobians, iterative *)
Record td_query : Type := TDQuery { tq_x : array; tq_jacobian : array; tq_jacobian_2 : option array; tq_iterative : bool }.

(** gpr_td.py:948-980 __init__: a parameter that is not given is None *)
Definition td_init (kernel mean : obj) (kernel_params : option ptree) (sigma_targets sigma_derivs sigma_derivs2 : option param)
    (loss_fn : obj) : result state :=
  mk_state kernel mean
    (OParams (Node [("kernel_params", match kernel_params with Some t => t | None => Leaf None end);
                    ("sigma_targets", Leaf sigma_targets); ("sigma_derivs", Leaf sigma_derivs); ("sigma_derivs2", Leaf sigma_derivs2)]))
    [("loss_fn", loss_fn); ("x_train", ONone); ("jacobian_train", ONone); ("jacobian_train_2", ONone); ("jaccoef", ONone);
     ("jaccoef_2", ONone); ("y_train", ONone); ("y_derivs_train", ONone); ("y_derivs_train_2", ONone);
     ("is_fitted", OBool false); ("c", ONone); ("c_targets", ONone); ("mu", ONone)].

(** gpr_td.py:1089-1105, the attributes that fit sets *)
Definition td_fields (d : td_data) (f : string -> array) : dict obj :=
  [("x_train", OArr (td_x d)); ("y_train", OArr (td_y d)); ("jacobian_train", OArr (td_jacobian d));
   ("jacobian_train_2", or_none (td_jacobian_2 d)); ("jaccoef", OArr (f "jaccoef"));
   ("jaccoef_2", match td_jacobian_2 d with Some _ => OArr (f "jaccoef_2") | None => ONone end);
   ("y_derivs_train", OArr (td_y_derivs d)); ("y_derivs_train_2", or_none (td_y_derivs_2 d));
   ("c", OArr (f "c")); ("c_targets", OArr (f "c_targets")); ("mu", OArr (f "mu")); ("is_fitted", OBool true)].

Section TD.
  (** value and gradient of a loss for given data, keyword arguments and state *)
  Variable lossfn : obj -> option (sig * (td_data -> dict obj -> state -> result (num * array))).
  (** prior.sample; gpxargs.key_precond; the linear algebra *)
  Variable sample : key -> prior_obj -> array.
  Variable global_key : obj.
  Variable num_fit : td_numerics.
  Variable num_predict : ptree -> obj -> list obj -> td_query -> result (list array).

  (** gpr_td.py:1019-1023: the key of the caller is not used *)
  Definition td_loss_kwargs (a : td_args) : dict obj :=
    set "key_precond" global_key (set "n_pivots" (ta_n_pivots a) (set "iterative" (OBool (ta_iterative a)) (ta_loss_kwargs a))).
  Definition td_more : list string := ["y_derivs"; "y_derivs_2"; "jacobian"; "jacobian_2"].
  (** scipy_optimize.py:160-167 and 72-76: partial(loss_fn, y_derivs=..., ...)(ustate, x, y) *)
  Definition td_loss_positional (f : sig * (td_data -> dict obj -> state -> result (num * array))) (d : td_data) (kw : dict obj)
      (x : array) (s : state) : result (num * array) :=
    call (fst f) 3 (map fst kw ++ td_more)%list (snd f d kw s).
  (** models/utils.py:311-319 *)
  Definition td_loss_keywords (f : sig * (td_data -> dict obj -> state -> result (num * array))) (d : td_data) (kw : dict obj)
      (s : state) : result num :=
    bind (call (fst f) 0 (["state"; "x"; "y"] ++ map fst kw ++ td_more)%list (snd f d kw s)) (fun v => Ok (fst v)).
  (** gpr_td.py:1023-1050; loss_fn_with_args needs a callable: partial(loss_fn, ...) *)
  Definition td_minimisation (a : td_args) (d : td_data) (s : state) : result (state * bool) :=
    bind (attr s "loss_fn") (fun lf =>
    match lossfn lf with
    | None => Err TypeError
    | Some f =>
        match ta_minimize a with
        | None => Ok (s, false)
        | Some strat =>
            bind (randomized_minimization sample
                (fun u => bind (fst (scipy_minimize (td_loss_positional f d (td_loss_kwargs a)) strat u)) (fun u' => Ok (u', tt)))
                (td_loss_keywords f d (td_loss_kwargs a)) (ta_key a) (ta_restarts a) s)
              (fun r => Ok (fst (fst (fst r)), true))
        end
    end).
  (** gpr_td.py:1052-1061: n_pivots, the global key and c_guess go to _fit_iter only *)
  Definition td_options_of (a : td_args) : td_options :=
    if ta_iterative a then TDOptions true (ta_n_pivots a) global_key (ta_c_guess a) else TDOptions false ONone ONone ONone.
  Definition td_fit_state (a : td_args) (d : td_data) (s : state) : result state :=
    bind (num_fit (s_params s) (s_kernel s) (s_mean s) d (td_options_of a)) (fun f =>
    fst (state_update s (td_fields d f))).
  (** gpr_td.py:982-1112 fit: self.state is set after the minimisation and at the end; the second
      component is self.state afterwards *)
  Definition td_fit (d : td_data) (a : td_args) (s : state) : result unit * state :=
    match td_minimisation a d s with
    | Err e => (Err e, s)
    | Ok (s1, hist) =>
        match td_fit_state a d s1 with
        | Err e => (Err e, s1)
        | Ok s2 => (if ta_history a && negb hist then Err UnboundLocalError else Ok tt, s2)
        end
    end.
  (** gpr_td.py:1113-1161 predict *)
  Definition td_predict (s : state) (q : td_query) : result (list array) :=
    bind (attr s "is_fitted") (fun f => bind (truth f) (fun f =>
    if negb f then Err RuntimeError else
    bind (mapM (attr s) ["x_train"; "jacobian_train"; "jacobian_train_2"; "c"; "mu"]) (fun vs =>
    num_predict (s_params s) (s_kernel s) vs q))).

  (** one step of a user: m.fit(...), m.save(f), m.load(f); gpr_td.py:1166-1171 *)
  Inductive td_op : Type := TDFit (d : td_data) (a : td_args) | TDSave (f : string) | TDLoad (f : string).
  Definition td_step (interned : string -> bool) (o : td_op) (w : state * files) : result unit * (state * files) :=
    match o with
    | TDFit d a => let r := td_fit d a (fst w) in (fst r, (snd r, snd w))
    | TDSave f =>
        match save (fst w) f (snd w) with (Ok _, fs) => (Ok tt, (fst w, fs)) | (Err e, fs) => (Err e, (fst w, fs)) end
    | TDLoad f =>
        match load interned (fst w) f (snd w) with Ok s' => (Ok tt, (s', snd w)) | Err e => (Err e, w) end
    end.
  (** the calls, whether they raised, and the state after each *)
  Fixpoint td_run (interned : string -> bool) (os : list td_op) (w : state * files)
      : list (td_op * result unit * state) * (state * files) :=
    match os with
    | [] => ([], w)
    | o :: r =>
        let q := td_step interned o w in
        let t := td_run interned r (snd q) in
        ((o, fst q, fst (snd q)) :: fst t, snd t)
    end.
End TD.

(** gpr_td.py:914-928, the signature of the default loss *)
Definition td_loss_sig : sig :=
  Sig ["state"; "x"; "y"; "jacobian"; "y_derivs"]
      ["jacobian_2"; "y_derivs_2"; "iterative"; "num_evals"; "num_lanczos"; "key_lanczos"; "n_pivots"; "key_precond"].
