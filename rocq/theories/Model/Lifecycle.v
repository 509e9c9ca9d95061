(** Models gpx/models/base.py (class BaseGP), the fit, predict and sample functions of gpx/models/gpr.py,
    sgpr.py and sgpr_rpchol.py down to the numerics, and gpx/models/rbfnet.py (fit). The numerics and
    the loss functions are arguments. Not modelled: opt_kwargs, warnings, the attributes
    optimize_results_, states_history_, losses_history_, and traced evaluation. *)
From Coq Require Import List String Bool Arith Reals ZArith.
From Verif Require Import Model.PyDict Model.Bijectors Model.Params Model.State Model.Optim Model.Calls.
Import ListNotations.
Open Scope string_scope.
Open Scope nat_scope.

(** ** attributes *)
(** state.name; the constructor arguments are attributes as well *)
Definition attr (s : state) (k : string) : result obj :=
  match get k (s_register s) with Some v => Ok v | None => Err AttributeError end.
(** bool(o) *)
Definition nonzero (x : num) : bool := match x with Some r => if Req_EM_T r 0 then false else true | None => true end.
Fixpoint truth (o : obj) : result bool :=
  match o with
  | OBool b => Ok b
  | ONone => Ok false
  | OInt z => Ok (negb (Z.eqb z 0))
  | OFloat x => Ok (nonzero x)
  | OStr s => Ok (negb (String.eqb s ""))
  | OArr a => match a_data a with [x] => Ok (nonzero x) | _ => Err ValueError end
  | OCall _ | OOther _ => Ok true
  | OParams t => Ok (match t with Leaf None | Node [] => false | _ => true end)
  | OBox o => truth o
  end.
(** state.params[name].value *)
Definition param_of (s : state) (k : string) : result obj :=
  match s_params s with
  | Node l => match get k l with
              | Some (Leaf (Some p)) => Ok (OArr (p_value p))
              | Some _ => Err AttributeError
              | None => Err KeyError
              end
  | Leaf _ => Err TypeError
  end.
(** where a class keeps what it needs for prediction *)
Inductive src : Type := Attr (k : string) | ParamValue (k : string).
Definition read (s : state) (r : src) : result obj :=
  match r with Attr k => attr s k | ParamValue k => param_of s k end.

(** ** data *)
(** what is given to fit, fit_derivs and fit_ol *)
Inductive data : Type :=
| Targets (x y : array)
| Derivs (x y jacobian : array)
| Both (x y jacobian y_derivs : array).
Inductive task : Type := TTargets | TDerivs | TBoth.
Definition task_of (d : data) : task :=
  match d with Targets _ _ => TTargets | Derivs _ _ _ => TDerivs | Both _ _ _ _ => TBoth end.
Definition data_fields (d : data) : dict obj :=
  match d with
  | Targets x y => [("x_train", OArr x); ("y_train", OArr y)]
  | Derivs x y j => [("x_train", OArr x); ("y_train", OArr y); ("jacobian_train", OArr j)]
  | Both x y j dy => [("x_train", OArr x); ("y_train", OArr y); ("y_derivs_train", OArr dy); ("jacobian_train", OArr j)]
  end.
Definition data_names (t : task) : list string :=
  match t with
  | TTargets => ["x"; "y"]
  | TDerivs => ["x"; "y"; "jacobian"]
  | TBoth => ["x"; "y"; "y_derivs"; "jacobian"]
  end.
(** options of a fit beyond the data *)
Record options : Type := Options { o_iterative : bool; o_n_pivots : obj }.

(** ** fitting *)
(** the linear algebra behind a fit: from task, parameters, kernel, mean function, the attributes read
    and the data to the computed fields *)
Definition fit_numerics : Type := ptree -> obj -> obj -> list obj -> data -> options -> result (string -> array).
(** gpr.py:397-539, sgpr.py:309-388, sgpr_rpchol.py:312-401: fit, fit_derivs, fit_ol.
    extra: attributes read before; fields: computed fields *)
Definition fit_fun (num : fit_numerics) (extra fields : list string) (d : data) (o : options) (s : state)
    : result state :=
  bind (mapM (attr s) extra) (fun vs =>
  bind (num (s_params s) (s_kernel s) (s_mean s) vs d o) (fun f =>
  let fitted := match d with Derivs _ _ _ => false | _ => true end in
  fst (state_update s (data_fields d ++ map (fun k => (k, OArr (f k))) fields ++
    [("is_fitted", OBool fitted); ("is_fitted_derivs", OBool (negb fitted))])%list))).

(** ** predicting *)
(** points (and their jacobian) at which to predict *)
Record query : Type := Query { q_x : array; q_jacobian : option array; q_full : bool; q_iterative : bool }.
Definition predict_numerics : Type := ptree -> obj -> list obj -> query -> result (list array).
(** gpr.py:542-593, sgpr.py:391-441, sgpr_rpchol.py:404-454 predict *)
Definition predict_fun (num : predict_numerics) (reads : list src) (s : state) (q : query) : result (list array) :=
  bind (attr s "is_fitted") (fun f => bind (truth f) (fun f =>
  if negb f then Err RuntimeError else
  bind (attr s "is_fitted_derivs") (fun d => bind (truth d) (fun d =>
  if d then Err RuntimeError else
  if q_full q && q_iterative q then Err RuntimeError else
  bind (mapM (read s) reads) (fun vs => num (s_params s) (s_kernel s) vs q))))).
(** gpr.py:596-717, sgpr.py:444-561, sgpr_rpchol.py:457-574 predict_derivs, predict_y_derivs; what is read
    depends on the query *)
Definition predict_derivs_fun (num : predict_numerics) (reads : query -> list src) (s : state) (q : query)
    : result (list array) :=
  bind (attr s "is_fitted_derivs") (fun f => bind (truth f) (fun f =>
  if negb f then Err RuntimeError else
  bind (attr s "is_fitted") (fun d => bind (truth d) (fun d =>
  if d then Err RuntimeError else
  if q_full q && q_iterative q then Err RuntimeError else
  bind (mapM (read s) (reads q)) (fun vs => num (s_params s) (s_kernel s) vs q))))).
(** gpr.py:720-757 predict_ol *)
Definition predict_ol_fun (num : predict_numerics) (reads : list src) (s : state) (q : query) : result (list array) :=
  bind (attr s "is_fitted") (fun f => bind (truth f) (fun f =>
  if negb f then Err RuntimeError else
  bind (mapM (read s) reads) (fun vs => num (s_params s) (s_kernel s) vs q))).

(** ** classes *)
(** one of the functions a class may define: its signature, and its body *)
Record gp_class : Type := GPClass {
  k_fit : task -> option (sig * (data -> options -> state -> result state));
  k_predict : option (sig * (state -> query -> result (list array)));
  k_predict_derivs : option (sig * (state -> query -> result (list array)));
  k_predict_y_derivs : option (sig * (state -> query -> result (list array)));
  k_predict_ol : option (sig * (state -> query -> result (list array)));
  k_reset : dict obj }.
(** the numerics used by one class *)
Record numerics : Type := Numerics {
  n_fit : task -> fit_numerics; n_predict : predict_numerics; n_predict_derivs : predict_numerics;
  n_predict_y_derivs : predict_numerics; n_predict_ol : predict_numerics }.
Definition sig_predict : sig := Sig ["state"; "x"] ["full_covariance"; "iterative"].
Definition sig_predict_derivs : sig := Sig ["state"; "x"; "jacobian"] ["full_covariance"; "iterative"].
Definition sig_predict_ol : sig := Sig ["state"; "x"; "jacobian"] ["full_covariance"].
(** jaccoef is read by the dense branch without covariance only *)
Definition jaccoef_reads (q : query) : list src := if q_full q || q_iterative q then [] else [Attr "jaccoef"].
(** gpr.py:925-1009 class GPR *)
Definition GPR (N : numerics) : gp_class :=
  {| k_fit := fun t => Some (match t with
       | TTargets => (Sig ["state"; "x"; "y"] ["iterative"; "n_pivots"; "key_precond"], fit_fun (n_fit N TTargets) [] ["c"; "mu"])
       | TDerivs => (Sig ["state"; "x"; "y"; "jacobian"] ["iterative"; "n_pivots"; "key_precond"],
                     fit_fun (n_fit N TDerivs) [] ["jaccoef"; "c"; "mu"])
       | TBoth => (Sig ["state"; "x"; "y"; "y_derivs"; "jacobian"] [], fit_fun (n_fit N TBoth) [] ["c"; "mu"])
       end);
     k_predict := Some (sig_predict, predict_fun (n_predict N) [Attr "x_train"; Attr "c"; Attr "mu"]);
     k_predict_derivs := Some (sig_predict_derivs, predict_derivs_fun (n_predict_derivs N)
       (fun q => [Attr "x_train"; Attr "jacobian_train"; Attr "c"] ++ jaccoef_reads q)%list);
     k_predict_y_derivs := Some (sig_predict, predict_derivs_fun (n_predict_y_derivs N)
       (fun q => [Attr "x_train"; Attr "jacobian_train"; Attr "c"; Attr "mu"] ++ jaccoef_reads q)%list);
     k_predict_ol := Some (sig_predict_ol, predict_ol_fun (n_predict_ol N) [Attr "x_train"; Attr "c"; Attr "mu"]);
     k_reset := [("is_fitted", OBool false); ("is_fitted_derivs", OBool false); ("c", ONone); ("mu", ONone)] |}.
(** sgpr.py:750-806 class SGPR *)
Definition SGPR (N : numerics) : gp_class :=
  {| k_fit := fun t => match t with
       | TTargets => Some (Sig ["state"; "x"; "y"] ["iterative"], fit_fun (n_fit N TTargets) [] ["c"; "mu"])
       | TDerivs => Some (Sig ["state"; "x"; "y"; "jacobian"] ["iterative"], fit_fun (n_fit N TDerivs) [] ["jaccoef"; "c"; "mu"])
       | TBoth => None
       end;
     k_predict := Some (sig_predict, predict_fun (n_predict N) [ParamValue "x_locs"; Attr "c"; Attr "mu"]);
     k_predict_derivs := Some (sig_predict_derivs, predict_derivs_fun (n_predict_derivs N)
       (fun q => (if q_full q then [] else [Attr "jaccoef"]) ++ [ParamValue "x_locs"; ParamValue "jacobian_locs"; Attr "c"])%list);
     k_predict_y_derivs := Some (sig_predict, predict_derivs_fun (n_predict_y_derivs N)
       (fun q => (if q_full q then [] else [Attr "jaccoef"]) ++ [ParamValue "x_locs"; ParamValue "jacobian_locs"; Attr "c"; Attr "mu"])%list);
     k_predict_ol := None;
     k_reset := [("is_fitted", OBool false); ("is_fitted_derivs", OBool false); ("c", ONone); ("y_mean", ONone)] |}.
(** sgpr_rpchol.py:756-811 class SGPR_RPChol *)
Definition SGPR_RPChol (N : numerics) : gp_class :=
  {| k_fit := fun t => match t with
       | TTargets => Some (Sig ["state"; "x"; "y"] ["iterative"], fit_fun (n_fit N TTargets) ["key"; "n_locs"] ["c"; "mu"; "x_locs"])
       | TDerivs => Some (Sig ["state"; "x"; "y"; "jacobian"] ["iterative"],
                          fit_fun (n_fit N TDerivs) ["key"; "n_locs"] ["jaccoef"; "c"; "mu"; "x_locs"; "jacobian_locs"])
       | TBoth => None
       end;
     k_predict := Some (sig_predict, predict_fun (n_predict N) [Attr "x_locs"; Attr "c"; Attr "mu"]);
     k_predict_derivs := Some (sig_predict_derivs, predict_derivs_fun (n_predict_derivs N)
       (fun q => [Attr "x_locs"; Attr "jacobian_locs"; Attr "c"] ++ jaccoef_reads q)%list);
     k_predict_y_derivs := Some (sig_predict, predict_derivs_fun (n_predict_y_derivs N)
       (fun q => [Attr "x_locs"; Attr "jacobian_locs"; Attr "c"; Attr "mu"] ++ jaccoef_reads q)%list);
     k_predict_ol := None;
     k_reset := [("is_fitted", OBool false); ("is_fitted_derivs", OBool false); ("c", ONone); ("y_mean", ONone)] |}.

(** ** construction *)
(** gpr.py:873-918 init, after the argument checks of models/utils.py:32-52 *)
Definition gpr_init (kernel mean : obj) (kernel_params : ptree) (sigma : param) (loss_fn : obj) : result state :=
  mk_state kernel mean (OParams (Node [("kernel_params", kernel_params); ("sigma", Leaf (Some sigma))]))
    [("x_train", ONone); ("y_train", ONone); ("loss_fn", loss_fn); ("is_fitted", OBool false);
     ("is_fitted_derivs", OBool false); ("c", ONone); ("mu", ONone)].
(** sgpr.py:687-747 init *)
Definition sgpr_init (kernel mean : obj) (x_locs : param) (jacobian_locs : option param) (kernel_params : ptree)
    (sigma : param) (loss_fn : obj) : result state :=
  mk_state kernel mean (OParams (Node ([("kernel_params", kernel_params); ("sigma", Leaf (Some sigma)); ("x_locs", Leaf (Some x_locs))] ++
      match jacobian_locs with Some j => [("jacobian_locs", Leaf (Some j))] | None => [] end)%list))
    [("loss_fn", loss_fn); ("is_fitted", OBool false); ("is_fitted_derivs", OBool false); ("c", ONone); ("mu", ONone)].
(** sgpr_rpchol.py:700-752 init; without a key the code calls PRNGKey(time.time()), a TypeError *)
Definition rpchol_init (kernel mean : obj) (n_locs : obj) (key : option obj) (kernel_params : ptree) (sigma : param)
    (loss_fn : obj) : result state :=
  match key with
  | None => Err TypeError
  | Some k =>
      mk_state kernel mean (OParams (Node [("kernel_params", kernel_params); ("sigma", Leaf (Some sigma))]))
        [("loss_fn", loss_fn); ("is_fitted", OBool false); ("is_fitted_derivs", OBool false); ("c", ONone); ("mu", ONone);
         ("n_locs", n_locs); ("key", k)]
  end.

(** ** BaseGP *)
Section Base.
  (** value and gradient of a loss for given data, keyword arguments and state *)
  Variable lossfn : obj -> option (sig * (data -> dict obj -> state -> result (num * array))).
  (** prior.sample; gpxargs.key_precond *)
  Variable sample : key -> prior_obj -> array.
  Variable key_precond : obj.

  (** loss_kwargs is the dictionary of the caller (None: empty) *)
  Record fit_args : Type := FitArgs {
    a_minimize : option (array -> strategy (num * array) array); (* None: minimize=False *)
    a_restarts : nat; a_key : option key; a_history : bool;
    a_options : options; a_loss_kwargs : dict obj }.
  (** base.py:440-446, 542-547: the dictionary of the caller is written to *)
  Definition fit_loss_kwargs (a : fit_args) : dict obj :=
    set "key_precond" key_precond (set "n_pivots" (o_n_pivots (a_options a))
      (set "iterative" (OBool (o_iterative (a_options a))) (a_loss_kwargs a))).
  Definition nlopt_loss_kwargs (a : fit_args) : dict obj :=
    set "iterative" (OBool (o_iterative (a_options a))) (a_loss_kwargs a).
  (** keyword arguments the loss gets beyond state, x and y *)
  Definition more_names (t : task) : list string :=
    match t with
    | TTargets => [] | TDerivs => ["jacobian"] | TBoth => ["y_derivs"; "y_derivs_2"; "jacobian"; "jacobian_2"]
    end.
  (** partial(loss_fn, more...)(ustate, x, y) in scipy_optimize.py:69-73 *)
  Definition loss_positional (f : sig * (data -> dict obj -> state -> result (num * array))) (d : data) (kw : dict obj)
      (x : array) (s : state) : result (num * array) :=
    call (fst f) 3 (map fst kw ++ more_names (task_of d))%list (snd f d kw s).
  (** loss_fn(state=state, x=x, y=y, ...) in models/utils.py:136, 149 *)
  Definition loss_keywords (f : sig * (data -> dict obj -> state -> result (num * array))) (d : data) (kw : dict obj)
      (s : state) : result num :=
    bind (call (fst f) 0 (["state"; "x"; "y"] ++ map fst kw ++ more_names (task_of d))%list (snd f d kw s))
      (fun v => Ok (fst v)).
  (** the part of fit before _fit_fun: the state found, and whether there is a history *)
  Definition minimisation (a : fit_args) (minimise : (array -> state -> result (num * array)) ->
      (array -> strategy (num * array) array) -> state -> result state * list state)
      (d : data) (kw : dict obj) (s : state) : result (state * bool) :=
    bind (attr s "loss_fn") (fun lf =>
    match lossfn lf with
    | None => Err TypeError
    | Some f =>
        match a_minimize a with
        | None => Ok (s, false)
        | Some strat =>
            bind (randomized_minimization sample
                (fun u => bind (fst (minimise (loss_positional f d kw) strat u)) (fun u' => Ok (u', tt)))
                (loss_keywords f d kw) (a_key a) (a_restarts a) s)
              (fun r => Ok (fst (fst (fst r)), true))
        end
    end).
  (** the end of fit: self.state is set twice, and the history read *)
  Definition finish (a : fit_args) (s : state) (found : result (state * bool)) (fit : state -> result state)
      : result unit * state :=
    match found with
    | Err e => (Err e, s)
    | Ok (s1, hist) =>
        match fit s1 with
        | Err e => (Err e, s1)
        | Ok s2 => (if a_history a && negb hist then Err UnboundLocalError else Ok tt, s2)
        end
    end.
  (** base.py:389-589 fit and fit_derivs; 591-661 fit_ol passes no keyword arguments on and reads the loss
      only when it minimises. The second component is self.state afterwards. *)
  Definition fit_names (t : task) : list string :=
    match t with TBoth => data_names TBoth | t => (data_names t ++ ["iterative"; "n_pivots"; "key_precond"])%list end.
  Definition base_fit (C : gp_class) (d : data) (a : fit_args) (s : state) : result unit * state :=
    let found :=
      match d, a_minimize a with
      | Both _ _ _ _, None => Ok (s, false)
      | Both _ _ _ _, Some _ => minimisation a scipy_minimize d [] s
      | _, _ => minimisation a scipy_minimize d (fit_loss_kwargs a) s
      end in
    finish a s found (fun u => call_attr (k_fit C (task_of d)) 1 (fit_names (task_of d)) (fun b => b d (a_options a) u)).
  (** base.py:663-709 fit_nlopt; w is the state the optimiser was built with *)
  Definition base_fit_nlopt (C : gp_class) (x y : array) (w : state) (a : fit_args) (s : state) : result unit * state :=
    finish a s (minimisation a (nlopt_optimize w) (Targets x y) (nlopt_loss_kwargs a) s)
      (fun u => call_attr (k_fit C TTargets) 1 ["x"; "y"; "iterative"]
                  (fun b => b (Targets x y) (Options (o_iterative (a_options a)) ONone) u)).

  (** base.py:375-387: is_fitted_derivs without parentheses is a bound method, which is true *)
  Definition check_is_fitted (s : state) : result unit :=
    let is_fitted := mem "c" (s_register s) in
    let is_fitted_derivs_method := true in
    if negb is_fitted && negb is_fitted_derivs_method then Err RuntimeError else Ok tt.
  (** base.py:167-264 *)
  Definition base_predict (C : gp_class) (s : state) (q : query) : result (list array) :=
    bind (check_is_fitted s) (fun _ => call_attr (k_predict C) 1 ["x"; "full_covariance"; "iterative"] (fun b => b s q)).
  Definition base_predict_derivs (C : gp_class) (s : state) (q : query) : result (list array) :=
    bind (check_is_fitted s) (fun _ =>
      call_attr (k_predict_derivs C) 1 ["x"; "jacobian"; "full_covariance"; "iterative"] (fun b => b s q)).
  Definition base_predict_y_derivs (C : gp_class) (s : state) (q : query) : result (list array) :=
    bind (check_is_fitted s) (fun _ => call_attr (k_predict_y_derivs C) 1 ["x"; "full_covariance"; "iterative"] (fun b => b s q)).
  Definition base_predict_ol (C : gp_class) (s : state) (q : query) : result (list array) :=
    bind (check_is_fitted s) (fun _ => call_attr (k_predict_ol C) 1 ["x"; "jacobian"; "full_covariance"] (fun b => b s q)).
  (** base.py:91-97 randomize: a new model *)
  Definition base_randomize (C : gp_class) (k : key) (reset : bool) (s : state) : result state :=
    randomize sample s k (if reset then k_reset C else []).
  (** base.py:345-373 mse_loss: self.mse_fun, no class defines it (GPR has _mse_fun) *)
  Definition base_mse_loss (C : gp_class) (s : state) : result num := Err AttributeError.

  (** ** one step of a user: m.fit(...), m = m.randomize(...), m.save(f), m.load(f), m.init(...) *)
  Inductive op : Type :=
  | Fit (d : data) (a : fit_args)
  | FitNlopt (x y : array) (w : state) (a : fit_args)
  | Randomize (k : key) (reset : bool)
  | SaveFile (f : string)
  | LoadFile (f : string)
  | Init (fresh : result state).
  Definition step (interned : string -> bool) (C : gp_class) (o : op) (w : state * files) : result unit * (state * files) :=
    match o with
    | Fit d a => let r := base_fit C d a (fst w) in (fst r, (snd r, snd w))
    | FitNlopt x y wr a => let r := base_fit_nlopt C x y wr a (fst w) in (fst r, (snd r, snd w))
    | Randomize k reset =>
        match base_randomize C k reset (fst w) with Ok s' => (Ok tt, (s', snd w)) | Err e => (Err e, w) end
    | SaveFile f =>
        match save (fst w) f (snd w) with (Ok _, fs) => (Ok tt, (fst w, fs)) | (Err e, fs) => (Err e, (fst w, fs)) end
    | LoadFile f =>
        match load interned (fst w) f (snd w) with Ok s' => (Ok tt, (s', snd w)) | Err e => (Err e, w) end
    | Init fresh => (bind fresh (fun _ => Ok tt), w)   (* base.py:83-85: the new state is returned, not stored *)
    end.
  (** what the user has seen: the calls, whether they raised, and the state after each *)
  Fixpoint run (interned : string -> bool) (C : gp_class) (os : list op) (w : state * files)
      : list (op * result unit * state) * (state * files) :=
    match os with
    | [] => ([], w)
    | o :: r =>
        let q := step interned C o w in
        let t := run interned C r (snd q) in
        ((o, fst q, fst (snd q)) :: fst t, snd t)
    end.
End Base.
Arguments FitArgs _ _ _ _ _ _ : clear implicits.

(** ** rbfnet.py *)
(** models/utils.py:98 randomized_minimization *)
Definition sig_randomized_minimization : sig :=
  Sig ["key"; "state"; "x"; "y"; "loss_fn"] ["minimization_function"; "num_restarts"; "return_history"; "opt_kwargs"].
(** rbfnet.py:331-435 fit, fit_nlopt, fit_optax: none of them passes loss_fn on. rest stands for what
    would follow. *)
Inductive rbf_fit_kind : Type := RScipy | RNlopt | ROptax.
Definition rbf_fit (kind : rbf_fit_kind) (rest : state -> result state) (s : state) : result unit * state :=
  let started := match kind with RNlopt => Ok s | _ => fst (state_update s [("k_mean", ONone)]) end in
  match started with
  | Err e => (Err e, s)
  | Ok s1 =>
      match call sig_randomized_minimization 0
              (["key"; "state"; "x"; "y"; "minimization_function"; "num_restarts"; "return_history"] ++
               match kind with ROptax => ["opt_kwargs"] | _ => [] end)%list (rest s1) with
      | Err e => (Err e, s1)
      | Ok s2 => (Ok tt, s2)
      end
  end.

(** ** signatures of the losses *)
(** gpr.py:251-394, sgpr.py:221-306, sgpr_rpchol.py:224-309. Sparse is for the last two. *)
Inductive family : Type := Dense | Sparse.
Inductive library_loss : Type := NLML | NLMLDerivs | NLP | NLPDerivs | MSE.
Definition loss_sig (fam : family) (l : library_loss) : option sig :=
  let more := match fam with Dense => ["n_pivots"; "key_precond"] | Sparse => [] end in
  let opts := (["iterative"; "num_evals"; "num_lanczos"; "key_lanczos"] ++ more)%list in
  match l, fam with
  | NLML, _ | NLP, _ => Some (Sig ["state"; "x"; "y"] opts)
  | NLMLDerivs, _ | NLPDerivs, _ => Some (Sig ["state"; "x"; "y"; "jacobian"] opts)
  | MSE, Dense => Some (Sig ["state"; "x"; "y"; "jacobian"; "y_derivs"] ["coeff"; "y_derivs_2"; "jacobian_2"])
  | MSE, Sparse => None
  end.
