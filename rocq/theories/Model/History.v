(** A model object with the attributes that fits set on it beside its state: optimize_results_, states_history_ and
    losses_history_ (models/base.py:389-709). Losses, minimisers and fits are those of Model/Optim.v and Model/Lifecycle.v.
    Of the result of scipy only the point is kept; nlopt's is a code. Not modelled: warnings, and opt_kwargs. *)
From Coq Require Import List String Bool Arith.
From Verif Require Import Model.PyDict Model.Params Model.State Model.Optim Model.Calls Model.Lifecycle.
Import ListNotations.
Open Scope string_scope.
Open Scope nat_scope.

(** optres: optres.x of scipy, or the code of nlopt *)
Inductive opt_results : Type := ScipyResult (x : array) | NloptResult.
(** None: the attribute is not set *)
Record gp_object : Type := GPObject {
  g_state : state; g_results : option opt_results; g_states : option (list state); g_losses : option (list num) }.
(** base.py:64-69 from_state: only the state *)
Definition from_state (s : state) : gp_object := GPObject s None None None.
(** scipy_optimize.py:36-104 scipy_minimize with its result *)
Definition scipy_with_result {A : Type} (loss : array -> state -> result A) (minimize : array -> strategy A array)
    (s : state) : result (state * opt_results) :=
  bind (fst (play (objective (s_params s) s loss) (minimize (ravel_backward (s_params s))))) (fun x =>
  bind (unravel_forward (s_params s) x) (fun p => bind (with_params s p) (fun u => Ok (u, ScipyResult x)))).
(** nlopt_optimize.py:85-153 NLoptWrapper.optimize; w is the state of the constructor *)
Definition nlopt_with_result {A : Type} (w : state) (loss : array -> state -> result A) (minimize : array -> strategy A array)
    (s : state) : result (state * opt_results) :=
  bind (fst (nlopt_optimize w loss minimize s)) (fun u => Ok (u, NloptResult)).

Section Object.
  Variable lossfn : obj -> option (sig * (data -> dict obj -> state -> result (num * array))).
  Variable sample : key -> prior_obj -> array.
  Variable key_precond : obj.

  (** the part of a fit before _fit_fun: None when it does not minimise *)
  Definition object_minimisation (a : fit_args) (minimise : (array -> state -> result (num * array)) ->
      (array -> strategy (num * array) array) -> state -> result (state * opt_results))
      (d : data) (kw : dict obj) (s : state) : result (option (state * opt_results * list state * list num)) :=
    bind (attr s "loss_fn") (fun lf =>
    match lossfn lf with
    | None => Err TypeError
    | Some f =>
        match a_minimize a with
        | None => Ok None
        | Some strat =>
            bind (randomized_minimization sample (minimise (loss_positional f d kw) strat) (loss_keywords f d kw) (a_key a) (a_restarts a) s)
              (fun r => Ok (Some r))
        end
    end).
  (** self.state, optres, *history = ...; self.optimize_results_ = optres; self.state = self._fit_fun(...);
      if return_history: ... (base.py:448-484, 550-589, 629-661, 682-709) *)
  Definition object_finish (a : fit_args) (o : gp_object) (found : result (option (state * opt_results * list state * list num)))
      (fit : state -> result state) : result unit * gp_object :=
    match found with
    | Err e => (Err e, o)
    | Ok m =>
        let o1 := match m with Some (s1, r, _, _) => GPObject s1 (Some r) (g_states o) (g_losses o) | None => o end in
        match fit (g_state o1) with
        | Err e => (Err e, o1)
        | Ok s2 =>
            let o2 := GPObject s2 (g_results o1) (g_states o1) (g_losses o1) in
            if a_history a then
              match m with
              | Some (_, _, sts, ls) => (Ok tt, GPObject s2 (g_results o1) (Some sts) (Some ls))
              | None => (Err UnboundLocalError, o2)
              end
            else (Ok tt, o2)
        end
    end.
  (** fit, fit_derivs, fit_ol *)
  Definition object_fit (C : gp_class) (d : data) (a : fit_args) (o : gp_object) : result unit * gp_object :=
    object_finish a o
      (match d, a_minimize a with
       | Both _ _ _ _, None => Ok None
       | Both _ _ _ _, Some _ => object_minimisation a scipy_with_result d [] (g_state o)
       | _, _ => object_minimisation a scipy_with_result d (fit_loss_kwargs key_precond a) (g_state o)
       end)
      (fun u => call_attr (k_fit C (task_of d)) 1 (fit_names (task_of d)) (fun b => b d (a_options a) u)).
  (** fit_nlopt *)
  Definition object_fit_nlopt (C : gp_class) (x y : array) (w : state) (a : fit_args) (o : gp_object) : result unit * gp_object :=
    object_finish a o (object_minimisation a (nlopt_with_result w) (Targets x y) (nlopt_loss_kwargs a) (g_state o))
      (fun u => call_attr (k_fit C TTargets) 1 ["x"; "y"; "iterative"]
                  (fun b => b (Targets x y) (Options (o_iterative (a_options a)) ONone) u)).

  (** one step of a user: m.fit(...), m.fit_nlopt(...), m = m.randomize(...), m.load(f) with what the file gives *)
  Inductive object_op : Type :=
  | OFit (d : data) (a : fit_args)
  | OFitNlopt (x y : array) (w : state) (a : fit_args)
  | ORandomize (k : key) (reset : bool)
  | OLoad (loaded : result state).
  Definition object_step (C : gp_class) (o : gp_object) (p : object_op) : result unit * gp_object :=
    match p with
    | OFit d a => object_fit C d a o
    | OFitNlopt x y w a => object_fit_nlopt C x y w a o
    | ORandomize k reset =>
        match base_randomize sample C k reset (g_state o) with Ok s => (Ok tt, from_state s) | Err e => (Err e, o) end
    | OLoad l => match l with Ok s => (Ok tt, GPObject s (g_results o) (g_states o) (g_losses o)) | Err e => (Err e, o) end
    end.
  Definition object_run (C : gp_class) (ps : list object_op) (o : gp_object) : gp_object :=
    fold_left (fun o p => snd (object_step C o p)) ps o.
End Object.
