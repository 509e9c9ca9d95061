(** The dictionary passed as loss_kwargs when the caller keeps it and passes it to several fits: base.py:441-446 (fit),
    543-548 (fit_derivs) and 677-680 (fit_nlopt), gpr_td.py:1017-1022 (fit). The methods write into it before anything
    else, whether or not they minimise, and utils.py:77-82 copies its entries into the loss with partial.
    The fits themselves are those of Model/Lifecycle.v and Model/TDClass.v. *)
From Coq Require Import List String Bool Arith.
From Verif Require Import Model.PyDict Model.Params Model.State Model.Optim Model.Calls Model.Lifecycle Model.TDClass.
Import ListNotations.
Open Scope string_scope.
Open Scope nat_scope.

(** one call on the model number [i] with loss_kwargs=d for the one dictionary d. fit_ol (base.py:591-601) has no such
    argument: SFit with targets and derivatives leaves d alone. The dictionary inside [a] is not used. *)
Inductive shared_call : Type :=
| SFit (i : nat) (C : gp_class) (d : data) (a : fit_args)
| SNlopt (i : nat) (C : gp_class) (x y : array) (w : state) (a : fit_args)
| STd (i : nat) (num_fit : td_numerics) (d : td_data) (a : td_args).
(** the arguments with loss_kwargs=d *)
Definition given (a : fit_args) (d : dict obj) : fit_args :=
  FitArgs (a_minimize a) (a_restarts a) (a_key a) (a_history a) (a_options a) d.
Definition td_given (a : td_args) (d : dict obj) : td_args :=
  TDArgs (ta_iterative a) (ta_n_pivots a) (ta_key_precond a) (ta_c_guess a) (ta_minimize a) (ta_restarts a) (ta_key a) (ta_history a) d.
(** the dictionary, and the states of the models *)
Record world : Type := World { w_dict : dict obj; w_models : nat -> state }.
Definition put (i : nat) (s : state) (ms : nat -> state) : nat -> state := fun j => if Nat.eqb j i then s else ms j.

Section Shared.
  Variable lossfn : obj -> option (sig * (data -> dict obj -> state -> result (num * array))).
  Variable td_lossfn : obj -> option (sig * (td_data -> dict obj -> state -> result (num * array))).
  Variable sample : key -> prior_obj -> array.
  (** gpxargs.key_precond *)
  Variable key_precond : obj.

  (** one call: whether it raised, and the world afterwards *)
  Definition shared_step (w : world) (c : shared_call) : result unit * world :=
    match c with
    | SFit i C d a =>
        let a := given a (w_dict w) in
        let r := base_fit lossfn sample key_precond C d a (w_models w i) in
        (fst r, World (match d with Both _ _ _ _ => w_dict w | _ => fit_loss_kwargs key_precond a end) (put i (snd r) (w_models w)))
    | SNlopt i C x y wr a =>
        let a := given a (w_dict w) in
        let r := base_fit_nlopt lossfn sample C x y wr a (w_models w i) in
        (fst r, World (nlopt_loss_kwargs a) (put i (snd r) (w_models w)))
    | STd i num_fit d a =>
        let a := td_given a (w_dict w) in
        let r := td_fit td_lossfn sample key_precond num_fit d a (w_models w i) in
        (fst r, World (td_loss_kwargs key_precond a) (put i (snd r) (w_models w)))
    end.
  (** several calls, also after one that raised *)
  Definition shared_run (cs : list shared_call) (w : world) : world := fold_left (fun w c => snd (shared_step w c)) cs w.
End Shared.
