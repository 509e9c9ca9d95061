(** What a user of GPR_TD knows after a history of calls. *)
From Coq Require Import List String Bool.
From Verif Require Import Model.PyDict Model.Params Model.State Model.Lifecycle Model.TDClass Spec.DictSpec Spec.StateSpec Spec.LifecycleSpec.
Import ListNotations.
Open Scope string_scope.

(** the parameters, data and options of the fit that returned last *)
Definition td_trained : Type := (ptree * td_data * td_args)%type.
Record td_view : Type := TDView {
  tv_fit : option td_trained;                                  (* None: not fitted *)
  tv_fresh : bool;                                             (* the parameters are still those of that fit *)
  tv_files : string -> option (option td_trained * bool) }.    (* the same for each saved file *)
Definition td_nothing : td_view := TDView None true (fun _ => None).
Definition td_observe1 (v : td_view) (e : td_op * result unit * state) : td_view :=
  match e with
  | (TDFit d a, Ok _, s) => TDView (Some (s_params s, d, a)) true (tv_files v)
  | (TDFit _ a, Err _, _) => match ta_minimize a with Some _ => TDView (tv_fit v) false (tv_files v) | None => v end
  | (TDSave f, Ok _, _) => TDView (tv_fit v) (tv_fresh v)
      (fun g => if String.eqb g (npz_name f) then Some (tv_fit v, tv_fresh v) else tv_files v g)
  | (TDLoad f, Ok _, _) => match tv_files v f with Some m => TDView (fst m) (snd m) (tv_files v) | None => v end
  | (_, Err _, _) => v
  end.
Definition td_observe (es : list (td_op * result unit * state)) : td_view := fold_left td_observe1 es td_nothing.

(** arrays that an .npz file gives back as they were *)
Definition plain_opt (o : option array) : Prop := match o with Some a => plain a | None => True end.
Definition td_plain (d : td_data) : Prop :=
  plain (td_x d) /\ plain (td_y d) /\ plain (td_jacobian d) /\ plain (td_y_derivs d) /\
  plain_opt (td_jacobian_2 d) /\ plain_opt (td_y_derivs_2 d).
Definition td_plain_numerics (num : td_numerics) : Prop := forall p k m d o f name, num p k m d o = Ok f -> plain (f name).
(** a history is asked for only together with a minimisation *)
Definition td_call_ok (o : td_op) : Prop :=
  match o with TDFit d a => (ta_history a = true -> ta_minimize a <> None) /\ td_plain d | _ => True end.

(** what predict answers *)
Definition td_serves (key_precond : obj) (num_fit : td_numerics) (num_predict : ptree -> obj -> list obj -> td_query -> result (list array))
    (kernel mean : obj) (s : state) (m : option td_trained) : Prop :=
  match m with
  | None => forall q, td_predict num_predict s q = Err RuntimeError
  | Some (p, d, a) => exists f,
      num_fit p kernel mean d (if ta_iterative a then TDOptions true (ta_n_pivots a) key_precond (ta_c_guess a)
                               else TDOptions false ONone ONone ONone) = Ok f /\
      forall q, td_predict num_predict s q =
        num_predict (s_params s) kernel
          [OArr (td_x d); OArr (td_jacobian d); or_none (td_jacobian_2 d); OArr (f "c"); OArr (f "mu")] q
  end.
(** the parameters given to the constructor *)
Definition td_params (kernel_params : option ptree) (sigma_targets sigma_derivs sigma_derivs2 : option param) : ptree :=
  Node [("kernel_params", match kernel_params with Some t => t | None => Leaf None end);
        ("sigma_targets", Leaf sigma_targets); ("sigma_derivs", Leaf sigma_derivs); ("sigma_derivs2", Leaf sigma_derivs2)].
(** one of them was left out *)
Definition td_left_out (kernel_params : option ptree) (sigma_targets sigma_derivs sigma_derivs2 : option param) : Prop :=
  kernel_params = None \/ sigma_targets = None \/ sigma_derivs = None \/ sigma_derivs2 = None.
