(** What a user knows about a model after a history of calls. *)
From Coq Require Import List String Bool ZArith Reals.
From Verif Require Import Model.PyDict Model.Params Model.State Model.Lifecycle Spec.StateSpec.
Import ListNotations.
Open Scope string_scope.

(** what a fit was made from *)
Record trained : Type := Trained { t_params : ptree; t_data : data; t_options : options }.
Inductive mode : Type := Unfitted | Fitted (t : trained).
(** the model, whether its parameters are still those of the fit, and both for each saved file *)
Record view : Type := View { v_mode : mode; v_fresh : bool; v_files : string -> option (mode * bool) }.
Definition nothing : view := View Unfitted true (fun _ => None).
(** a call, its outcome and the state of the model after it. The mode is changed by calls that return
    only; the parameters move on when the model is randomised without a reset, and when a fit
    with minimisation fails *)
Definition observe1 (v : view) (e : op * result unit * state) : view :=
  match e with
  | (Fit d a, Ok _, s) => View (Fitted (Trained (s_params s) d (a_options a))) true (v_files v)
  | (FitNlopt x y _ a, Ok _, s) =>
      View (Fitted (Trained (s_params s) (Targets x y) (Options (o_iterative (a_options a)) ONone))) true (v_files v)
  | (Fit _ a, Err _, _) | (FitNlopt _ _ _ a, Err _, _) =>
      match a_minimize a with Some _ => View (v_mode v) false (v_files v) | None => v end
  | (Randomize _ true, Ok _, _) => View Unfitted true (v_files v)
  | (Randomize _ false, Ok _, _) => View (v_mode v) false (v_files v)
  | (SaveFile f, Ok _, _) => View (v_mode v) (v_fresh v)
      (fun g => if String.eqb g (npz_name f) then Some (v_mode v, v_fresh v) else v_files v g)
  | (LoadFile f, Ok _, _) => match v_files v f with Some m => View (fst m) (snd m) (v_files v) | None => v end
  | _ => v
  end.
Definition observe (es : list (op * result unit * state)) : view := fold_left observe1 es nothing.

(** arrays that an .npz file gives back as they were *)
Definition plain (a : array) : Prop := storable (OArr a).
Definition plain_data (d : data) : Prop :=
  match d with
  | Targets x y => plain x /\ plain y
  | Derivs x y j => plain x /\ plain y /\ plain j
  | Both x y j dy => plain x /\ plain y /\ plain j /\ plain dy
  end.
Definition plain_numerics (N : numerics) : Prop :=
  forall t p k m vs d o f name, n_fit N t p k m vs d o = Ok f -> plain (f name).
(** calls with arrays as data; a history is asked for only when there is a minimisation; an NLopt
    optimiser was built for parameters of the same structure as t0 *)
Definition call_ok (t0 : ptree) (o : op) : Prop :=
  match o with
  | Fit d a => (a_history a = true -> a_minimize a <> None) /\ plain_data d
  | FitNlopt x y w a => (a_history a = true -> a_minimize a <> None) /\ plain x /\ plain y /\
      state_ok w /\ tree_def (s_params w) = tree_def t0
  | _ => True
  end.
(** training inputs *)
Definition data_x (d : data) : array := match d with Targets x _ | Derivs x _ _ | Both x _ _ _ => x end.

(** ** what each class answers in each mode: an exception, or the numerics applied to the current
    parameters and to what the fit left behind *)
Definition answer (q : query) (r : result (list array)) : result (list array) :=
  if q_full q && q_iterative q then Err RuntimeError else r.
Definition dense_mean (q : query) : bool := negb (q_full q) && negb (q_iterative q).
Definition gpr_serves (N : numerics) (kernel mean : obj) (s : state) (m : mode) : Prop :=
  match m with
  | Unfitted => forall q, base_predict (GPR N) s q = Err RuntimeError /\ base_predict_ol (GPR N) s q = Err RuntimeError /\
      base_predict_derivs (GPR N) s q = Err RuntimeError /\ base_predict_y_derivs (GPR N) s q = Err RuntimeError
  | Fitted (Trained p d o) => exists f, n_fit N (task_of d) p kernel mean [] d o = Ok f /\ forall q,
      let x := OArr (data_x d) in let c := OArr (f "c") in let mu := OArr (f "mu") in
      match d with
      | Derivs _ _ j =>
          let jc := if dense_mean q then [OArr (f "jaccoef")] else [] in
          base_predict (GPR N) s q = Err RuntimeError /\ base_predict_ol (GPR N) s q = Err RuntimeError /\
          base_predict_derivs (GPR N) s q = answer q (n_predict_derivs N (s_params s) kernel ([x; OArr j; c] ++ jc)%list q) /\
          base_predict_y_derivs (GPR N) s q = answer q (n_predict_y_derivs N (s_params s) kernel ([x; OArr j; c; mu] ++ jc)%list q)
      | _ =>
          base_predict (GPR N) s q = answer q (n_predict N (s_params s) kernel [x; c; mu] q) /\
          base_predict_ol (GPR N) s q = n_predict_ol N (s_params s) kernel [x; c; mu] q /\
          base_predict_derivs (GPR N) s q = Err RuntimeError /\ base_predict_y_derivs (GPR N) s q = Err RuntimeError
      end
  end.
(** the inducing points are current parameters *)
Definition sgpr_serves (N : numerics) (kernel mean : obj) (s : state) (m : mode) : Prop :=
  match m with
  | Unfitted => forall q, base_predict (SGPR N) s q = Err RuntimeError /\
      base_predict_derivs (SGPR N) s q = Err RuntimeError /\ base_predict_y_derivs (SGPR N) s q = Err RuntimeError
  | Fitted (Trained p d o) => exists f, n_fit N (task_of d) p kernel mean [] d o = Ok f /\
      forall q xl, lookup ["x_locs"] (s_params s) = Some (Some xl) ->
      let c := OArr (f "c") in let mu := OArr (f "mu") in
      match d with
      | Derivs _ _ _ =>
          base_predict (SGPR N) s q = Err RuntimeError /\
          forall jl, lookup ["jacobian_locs"] (s_params s) = Some (Some jl) ->
          let jc := if q_full q then [] else [OArr (f "jaccoef")] in
          base_predict_derivs (SGPR N) s q = answer q (n_predict_derivs N (s_params s) kernel (jc ++ [OArr (p_value xl); OArr (p_value jl); c])%list q) /\
          base_predict_y_derivs (SGPR N) s q = answer q (n_predict_y_derivs N (s_params s) kernel (jc ++ [OArr (p_value xl); OArr (p_value jl); c; mu])%list q)
      | Targets _ _ =>
          base_predict (SGPR N) s q = answer q (n_predict N (s_params s) kernel [OArr (p_value xl); c; mu] q) /\
          base_predict_derivs (SGPR N) s q = Err RuntimeError /\ base_predict_y_derivs (SGPR N) s q = Err RuntimeError
      | Both _ _ _ _ => False
      end
  end.
(** the inducing points are chosen by the fit, from the stored number and key *)
Definition rpchol_serves (N : numerics) (kernel mean : obj) (n_locs key : array) (s : state) (m : mode) : Prop :=
  match m with
  | Unfitted => forall q, base_predict (SGPR_RPChol N) s q = Err RuntimeError /\
      base_predict_derivs (SGPR_RPChol N) s q = Err RuntimeError /\ base_predict_y_derivs (SGPR_RPChol N) s q = Err RuntimeError
  | Fitted (Trained p d o) =>
      match d with
      | Both _ _ _ _ => False
      | _ => exists f, n_fit N (task_of d) p kernel mean [OArr key; OArr n_locs] d o = Ok f /\ forall q,
        let xl := OArr (f "x_locs") in let jl := OArr (f "jacobian_locs") in let c := OArr (f "c") in let mu := OArr (f "mu") in
        match d with
        | Derivs _ _ _ =>
            let jc := if dense_mean q then [OArr (f "jaccoef")] else [] in
            base_predict (SGPR_RPChol N) s q = Err RuntimeError /\
            base_predict_derivs (SGPR_RPChol N) s q = answer q (n_predict_derivs N (s_params s) kernel ([xl; jl; c] ++ jc)%list q) /\
            base_predict_y_derivs (SGPR_RPChol N) s q = answer q (n_predict_y_derivs N (s_params s) kernel ([xl; jl; c; mu] ++ jc)%list q)
        | _ =>
            base_predict (SGPR_RPChol N) s q = answer q (n_predict N (s_params s) kernel [xl; c; mu] q) /\
            base_predict_derivs (SGPR_RPChol N) s q = Err RuntimeError /\ base_predict_y_derivs (SGPR_RPChol N) s q = Err RuntimeError
        end
      end
  end.

(** a Python integer as a 0-d array *)
Definition int0 (z : Z) : array := Arr [] I64 [Some (IZR z)].
(** two models that cannot be told apart by their predictions *)
Definition same_predictions (C : gp_class) (s t : state) : Prop :=
  forall q, base_predict C s q = base_predict C t q /\ base_predict_derivs C s q = base_predict_derivs C t q /\
    base_predict_y_derivs C s q = base_predict_y_derivs C t q /\ base_predict_ol C s q = base_predict_ol C t q.

(** which of the library's losses a minimising fit can use *)
Definition usable (fam : family) (t : task) (l : library_loss) : bool :=
  match fam, t, l with
  | Dense, TTargets, (NLML | NLP) => true
  | Dense, TDerivs, (NLMLDerivs | NLPDerivs) => true
  | Dense, TBoth, MSE => true
  | _, _, _ => false
  end.
(** options of the losses *)
Definition loss_options : list string := ["num_evals"; "num_lanczos"; "key_lanczos"; "iterative"; "n_pivots"; "key_precond"].
