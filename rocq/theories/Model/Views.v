(** Models the views of gpx/parameters/model_state.py:63-143, its table of parameters (198-243) and the
    accessors of gpx/models/base.py:43-76. *)
From Coq Require Import List String Bool.
From Verif Require Import Model.PyDict Model.Bijectors Model.Params Model.State Model.Lifecycle.
Import ListNotations.
Open Scope string_scope.

(** ** the lists a state gives *)
(** model_state.py:124-129 params_value *)
Definition params_value (s : state) : list array := map p_value (params_of (s_params s)).
(** model_state.py:131-136 params_trainable *)
Definition params_trainable (s : state) : list bool := map (fun p => m_trainable (p_meta p)) (params_of (s_params s)).
(** model_state.py:93-102 params_priors *)
Definition params_priors (s : state) : list prior_obj := map (fun p => m_prior (p_meta p)) (params_of (s_params s)).
(** model_state.py:104-112 params_forward_transforms *)
Definition params_forward_transforms (s : state) : list (array -> array) :=
  map (fun p => forward_arr (m_bijector (p_meta p))) (params_of (s_params s)).
(** model_state.py:114-122 params_backward_transforms *)
Definition params_backward_transforms (s : state) : list (array -> array) :=
  map (fun p => backward_arr (m_bijector (p_meta p))) (params_of (s_params s)).

(** ** the table *)
(** jax.tree_util.tree_leaves_with_path(params, is_leaf=is_parameter): the names above every Parameter, in
    the order of the sorted names; None has no leaves *)
Fixpoint tree_paths {A : Type} (t : tree A) : list (list string * A) :=
  match t with
  | Leaf a => [([], a)]
  | Node l => flat_map (fun kv => match kv with (k, s) => map (fun q => (k :: fst q, snd q)) (tree_paths s) end) l
  end.
Definition leaves_with_path (t : ptree) : list (list string * param) :=
  flat_map (fun q => match snd q with Some p => [(fst q, p)] | None => [] end) (tree_paths (canon t)).
(** ":".join *)
Definition join (ks : list string) : string := String.concat ":" ks.
(** one line: str(bijector), str(prior) and the abbreviated value are determined by the objects kept here *)
Record row : Type := Row {
  r_name : string; r_trainable : bool; r_bijector : bijector; r_prior : prior_obj;
  r_dtype : dtype; r_shape : list nat; r_value : array }.
(** model_state.py:217-229 get_info *)
Definition get_info (name : string) (p : param) : row :=
  Row name (m_trainable (p_meta p)) (m_bijector (p_meta p)) (m_prior (p_meta p))
    (a_dtype (p_value p)) (a_shape (p_value p)) (p_value p).
(** model_state.py:236-240, the parameters that are not in kernel_params: a dictionary has no .value *)
Fixpoint other_rows (l : list (string * ptree)) : result (list row) :=
  match l with
  | [] => Ok []
  | (k, Leaf None) :: r => other_rows r
  | (k, Leaf (Some p)) :: r => bind (other_rows r) (fun rs => Ok (get_info k p :: rs))
  | (k, Node _) :: r => Err AttributeError
  end.
(** model_state.py:198-243 print_params: the rows handed to tabulate. params.copy() is shallow and
    params.pop acts on the copy. *)
Definition print_params (s : state) : result (list row) :=
  bind (as_node (s_params s)) (fun params =>
  match get "kernel_params" params with
  | None => Err KeyError
  | Some kernel_params =>
      let fields := map (fun q => get_info ("kernel " ++ join (fst q)) (snd q)) (leaves_with_path kernel_params) in
      bind (other_rows (del "kernel_params" params)) (fun rs => Ok (fields ++ rs)%list)
  end).
(** base.py:163-165 print; 44-45 __repr__ is repr(self.print()), and print returns None *)
Definition gp_repr (s : state) : result string := bind (print_params s) (fun _ => Ok "None").

(** ** accessors of a model: base.py:47-65 c_, mu_, x_train, y_train, jacobian_train *)
Definition gp_c (s : state) : result obj := attr s "c".
Definition gp_mu (s : state) : result obj := attr s "mu".
Definition gp_x_train (s : state) : result obj := attr s "x_train".
Definition gp_y_train (s : state) : result obj := attr s "y_train".
Definition gp_jacobian_train (s : state) : result obj := attr s "jacobian_train".
