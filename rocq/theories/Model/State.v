(** Models gpx/parameters/model_state.py. *)
From Coq Require Import List String Bool Arith Reals ZArith Ascii.
From Verif Require Import Model.PyDict Model.Bijectors Model.Params.
Import ListNotations.
Open Scope string_scope.

(** ** attribute values *)
Inductive obj : Type :=
| OArr (a : array)          (* numpy / jax array *)
| OInt (z : Z)              (* Python int *)
| OFloat (x : num)          (* Python float *)
| OBool (b : bool)
| ONone
| OStr (s : string)
| OCall (id : nat)          (* a callable, by identity: kernels, mean functions, losses *)
| OParams (t : ptree)       (* a nested dict of Parameters *)
| OOther (id : nat)         (* any other object that numpy can only box *)
| OBox (o : obj).           (* a 0-d numpy array of dtype object or str *)

(** parameters/utils.py:40-68 _is_numeric: integers and floats, Python or array; bool is not one *)
Definition numeric_dtype (d : dtype) : bool := match d with BoolT => false | _ => true end.
Definition is_numeric (o : obj) : bool :=
  match o with
  | OArr a => numeric_dtype (a_dtype a)
  | OInt _ | OFloat _ => true
  | _ => false
  end.
(** jnp.asarray in 64-bit mode *)
Definition asarray (o : obj) : obj :=
  match o with
  | OInt z => OArr (Arr [] I64 [Some (IZR z)])
  | OFloat x => OArr (Arr [] F64 [x])
  | _ => o
  end.
Definition as_attr (o : obj) : obj := if is_numeric o then asarray o else o.

(** ** ModelState *)
Record state : Type := State {
  s_kernel : obj; s_mean : obj; s_params : ptree; s_register : dict obj }.

(** model_state.py:93-103, the params setter: every Parameter is rebuilt, in the order of the sorted
    names. Anything but a nested dictionary of Parameters (or None) has no .trainable. *)
Definition set_params (o : obj) : result ptree :=
  match o with
  | OParams t => tree_unflatten (tree_def t) (tree_values t)
  | ONone => Ok (Leaf None)
  | _ => Err AttributeError
  end.
(** model_state.py:42-58 __init__; setattr of a name that the class already uses is not modelled *)
Definition mk_state (kernel mean params : obj) (kwargs : dict obj) : result state :=
  bind (set_params params) (fun t =>
  Ok (State kernel mean t (map (fun kv => (fst kv, as_attr (snd kv))) kwargs))).

(** model_state.py:146-167 tree_flatten: the leaves are the parameter values, everything else is static *)
Definition state_flatten (s : state) : list array * (obj * obj * tree (option meta) * dict obj) :=
  (tree_values (s_params s), (s_kernel s, s_mean s, tree_def (s_params s), s_register s)).
(** model_state.py:169-173 tree_unflatten *)
Definition state_unflatten (aux : obj * obj * tree (option meta) * dict obj) (children : list array)
    : result state :=
  match aux with
  | (k, m, d, opt) => bind (tree_unflatten d children) (fun t => mk_state k m (OParams t) opt)
  end.

(** model_state.py:175-190 update: the new state, and what is left of the caller's dictionary *)
Definition pop_or (k : string) (d : dict obj) (dflt : obj) : obj :=
  match get k d with Some v => v | None => dflt end.
Definition state_update (s : state) (d : dict obj) : result state * dict obj :=
  let kernel := pop_or "kernel" d (s_kernel s) in
  let mean := pop_or "mean_function" d (s_mean s) in
  let params := pop_or "params" d (OParams (s_params s)) in
  let d' := del "params" (del "mean_function" (del "kernel" d)) in
  (mk_state kernel mean params (merge (s_register s) d'), d').
(** model_state.py:192-196 copy *)
Definition state_copy (s : state) : result state := fst (state_update s []).

(** ** files *)
(** contents of an .npz archive: arrays, and 0-d arrays boxing an object or a string *)
Inductive fval : Type := FArr (a : array) | FBox (o : obj).
Definition b2num (b : bool) : num := if b then Some 1%R else Some 0%R.
Definition is_callable (o : obj) : bool := match o with OCall _ => true | _ => false end.
(** np.asanyarray *)
Definition dump (o : obj) : fval :=
  match asarray o with
  | OArr a => FArr a
  | OBool b => FArr (Arr [] BoolT [b2num b])
  | OBox o => FBox o
  | o => FBox o
  end.
Fixpoint mem {A : Type} (k : string) (d : dict A) : bool :=
  match d with [] => false | (k', _) :: r => String.eqb k k' || mem k r end.
(** model_state.py:246-295 save: the dictionary handed to np.savez. A None among the parameters has
    no .value; params must contain "kernel_params"; an attribute called "file" clashes with the
    argument of np.savez. *)
Definition param_value (o : option param) : result obj :=
  match o with Some p => Ok (OArr (p_value p)) | None => Err AttributeError end.
Definition as_node {A : Type} (t : tree A) : result (list (string * tree A)) :=
  match t with Node l => Ok l | Leaf _ => Err AttributeError end.
Definition save_dict (s : state) : result (dict obj) :=
  bind (as_node (s_params s)) (fun params =>
  match get "kernel_params" params with
  | None => Err KeyError
  | Some kp =>
      bind (flatten_dict ONone param_value kp [] "params:kernel_params") (fun kernel_params =>
      bind (flatten_dict ONone param_value (Node (del "kernel_params" params)) [] "params") (fun others =>
      let out := merge (merge others kernel_params)
                   (filter (fun kv => negb (is_callable (snd kv))) (s_register s)) in
      if mem "file" out then Err TypeError else Ok out))
  end).
(** a directory: file name to archive *)
Definition files : Type := string -> option (dict fval).
Fixpoint ends_with (suffix s : string) : bool :=
  String.eqb s suffix || match s with EmptyString => false | String _ r => ends_with suffix r end.
(** np.savez adds the extension when it is missing, np.load does not *)
Definition npz_name (f : string) : string := if ends_with ".npz" f then f else f ++ ".npz".
Definition save (s : state) (f : string) (fs : files) : result (dict obj) * files :=
  match save_dict s with
  | Ok d => (Ok d, fun g => if String.eqb g (npz_name f) then Some (map (fun kv => (fst kv, dump (snd kv))) d) else fs g)
  | Err e => (Err e, fs)
  end.

(** model_state.py:327-343, one auxiliary entry of the file *)
Definition undump (v : fval) : obj :=
  match v with
  | FArr (Arr [] BoolT [b]) => OBool (match b with Some x => if Req_EM_T x 0 then false else true | None => true end)
  | FArr a => OArr a
  | FBox ONone => ONone
  | FBox o => OBox o
  end.
Definition undump_tree (kv : string * tree fval) : result (string * obj) :=
  match snd kv with
  | Leaf v => Ok (fst kv, undump v)
  | Node _ => Err AttributeError
  end.
Definition update_value (p : param) (v : fval) : result param :=
  match v with
  | FArr a => fst (param_update p [("value", PArr a)])
  | FBox _ => Err TypeError
  end.
Fixpoint zip {A B : Type} (a : list A) (b : list B) : list (A * B) :=
  match a, b with x :: a, y :: b => (x, y) :: zip a b | _, _ => [] end.
(** model_state.py:297-347 load, from the contents of the file *)
Definition load_dict (interned : string -> bool) (s : state) (dumped : dict fval) : result state :=
  bind (unflatten_dict interned dumped) (fun dd =>
  match get "params" dd with
  | None => Err KeyError
  | Some dp =>
      let new_values := tleaves (canon dp) in
      let ps := params_of (s_params s) in
      if Nat.eqb (List.length new_values) (List.length ps) then
        bind (mapM (fun pv => update_value (fst pv) (snd pv)) (zip ps new_values)) (fun ps' =>
        bind (fill (fun _ p => Ok p) (tree_def (s_params s)) ps') (fun q =>
        bind (mapM undump_tree (del "params" dd)) (fun aux =>
        fst (state_update s (merge [("params", OParams (fst q))] aux)))))
      else Err ValueError
  end).
Definition load (interned : string -> bool) (s : state) (f : string) (fs : files) : result state :=
  match fs f with
  | None => Err FileNotFoundError
  | Some d => load_dict interned s d
  end.

(** ** random keys *)
(** jax.random.split(key) returns two keys: the free algebra over an initial key *)
Inductive key : Type := Key (seed : nat) | SplitL (k : key) | SplitR (k : key).
(** model_state.py:349-389 randomize, the loop over the parameters: `subkey, key = split(key)`, the
    second half is both used for sampling and carried on *)
Fixpoint randomize_values (sample : key -> prior_obj -> array) (k : key) (ps : list param)
    : list array * list key :=
  match ps with
  | [] => ([], [])
  | p :: r =>
      let m := p_meta p in
      if m_trainable m then
        let k' := SplitR k in
        let q := randomize_values sample k' r in
        (forward_arr (m_bijector m) (sample k' (m_prior m)) :: fst q, k' :: snd q)
      else
        let q := randomize_values sample k r in (p_value p :: fst q, snd q)
  end.
Definition randomize (sample : key -> prior_obj -> array) (s : state) (k : key) (opt : dict obj) : result state :=
  bind (state_copy s) (fun st =>
  let vs := fst (randomize_values sample k (params_of (s_params st))) in
  bind (tree_unflatten (tree_def (s_params st)) vs) (fun t =>
  fst (state_update st (merge [("params", OParams t)] opt)))).
(** the keys that randomize samples with, in the order of the parameters *)
Definition randomize_keys (s : state) (k : key) : list key :=
  snd (randomize_values (fun _ _ => Arr [] F64 []) k (params_of (s_params s))).

(** model_state.py:391-404 transform: every leaf, trainable or not *)
Definition transform (mode : string) (s : state) : result state :=
  bind (if String.eqb mode "forward" then Ok forward_arr
        else if String.eqb mode "backward" then Ok backward_arr else Err ValueError) (fun f =>
  let ps := params_of (s_params s) in
  let vs := map (fun p => f (m_bijector (p_meta p)) (p_value p)) ps in
  bind (tree_unflatten (tree_def (s_params s)) vs) (fun t =>
  fst (state_update s [("params", OParams t)]))).
