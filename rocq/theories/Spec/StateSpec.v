(** Well-formed parameters and states: what every Python object of these classes satisfies. *)
From Coq Require Import List String.
From Coq Require Sorted.
From Verif Require Import Model.PyDict Model.Params Model.State.
From Verif Require Spec.DictSpec.
Import ListNotations.
Open Scope string_scope.

(** the value has the shape and the dtype of the prior *)
Definition param_ok (p : param) : Prop :=
  a_shape (p_value p) = pr_shape (m_prior (p_meta p)) /\ a_dtype (p_value p) = pr_dtype (m_prior (p_meta p)).
(** a Python dict has distinct keys, at every level *)
Fixpoint keys_distinct {A : Type} (t : tree A) : Prop :=
  match t with
  | Leaf _ => True
  | Node l => NoDup (map fst l) /\
      (fix all (l : list (string * tree A)) : Prop :=
         match l with [] => True | (k, s) :: r => keys_distinct s /\ all r end) l
  end.
(** P holds at every leaf *)
Fixpoint every {A : Type} (P : A -> Prop) (t : tree A) : Prop :=
  match t with
  | Leaf a => P a
  | Node l => (fix all (l : list (string * tree A)) : Prop :=
         match l with [] => True | (k, s) :: r => every P s /\ all r end) l
  end.
Definition opt_ok (o : option param) : Prop := match o with Some p => param_ok p | None => True end.
Definition ptree_ok (t : ptree) : Prop := keys_distinct t /\ every opt_ok t.
Definition obj_ok (o : obj) : Prop := match o with OParams t => ptree_ok t | _ => True end.
Definition dict_ok (d : dict obj) : Prop := NoDup (map fst d) /\ Forall (fun kv => obj_ok (snd kv)) d.

(** the same names in increasing order at every level *)
Definition slt (a b : string) : Prop := String.compare a b = Lt.
Fixpoint sorted {A : Type} (t : tree A) : Prop :=
  match t with
  | Leaf _ => True
  | Node l => Sorted.StronglySorted slt (map fst l) /\
      (fix all (l : list (string * tree A)) : Prop :=
         match l with [] => True | (k, s) :: r => sorted s /\ all r end) l
  end.
(** a state object: parameters valid and stored in sorted order, attributes distinct and no raw number *)
Definition is_raw (o : obj) : Prop := match o with OInt _ | OFloat _ => True | _ => False end.
Definition state_ok (s : state) : Prop :=
  ptree_ok (s_params s) /\ sorted (s_params s) /\
  NoDup (map fst (s_register s)) /\ Forall (fun kv => obj_ok (snd kv) /\ ~ is_raw (snd kv)) (s_register s) /\
  obj_ok (s_kernel s) /\ obj_ok (s_mean s).
(** value v may be stored under the static data m *)
Definition fits (m : meta) (v : array) : Prop :=
  a_shape v = pr_shape (m_prior m) /\ a_dtype v = pr_dtype (m_prior m).
(** the parameters of a state in the order in which JAX visits them *)
Definition metas (t : ptree) : list meta := map p_meta (params_of t).
(** the leaf found by following a path of names *)
Fixpoint lookup {A : Type} (path : list string) (t : tree A) : option A :=
  match path, t with
  | [], Leaf a => Some a
  | k :: r, Node l => match get k l with Some s => lookup r s | None => None end
  | _, _ => None
  end.
(** two nested dictionaries hold the same leaves under the same names *)
Definition same_leaves {A : Type} (t t' : tree A) : Prop := forall path, lookup path t = lookup path t'.
(** how an attribute given by the user is stored: Python numbers become 0-d arrays *)
Definition stored (o o' : obj) : Prop :=
  match o with
  | OInt z => o' = OArr (Arr [] I64 [Some (Rdefinitions.IZR z)])
  | OFloat x => o' = OArr (Arr [] F64 [x])
  | _ => o' = o
  end.
(** names of the constructor arguments *)
Definition reserved (k : string) : Prop := k = "kernel" \/ k = "mean_function" \/ k = "params".

(** ** histories *)
Inductive pop : Type :=
| PUpdate (d : dict pval) | PCopy | PRebuild (v : array) | PSample (k : key).
Definition pstep (sample : key -> prior_obj -> array) (o : pop) (p : param) : result param :=
  match o with
  | PUpdate d => fst (param_update p d)
  | PCopy => param_copy p
  | PRebuild v => param_unflatten (snd (param_flatten p)) v
  | PSample k => sample_prior (sample k) p
  end.
(** an exception leaves the variable as it was *)
Fixpoint phistory (sample : key -> prior_obj -> array) (os : list pop) (p : param) : param :=
  match os with
  | [] => p
  | o :: r => phistory sample r (match pstep sample o p with Ok p' => p' | Err _ => p end)
  end.
Inductive sop : Type :=
| SUpdate (d : dict obj) | SCopy | SRebuild (vs : list array) | SRandomize (k : key) (opt : dict obj)
| STransform (mode : string) | SLoad (contents : dict fval).
Definition sstep (interned : string -> bool) (sample : key -> prior_obj -> array) (o : sop) (s : state) : result state :=
  match o with
  | SUpdate d => fst (state_update s d)
  | SCopy => state_copy s
  | SRebuild vs => state_unflatten (snd (state_flatten s)) vs
  | SRandomize k opt => randomize sample s k opt
  | STransform m => transform m s
  | SLoad c => load_dict interned s c
  end.
(** the dictionaries given by the user are Python dictionaries holding constructed Parameters *)
Definition sop_ok (o : sop) : Prop :=
  match o with SUpdate d | SRandomize _ d => dict_ok d | SLoad c => NoDup (map fst c) | _ => True end.
Fixpoint shistory (interned : string -> bool) (sample : key -> prior_obj -> array) (os : list sop) (s : state) : state :=
  match os with
  | [] => s
  | o :: r => shistory interned sample r (match sstep interned sample o s with Ok s' => s' | Err _ => s end)
  end.

(** ** saving and loading *)
(** every leaf is a Parameter *)
Definition no_none (t : ptree) : Prop := every (fun o => o <> None) t.
(** the same nested dictionary of names *)
Definition same_names {A B : Type} (t : tree A) (t' : tree B) : Prop :=
  map_tree (fun _ => tt) t = map_tree (fun _ => tt) t'.
(** names an attribute may have: no ':' (used for nesting), not the reserved entry NULL, not the
    first argument of np.savez, not a constructor argument *)
Definition aux_name (k : string) : Prop :=
  DictSpec.no_colon k /\ k <> "NULL" /\ k <> "file" /\ ~ reserved k.
(** attribute values that an .npz file gives back as they were *)
Definition storable (o : obj) : Prop :=
  match o with
  | OArr a => a_shape a = [] -> a_dtype a <> BoolT
  | OBool _ | ONone => True
  | _ => False
  end.
(** parameters can be saved: "kernel_params" is a dictionary, no None, names survive flattening *)
Definition savable (interned : string -> bool) (t : ptree) : Prop :=
  no_none t /\ DictSpec.names_ok interned ["params"] t /\
  exists l lk, t = Node l /\ get "kernel_params" l = Some (Node lk).
(** what a file holds for these entries *)
Definition dumped (d : dict obj) : dict fval := map (fun kv => (fst kv, dump (snd kv))) d.
