(** Models gpx/parameters/parameter.py and the pytree operations of JAX on nested dictionaries of
    Parameters. Numbers are reals or NaN (None). *)
From Coq Require Import List String Bool Arith Reals.
From Verif Require Import Model.PyDict Model.Bijectors Model.Priors.
Import ListNotations.
Open Scope string_scope.

(** ** arrays *)
(** dtypes; Other n is any further dtype (integers of other widths, ...) *)
Inductive dtype : Type := F64 | F32 | I64 | BoolT | Other (n : nat).
Definition dtype_eqb (a b : dtype) : bool :=
  match a, b with
  | F64, F64 | F32, F32 | I64, I64 | BoolT, BoolT => true
  | Other n, Other m => Nat.eqb n m
  | _, _ => false
  end.
Definition num : Type := option R.
Record array : Type := Arr { a_shape : list nat; a_dtype : dtype; a_data : list num }.
Definition size_of (s : list nat) : nat := fold_right Nat.mul 1%nat s.
Fixpoint shape_eqb (a b : list nat) : bool :=
  match a, b with
  | [], [] => true
  | x :: a, y :: b => Nat.eqb x y && shape_eqb a b
  | _, _ => false
  end.

(** bijectors.py:179-287: forward and backward act elementwise; a smooth bijector turns integers into
    the default float type, the identity keeps the dtype *)
Definition bij_dtype (b : bijector) (d : dtype) : dtype :=
  match b with
  | Identity => d
  | _ => match d with F32 => F32 | _ => F64 end
  end.
Definition forward_arr (b : bijector) (a : array) : array :=
  Arr (a_shape a) (bij_dtype b (a_dtype a)) (map (omap (forward b)) (a_data a)).
Definition backward_arr (b : bijector) (a : array) : array :=
  Arr (a_shape a) (bij_dtype b (a_dtype a)) (map (fun x => obind x (backward b)) (a_data a)).

(** ** Parameter *)
(** priors.py:156-187: a prior has a shape, a dtype and a distribution *)
Record prior_obj : Type := PriorObj { pr_shape : list nat; pr_dtype : dtype; pr_dist : prior }.
Record meta : Type := Meta { m_trainable : bool; m_bijector : bijector; m_prior : prior_obj }.
Record param : Type := Param { p_value : array; p_meta : meta }.
(** parameter.py:34-48 __init__ with the checks of parameters/utils.py:26-37 *)
Definition mk_param (v : array) (m : meta) : result param :=
  if shape_eqb (a_shape v) (pr_shape (m_prior m)) then
    if dtype_eqb (a_dtype v) (pr_dtype (m_prior m)) then Ok (Param v m) else Err ValueError
  else Err ValueError.
(** parameter.py:57-63 tree_flatten *)
Definition param_flatten (p : param) : array * meta := (p_value p, p_meta p).
(** parameter.py:65-68 tree_unflatten *)
Definition param_unflatten (m : meta) (v : array) : result param := mk_param v m.
(** entries of the dictionary given to Parameter.update *)
Inductive pval : Type := PArr (a : array) | PBool (b : bool) | PBij (b : bijector) | PPri (p : prior_obj).
Definition pop_field {A : Type} (k : string) (d : dict pval) (sel : pval -> option A) (dflt : A) : result A :=
  match get k d with
  | None => Ok dflt
  | Some v => match sel v with Some a => Ok a | None => Err TypeError end
  end.
(** parameter.py:70-92 update: the new parameter, and what is left of the caller's dictionary.
    A value of the wrong kind is an error (the code would store it). *)
Definition param_update (p : param) (d : dict pval) : result param * dict pval :=
  (bind (pop_field "value" d (fun v => match v with PArr a => Some a | _ => None end) (p_value p)) (fun v =>
   bind (pop_field "trainable" d (fun v => match v with PBool b => Some b | _ => None end) (m_trainable (p_meta p))) (fun t =>
   bind (pop_field "bijector" d (fun v => match v with PBij b => Some b | _ => None end) (m_bijector (p_meta p))) (fun b =>
   bind (pop_field "prior" d (fun v => match v with PPri b => Some b | _ => None end) (m_prior (p_meta p))) (fun pr =>
   mk_param v (Meta t b pr))))),
   del "prior" (del "bijector" (del "trainable" (del "value" d)))).
(** parameter.py:94-102 __copy__, copy *)
Definition param_copy (p : param) : result param := fst (param_update p []).
(** parameter.py:104-110 sample_prior; sample is prior.sample(key) *)
Definition sample_prior (sample : prior_obj -> array) (p : param) : result param :=
  let s := forward_arr (m_bijector (p_meta p)) (sample (m_prior (p_meta p))) in
  fst (param_update p [("value", PArr s)]).

(** ** pytrees *)
(** JAX flattens a dict in the order of its sorted keys and rebuilds it in that order *)
Section Canon.
  Context {A : Type}.
  Fixpoint sinsert (k : string) (v : A) (l : list (string * A)) : list (string * A) :=
    match l with
    | [] => [(k, v)]
    | (k', v') :: r => if String.leb k k' then (k, v) :: (k', v') :: r else (k', v') :: sinsert k v r
    end.
  Fixpoint sort (l : list (string * A)) : list (string * A) :=
    match l with [] => [] | (k, v) :: r => sinsert k v (sort r) end.
End Canon.
Fixpoint canon {A : Type} (t : tree A) : tree A :=
  match t with
  | Leaf a => Leaf a
  | Node l => Node (sort (map (fun kv => match kv with (k, s) => (k, canon s) end) l))
  end.
(** leaves of a tree in the order of its lists *)
Fixpoint tleaves {A : Type} (t : tree A) : list A :=
  match t with
  | Leaf a => [a]
  | Node l => flat_map (fun kv => match kv with (k, s) => tleaves s end) l
  end.
Fixpoint tmapM {A B : Type} (f : A -> result B) (t : tree A) : result (tree B) :=
  match t with
  | Leaf a => bind (f a) (fun b => Ok (Leaf b))
  | Node l =>
      bind ((fix go (l : list (string * tree A)) : result (list (string * tree B)) :=
         match l with
         | [] => Ok []
         | (k, s) :: r => bind (tmapM f s) (fun s' => bind (go r) (fun r' => Ok ((k, s') :: r')))
         end) l) (fun l' => Ok (Node l'))
  end.

(** a nested dictionary of Parameters; None is Python's None, which has no leaves *)
Notation ptree := (tree (option param)).
Definition somes {A : Type} (l : list (option A)) : list A :=
  flat_map (fun o => match o with Some a => [a] | None => [] end) l.
(** tree_leaves(params, is_leaf=is_parameter) *)
Definition params_of (t : ptree) : list param := somes (tleaves (canon t)).
(** tree_flatten(params): the values, and the treedef: the tree with the static part of each Parameter *)
Definition tree_values (t : ptree) : list array := map p_value (params_of t).
Definition tree_def (t : ptree) : tree (option meta) :=
  map_tree (option_map p_meta) (canon t).
(** fill a treedef with leaves from left to right *)
Fixpoint fill {A B C : Type} (mk : A -> B -> result C) (t : tree (option A)) (vs : list B)
    : result (tree (option C) * list B) :=
  match t with
  | Leaf None => Ok (Leaf None, vs)
  | Leaf (Some m) =>
      match vs with
      | [] => Err ValueError
      | v :: r => bind (mk m v) (fun p => Ok (Leaf (Some p), r))
      end
  | Node l =>
      bind ((fix go (l : list (string * tree (option A))) (vs : list B) :=
         match l with
         | [] => Ok ([], vs)
         | (k, s) :: r =>
             bind (fill mk s vs) (fun q =>
             bind (go r (snd q)) (fun q' => Ok ((k, fst q) :: fst q', snd q')))
         end) l vs) (fun q => Ok (Node (fst q), snd q))
  end.
(** tree_unflatten(treedef, leaves): a wrong number of leaves is a ValueError *)
Definition tree_unflatten (d : tree (option meta)) (vs : list array) : result ptree :=
  bind (fill param_unflatten d vs) (fun q => match snd q with [] => Ok (fst q) | _ => Err ValueError end).
