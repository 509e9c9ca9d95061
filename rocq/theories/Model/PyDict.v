(** Python dictionaries, exceptions and nested dictionaries; gpx/parameters/utils.py:71-139.
    A dict is an insertion-ordered association list, strings are byte strings. *)
From Coq Require Import List String Bool Arith Ascii.
Import ListNotations.
Open Scope string_scope.

(** exceptions as values *)
Inductive exn : Type :=
| ValueError | TypeError | KeyError | AttributeError | RuntimeError | UnboundLocalError | FileNotFoundError
| ZeroDivisionError.
Inductive result (A : Type) : Type := Ok (a : A) | Err (e : exn).
Arguments Ok {A} _.
Arguments Err {A} _.
Definition bind {A B : Type} (r : result A) (f : A -> result B) : result B :=
  match r with Ok a => f a | Err e => Err e end.
Fixpoint mapM {A B : Type} (f : A -> result B) (l : list A) : result (list B) :=
  match l with
  | [] => Ok []
  | a :: r => bind (f a) (fun b => bind (mapM f r) (fun bs => Ok (b :: bs)))
  end.

(** ** dict *)
Definition dict (A : Type) : Type := list (string * A).
Fixpoint get {A : Type} (k : string) (d : dict A) : option A :=
  match d with
  | [] => None
  | (k', v) :: r => if String.eqb k k' then Some v else get k r
  end.
(** d[k] = v: in place when the key is present, else appended *)
Fixpoint set {A : Type} (k : string) (v : A) (d : dict A) : dict A :=
  match d with
  | [] => [(k, v)]
  | (k', v') :: r => if String.eqb k k' then (k', v) :: r else (k', v') :: set k v r
  end.
(** what is left after d.pop(k) *)
Definition del {A : Type} (k : string) (d : dict A) : dict A :=
  filter (fun kv => negb (String.eqb k (fst kv))) d.
(** d1 | d2 *)
Definition merge {A : Type} (d1 d2 : dict A) : dict A :=
  fold_left (fun d kv => set (fst kv) (snd kv) d) d2 d1.

(** ** nested dict *)
Inductive tree (A : Type) : Type :=
| Leaf (a : A)
| Node (l : list (string * tree A)).
Arguments Leaf {A} _.
Arguments Node {A} _.
Fixpoint map_tree {A B : Type} (f : A -> B) (t : tree A) : tree B :=
  match t with
  | Leaf a => Leaf (f a)
  | Node l => Node (map (fun kv => match kv with (k, s) => (k, map_tree f s) end) l)
  end.

(** str.split(":") *)
Fixpoint split_colon (s : string) : list string :=
  match s with
  | EmptyString => [EmptyString]
  | String c r =>
      if Ascii.eqb c ":" then EmptyString :: split_colon r
      else match split_colon r with
           | h :: t => String c h :: t
           | [] => [String c EmptyString]
           end
  end.

(** parameters/utils.py:71-100 _flatten_dict; start "" is starting_key=None (both are falsy), sep=":",
    null is the None stored for an empty dictionary, map_value may raise. The first argument is
    the dictionary; on anything else .keys() raises. *)
Fixpoint flatten_dict {A V : Type} (null : V) (map_value : A -> result V) (t : tree A)
    (flattened : dict V) (start : string) : result (dict V) :=
  match t with
  | Leaf _ => Err AttributeError
  | Node [] =>
      let k := if String.eqb start "" then "NULL" else start ++ ":" ++ "NULL" in
      Ok (set k null flattened)
  | Node l =>
      (fix items (l : list (string * tree A)) (flattened : dict V) : result (dict V) :=
         match l with
         | [] => Ok flattened
         | (k, v) :: r =>
             let k := if String.eqb start "" then k else start ++ ":" ++ k in
             match v with
             | Node _ => bind (flatten_dict null map_value v flattened k) (items r)
             | Leaf a => bind (map_value a) (fun b => items r (set k b flattened))
             end
         end) l flattened
  end.

(** parameters/utils.py:114-138, the inner loop for one key: ks are the components still to visit,
    cur is cur_dict. `subk is keys[-1]` compares identities: two different components that are equal
    strings are the same object when the interpreter caches them (interned). Descending into
    something that is not a dictionary is an error. *)
Fixpoint insert_keys {V : Type} (interned : string -> bool) (ks : list string) (v : V)
    (cur : dict (tree V)) : result (dict (tree V)) :=
  match ks with
  | [] => Ok cur
  | [k] => Ok (if String.eqb k "NULL" then cur else set k (Leaf v) cur)
  | k :: rest =>
      if String.eqb k (last rest "") && interned k then
        insert_keys interned rest v (if String.eqb k "NULL" then cur else set k (Leaf v) cur)
      else
        match get k cur with
        | Some (Node d) => bind (insert_keys interned rest v d) (fun d' => Ok (set k (Node d') cur))
        | Some (Leaf _) => Err TypeError
        | None => bind (insert_keys interned rest v []) (fun d' => Ok (set k (Node d') cur))
        end
  end.
(** parameters/utils.py:103-139 _unflatten_dict; the retrieval of a present key never raises *)
Fixpoint unflatten_from {V : Type} (interned : string -> bool) (d : dict V) (acc : dict (tree V))
    : result (dict (tree V)) :=
  match d with
  | [] => Ok acc
  | (k, v) :: r => bind (insert_keys interned (split_colon k) v acc) (unflatten_from interned r)
  end.
Definition unflatten_dict {V : Type} (interned : string -> bool) (d : dict V) : result (dict (tree V)) :=
  unflatten_from interned d [].
(** CPython: str.split builds new objects, but strings of length 0 and 1 are cached *)
Definition cpython_interned (s : string) : bool := Nat.leb (String.length s) 1.
