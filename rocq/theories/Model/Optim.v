(** Models gpx/optimizers and gpx/models/utils.py:77-167. External optimisers are adaptive strategies:
    they see the answers to their earlier questions only. *)
From Coq Require Import List String Bool Arith Reals ZArith Ascii.
From Verif Require Import Model.PyDict Model.Bijectors Model.Params Model.State.
Import ListNotations.
Open Scope string_scope.
Open Scope nat_scope.

(** ** jax.flatten_util.ravel_pytree on a list of arrays *)
(** JAX type promotion; two different dtypes of the kind Other are taken to F64 (simplified) *)
Definition promote (a b : dtype) : dtype :=
  match a, b with
  | F64, _ | _, F64 => F64
  | F32, _ | _, F32 => F32
  | I64, I64 => I64
  | BoolT, d | d, BoolT => d
  | Other n, Other m => if Nat.eqb n m then Other n else F64
  | Other n, I64 | I64, Other n => F64
  end.
Definition promote_all (vs : list array) : dtype :=
  match vs with [] => F32 | v :: r => fold_left (fun d w => promote d (a_dtype w)) r (a_dtype v) end.
Definition total (vs : list array) : nat := fold_right (fun v n => size_of (a_shape v) + n) 0 vs.
Definition ravel_list (vs : list array) : array :=
  let data := flat_map a_data vs in Arr [List.length data] (promote_all vs) data.
(** conversion to an integer dtype drops the fraction *)
Definition truncR (x : R) : R := if Rle_dec 0 x then IZR (Int_part x) else (- IZR (Int_part (- x)))%R.
Definition cast_num (d : dtype) (x : num) : num :=
  match d with F64 | F32 => x | _ => option_map truncR x end.
(** jnp.split at the accumulated sizes, then reshape *)
Fixpoint chunks (vs : list array) (data : list num) : list (list num) :=
  match vs with
  | [] => []
  | v :: r => firstn (size_of (a_shape v)) data :: chunks r (skipn (size_of (a_shape v)) data)
  end.
(** the function returned by ravel_pytree: for equal dtypes the new values take the dtype of the
    vector, otherwise the vector must have the promoted dtype and each value is converted back.
    A vector of another length cannot be reshaped; with no values at all the vector is ignored. *)
Definition unravel_list (vs : list array) (x : array) : result (list array) :=
  match vs with
  | [] => Ok []
  | _ =>
    let to := promote_all vs in
    if forallb (fun v => dtype_eqb (a_dtype v) to) vs then
      if Nat.eqb (List.length (a_data x)) (total vs) then
        Ok (map (fun vc => Arr (a_shape (fst vc)) (a_dtype x) (snd vc)) (zip vs (chunks vs (a_data x))))
      else Err TypeError
    else if dtype_eqb (a_dtype x) to then
      if Nat.eqb (List.length (a_data x)) (total vs) then
        Ok (map (fun vc => Arr (a_shape (fst vc)) (a_dtype (fst vc)) (map (cast_num (a_dtype (fst vc))) (snd vc)))
              (zip vs (chunks vs (a_data x))))
      else Err TypeError
    else Err TypeError
  end.

(** ** optimizers/utils.py *)
(** utils.py:62-70 truncate_non_trainable_parameters *)
Definition truncate (t : ptree) : ptree :=
  map_tree (fun o => match o with Some p => if m_trainable (p_meta p) then Some p else None | None => None end) t.
(** utils.py:73-94 ravel_backward_trainables: the values before raveling, and the vector *)
Definition unbound (t : ptree) : list array :=
  map (fun p => backward_arr (m_bijector (p_meta p)) (p_value p)) (params_of (truncate t)).
Definition ravel_backward (t : ptree) : array := ravel_list (unbound t).
(** tree_map of a function of two trees with the same names *)
Fixpoint tzip {A B C : Type} (f : A -> B -> C) (a : tree A) (b : tree B) : result (tree C) :=
  match a, b with
  | Leaf x, Leaf y => Ok (Leaf (f x y))
  | Node l, Node m =>
      bind ((fix go (l : list (string * tree A)) (m : list (string * tree B)) : result (list (string * tree C)) :=
         match l, m with
         | [], [] => Ok []
         | (k, s) :: r, (k', s') :: r' =>
             if String.eqb k k' then bind (tzip f s s') (fun c => bind (go r r') (fun cs => Ok ((k, c) :: cs)))
             else Err ValueError
         | _, _ => Err ValueError
         end) l m) (fun l' => Ok (Node l'))
  | _, _ => Err ValueError
  end.
(** utils.py:97-131 unravel_forward_trainables: the function built from the parameters t, applied to x *)
Definition unravel_forward (t : ptree) (x : array) : result ptree :=
  bind (unravel_list (unbound t) x) (fun xs =>
  let ys := map (fun q => forward_arr (m_bijector (p_meta (fst q))) (snd q)) (zip (params_of (truncate t)) xs) in
  bind (tree_unflatten (tree_def (truncate t)) ys) (fun trainable_tree =>
  tzip (fun p0 p => match p0 with Some q => if m_trainable (p_meta q) then p else p0 | None => None end)
    (canon t) trainable_tree)).
Definition with_params (s : state) (t : ptree) : result state := fst (state_update s [("params", OParams t)]).

(** ** strategies *)
Inductive strategy (A B : Type) : Type :=
| Done (b : B)
| Ask (x : array) (k : A -> strategy A B).
Arguments Done {A B} _.
Arguments Ask {A B} _ _.
(** play a strategy against the objective; the list holds the states at which the loss was evaluated *)
Fixpoint play {A B : Type} (eval : array -> result (state * A)) (st : strategy A B) : result B * list state :=
  match st with
  | Done b => (Ok b, [])
  | Ask x k =>
      match eval x with
      | Ok (s, a) => let q := play eval (k a) in (fst q, s :: snd q)
      | Err e => (Err e, [])
      end
  end.
(** scipy_optimize.py:69-73, nlopt_optimize.py:127-131, pso_optimize.py:97-101: the objective. The answer
    (loss and gradient) may depend on the point and on the state. t gives the structure. *)
Definition objective {A : Type} (t : ptree) (s : state) (loss : array -> state -> result A) (x : array)
    : result (state * A) :=
  bind (unravel_forward t x) (fun p => bind (with_params s p) (fun u => bind (loss x u) (fun a => Ok (u, a)))).

(** scipy_optimize.py:35-87 scipy_minimize *)
Definition scipy_minimize {A : Type} (loss : array -> state -> result A) (minimize : array -> strategy A array)
    (s : state) : result state * list state :=
  let q := play (objective (s_params s) s loss) (minimize (ravel_backward (s_params s))) in
  (bind (fst q) (fun x => bind (unravel_forward (s_params s) x) (with_params s)), snd q).

(** nlopt_optimize.py:85-153 NLoptWrapper: w is the state of the constructor, s the one given to optimize *)
Definition nlopt_optimize {A : Type} (w : state) (loss : array -> state -> result A)
    (minimize : array -> strategy A array) (s : state) : result state * list state :=
  let q := play (objective (s_params w) s loss) (minimize (ravel_backward (s_params s))) in
  (bind (fst q) (fun x => bind (unravel_forward (s_params w) x) (with_params s)), snd q).

(** ** pso_optimize.py *)
(** pso_optimize.py:41-42 replace_bijector_with_identity *)
Definition identity_bijector (o : option param) : result (option param) :=
  match o with
  | Some p => bind (fst (param_update p [("bijector", PBij Identity)])) (fun q => Ok (Some q))
  | None => Ok None
  end.
(** pso_optimize.py:104-110: the trial with the smallest cost below infinity; a cost that is NaN or
    infinite (None) never is *)
Definition less (a b : num) : bool :=
  match a, b with
  | Some x, Some y => if Rlt_dec x y then true else false
  | Some _, None => true
  | None, _ => false
  end.
Fixpoint keep_best {X : Type} (best : option (X * num)) (trials : list (X * num)) : option (X * num) :=
  match trials with
  | [] => best
  | tr :: r =>
      let fn := match best with Some b => snd b | None => None end in
      keep_best (if less (snd tr) fn then Some tr else best) r
  end.
(** run the trials in order, the first exception ends the loop *)
Fixpoint trials {A : Type} (eval : array -> result (state * A)) (pso : nat -> strategy A (array * num)) (seeds : list nat)
    : result (list (array * num)) * list state :=
  match seeds with
  | [] => (Ok [], [])
  | i :: r =>
      let q := play eval (pso i) in
      match fst q with
      | Ok tr => let q' := trials eval pso r in (bind (fst q') (fun l => Ok (tr :: l)), snd q ++ snd q')%list
      | Err e => (Err e, snd q)
      end
  end.
(** pso_optimize.py:45-127 pso_minimize; localopt is None or L-BFGS-B *)
Definition pso_minimize {A : Type} (loss : array -> state -> result A) (pso : nat -> strategy A (array * num))
    (localopt : option (array -> strategy A array)) (repeat : nat) (s : state) : result state * list state :=
  match bind (tmapM identity_bijector (canon (s_params s))) (with_params s) with
  | Err e => (Err e, [])
  | Ok fake =>
      let q := trials (objective (s_params fake) fake loss) pso (seq 0 repeat) in
      match bind (fst q) (fun ts =>
              match keep_best None ts with
              | None => Err UnboundLocalError
              | Some (x, _) =>
                  bind (unravel_forward (s_params fake) x) (fun t =>
                  bind (with_params fake t) (fun fake' =>
                  bind (tzip (fun op fp => match op, fp with
                                | Some p, Some p' => bind (fst (param_update p [("value", PArr (p_value p'))])) (fun r => Ok (Some r))
                                | Some _, None => Err AttributeError
                                | None, _ => Ok None end)
                          (canon (s_params s)) (canon (s_params fake'))) (fun rt =>
                  bind (tmapM (fun r => r) rt) (with_params s))))
              end) with
      | Err e => (Err e, snd q)
      | Ok s' =>
          match localopt with
          | None => (Ok s', snd q)
          | Some m => let q' := scipy_minimize loss m s' in (fst q', snd q ++ snd q')%list
          end
      end
  end.

(** ** optax_optimize.py *)
Definition add_num (a b : num) : num := match a, b with Some x, Some y => Some (x + y)%R | _, _ => None end.
Definition add_arr (a u : array) : array :=
  Arr (a_shape a) (a_dtype a) (map (fun q => add_num (fst q) (snd q)) (zip (a_data a) (a_data u))).
Definition zeros_like (a : array) : array := Arr (a_shape a) (a_dtype a) (map (fun _ => Some 0%R) (a_data a)).
(** the gradient of the loss with respect to every parameter value; model_state.py:93-103 and 146-153:
    stop_gradient makes it zero for parameters that are not trainable *)
Definition gradients (grad : state -> list array) (s : state) : list array :=
  map (fun q => if m_trainable (p_meta (fst q)) then snd q else zeros_like (p_value (fst q)))
    (zip (params_of (s_params s)) (grad s)).
(** optax_optimize.py:94-131 _step and the loop of _optimize. The updates are a function of the gradients
    seen so far, the latest first. The list holds the states before each step. *)
Fixpoint optax_loop (grad : state -> list array) (updates : list (list array) -> list array)
    (hist : list (list array)) (n : nat) (s : state) : result state * list state :=
  match n with
  | 0 => (Ok s, [])
  | S n =>
      let hist' := gradients grad s :: hist in
      let vs := map (fun q => add_arr (fst q) (snd q)) (zip (tree_values (s_params s)) (updates hist')) in
      match state_unflatten (snd (state_flatten s)) vs with
      | Err e => (Err e, [s])
      | Ok s' => let q := optax_loop grad updates hist' n s' in (fst q, s :: snd q)
      end
  end.
(** optax_optimize.py:45-90 train_with_constrained_parameters: the loss is evaluated at the transformed
    state. grad is the gradient of the loss composed with the transformation. *)
Definition optax_minimize (grad : state -> list array) (updates : list (list array) -> list array)
    (n : nat) (s : state) : result state * list (result state) :=
  match transform "backward" s with
  | Err e => (Err e, [])
  | Ok u => let q := optax_loop grad updates [] n u in
            (bind (fst q) (transform "forward"), map (transform "forward") (snd q))
  end.
(** optax_optimize.py:189-202 _check_validation: which loop is run *)
Inductive optim_loop : Type := Plain | WithValidation.
Definition check_validation (x_val y_val : bool) : result optim_loop :=
  let val_given := x_val || y_val in
  let both := x_val && y_val in
  if val_given && negb both then Err ValueError else if both then Ok WithValidation else Ok Plain.

(** ** models/utils.py *)
(** models/utils.py:90-95 _check_random_key *)
Definition check_random_key (k : option key) (num_restarts : nat) : result unit :=
  match k, num_restarts with None, S _ => Err ValueError | _, _ => Ok tt end.
(** Python's min over a list: the first element that no later one is below. Comparing with NaN is false. *)
Definition lt_num (a b : num) : bool :=
  match a, b with Some x, Some y => if Rlt_dec x y then true else false | _, _ => false end.
Definition eq_num (a b : num) : bool :=
  match a, b with Some x, Some y => if Req_EM_T x y then true else false | _, _ => false end.
(** position and value of min(l), which is one of the objects of l *)
Fixpoint min_from (i : nat) (best : nat * num) (l : list num) : nat * num :=
  match l with
  | [] => best
  | x :: r => min_from (S i) (if lt_num x (snd best) then (i, x) else best) r
  end.
(** list.index of an object of the list at position j: the first that is the same object or equal *)
Fixpoint index_from (i : nat) (j : nat) (x : num) (l : list num) : nat :=
  match l with
  | [] => i
  | y :: r => if Nat.eqb i j || eq_num y x then i else index_from (S i) j x r
  end.
Definition best_index (l : list num) : nat :=
  match l with
  | [] => 0
  | x :: r => let m := min_from 1 (0, x) r in index_from 0 (fst m) (snd m) l
  end.
(** models/utils.py:141-154, the restarts: the key of a restart is the second half of the split *)
Fixpoint restarts {I : Type} (sample : key -> prior_obj -> array) (minimize : state -> result (state * I)) (loss : state -> result num)
    (n : nat) (k : key) (s : state) : result (list (state * num * I)) :=
  match n with
  | 0 => Ok []
  | S n =>
      let k' := SplitR k in
      bind (randomize sample s k' []) (fun s0 =>
      bind (minimize s0) (fun q =>
      bind (loss (fst q)) (fun l =>
      bind (restarts sample minimize loss n k' (fst q)) (fun r => Ok ((fst q, l, snd q) :: r)))))
  end.
(** models/utils.py:98-167 randomized_minimization (and, with other losses and minimisers, 170-251 and
    254-361): state, optimiser information, history of states and losses *)
Definition randomized_minimization {I : Type} (sample : key -> prior_obj -> array) (minimize : state -> result (state * I)) (loss : state -> result num)
    (k : option key) (num_restarts : nat) (s : state) : result (state * I * list state * list num) :=
  bind (check_random_key k num_restarts) (fun _ =>
  bind (minimize s) (fun q =>
  bind (loss (fst q)) (fun l =>
  bind (match k with Some k => restarts sample minimize loss num_restarts k (fst q) | None => Ok [] end) (fun r =>
  let all := (fst q, l, snd q) :: r in
  let losses := map (fun e => snd (fst e)) all in
  match nth_error all (best_index losses) with
  | Some e => Ok (fst (fst e), snd e, map (fun e => fst (fst e)) all, losses)
  | None => Err ValueError
  end)))).

(** ** scipy_optimize.py:175-229 StateCheckpointer *)
(** decimal digits of a natural number *)
Definition digit (n : nat) : ascii := ascii_of_nat (48 + n).
Fixpoint digits_aux (fuel n : nat) (acc : string) : string :=
  match fuel with
  | 0 => acc
  | S f => let acc := String (digit (n mod 10)) acc in if Nat.eqb (n / 10) 0 then acc else digits_aux f (n / 10) acc
  end.
Definition digits (n : nat) : string := digits_aux (S n) n "".
Fixpoint zeros (n : nat) : string := match n with 0 => "" | S n => String "0"%char (zeros n) end.
(** "{:03d}".format(n) *)
Definition pad3 (n : nat) : string := zeros (3 - String.length (digits n)) ++ digits n.
(** os.path.splitext: the extension starts at the last dot of the last component, leading dots of it do
    not count. Scans from the right: seen is the part already passed. *)
Fixpoint rev_string (s acc : string) : string :=
  match s with EmptyString => acc | String c r => rev_string r (String c acc) end.
(** is there, in this reversed prefix, a character that is neither '.' nor '/' before the next '/' *)
Fixpoint has_name (r : string) : bool :=
  match r with
  | EmptyString => false
  | String c r => if Ascii.eqb c "/" then false else if Ascii.eqb c "." then has_name r else true
  end.
Fixpoint split_rev (r ext : string) : option (string * string) :=
  match r with
  | EmptyString => None
  | String c r => if Ascii.eqb c "/" then None
      else if Ascii.eqb c "." then (if has_name r then Some (r, String c ext) else None)
      else split_rev r (String c ext)
  end.
Definition splitext (s : string) : string * string :=
  match split_rev (rev_string s "") "" with
  | Some (r, ext) => (rev_string r "", ext)
  | None => (s, "")
  end.
(** name of the k-th checkpoint; str.format on a name containing braces is not modelled *)
Definition checkpoint_name (chk_file : string) (k : nat) : string :=
  let (name, ext) := splitext chk_file in name ++ "." ++ pad3 k ++ ext.
(** __call__: s is the state of the constructor; the counter advances only if the save succeeds *)
Definition checkpoint (s : state) (chk_file : string) (x : array) (c : nat * files) : result unit * (nat * files) :=
  match bind (unravel_forward (s_params s) x) (with_params s) with
  | Err e => (Err e, c)
  | Ok u =>
      match save u (checkpoint_name chk_file (fst c)) (snd c) with
      | (Ok _, fs) => (Ok tt, (S (fst c), fs))
      | (Err e, fs) => (Err e, (fst c, fs))
      end
  end.
(** the callback during one minimisation: it is called with xs in turn, an exception ends the run. A
    crash of the process after k calls leaves the files of the run on the first k vectors. *)
Fixpoint checkpoint_run (s : state) (chk_file : string) (xs : list array) (c : nat * files) : result unit * (nat * files) :=
  match xs with
  | [] => (Ok tt, c)
  | x :: r => match checkpoint s chk_file x c with (Ok _, c') => checkpoint_run s chk_file r c' | q => q end
  end.
