(** Models optax_minimize with its two loops, its loss history and the default optimiser
    (optimizers/optax_optimize.py). Gradients and optimisers are arguments, as in Model/Optim.v. *)
From Coq Require Import String List Bool Arith Reals ZArith.
From Verif Require Import Model.PyDict Model.Params Model.State Model.Optim.
Import ListNotations.
Open Scope string_scope.
Open Scope nat_scope.

Section Optax.
  (** the loss of the user and the gradient, in the unbound space, of the loss of the wrapper *)
  Variable loss : state -> array -> array -> result num.
  Variable grad : array -> array -> state -> list array.

  (** optax_optimize.py:75-79 _loss_fn of the wrapper *)
  Definition optax_loss (s : state) (x y : array) : result num := bind (transform "forward" s) (fun t => loss t x y).
  (** optax_optimize.py:94-107 and 134-152 _step, _step_with_validation; 122-131 and 168-178 the loops: the final
      state, the training losses and the validation losses. A progress bar is updated when i % update_every == 0. *)
  Fixpoint optax_epochs (updates : list (list array) -> list array) (x y : array) (valid : option (array * array)) (update_every : nat)
      (hist : list (list array)) (n : nat) (s : state) : result (state * list num * list num) :=
    match n with
    | 0 => Ok (s, [], [])
    | S n =>
        bind (optax_loss s x y) (fun l =>
        bind (match valid with None => Ok [] | Some (xv, yv) => bind (optax_loss s xv yv) (fun v => Ok [v]) end) (fun lv =>
        let hist' := gradients (grad x y) s :: hist in
        let vs := map (fun q => add_arr (fst q) (snd q)) (zip (tree_values (s_params s)) (updates hist')) in
        bind (state_unflatten (snd (state_flatten s)) vs) (fun s' =>
        if Nat.eqb update_every 0 then Err ZeroDivisionError else
        bind (optax_epochs updates x y valid update_every hist' n s') (fun r =>
        Ok (fst (fst r), l :: snd (fst r), (lv ++ snd r)%list)))))
    end.
  (** optax_optimize.py:181-186 _check_optimizer *)
  Definition check_optimizer (adam : R -> list (list array) -> list array) (optimizer : option (list (list array) -> list array))
      (learning_rate : R) : list (list array) -> list array :=
    match optimizer with None => adam learning_rate | Some u => u end.
  Definition given {A} (a : option A) : bool := match a with Some _ => true | None => false end.
  (** optax_optimize.py:206-253 optax_minimize, with 71-88 the wrapper; range(nsteps) is empty for nsteps <= 0 *)
  Definition optax_run (adam : R -> list (list array) -> list array) (s : state) (x y : array)
      (optimizer : option (list (list array) -> list array)) (x_val y_val : option array) (nsteps : Z) (learning_rate : R)
      (update_every : nat) : result (state * list num * list num) :=
    let updates := check_optimizer adam optimizer learning_rate in
    bind (check_validation (given x_val) (given y_val)) (fun mode =>
    let valid := match mode, x_val, y_val with WithValidation, Some a, Some b => Some (a, b) | _, _, _ => None end in
    bind (transform "backward" s) (fun u =>
    bind (optax_epochs updates x y valid update_every [] (Z.to_nat nsteps) u) (fun r =>
    bind (transform "forward" (fst (fst r))) (fun t => Ok (t, snd (fst r), snd r))))).
End Optax.
