(** Properties C08 (restarts), C09-C14, C18, C19: optimisers, restarts, checkpoints, argument checks. *)
From Coq Require Import Ascii String List Bool Arith Reals ZArith.
From Verif Require Import Model.PyDict Model.Bijectors Model.Params Model.State Model.Optim Model.Optax Model.Checks Spec.StateSpec Spec.BijectorSpec
  Spec.RandomSpec Spec.OptimSpec Spec.SearchSpec Spec.ChecksSpec Spec.NameSpec Proofs.StateExamples Proofs.OptimFacts Proofs.OptimRun Proofs.OptimSearch
  Proofs.OptimPso Proofs.OptaxFacts Proofs.OptaxHistory Proofs.OptaxExamples Proofs.CheckpointFacts Proofs.ChecksFacts Proofs.OptimExamples Proofs.OptimPropLemmas.
Import ListNotations.
Open Scope string_scope.
Open Scope nat_scope.

(** ** C08, restarts *)
(** restart r (key: r splits) uses for parameter j+1 the key that restart r+1 uses for parameter j *)
Theorem C08_restart_keys_refuted : forall a a' k r j, length (trainables (s_params a)) = length (trainables (s_params a')) ->
  S j < length (trainables (s_params a)) ->
  nth_error (randomize_keys a (right r k)) (S j) = Some (right (S (S j) + r) k) /\
  nth_error (randomize_keys a' (right (S r) k)) j = Some (right (S (S j) + r) k).
Proof. exact restart_keys. Qed.
Print Assumptions C08_restart_keys_refuted.
(** so the two parameters get the same value when prior and bijector agree *)
Theorem C08_restart_draws_refuted : forall sample a a' b b' k r j p p', state_ok a -> state_ok a' -> sampler_ok sample ->
  float_params (s_params a) -> float_params (s_params a') ->
  map p_meta (trainables (s_params a)) = map p_meta (trainables (s_params a')) ->
  randomize sample a (right r k) [] = Ok b -> randomize sample a' (right (S r) k) [] = Ok b' ->
  nth_error (trainables (s_params a)) j = Some p -> nth_error (trainables (s_params a)) (S j) = Some p' ->
  m_bijector (p_meta p) = m_bijector (p_meta p') -> m_prior (p_meta p) = m_prior (p_meta p') ->
  exists q q', nth_error (trainables (s_params b)) (S j) = Some q /\ nth_error (trainables (s_params b')) j = Some q' /\
    p_value q = p_value q'.
Proof. exact restart_draws. Qed.
Print Assumptions C08_restart_draws_refuted.
Example C08_restart_example : S 0 < length (trainables (ex_params 1 2 3)) /\
  nth_error (randomize_keys (ex_state 1 2 3) (right 1 (Key 5))) 1 = nth_error (randomize_keys (ex_state 4 2 6) (right 2 (Key 5))) 0.
Proof. split; [repeat constructor|reflexivity]. Qed.

(** ** C09 *)
Theorem C09_vector_length : forall t, full_tree t -> length (a_data (ravel_backward t)) = length (coords t).
Proof. exact ravel_length. Qed.
Print Assumptions C09_vector_length.
Theorem C09_unravel_succeeds : forall t x, ptree_ok t -> sorted t -> float_tree t -> a_dtype x = a_dtype (ravel_backward t) ->
  length (a_data x) = length (coords t) -> exists t', unravel_forward t x = Ok t'.
Proof. exact unravel_succeeds. Qed.
Print Assumptions C09_unravel_succeeds.
Theorem C09_wrong_length : forall t x, trainables t <> [] -> length (a_data x) <> length (coords t) ->
  unravel_forward t x = Err TypeError.
Proof. exact unravel_wrong_length. Qed.
Print Assumptions C09_wrong_length.
(** trainable values are the forward-transformed entries in order, the rest is untouched *)
Theorem C09_unravel : forall t x t', ptree_ok t -> sorted t -> unravel_forward t x = Ok t' ->
  ptree_ok t' /\ sorted t' /\ only_trainables t t' /\
  (float_tree t -> entries t' = map (fun q => omap (forward (fst q)) (snd q)) (zip (coords t) (a_data x))).
Proof. exact unravel_spec. Qed.
Print Assumptions C09_unravel.
Theorem C09_ravel_unravel : forall t x t', ptree_ok t -> sorted t -> float_tree t -> length (a_data x) = length (coords t) ->
  unravel_forward t x = Ok t' ->
  a_shape (ravel_backward t') = [length (a_data x)] /\
  forall i b r, nth_error (coords t) i = Some b -> nth_error (a_data x) i = Some (Some r) -> bij_ok b ->
    match b with SoftMinMax _ _ => (round_err b r <= 1)%R | _ => True end ->
    exists r', nth_error (a_data (ravel_backward t')) i = Some (Some r') /\ (Rabs (r' - r) <= round_err b r)%R.
Proof. exact ravel_unravel. Qed.
Print Assumptions C09_ravel_unravel.
Theorem C09_unravel_ravel : forall t, ptree_ok t -> sorted t -> float_tree t -> full_tree t ->
  exists t', unravel_forward t (ravel_backward t) = Ok t' /\ only_trainables t t' /\
  forall i b y, nth_error (coords t) i = Some b -> nth_error (entries t) i = Some (Some y) -> bij_ok b -> backward_dom b y ->
    exists y', nth_error (entries t') i = Some (Some y') /\ (Rabs (y' - y) <= / 10 ^ 300)%R.
Proof. exact unravel_ravel_spec. Qed.
Print Assumptions C09_unravel_ravel.
Example C09_example : ptree_ok (ex_params 1 2 3) /\ sorted (ex_params 1 2 3) /\ float_tree (ex_params 1 2 3) /\ full_tree (ex_params 1 2 3) /\
  coords (ex_params 1 2 3) = [Softplus; Softplus] /\ entries (ex_params 1 2 3) = [Some 1%R; Some 3%R] /\
  exists t', unravel_forward (ex_params 1 2 3) (vec [(-4)%R; 7%R]) = Ok t'.
Proof.
  destruct (ex_params_ok 1 2 3). repeat (split; [auto using ex_float_tree, ex_full_tree, ex_coords, ex_entries|]). apply ex_unravel.
Qed.

(** ** C10 *)
Theorem C10_visited_states : forall A (loss : array -> state -> result A) minimize s, state_ok s ->
  forall u, fst (scipy_minimize loss minimize s) = Ok u \/ In u (snd (scipy_minimize loss minimize s)) ->
  state_ok u /\ only_trainables_state s u /\ (bijs_ok (s_params s) -> in_ranges (s_params u)).
Proof. exact scipy_states. Qed.
Print Assumptions C10_visited_states.
Theorem C10_legal : forall A (loss : array -> state -> result A) minimize s, state_ok s -> bijs_ok (s_params s) ->
  float_tree (s_params s) -> proposes_reals (minimize (ravel_backward (s_params s))) ->
  forall u, fst (scipy_minimize loss minimize s) = Ok u \/ In u (snd (scipy_minimize loss minimize s)) -> all_legal u.
Proof. exact scipy_all_legal. Qed.
Print Assumptions C10_legal.
(** the loss is evaluated once for each question of the optimiser, at its point *)
Theorem C10_objective : forall A t s (loss : array -> state -> result A) x u a, ptree_ok t -> sorted t -> state_ok s ->
  objective t s loss x = Ok (u, a) ->
  exists p, unravel_forward t x = Ok p /\ u = State (s_kernel s) (s_mean s) p (s_register s) /\ loss x u = Ok a.
Proof. exact @objective_spec. Qed.
Print Assumptions C10_objective.
Example C10_example : state_ok (ex_state 1 2 3) /\ bijs_ok (ex_params 1 2 3) /\ float_tree (ex_params 1 2 3) /\
  proposes_reals (ex_strategy (ravel_backward (ex_params 1 2 3))) /\
  exists s', fst (scipy_minimize (fun _ _ => Ok 5%R) ex_strategy (ex_state 1 2 3)) = Ok s'.
Proof.
  split; [apply ex_state_ok|]. split; [apply ex_bijs_ok|]. split; [apply ex_float_tree|]. split; [apply ex_strategy_reals|].
  apply ex_scipy. eauto.
Qed.

(** ** C11 *)
Theorem C11_best_state : forall I sample (minimize : state -> result (state * I)) loss k n s s' inf states losses,
  randomized_minimization sample minimize loss k n s = Ok (s', inf, states, losses) ->
  length states = S n /\ length losses = S n /\ Forall2 (fun u l => loss u = Ok l) states losses /\
  (exists inf0 s0, minimize s = Ok (s0, inf0) /\ nth_error states 0 = Some s0) /\
  (forall r, r < n -> exists a b s0 inf0 k0, k = Some k0 /\ nth_error states r = Some a /\ nth_error states (S r) = Some b /\
     randomize sample a (right (S r) k0) [] = Ok s0 /\ minimize s0 = Ok (b, inf0)) /\
  exists j, nth_error states j = Some s' /\
    match nth_error losses 0 with Some (Some _) => first_min losses j | _ => j = 0 end.
Proof. exact @restarts_run. Qed.
Print Assumptions C11_best_state.
Theorem C11_key_needed : forall I sample (minimize : state -> result (state * I)) loss n s,
  randomized_minimization sample minimize loss None (S n) s = Err ValueError.
Proof. exact @restarts_need_key. Qed.
Print Assumptions C11_key_needed.
(** a run does not fail when its parts do not *)
Theorem C11_succeeds : forall I sample (minimize : state -> result (state * I)) loss k n s,
  (forall u, exists q, minimize u = Ok q) -> (forall u, exists l, loss u = Ok l) ->
  (forall u k', exists u', randomize sample u k' [] = Ok u') -> k <> None \/ n = 0 ->
  exists q, randomized_minimization sample minimize loss k n s = Ok q.
Proof. exact @restarts_succeed. Qed.
Print Assumptions C11_succeeds.
Example C11_example : first_min [Some 3%R; Some 1%R; None; Some 1%R] 1 /\
  exists q, randomized_minimization (I := unit) ex_sampler (fun u => Ok (u, tt)) (fun _ => Ok None) None 0 (ex_state 1 2 3) = Ok q.
Proof. split; [exact ex_first_min|]. eexists. reflexivity. Qed.

(** ** C12 *)
Theorem C12_result : forall A w (loss : array -> state -> result A) minimize s s', state_ok w -> state_ok s ->
  fst (nlopt_optimize w loss minimize s) = Ok s' ->
  s_kernel s' = s_kernel s /\ s_mean s' = s_mean s /\ s_register s' = s_register s /\
  only_trainables (s_params w) (s_params s') /\
  exists x, fst (play (objective (s_params w) s loss) (minimize (ravel_backward (s_params s)))) = Ok x /\
    (float_tree (s_params w) ->
     entries (s_params s') = map (fun q => omap (forward (fst q)) (snd q)) (zip (coords (s_params w)) (a_data x))).
Proof. exact @nlopt_result. Qed.
Print Assumptions C12_result.
(** when the two states differ at most in trainable values it does what scipy_minimize does *)
Theorem C12_same_as_scipy : forall A w (loss : array -> state -> result A) minimize s, state_ok w -> state_ok s ->
  same_frozen (s_params w) (s_params s) -> nlopt_optimize w loss minimize s = scipy_minimize loss minimize s.
Proof. exact @nlopt_scipy. Qed.
Print Assumptions C12_same_as_scipy.
Theorem C12_frozen_refuted : exists (w s s' : state) (minimize : array -> strategy R array) (loss : array -> state -> result R),
  state_ok w /\ state_ok s /\ fst (nlopt_optimize w loss minimize s) = Ok s' /\
  lookup ["kernel_params"; "variance"] (s_params s) = Some (Some (scalar_param false 5)) /\
  lookup ["kernel_params"; "variance"] (s_params s') = Some (Some (scalar_param false 2)).
Proof. exact nlopt_reverts. Qed.
Print Assumptions C12_frozen_refuted.
Example C12_example : same_frozen (ex_params 1 2 3) (ex_params 7 2 8).
Proof. exact ex_same_frozen. Qed.

(** ** C13 *)
Theorem C13_best_trial : forall A (loss : array -> state -> result A) pso n s s', state_ok s ->
  fst (pso_minimize loss pso None n s) = Ok s' ->
  exists ts j x m, length ts = n /\ (forall i tr, nth_error ts i = Some tr -> pso_trial loss s (pso i) = Ok tr) /\
    nth_error ts j = Some (x, Some m) /\ first_min (map snd ts) j /\
    state_ok s' /\ only_trainables_state s s' /\
    (float_tree (s_params s) -> trainables (s_params s) <> [] -> entries (s_params s') = a_data x).
Proof. exact @pso_best. Qed.
Print Assumptions C13_best_trial.
Theorem C13_no_finite_cost : forall A (loss : array -> state -> result A) pso localopt n s ts, state_ok s -> length ts = n ->
  (forall i tr, nth_error ts i = Some tr -> pso_trial loss s (pso i) = Ok tr) -> Forall (fun tr => snd tr = None) ts ->
  fst (pso_minimize loss pso localopt n s) = Err UnboundLocalError.
Proof. exact @pso_unbound. Qed.
Print Assumptions C13_no_finite_cost.
Theorem C13_local_search : forall A (loss : array -> state -> result A) pso m n s,
  fst (pso_minimize loss pso (Some m) n s) = bind (fst (pso_minimize loss pso None n s)) (fun u => fst (scipy_minimize loss m u)).
Proof. exact @pso_local. Qed.
Print Assumptions C13_local_search.
Theorem C13_local_search_range : forall A (loss : array -> state -> result A) pso m n s s', state_ok s ->
  fst (pso_minimize loss pso (Some m) n s) = Ok s' ->
  state_ok s' /\ only_trainables_state s s' /\ (bijs_ok (s_params s) -> in_ranges (s_params s')).
Proof. exact @pso_local_result. Qed.
Print Assumptions C13_local_search_range.
(** the swarm searches without the bijectors: the result may lie outside their range *)
Theorem C13_range_refuted : exists (s s' : state) (pso : nat -> strategy R (array * num)) (loss : array -> state -> result R),
  state_ok s /\ bijs_ok (s_params s) /\ fst (pso_minimize loss pso None 1 s) = Ok s' /\ ~ in_ranges (s_params s').
Proof. exact pso_out_of_range. Qed.
Print Assumptions C13_range_refuted.
Example C13_example : fst (pso_minimize (A := R) (fun _ _ => Ok 0%R) (fun _ => Done (vec [1%R; 1%R], None)) None 4 (ex_state 1 2 3)) = Err UnboundLocalError.
Proof.
  apply (pso_unbound _ _ _ _ _ (repeat (vec [1%R; 1%R], None) 4)).
  - apply ex_state_ok.
  - reflexivity.
  - intros [|[|[|[|i]]]] tr H; try (injection H as <-; reflexivity). destruct i; discriminate.
  - repeat constructor.
Qed.

(** ** C14 *)
Theorem C14_visited_states : forall grad updates n s, state_ok s ->
  forall u, fst (optax_minimize grad updates n s) = Ok u \/ In (Ok u) (snd (optax_minimize grad updates n s)) ->
  state_ok u /\ same_static s u /\
  (on_params (fun p => bij_ok (m_bijector (p_meta p))) (s_params s) -> on_params entry_in_range (s_params u)).
Proof. exact optax_visits. Qed.
Print Assumptions C14_visited_states.
Theorem C14_frozen : forall grad updates n s u path p, state_ok s -> lazy_updates updates ->
  (forall s, length (grad s) = length (params_of (s_params s))) ->
  fst (optax_minimize grad updates n s) = Ok u -> lookup path (s_params s) = Some (Some p) -> m_trainable (p_meta p) = false ->
  lookup path (s_params u) =
    Some (Some (Param (forward_arr (m_bijector (p_meta p)) (backward_arr (m_bijector (p_meta p)) (p_value p))) (p_meta p))).
Proof. exact optax_frozen. Qed.
Print Assumptions C14_frozen.
(** which is within the inversion error of the value *)
Theorem C14_frozen_close : forall b a i y, bij_ok b -> nth_error (a_data a) i = Some (Some y) -> backward_dom b y ->
  exists y', nth_error (a_data (forward_arr b (backward_arr b a))) i = Some (Some y') /\ (Rabs (y' - y) <= / 10 ^ 300)%R.
Proof. exact there_and_back. Qed.
Print Assumptions C14_frozen_close.
Theorem C14_succeeds : forall grad updates n s, state_ok s ->
  on_params (fun p => floating (pr_dtype (m_prior (p_meta p)))) (s_params s) ->
  (forall s, length (grad s) = length (params_of (s_params s))) -> (forall g hist, length (updates (g :: hist)) = length g) ->
  exists u, fst (optax_minimize grad updates n s) = Ok u.
Proof. exact optax_succeeds. Qed.
Print Assumptions C14_succeeds.
Theorem C14_steps : forall grad updates n s u, fst (optax_minimize grad updates n s) = Ok u ->
  length (snd (optax_minimize grad updates n s)) = n.
Proof. exact optax_count. Qed.
Print Assumptions C14_steps.
Theorem C14_validation : forall x y, match check_validation x y with
  | Err e => e = ValueError /\ x <> y | Ok Plain => x = false /\ y = false | Ok WithValidation => x = true /\ y = true end.
Proof. exact validation_spec. Qed.
Print Assumptions C14_validation.
(** a run that returned: as many legal states as steps, the first within the inversion error of the given one, with the
    losses of the history; the state returned comes after them, and is the one of the theorems above *)
Theorem C14_history : forall loss grad adam s x y optimizer x_val y_val nsteps rate every u train valid, state_ok s ->
  optax_run loss grad adam s x y optimizer x_val y_val nsteps rate every = Ok (u, train, valid) ->
  exists ts, length ts = Z.to_nat nsteps /\ Forall (legal_step s) (ts ++ [u])%list /\
  (exists t0, nth_error (ts ++ [u])%list 0 = Some t0 /\ bind (transform "backward" s) (transform "forward") = Ok t0) /\
  Forall2 (fun t l => loss t x y = Ok l) ts train /\
  match x_val, y_val with Some a, Some b => Forall2 (fun t l => loss t a b = Ok l) ts valid | None, None => valid = [] | _, _ => False end /\
  fst (optax_minimize (grad x y) (match optimizer with Some o => o | None => adam rate end) (Z.to_nat nsteps) s) = Ok u.
Proof. exact run_history. Qed.
Print Assumptions C14_history.
(** validation data have no influence on the training *)
Theorem C14_validation_free : forall loss grad adam s x y optimizer xv yv nsteps rate every u train, every <> 0 ->
  (forall valid, optax_run loss grad adam s x y optimizer (Some xv) (Some yv) nsteps rate every = Ok (u, train, valid) ->
     optax_run loss grad adam s x y optimizer None None nsteps rate every = Ok (u, train, [])) /\
  ((forall t l, loss t x y = Ok l -> exists v, loss t xv yv = Ok v) ->
     optax_run loss grad adam s x y optimizer None None nsteps rate every = Ok (u, train, []) ->
     exists valid, optax_run loss grad adam s x y optimizer (Some xv) (Some yv) nsteps rate every = Ok (u, train, valid)).
Proof. exact run_validation_free. Qed.
Print Assumptions C14_validation_free.
Theorem C14_one_sided : forall loss grad adam s x y optimizer v nsteps rate every,
  optax_run loss grad adam s x y optimizer (Some v) None nsteps rate every = Err ValueError /\
  optax_run loss grad adam s x y optimizer None (Some v) nsteps rate every = Err ValueError.
Proof. exact run_one_sided. Qed.
Print Assumptions C14_one_sided.
Theorem C14_run_succeeds : forall loss grad adam s x y optimizer x_val y_val nsteps rate every, state_ok s ->
  on_params (fun p => floating (pr_dtype (m_prior (p_meta p)))) (s_params s) ->
  (forall t, length (grad x y t) = length (params_of (s_params t))) ->
  (forall g hist, length ((match optimizer with Some o => o | None => adam rate end) (g :: hist)) = length g) ->
  (forall t x y, same_static s t -> exists l, loss t x y = Ok l) ->
  (match x_val, y_val with Some _, Some _ | None, None => True | _, _ => False end) -> every <> 0 ->
  exists u train valid, optax_run loss grad adam s x y optimizer x_val y_val nsteps rate every = Ok (u, train, valid).
Proof. exact run_returns. Qed.
Print Assumptions C14_run_succeeds.
(** how often the progress bar is updated does not matter, but "never" cannot be asked for with 0 *)
Theorem C14_update_every : forall loss grad adam s x y optimizer x_val y_val nsteps rate,
  (forall e e', e <> 0 -> e' <> 0 -> optax_run loss grad adam s x y optimizer x_val y_val nsteps rate e =
     optax_run loss grad adam s x y optimizer x_val y_val nsteps rate e') /\
  forall r, (0 < nsteps)%Z -> optax_run loss grad adam s x y optimizer x_val y_val nsteps rate 0 <> Ok r.
Proof. exact run_progress. Qed.
Print Assumptions C14_update_every.
Example C14_history_case : forall r, state_ok (w_state r) /\ on_params (fun p => floating (pr_dtype (m_prior (p_meta p)))) (s_params (w_state r)) /\
  optax_run w_loss w_grad (fun _ => descent 3) (w_state r) w_data w_data None (Some w_data) (Some w_data) 1 1 1 =
    Ok (w_state (r + -3 * (2 * r)), [Some (r * r)%R], [Some (r * r)%R]).
Proof. exact (fun r => conj (w_ok r) (conj (w_float r) (w_run_validation r))). Qed.
(** the state returned is the last one, not the best: its loss is not in the history and can be above all that are *)
Theorem C14_best_refuted : exists loss grad adam s x y u l l', state_ok s /\
  optax_run loss grad adam s x y None None None 1 1 1 = Ok (u, [Some l], []) /\ loss u x y = Ok (Some l') /\ (l < l')%R.
Proof. exact last_not_best. Qed.
Print Assumptions C14_best_refuted.
(** an update that is not zero where the gradient is (weight decay) moves frozen parameters *)
Theorem C14_weight_decay_refuted : exists updates u, (forall g hist, length (updates (g :: hist)) = length g) /\
  fst (optax_minimize ex_grad updates 1 (ex_state 1 2 3)) = Ok u /\
  exists v, lookup ["kernel_params"; "variance"] (s_params u) = Some (Some (Param (scalar v) (gamma_meta false))) /\ (2 + 1 < v)%R.
Proof. exact decay_moves_frozen. Qed.
Print Assumptions C14_weight_decay_refuted.
Example C14_example : lazy_updates (descent 1) /\ state_ok (ex_state 1 2 3) /\
  forall n, exists u, fst (optax_minimize ex_grad (descent 1) n (ex_state 1 2 3)) = Ok u.
Proof. split; [apply descent_lazy|]. split; [apply ex_state_ok|]. intro n. apply ex_optax. Qed.

(** ** C18 *)
Theorem C18_names_distinct : forall f i j, npz_name (checkpoint_name f i) = npz_name (checkpoint_name f j) -> i = j.
Proof. exact checkpoint_names. Qed.
Print Assumptions C18_names_distinct.
(** the counter is placed in front of the extension *)
Theorem C18_name : forall f k, exists name ext, f = name ++ ext /\ checkpoint_name f k = name ++ "." ++ pad3 k ++ ext /\
  (ext = "" \/ exists e, ext = String "."%char e /\ chars plain e) /\
  chars is_digit (pad3 k) /\ 3 <= String.length (pad3 k) /\ value (pad3 k) 0 = k.
Proof. exact checkpoint_name_spec. Qed.
Print Assumptions C18_name.
(** after any number of calls, the last of which may raise, the first n' files hold the first n' states
    and no other file has changed *)
Theorem C18_files : forall s f xs fs r n' fs', state_ok s -> checkpoint_run s f xs (0, fs) = (r, (n', fs')) ->
  n' <= length xs /\ (r = Ok tt <-> n' = length xs) /\
  (forall k x, k < n' -> nth_error xs k = Some x -> exists p d, unravel_forward (s_params s) x = Ok p /\
     save_dict (State (s_kernel s) (s_mean s) p (s_register s)) = Ok d /\
     fs' (npz_name (checkpoint_name f k)) = Some (map (fun kv => (fst kv, dump (snd kv))) d)) /\
  (forall g, (forall k, k < n' -> g <> npz_name (checkpoint_name f k)) -> fs' g = fs g).
Proof. exact run_from_zero. Qed.
Print Assumptions C18_files.
(** later calls leave the files written before them as they are *)
Theorem C18_crash : forall s f xs ys fs r n' fs' fs'' r' n'', state_ok s ->
  checkpoint_run s f xs (0, fs) = (r, (n', fs')) -> checkpoint_run s f (xs ++ ys) (0, fs) = (r', (n'', fs'')) ->
  n' <= n'' /\ forall k, k < n' -> fs'' (npz_name (checkpoint_name f k)) = fs' (npz_name (checkpoint_name f k)).
Proof. exact run_prefix. Qed.
Print Assumptions C18_crash.
Example C18_example : checkpoint_name "out/test.npz" 7 = "out/test.007.npz" /\ checkpoint_name ".run" 1234 = ".run.1234" /\
  npz_name (checkpoint_name "chk" 0) = "chk.000.npz" /\
  exists n fs, checkpoint_run (ex_state 1 2 3) "a.npz" [vec [0%R; 1%R]; vec [1%R; 1%R]] (0, fun _ => None) = (Ok tt, (n, fs)).
Proof. exact ex_checkpoints. Qed.

(** ** C19 *)
Theorem C19_first_ill_typed : forall A (ok : A -> bool) d, check_recursive_dict_type ok d =
  option_map (fun q => (last (fst q) "", snd q)) (find (fun q => negb (ok (snd q))) (paths (Node d))).
Proof. exact @check_spec. Qed.
Print Assumptions C19_first_ill_typed.
Theorem C19_accepts : forall A (ok : A -> bool) d, check_recursive_dict_type ok d = None <-> every (fun a => ok a = true) (Node d).
Proof. exact @check_passes. Qed.
Print Assumptions C19_accepts.
Theorem C19_paths : forall A (t : tree A) p a, keys_distinct t -> (In (p, a) (paths t) <-> lookup p t = Some a).
Proof. exact @paths_lookup. Qed.
Print Assumptions C19_paths.
Example C19_example :
  check_recursive_dict_type Nat.even [("a", Leaf 2); ("b", Node [("e", Node []); ("c", Leaf 3)]); ("d", Leaf 5)] = Some ("c", 3) /\
  keys_distinct (Node [("a", Leaf 2); ("b", Node [("e", Node []); ("c", Leaf 3)]); ("d", Leaf 5)]).
Proof. split; [reflexivity|]. simpl. repeat split; nodup. Qed.
