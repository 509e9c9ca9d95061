(** Models the likelihood methods of the classes (models/base.py:266-343) and the loss functions of the library
    (models/gpr.py:70-352, sgpr.py:60-306, sgpr_rpchol.py:61-309) on arrays and parameter dictionaries, for
    iterative=False. Arrays are those of Model/Concrete.v. For all other arguments, and for mse_loss, the result is
    that of rest, an argument; the gradient is an argument too. *)
From Coq Require Import List String Reals Arith Bool ZArith.
From Verif Require Import Base.Sums Base.Mat Model.Arrays Model.Kernels Model.LinAlg Model.Priors Model.GPR Model.SGPR Model.SGPRMore
  Model.PyDict Model.Params Model.State Model.Calls Model.Lifecycle Model.KernelObj Model.Public Model.Concrete.
Import ListNotations.
Open Scope string_scope.
Open Scope R_scope.

Section Training.
  Variables (la : linalg) (kernels : obj -> option kobj) (means : obj -> option (nat -> nat -> Mat -> R)).
  Variable keyed : obj -> nat -> Vec -> nat.
  Variable gammaln : R -> R.
  Variable rest : data -> dict obj -> state -> result num.

  (** the argument iterative, False by default *)
  Definition wants_dense (kw : dict obj) : bool :=
    match get "iterative" kw with None => true | Some o => match truth o with Ok b => negb b | Err _ => false end end.

  (** gpr.py:70-120 log_marginal_likelihood and 123-174 log_marginal_likelihood_derivs (with zero_mean). Without
      data the result is a division by zero, left to rest. *)
  Definition c_gpr_lml (d : data) (kw : dict obj) (s : state) : result num :=
    let unmodelled := rest d kw s in
    if negb (wants_dense kw) then unmodelled else
    match d with
    | Targets x y =>
        match hyper kernels (s_params s) (s_kernel s), means (s_mean s), mat_of x, mat_of y with
        | Some (k, sigma), Some mf, Some (m, nf, X), Some (m', o, Y) =>
            if Nat.eqb m m' && Nat.ltb 0 m then Ok (Some (lml_dense la m o nf k sigma X Y mf)) else unmodelled
        | _, _, _, _ => unmodelled
        end
    | Derivs x y j =>
        match hyper kernels (s_params s) (s_kernel s), mat_of x, mat_of y, ten_of j with
        | Some (k, sigma), Some (m, nf, X), Some (m1, nv, Y), Some (m2, nf', nv', J) =>
            if Nat.eqb m m1 && Nat.eqb m m2 && Nat.eqb nf nf' && Nat.eqb nv nv' && Nat.ltb 0 (m * nv) then
              Ok (Some (lml_derivs_dense la m nf nv k sigma X J Y zero_mean))
            else unmodelled
        | _, _, _, _ => unmodelled
        end
    | Both _ _ _ _ => unmodelled
    end.
  (** sgpr.py:62-105 log_marginal_likelihood; that of derivatives is left to rest *)
  Definition c_sgpr_lml (d : data) (kw : dict obj) (s : state) : result num :=
    let unmodelled := rest d kw s in
    if negb (wants_dense kw) then unmodelled else
    match d with
    | Targets x y =>
        match hyper kernels (s_params s) (s_kernel s), means (s_mean s), mat_of x, mat_of y, option_map mat_of (param_array (s_params s) "x_locs") with
        | Some (k, sigma), Some mf, Some (n, nf, X), Some (n', o, Y), Some (Some (m, nf', XL)) =>
            if Nat.eqb n n' && Nat.eqb nf nf' && Nat.ltb 0 n then Ok (Some (sg_lml_dense la m n o nf k sigma XL X Y mf)) else unmodelled
        | _, _, _, _, _ => unmodelled
        end
    | _ => unmodelled
    end.
  (** sgpr_rpchol.py:63-106: the inducing points are drawn with state.key, state.n_locs of them *)
  Definition c_rp_lml (d : data) (kw : dict obj) (s : state) : result num :=
    let unmodelled := rest d kw s in
    if negb (wants_dense kw) then unmodelled else
    match d, attr s "key", attr s "n_locs" with
    | Targets x y, Ok key, Ok (OArr a) =>
        match hyper kernels (s_params s) (s_kernel s), means (s_mean s), mat_of x, mat_of y, option_map nat_of (scalar_of a) with
        | Some (k, sigma), Some mf, Some (n, nf, X), Some (n', o, Y), Some (Some nl) =>
            if Nat.eqb n n' && Nat.leb nl n && Nat.ltb 0 n then Ok (Some (rp_lml_dense la (keyed key) n o nf nl k sigma X Y mf)) else unmodelled
        | _, _, _, _, _ => unmodelled
        end
    | _, _, _ => unmodelled
    end.

  (** models/base.py:266-343 log_marginal_likelihood and log_marginal_likelihood_derivs of a class, whose function
      _lml_fun has signature g and body f; kw are iterative, num_evals, num_lanczos and key_lanczos. There is no check
      whether the model is fitted. *)
  Definition lik_names : list string := ["iterative"; "num_evals"; "num_lanczos"; "key_lanczos"].
  Definition neg_num (x : num) : num := match x with Some r => Some (- r) | None => None end.
  Definition base_lml (g : sig) (f : data -> dict obj -> state -> result num) (s : state) (d : data) (iterative : bool)
      (return_negative : bool) : result num :=
    bind (call g 1 (data_names (task_of d) ++ lik_names)%list (f d [("iterative", OBool iterative)] s))
      (fun lml => Ok (if return_negative then neg_num lml else lml)).
  (** gpr.py:960-961, sgpr.py:791-792, sgpr_rpchol.py:798-799 *)
  Definition lml_sig (fam : family) (t : task) : sig :=
    let more := match fam with Dense => ["n_pivots"; "key_precond"] | Sparse => [] end in
    Sig ("state" :: data_names t) (lik_names ++ more)%list.

  (** gpr.py:177-184, sgpr.py:155-162, sgpr_rpchol.py:159-166 log_prior, when it is a single number: what each
      parameter adds. A parameter of any other shape makes the sum an array (or fails to broadcast), which
      jax.value_and_grad refuses. *)
  Definition leaf_logpdf (p : param) : result num :=
    match a_shape (p_value p), a_data (p_value p) with
    | [], [Some r] => Ok (Some (logpdf gammaln (pr_dist (m_prior (p_meta p))) r))
    | [], _ => Ok None
    | _, _ => Err TypeError
    end.
  Fixpoint sum_logpdf (ps : list param) : result num :=
    match ps with
    | [] => Ok (Some 0)
    | p :: r => bind (leaf_logpdf p) (fun a => bind (sum_logpdf r) (fun b =>
        Ok (match a, b with Some x, Some y => Some (x + y) | _, _ => None end)))
    end.
  Definition c_log_prior (s : state) : result num := sum_logpdf (params_of (s_params s)).

  (** gpr.py:251-352, sgpr.py:221-306, sgpr_rpchol.py:224-309: the losses, given the likelihood of the class *)
  Definition c_loss (lml : data -> dict obj -> state -> result num) (l : library_loss) (d : data) (kw : dict obj) (s : state) : result num :=
    match l with
    | NLML | NLMLDerivs => bind (lml d kw s) (fun v => Ok (neg_num v))
    | NLP | NLPDerivs => bind (lml d kw s) (fun v => bind (c_log_prior s) (fun w =>
        Ok (match v, w with Some a, Some b => Some (- (a + b)) | _, _ => None end)))
    | MSE => rest d kw s
    end.
  (** the losses of a class as used by Model/Lifecycle.v: which objects are functions of the library is given by named,
      all others are the user's own *)
  Definition library (fam : family) (lml : data -> dict obj -> state -> result num) (named : obj -> option library_loss)
      (grad : library_loss -> data -> dict obj -> state -> array)
      (own : obj -> option (sig * (data -> dict obj -> state -> result (num * array))))
      : obj -> option (sig * (data -> dict obj -> state -> result (num * array))) :=
    fun o => match named o with
             | Some l => option_map (fun g => (g, fun d kw s => bind (c_loss lml l d kw s) (fun v => Ok (v, grad l d kw s)))) (loss_sig fam l)
             | None => own o
             end.
End Training.
