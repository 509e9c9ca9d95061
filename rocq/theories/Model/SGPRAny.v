(** Models the dense routines of gpx/models/_sgpr.py for a kernel object of any origin, as Model/GPRAny.v does for
    _gpr.py; Model/SGPR.v and SGPRMore.v follow the same lines for the kernels of the library. The arguments of d0kjc and
    d01kjc are not named here. *)
From Coq Require Import Bool Reals Arith.
From Verif Require Import Base.Sums Base.Mat Model.Arrays Model.PyDict Model.Params Model.LinAlg Model.GPR Model.SGPR
  Model.Public Model.KernelMethods Model.GPRAny.
Open Scope R_scope.

(** array expressions of a pair of matrices *)
Definition with_pair {A} (a : result (option (Mat * Mat))) (f : Mat -> Mat -> A) : result (option A) :=
  bind a (fun p => Ok (option_map (fun q => f (fst q) (snd q)) p)).

Section SAny.
  Variables (la : linalg) (nf : nat) (K : kernel_object) (t : ptree) (sigma : R).
  (** _sgpr.py:40-61 _A_lhs *)
  Definition any_sg_A_lhs (n : nat) (x1 x2 : Mat) : result (option (Mat * Mat)) :=
    with2 (o_k (ko K) nf x1 x2 t) (o_k (ko K) nf x1 x1 t) (fun K_mn C_mm => (sg_lhs n sigma C_mm K_mn, K_mn)).
  (** _sgpr.py:64-93 _A_derivs_lhs; jac1 has nv columns, jac2 nd *)
  Definition any_sg_A_derivs_lhs (m n nv nd : nat) (x1 : Mat) (jac1 : Ten) (x2 : Mat) (jac2 : Ten) : result (option (Mat * Mat)) :=
    with2 (o_d01kj (ko K) m n nf nv nd x1 x2 t jac1 jac2) (o_d01kj (ko K) m m nf nv nv x1 x1 t jac1 jac1)
      (fun K_mn C_mm => (sg_lhs (n * nd) sigma C_mm K_mn, K_mn)).

  (** _sgpr.py:319-340 _fit_dense *)
  Definition any_sg_fit (m n o : nat) (x_locs x y : Mat) (mean_function : nat -> nat -> Mat -> R) : result (option (Mat * R)) :=
    let mu := mean_function n o y in
    let y : Mat := fun i j => y i j - mu in
    with_pair (any_sg_A_lhs n x_locs x) (fun C_mm K_mn => (la_solve la m C_mm (mm n K_mn y), mu)).
  (** _sgpr.py:366-396 _fit_derivs_dense; y has shape (n, nd) *)
  Definition any_sg_fit_derivs (m n nv nd : nat) (x_locs : Mat) (jac_locs : Ten) (x y : Mat) (jac : Ten)
      (mean_function : nat -> nat -> Mat -> R) : result (option (Mat * R)) :=
    let y := flat nd y in
    let mu := mean_function (n * nd)%nat 1%nat y in
    let y : Mat := fun i j => y i j - mu in
    with_pair (any_sg_A_derivs_lhs m n nv nd x_locs jac_locs x jac)
      (fun C_mm K_mn => (la_solve la (m * nv) C_mm (mm (n * nd) K_mn y), mu)).

  (** _sgpr.py:435-467 _predict_dense: the mean, and the covariance *)
  Definition any_sg_predict (m : nat) (x_locs x c : Mat) (mu : R) : out :=
    with1 (o_k (ko K) nf x x_locs t) (fun K_nm => fun s j => mu + mm m K_nm c s j).
  Definition any_sg_predict_cov (m n : nat) (x_locs x : Mat) : out :=
    bind (any_sg_A_lhs n x_locs x) (fun CK =>
    bind (with2 (o_k (ko K) nf x_locs x_locs t) (o_k (ko K) nf x x t) pair) (fun KC =>
    Ok (match CK, KC with
        | Some (C_mm, K_mn), Some (K_mm, C_nn) => Some (sg_cov_of la m sigma K_mm C_mm K_mn C_nn)
        | _, _ => None
        end))).
  (** _sgpr.py:470-526 _predict_derivs_dense, the mean; jaccoef is None, or given *)
  Definition any_sg_predict_derivs (m n nv nd : nat) (x_locs : Mat) (jac_locs : Ten) (x : Mat) (jac : Ten) (c : Mat) (mu : R)
      (jaccoef : option Mat) : out :=
    match jaccoef with
    | Some jc => with1 (o_d01kjc (ko K) m n nf nd x_locs x t jc jac) (fun A => unflat nd (fun r _ => mu + sum m (fun s => A s r)))
    | None => with1 (o_d01kj (ko K) n m nf nd nv x x_locs t jac jac_locs)
        (fun K_nm => unflat nd (fun r j => mu + mm (m * nv) K_nm c r j))
    end.
  (** _sgpr.py:580-624 _predict_y_derivs_dense, the mean *)
  Definition any_sg_predict_y_derivs (m n nv : nat) (x_locs : Mat) (jac_locs : Ten) (x c : Mat) (mu : R) (jaccoef : option Mat) : out :=
    match jaccoef with
    | Some jc => with1 (o_d0kjc (ko K) m n nf x_locs x t jc) (fun A s _ => mu + sum m (fun i => A i s))
    | None => with1 (o_d0kj (ko K) m n nf nv x_locs x t jac_locs) (fun K_mn s j => mu + mm (m * nv) (tr K_mn) c s j)
    end.

  (** _sgpr.py:660-697 _lml_dense *)
  Definition any_sg_lml (m n o : nat) (x_locs x y : Mat) (mean_function : nat -> nat -> Mat -> R) : result (option R) :=
    let mu := mean_function n o y in
    with2 (o_k (ko K) nf x_locs x_locs t) (o_k (ko K) nf x_locs x t)
      (fun K_mm K_mn => sg_lml_of la m n o sigma K_mm K_mn (fun i j => y i j - mu)).
  (** _sgpr.py:741-784 _lml_derivs_dense, at least one inducing point and one sample. As in Model/SGPRMore.v: eye(m) has
      the shape of K_mm if nv = 1 and is broadcast if m = 1, and y of shape (n, nd) needs n*nd = n; otherwise an exception
      is raised, whose class is not followed. *)
  Definition any_sg_lml_derivs (m n nv nd : nat) (x_locs : Mat) (jac_locs : Ten) (x y : Mat) (jac : Ten)
      (mean_function : nat -> nat -> Mat -> R) : result (option R) :=
    let mu := mean_function n nd y in
    let y : Mat := fun i j => y i j - mu in
    bind (with2 (o_d01kj (ko K) m m nf nv nv x_locs x_locs t jac_locs jac_locs) (o_d01kj (ko K) m n nf nv nd x_locs x t jac_locs jac) pair) (fun KK =>
    if Nat.eqb nd 1 && (Nat.eqb nv 1 || Nat.eqb m 1) then
      let eye_m : Mat := if Nat.eqb nv 1 then eye else fun _ _ => 1 in
      Ok (option_map (fun KK : Mat * Mat =>
        let L_m := la_chol la (m * nv) (fun i j => fst KK i j + jit10 * eye_m i j) in
        let G_mn := la_tri la (m * nv) L_m (snd KK) in
        let C_nn : Mat := fun i j => mm (m * nv) (tr G_mn) G_mn i j + sigma ^ 2 * eye i j + jit10 * eye i j in
        lml_of la n nd C_nn y) KK)
    else Err ValueError).
End SAny.
