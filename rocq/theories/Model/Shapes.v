(** Shapes of the arrays computed by gpx/models/_gpr.py, _sgpr.py and the fits of gpr.py, sgpr.py: the same programs with
    every array replaced by its shape; None where jax.numpy raises. Library facts used: numpy broadcasting, the shape rules
    of dot, reshape, concatenate, solve, cholesky, solve_triangular and svd. mean functions return a scalar. *)
From Coq Require Import Arith List.
From Verif Require Import Model.RBFNet.
Import ListNotations.

Definition shape : Type := list nat.
Notation "x <- e ;; f" := (match e with Some x => f | None => None end) (at level 60, right associativity).

(** ** library operations *)
(** broadcasting: axes are aligned from the last *)
Fixpoint broadcast_rev (a b : shape) : option shape :=
  match a, b with
  | [], _ => Some b
  | _, [] => Some a
  | x :: a, y :: b => z <- bcast x y ;; r <- broadcast_rev a b ;; Some (z :: r)
  end.
Definition broadcast (a b : shape) : option shape := r <- broadcast_rev (rev a) (rev b) ;; Some (rev r).
Definition size (a : shape) : nat := fold_right Nat.mul 1 a.
Definition transpose (a : shape) : shape := rev a.
Definition eye (n : nat) : shape := [n; n].
Definition dot (a b : shape) : option shape :=
  match a, b with
  | [], _ => Some b
  | _, [] => Some a
  | [p], [q] => if Nat.eqb p q then Some [] else None
  | [p; q], [r] => if Nat.eqb q r then Some [p] else None
  | [q], [r; s] => if Nat.eqb q r then Some [s] else None
  | [p; q], [r; s] => if Nat.eqb q r then Some [p; s] else None
  | _, _ => None (* more than two axes: not used *)
  end.
Definition reshape (a b : shape) : option shape := if Nat.eqb (size a) (size b) then Some b else None.
(** reshape(-1, k) *)
Definition reshape_any (a : shape) (k : nat) : option shape :=
  match k with
  | O => None
  | _ => if Nat.eqb (Nat.modulo (size a) k) 0 then Some [Nat.div (size a) k; k] else None
  end.
Definition square (a : shape) : option nat := match a with [p; q] => if Nat.eqb p q then Some p else None | _ => None end.
Definition cholesky (a : shape) : option shape := n <- square a ;; Some [n; n].
(** jnp.linalg.solve and solve_triangular *)
Definition solve (a b : shape) : option shape :=
  n <- square a ;;
  match b with
  | [p] => if Nat.eqb p n then Some [p] else None
  | [p; o] => if Nat.eqb p n then Some [p; o] else None
  | _ => None
  end.
Definition concatenate (a b : shape) : option shape :=
  match a, b with [p; o], [q; o'] => if Nat.eqb o o' then Some [p + q; o] else None | _, _ => None end.
Definition svd (a : shape) : option (shape * shape * shape) :=
  match a with [p; m] => Some ([p; Nat.min p m], [Nat.min p m], [Nat.min p m; m]) | _ => None end.
Definition sum0 (a : shape) : option shape := match a with [] => None | _ :: r => Some r end.
Definition last_axis (a : shape) : option shape := match rev a with [] => None | _ :: r => Some (rev r) end.
Definition dim0 (a : shape) : option nat := match a with n :: _ => Some n | [] => None end.
Definition dim1 (a : shape) : option nat := match a with _ :: n :: _ => Some n | _ => None end.

(** ** kernels (shapes established in Model/Kernels.v): x (n, f), jacobian (n, f, v) *)
Definition kern (x1 x2 : shape) : option shape :=
  match x1, x2 with [n1; f1], [n2; f2] => if Nat.eqb f1 f2 then Some [n1; n2] else None | _, _ => None end.
Definition jac_ok (x j : shape) : option nat :=
  match x, j with [n; f], [n'; f'; v] => if Nat.eqb n n' then if Nat.eqb f f' then Some v else None else None | _, _ => None end.
Definition d0kj (x1 x2 j : shape) : option shape :=
  v <- jac_ok x1 j ;; k <- kern x1 x2 ;; match k with [n1; n2] => Some [n1 * v; n2] | _ => None end.
Definition d1kj (x1 x2 j : shape) : option shape :=
  v <- jac_ok x2 j ;; k <- kern x1 x2 ;; match k with [n1; n2] => Some [n1; n2 * v] | _ => None end.
Definition d01kj (x1 x2 j1 j2 : shape) : option shape :=
  v <- jac_ok x1 j1 ;; w <- jac_ok x2 j2 ;; k <- kern x1 x2 ;;
  match k with [n1; n2] => Some [n1 * v; n2 * w] | _ => None end.
(** contracted versions; jaccoef (n1, f) *)
Definition d0kjc (x1 x2 jc : shape) : option shape :=
  match x1, jc with [n; f], [n'; f'] => if Nat.eqb n n' then if Nat.eqb f f' then kern x1 x2 else None else None | _, _ => None end.
Definition d01kjc (x1 x2 jc j2 : shape) : option shape :=
  k <- d0kjc x1 x2 jc ;; w <- jac_ok x2 j2 ;; match k with [n1; n2] => Some [n1; n2 * w] | _ => None end.

(** ** _gpr.py *)
(** 38-53 _A_lhs; noise adds a multiple of eye(x1.shape[0]) *)
Definition g_A_lhs (x1 x2 : shape) (noise : bool) : option shape :=
  K <- kern x1 x2 ;; if noise then n <- dim0 x1 ;; broadcast K (eye n) else Some K.
(** 56-81 _A_derivs_lhs; eye(x1.shape[0] * jacobian1.shape[2]) *)
Definition g_A_derivs_lhs (x1 j1 x2 j2 : shape) (noise : bool) : option shape :=
  K <- d01kj x1 x2 j1 j2 ;;
  if noise then v <- jac_ok x1 j1 ;; n <- dim0 x1 ;; broadcast K (eye (n * v)) else Some K.
(** 260-280 _fit_dense *)
Definition g_fit_dense (x y : shape) : option shape := C <- g_A_lhs x x true ;; solve C y.
(** 310-342 _fit_derivs_dense *)
Definition g_fit_derivs_dense (x j y : shape) : option shape :=
  y <- reshape_any y 1 ;; C <- g_A_derivs_lhs x j x j true ;; solve C y.
(** gpr.py:476-478 the contracted jacobian: einsum("sv,sfv->sf", c.reshape(ns, nv), jacobian) *)
Definition jaccoef (c j : shape) : option shape :=
  match j with [ns; f; nv] => _ <- reshape c [ns; nv] ;; Some [ns; f] | _ => None end.
(** gpr.py:437-489 fit_derivs: c and jaccoef *)
Definition g_fit_derivs (x y j : shape) : option (shape * shape) :=
  c <- g_fit_derivs_dense x j y ;; jc <- jaccoef c j ;; Some (c, jc).
(** covariance K_nn - G^T G of a conditional Gaussian *)
Definition schur (C_mm K_mn C_nn : shape) : option shape :=
  L <- cholesky C_mm ;; G <- solve L K_mn ;; P <- dot (transpose G) G ;; broadcast C_nn P.
(** 434-464 _predict_dense *)
Definition g_predict (x_train x c : shape) : option shape :=
  K <- g_A_lhs x_train x false ;; p <- dot (transpose K) c ;; broadcast [] p.
Definition g_predict_cov (x_train x : shape) : option shape :=
  K <- g_A_lhs x_train x false ;; C <- g_A_lhs x_train x_train true ;; N <- g_A_lhs x x false ;; schur C K N.
(** 489-568 _predict_derivs_dense: contracted; plain; with covariance, where the mean is not reshaped *)
Definition g_predict_derivs_jc (x_train x j jc : shape) : option shape :=
  match j with
  | [ns; _; nd] => K <- d01kjc x_train x jc j ;; s <- sum0 K ;; m <- broadcast [] s ;; reshape m [ns; nd]
  | _ => None
  end.
Definition g_predict_derivs (x_train j_train x j c : shape) : option shape :=
  match j with
  | [ns; _; nd] => K <- g_A_derivs_lhs x_train j_train x j false ;; p <- dot (transpose K) c ;; m <- broadcast [] p ;; reshape m [ns; nd]
  | _ => None
  end.
Definition g_predict_derivs_cov (x_train j_train x j c : shape) : option (shape * shape) :=
  K <- g_A_derivs_lhs x_train j_train x j false ;; p <- dot (transpose K) c ;; m <- broadcast [] p ;;
  C <- g_A_derivs_lhs x_train j_train x_train j_train true ;; N <- g_A_derivs_lhs x j x j false ;;
  S <- schur C K N ;; Some (m, S).
(** 607-657 _predict_y_derivs_dense *)
Definition g_predict_y_derivs_jc (x_train x c jc : shape) : option shape :=
  n <- dim0 x ;; o <- dim1 c ;; K <- d0kjc x_train x jc ;; s <- sum0 K ;; m <- broadcast [] s ;; reshape m [n; o].
Definition g_predict_y_derivs_cov (x_train j_train x c : shape) : option (shape * shape) :=
  K <- d0kj x_train x j_train ;; p <- dot (transpose K) c ;; m <- broadcast [] p ;;
  D <- d01kj x_train x_train j_train j_train ;; r <- dim0 K ;; C <- broadcast D (eye r) ;;
  N <- kern x x ;; S <- schur C K N ;; Some (m, S).
(** 388-428 _fit_ol *)
Definition ol_solve (x y yd j : shape) : option shape :=
  yd <- reshape_any yd 1 ;; b <- concatenate y yd ;;
  A <- g_A_lhs x x true ;; D <- d0kj x x j ;; C <- concatenate A D ;;
  match svd C with
  | Some (U, [k], Vt) => Aeff <- dot [k; k] Vt ;; beff <- dot (transpose U) b ;; c <- solve Aeff beff ;; reshape_any c 1
  | _ => None
  end.
(** 686-739 _predict_ol *)
Definition g_predict_ol (x_train x j c : shape) : option (shape * shape) :=
  K <- g_A_lhs x_train x false ;; p <- dot (transpose c) K ;; p <- reshape_any p 1 ;; m <- broadcast [] p ;;
  K <- d1kj x_train x j ;; q <- dot (transpose c) K ;; q <- reshape_any q 1 ;; Some (m, q).
Definition g_predict_ol_cov (x_train x j c : shape) : option (shape * shape) :=
  K <- g_A_lhs x_train x false ;; p <- dot (transpose c) K ;; p <- reshape_any p 1 ;; m <- broadcast [] p ;;
  K <- d1kj x_train x j ;; C <- g_A_lhs x_train x_train true ;; N <- g_A_lhs x x false ;;
  S <- schur C K N ;; Some (m, S).
(** 742-774 _lml_dense, 834-871 _lml_derivs_dense: the triangular solve *)
Definition g_lml (x y : shape) : option shape := C <- g_A_lhs x x true ;; L <- cholesky C ;; _ <- solve L y ;; Some [].
Definition g_lml_derivs (x j y : shape) : option shape :=
  y <- reshape_any y 1 ;; C <- g_A_derivs_lhs x j x j true ;; L <- cholesky C ;; _ <- solve L y ;; Some [].
(** 938-983 _mse *)
Definition g_mse (x y j yd : shape) : option shape :=
  match yd with
  | [_; _; jv] =>
      c <- ol_solve x y yd j ;; yd <- reshape_any yd 1 ;;
      K <- g_A_lhs x x false ;; p <- dot (transpose c) K ;; p <- reshape_any p 1 ;; _ <- broadcast p y ;;
      D <- d1kj x x j ;; q <- dot (transpose c) D ;; q <- reshape_any q jv ;; r <- reshape_any yd jv ;; e <- broadcast q r ;;
      _ <- last_axis e ;; Some []
  | _ => None
  end.

(** ** _sgpr.py *)
(** 39-61 _A_lhs, 64-94 _A_derivs_lhs *)
Definition s_A_lhs (x1 x2 : shape) : option (shape * shape) :=
  m <- dim0 x1 ;; K <- kern x1 x2 ;; C <- kern x1 x1 ;; P <- dot K (transpose K) ;; C <- broadcast C P ;;
  C <- broadcast C (eye m) ;; Some (C, K).
Definition s_A_derivs_lhs (x1 j1 x2 j2 : shape) : option (shape * shape) :=
  v <- jac_ok x1 j1 ;; m <- dim0 x1 ;; K <- d01kj x1 x2 j1 j2 ;; C <- d01kj x1 x1 j1 j1 ;; P <- dot K (transpose K) ;;
  C <- broadcast C P ;; C <- broadcast C (eye (m * v)) ;; Some (C, K).
(** 319-341 _fit_dense, 371-404 _fit_derivs_dense, sgpr.py:340-388 fit_derivs *)
Definition s_fit_dense (xl x y : shape) : option shape :=
  r <- s_A_lhs xl x ;; b <- dot (snd r) y ;; solve (fst r) b.
Definition s_fit_derivs_dense (xl jl x y j : shape) : option shape :=
  y <- reshape_any y 1 ;; r <- s_A_derivs_lhs xl jl x j ;; b <- dot (snd r) y ;; solve (fst r) b.
Definition s_fit_derivs (xl jl x y j : shape) : option (shape * shape) :=
  c <- s_fit_derivs_dense xl jl x y j ;; jc <- jaccoef c jl ;; Some (c, jc).
(** K_nn - G^T G + H^T H *)
Definition schur2 (K_mm C_mm K_mn C_nn : shape) : option shape :=
  L <- cholesky K_mm ;; G <- solve L K_mn ;; L <- cholesky C_mm ;; H <- solve L K_mn ;;
  P <- dot (transpose G) G ;; S <- broadcast C_nn P ;; Q <- dot (transpose H) H ;; broadcast S Q.
(** 433-467 _predict_dense *)
Definition s_predict (xl x c : shape) : option shape := K <- kern x xl ;; p <- dot K c ;; broadcast [] p.
Definition s_predict_cov (xl x : shape) : option shape :=
  m <- dim0 xl ;; r <- s_A_lhs xl x ;; K <- kern xl xl ;; K <- broadcast K (eye m) ;; N <- kern x x ;; schur2 K (fst r) (snd r) N.
(** 470-526 _predict_derivs_dense; eye(m), m = x_locs.shape[0] *)
Definition s_predict_derivs (xl jl x j c : shape) : option shape :=
  match j with
  | [n; _; nd] => K <- d01kj x xl j jl ;; p <- dot K c ;; m <- broadcast [] p ;; reshape m [n; nd]
  | _ => None
  end.
Definition s_predict_derivs_cov (xl jl x j c : shape) : option (shape * shape) :=
  mu <- s_predict_derivs xl jl x j c ;; m <- dim0 xl ;; r <- s_A_derivs_lhs xl jl x j ;;
  K <- d01kj xl xl jl jl ;; K <- broadcast K (eye m) ;; N <- d01kj x x j j ;; S <- schur2 K (fst r) (snd r) N ;; Some (mu, S).
(** 583-629 _predict_y_derivs_dense; eye(m) *)
Definition s_predict_y_derivs_cov (xl jl x c : shape) : option (shape * shape) :=
  m <- dim0 xl ;; K <- d0kj xl x jl ;; p <- dot (transpose K) c ;; mu <- broadcast [] p ;;
  C <- d01kj xl xl jl jl ;; C <- broadcast C (eye m) ;; N <- kern x x ;; S <- schur C K N ;; Some (mu, S).
(** 662-702 _lml_dense, 738-785 _lml_derivs_dense; m = x_locs.shape[0], n = y.shape[0], y not flattened *)
Definition s_lml_of (m : nat) (K_mm K_mn y : shape) : option shape :=
  n <- dim0 y ;; C <- broadcast K_mm (eye m) ;; L <- cholesky C ;; G <- solve L K_mn ;; P <- dot (transpose G) G ;;
  N <- broadcast P (eye n) ;; N <- broadcast N (eye n) ;; L <- cholesky N ;; _ <- solve L y ;; Some [].
Definition s_lml (xl x y : shape) : option shape :=
  m <- dim0 xl ;; K <- kern xl xl ;; Kn <- kern xl x ;; s_lml_of m K Kn y.
Definition s_lml_derivs (xl jl x y j : shape) : option shape :=
  m <- dim0 xl ;; K <- d01kj xl xl jl jl ;; Kn <- d01kj xl x jl j ;; s_lml_of m K Kn y.
(** 240-255 the row of _Hx_derivs_fun: blocks of shape (w, w), one for each of the n samples, on a last axis, are reshaped
    to (nd, n * nd), nd = jacobian1.shape[2] *)
Definition s_Hx_derivs_row (xl jl x j : shape) : option shape :=
  nd <- jac_ok xl jl ;; w <- jac_ok x j ;; n <- dim0 x ;; _ <- kern xl x ;; reshape [w; w; n] [nd; n * nd].
