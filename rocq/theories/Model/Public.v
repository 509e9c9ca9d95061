(** Models gpx/models/gpr.py:397-717, sgpr.py:309-561 and sgpr_rpchol.py:312-574: which routine of _gpr.py,
    _sgpr.py and _sgpr_rpchol.py each public function calls, with which mean function, mean and contracted
    jacobian, and what it keeps in the state for the predictions. The dictionary of the state, its flags and
    the classes around these functions are in Model/Lifecycle.v. *)
From Coq Require Import List String Reals Arith Bool.
From Verif Require Import Base.Sums Base.Mat Model.Arrays Model.Kernels Model.LinAlg Model.Operations Model.RPCholesky
  Model.GPR Model.SGPR Model.SGPRMore Model.PyDict Model.Calls.
Import ListNotations.
Open Scope string_scope.
Open Scope R_scope.

(** what a prediction returns: the mean, or the mean and the covariance *)
Inductive output : Type := Mean (mean : Mat) | MeanCov (mean cov : Mat).
Definition mean_of (o : output) : Mat := match o with Mean M | MeanCov M _ => M end.

(** parameters of kernel.d0kjc and kernel.d01kjc, by the class of the kernel: kernelizers.py:197, 372 and
    kernels.py:630-680, 881-895, 1336-1347 for the basic kernels (partial(..., active_dims=...) lets
    active_dims be given by keyword only), operations.py:127-172 for Sum, 318-430 for Prod *)
Definition sig_d0kjc (k : kexp) : sig :=
  match k with
  | KAtom _ _ | KProd _ _ => Sig ["x1"; "x2"; "params"; "jaccoef"] ["active_dims"]
  | KSum _ _ => Sig ["x1"; "x2"; "params"; "jacobian"] ["active_dims"]
  end.
Definition sig_d01kjc (k : kexp) : sig :=
  match k with
  | KAtom _ _ | KProd _ _ => Sig ["x1"; "x2"; "params"; "jaccoef"; "jacobian"] ["active_dims"]
  | KSum _ _ => Sig ["x1"; "x2"; "params"; "jacobian1"; "jacobian2"] ["active_dims"]
  end.

(** the checks that open predict (derivs = false), predict_derivs and predict_y_derivs (derivs = true):
    gpr.py:566-579, 622-635, 680-693 and the same lines of the other two files *)
Definition guarded {A : Type} (fitted fitted_derivs derivs full iterative : bool) (body : result A) : result A :=
  if negb (if derivs then fitted_derivs else fitted) then Err RuntimeError else
  if (if derivs then fitted else fitted_derivs) then Err RuntimeError else
  if full && iterative then Err RuntimeError else body.

(** ** GPR *)
Record gpr_state : Type := GPRState {
  g_m : nat; g_nv : nat; g_x : Mat; g_jac : Ten; g_c : Mat; g_mu : R; g_jaccoef : Mat;
  g_fitted : bool; g_fitted_derivs : bool }.

Section GPR.
  Variables (la : linalg) (choose : nat -> Vec -> nat) (nf : nat) (k : kexp) (sigma : R).
  (** state.mean_function *)
  Variable mean_function : nat -> nat -> Mat -> R.

  (** gpr.py:397-433 fit; the jacobian and jaccoef of an earlier fit_derivs stay *)
  Definition gpr_fit (s : gpr_state) (m o : nat) (x y : Mat) (iterative : bool) (n_pivots : nat) : gpr_state :=
    let fit := if iterative then fit_iter la choose m o nf k sigma x y mean_function n_pivots
               else fit_dense la m o nf k sigma x y mean_function in
    GPRState m (g_nv s) x (g_jac s) (fst fit) (snd fit) (g_jaccoef s) true false.
  (** gpr.py:436-490 fit_derivs *)
  Definition gpr_fit_derivs (m nv : nat) (x y : Mat) (jac : Ten) (iterative : bool) (n_pivots : nat) : gpr_state :=
    let fit := if iterative then fit_derivs_iter la choose m nf nv k sigma x jac y zero_mean n_pivots
               else fit_derivs_dense la m nf nv k sigma x jac y zero_mean in
    GPRState m nv x jac (fst fit) (snd fit) (jaccoef_of nv (fst fit) jac) false true.
  (** gpr.py:493-537 fit_ol *)
  Definition gpr_fit_ol (U : Mat) (sv : Vec) (Vt : Mat) (s : gpr_state) (m nv : nat) (x y yd : Mat) (jac : Ten) : gpr_state :=
    let fit := fit_ol la U sv Vt m nf nv k sigma x y yd jac mean_function in
    GPRState m nv x jac (fst fit) (snd fit) (g_jaccoef s) true false.

  (** gpr.py:542-594 predict at n points *)
  Definition gpr_predict (s : gpr_state) (n : nat) (x : Mat) (full iterative : bool) : result output :=
    guarded (g_fitted s) (g_fitted_derivs s) false full iterative
      (Ok (if iterative then Mean (predict_iter (g_m s) n nf k sigma (g_x s) x (g_c s) (g_mu s))
           else let mu := predict_dense (g_m s) nf k sigma (g_x s) x (g_c s) (g_mu s) in
                if full then MeanCov mu (predict_cov la (g_m s) nf k sigma (g_x s) x) else Mean mu)).
  (** gpr.py:597-656 predict_derivs, with _gpr.py:489-568: with the covariance the mean is not reshaped *)
  Definition gpr_predict_derivs (s : gpr_state) (n nd : nat) (x : Mat) (jac : Ten) (full iterative : bool) : result output :=
    guarded (g_fitted s) (g_fitted_derivs s) true full iterative
      (if iterative then Ok (Mean (predict_derivs_iter (g_m s) n nf (g_nv s) nd k sigma (g_x s) (g_jac s) x jac (g_c s) 0))
       else if full then
         let K_mn := A_derivs_lhs (g_m s) n nf (g_nv s) nd k sigma (g_x s) (g_jac s) x jac false in
         Ok (MeanCov (fun r j => 0 + mm (g_m s * g_nv s) (tr K_mn) (g_c s) r j)
                     (predict_derivs_cov la (g_m s) n nf (g_nv s) nd k sigma (g_x s) (g_jac s) x jac))
       else call (sig_d01kjc k) 0 ["x1"; "x2"; "params"; "jaccoef"; "jacobian"]
         (Ok (Mean (predict_derivs_jaccoef (g_m s) n nf nd k (g_x s) x jac 0 (g_jaccoef s))))).
  (** gpr.py:659-717 predict_y_derivs, with _gpr.py:608-659 *)
  Definition gpr_predict_y_derivs (s : gpr_state) (n : nat) (x : Mat) (full iterative : bool) : result output :=
    guarded (g_fitted s) (g_fitted_derivs s) true full iterative
      (if iterative then Ok (Mean (predict_y_derivs_iter (g_m s) n nf (g_nv s) k (g_x s) (g_jac s) x (g_c s) (g_mu s)))
       else if full then
         Ok (MeanCov (predict_y_derivs_dense (g_m s) n nf (g_nv s) k (g_x s) (g_jac s) x (g_c s) (g_mu s))
                     (predict_y_derivs_cov la (g_m s) n nf (g_nv s) k sigma (g_x s) (g_jac s) x))
       else call (sig_d0kjc k) 0 ["x1"; "x2"; "params"; "jaccoef"]
         (Ok (Mean (predict_y_derivs_jaccoef (g_m s) n nf k (g_x s) x (g_mu s) (g_jaccoef s))))).
End GPR.

(** ** SGPR and SGPR_RPChol *)
Record sgpr_state : Type := SGPRState {
  s_m : nat; s_nv : nat; s_locs : Mat; s_jac_locs : Ten; s_c : Mat; s_mu : R; s_jaccoef : Mat;
  s_fitted : bool; s_fitted_derivs : bool }.

Section SGPR.
  Variables (la : linalg) (choose : nat -> Vec -> nat) (nf : nat) (k : kexp) (sigma : R).
  Variable mean_function : nat -> nat -> Mat -> R.
  (** sgpr.py:309-338 fit; m inducing points with nv jacobian columns, kept in state.params *)
  Definition sgpr_fit (s : sgpr_state) (n o : nat) (x y : Mat) (iterative : bool) : sgpr_state :=
    let fit := if iterative then sg_fit_iter la (s_m s) n o nf k sigma (s_locs s) x y mean_function
               else sg_fit_dense la (s_m s) n o nf k sigma (s_locs s) x y mean_function in
    SGPRState (s_m s) (s_nv s) (s_locs s) (s_jac_locs s) (fst fit) (snd fit) (s_jaccoef s) true false.
  (** sgpr.py:341-388 fit_derivs; n samples with nd jacobian columns *)
  Definition sgpr_fit_derivs (s : sgpr_state) (n nd : nat) (x y : Mat) (jac : Ten) (iterative : bool) : sgpr_state :=
    let fit := if iterative then sg_fit_derivs_iter la (s_m s) n nf (s_nv s) nd k sigma (s_locs s) (s_jac_locs s) x y jac zero_mean
               else sg_fit_derivs_dense la (s_m s) n nf (s_nv s) nd k sigma (s_locs s) (s_jac_locs s) x y jac zero_mean in
    SGPRState (s_m s) (s_nv s) (s_locs s) (s_jac_locs s) (fst fit) (snd fit)
      (jaccoef_of (s_nv s) (fst fit) (s_jac_locs s)) false true.
  (** sgpr_rpchol.py:312-347 fit; the inducing points are chosen from x *)
  Definition rp_fit (s : sgpr_state) (n_locs n o : nat) (x y : Mat) (iterative : bool) : sgpr_state :=
    let fit := if iterative then rp_fit_iter la choose n o nf n_locs k sigma x y mean_function
               else rp_fit_dense la choose n o nf n_locs k sigma x y mean_function in
    SGPRState n_locs (s_nv s) (snd fit) (s_jac_locs s) (fst (fst fit)) (snd (fst fit)) (s_jaccoef s) true false.
  (** sgpr_rpchol.py:350-401 fit_derivs *)
  Definition rp_fit_derivs (n_locs n nd : nat) (x y : Mat) (jac : Ten) (iterative : bool) : sgpr_state :=
    let fit := if iterative then rp_fit_derivs_iter la choose n nf nd n_locs k sigma x y jac zero_mean
               else rp_fit_derivs_dense la choose n nf nd n_locs k sigma x y jac zero_mean in
    let c := fst (fst (fst fit)) in
    SGPRState n_locs nd (snd (fst fit)) (snd fit) c (snd (fst (fst fit))) (jaccoef_of nd c (snd fit)) false true.

  (** sgpr.py:391-441 and sgpr_rpchol.py:404-454 predict *)
  Definition sgpr_predict (s : sgpr_state) (n : nat) (x : Mat) (full iterative : bool) : result output :=
    guarded (s_fitted s) (s_fitted_derivs s) false full iterative
      (Ok (if iterative then Mean (sg_predict_iter (s_m s) n nf k sigma (s_locs s) x (s_c s) (s_mu s))
           else let mu := sg_predict_dense (s_m s) nf k (s_locs s) x (s_c s) (s_mu s) in
                if full then MeanCov mu (sg_predict_cov la (s_m s) n nf k sigma (s_locs s) x) else Mean mu)).
  (** sgpr.py:444-503, 506-561 and sgpr_rpchol.py:457-516, 519-574 predict_derivs, predict_y_derivs without
      the covariance (for its shape see C49); the contracted kernels are called by position *)
  Definition sgpr_predict_derivs (s : sgpr_state) (n nd : nat) (x : Mat) (jac : Ten) (iterative : bool) : result output :=
    guarded (s_fitted s) (s_fitted_derivs s) true false iterative
      (if iterative then Ok (Mean (sg_predict_derivs_iter (s_m s) n nf (s_nv s) nd k sigma (s_locs s) (s_jac_locs s) x jac (s_c s) 0))
       else call (sig_d01kjc k) 5 []
         (Ok (Mean (sg_predict_derivs_jaccoef (s_m s) n nf nd k (s_locs s) x jac 0 (s_jaccoef s))))).
  Definition sgpr_predict_y_derivs (s : sgpr_state) (n : nat) (x : Mat) (iterative : bool) : result output :=
    guarded (s_fitted s) (s_fitted_derivs s) true false iterative
      (if iterative then Ok (Mean (sg_predict_y_derivs_iter (s_m s) n nf (s_nv s) k (s_locs s) (s_jac_locs s) x (s_c s) (s_mu s)))
       else call (sig_d0kjc k) 4 []
         (Ok (Mean (sg_predict_y_derivs_jaccoef (s_m s) n nf k (s_locs s) x (s_mu s) (s_jaccoef s))))).
End SGPR.
