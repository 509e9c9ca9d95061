(** Models gpx/kernels/kernels.py and gpx/kernels/operations.py (103-426).

    Lengthscales are scalars.  The degree of the polynomial kernel is a natural
    number (the code stores a float; only integral degrees are modelled, and
    degree-1, degree-2 are truncated subtractions, which agree with the code
    because the truncated powers are multiplied by degree, degree-1).
    Arrays are real functions; all active_dims are in bounds. *)
From Coq Require Import Reals Arith List.
From Coquelicot Require Import Coquelicot.
From Verif Require Import Base.Sums Base.Mat Model.Arrays Model.Distances Model.Kernelizers.
Open Scope R_scope.

(** active_dims=None means jnp.arange(nf), e.g. kernels.py:75-76 *)
Definition dims (nf : nat) (ad : option (list nat)) : list nat :=
  match ad with None => seq 0 nf | Some l => l end.

(** 1e-36, kernels.py:908 etc. *)
Definition tiny36 : R := / 10 ^ 36.

(** kernel atoms: the classes of kernels.py:1497-1791 with parameter values *)
Inductive atom : Type :=
| AConst (variance : R)                 (* kernels.py:1497 Constant *)
| ALin                                  (* kernels.py:1535 Linear *)
| APoly (degree : nat) (offset : R)     (* kernels.py:1565 Polynomial *)
| ANoInt (degree : nat) (offset : R)    (* kernels.py:1565 Polynomial(no_intercept=True) *)
| ASE (l : R)                           (* kernels.py:1623 SquaredExponential *)
| AM12 (l : R)                          (* kernels.py:1661 Matern12 *)
| AM32 (l : R)                          (* kernels.py:1689 Matern32 *)
| AM52 (l : R)                          (* kernels.py:1717 Matern52 *)
| APer (l p : R).                       (* kernels.py:1757 ExpSinSquared *)

(** ** Base kernels on two samples with na (already selected) features *)

(** kernels.py:66-67 *)
Definition constant_base (variance : R) (na : nat) (x1 x2 : Vec) : R := variance.
(** kernels.py:210-211 *)
Definition linear_base (na : nat) (x1 x2 : Vec) : R := sum na (fun a => x1 a * x2 a).
(** kernels.py:376-379 *)
Definition polynomial_base (d : nat) (off : R) (na : nat) (x1 x2 : Vec) : R :=
  (off + sum na (fun a => x1 a * x2 a)) ^ d.
(** kernels.py:688-691 *)
Definition no_intercept_base (d : nat) (off : R) (na : nat) (x1 x2 : Vec) : R :=
  (off + sum na (fun a => x1 a * x2 a)) ^ d - off ^ d.
(** kernels.py:731-736 *)
Definition se_base (l : R) (na : nat) (x1 x2 : Vec) : R :=
  exp (- sum na (fun a => (x1 a / l - x2 a / l) ^ 2)).
(** kernels.py:902-909 *)
Definition m12_base (l : R) (na : nat) (x1 x2 : Vec) : R :=
  let d2 := sum na (fun a => (x1 a / l - x2 a / l) ^ 2) in
  let d := sqrt (Rmax d2 tiny36) in
  exp (- d).
(** kernels.py:945-953 *)
Definition m32_base (l : R) (na : nat) (x1 x2 : Vec) : R :=
  let d2 := 3 * sum na (fun a => (x1 a / l - x2 a / l) ^ 2) in
  let d := sqrt (Rmax d2 tiny36) in
  (1 + d) * exp (- d).
(** kernels.py:1029-1037 *)
Definition m52_base (l : R) (na : nat) (x1 x2 : Vec) : R :=
  let d2 := 5 * sum na (fun a => (x1 a / l - x2 a / l) ^ 2) in
  let d := sqrt (Rmax d2 tiny36) in
  (1 + d + d2 / 3) * exp (- d).
(** kernels.py:1355-1360 *)
Definition per_base (l p : R) (na : nat) (x1 x2 : Vec) : R :=
  exp (- 4 * sum na (fun a => (sin (PI * Rabs (x1 a - x2 a) / p)) ^ 2 / l)).

Definition atom_base (a : atom) (na : nat) (x1 x2 : Vec) : R :=
  match a with
  | AConst v => constant_base v na x1 x2
  | ALin => linear_base na x1 x2
  | APoly d off => polynomial_base d off na x1 x2
  | ANoInt d off => no_intercept_base d off na x1 x2
  | ASE l => se_base l na x1 x2
  | AM12 l => m12_base l na x1 x2
  | AM32 l => m32_base l na x1 x2
  | AM52 l => m52_base l na x1 x2
  | APer l p => per_base l p na x1 x2
  end.

(** the public [*_kernel_base] functions, e.g. kernels.py:70-77: select the
    active features, then apply the private function *)
Definition kernel_base (nf : nat) (ad : option (list nat)) (a : atom) (x1 x2 : Vec) : R :=
  atom_base a (length (dims nf ad)) (gather (dims nf ad) x1) (gather (dims nf ad) x2).

(** ** Fast batched kernels; x1, x2 are batches with na selected features *)

(** kernels.py:83-86 *)
Definition constant_fast (variance : R) (na : nat) (x1 x2 : Mat) : Mat := fun _ _ => 1 * variance.
(** kernels.py:226-227 *)
Definition linear_fast (na : nat) (x1 x2 : Mat) : Mat := mm na x1 (tr x2).
(** kernels.py:393-396 *)
Definition polynomial_fast (d : nat) (off : R) (na : nat) (x1 x2 : Mat) : Mat :=
  fun s t => (off + mm na x1 (tr x2) s t) ^ d.
(** kernels.py:707-710 *)
Definition no_intercept_fast (d : nat) (off : R) (na : nat) (x1 x2 : Mat) : Mat :=
  fun s t => (off + mm na x1 (tr x2) s t) ^ d - off ^ d.
(** x / lengthscale *)
Definition scaled (l : R) (x : Mat) : Mat := fun s a => x s a / l.
(** kernels.py:751-757 *)
Definition se_fast (l : R) (na : nat) (x1 x2 : Mat) : Mat :=
  fun s t => exp (- squared_distances na (scaled l x1) (scaled l x2) s t).
(** kernels.py:922-927 *)
Definition m12_fast (l : R) (na : nat) (x1 x2 : Mat) : Mat :=
  fun s t => let d2 := squared_distances na (scaled l x1) (scaled l x2) s t in
             let d := sqrt (Rmax d2 tiny36) in exp (- d).
(** kernels.py:966-971 *)
Definition m32_fast (l : R) (na : nat) (x1 x2 : Mat) : Mat :=
  fun s t => let d2 := squared_distances na (scaled l x1) (scaled l x2) s t in
             let d := sqrt 3 * sqrt (Rmax d2 tiny36) in (1 + d) * exp (- d).
(** kernels.py:1050-1055 *)
Definition m52_fast (l : R) (na : nat) (x1 x2 : Mat) : Mat :=
  fun s t => let d2 := squared_distances na (scaled l x1) (scaled l x2) s t in
             let d := sqrt 5 * sqrt (Rmax d2 tiny36) in (1 + d + d ^ 2 / 3) * exp (- d).

(** ** Autodiff of the base kernels *)

(** kernels.py:984-991 _matern32_kernel_base_t0 (and t1 = -t0, 994-997) *)
Definition m32_t0 (l : R) (na : nat) (x1 x2 : Vec) : Vec :=
  fun a => let diff := fun b => sqrt 3 * (x1 b / l - x2 b / l) in
           let d := sqrt (Rmax (sum na (fun b => diff b ^ 2)) tiny36) in
           - sqrt 3 / l * exp (- d) * diff a.
Definition m32_t1 (l : R) (na : nat) (x1 x2 : Vec) : Vec := fun a => - m32_t0 l na x1 x2 a.
(** kernels.py:1000-1007 _matern32_kernel_base_t2, scalar lengthscale *)
Definition m32_t2 (l : R) (na : nat) (x1 x2 : Vec) : R :=
  let diff := fun b => sqrt 3 * (x1 b / l - x2 b / l) in
  let d := sqrt (Rmax (sum na (fun b => diff b ^ 2)) tiny36) in
  1 / l * exp (- d) * d ^ 2.
(** kernels.py:1068-1075 _matern52_kernel_base_t0 (and t1 = -t0, 1078-1081) *)
Definition m52_t0 (l : R) (na : nat) (x1 x2 : Vec) : Vec :=
  fun a => let diff := fun b => sqrt 5 * (x1 b / l - x2 b / l) in
           let d := sqrt (Rmax (sum na (fun b => diff b ^ 2)) tiny36) in
           - (sqrt 5 / (3 * l)) * (1 + d) * exp (- d) * diff a.
Definition m52_t1 (l : R) (na : nat) (x1 x2 : Vec) : Vec := fun a => - m52_t0 l na x1 x2 a.
(** kernels.py:1084-1091 _matern52_kernel_base_t2, scalar lengthscale *)
Definition m52_t2 (l : R) (na : nat) (x1 x2 : Vec) : R :=
  let diff := fun b => sqrt 5 * (x1 b / l - x2 b / l) in
  let d := sqrt (Rmax (sum na (fun b => diff b ^ 2)) tiny36) in
  1 / (3 * l) * exp (- d) * d ^ 2 * (1 + d).

(** jacrev(kernel_base, argnums=0): the partial derivatives, except for
    Matern32/52 whose custom_jvp rules (kernels.py:1010-1021, 1094-1105) replace
    autodiff; differentiating x1[active_dims] scatters (adds) into the features *)
Definition jac0 (nf : nat) (ad : option (list nat)) (a : atom) (x1 x2 : Vec) : Vec :=
  fun f =>
    let ds := dims nf ad in
    match a with
    | AM32 l => scat_add ds (m32_t0 l (length ds) (gather ds x1) (gather ds x2)) f
    | AM52 l => scat_add ds (m52_t0 l (length ds) (gather ds x1) (gather ds x2)) f
    | _ => Derive (fun t => kernel_base nf ad a (upd x1 f t) x2) (x1 f)
    end.
(** jacrev(kernel_base, argnums=1) *)
Definition jac1 (nf : nat) (ad : option (list nat)) (a : atom) (x1 x2 : Vec) : Vec :=
  fun f =>
    let ds := dims nf ad in
    match a with
    | AM32 l => scat_add ds (m32_t1 l (length ds) (gather ds x1) (gather ds x2)) f
    | AM52 l => scat_add ds (m52_t1 l (length ds) (gather ds x1) (gather ds x2)) f
    | _ => Derive (fun t => kernel_base nf ad a x1 (upd x2 f t)) (x2 f)
    end.
(** jacfwd(jacrev(kernel_base, 0), 1) *)
Definition hess01 (nf : nat) (ad : option (list nat)) (a : atom) (x1 x2 : Vec) : Mat :=
  fun f e => Derive (fun t => jac0 nf ad a x1 (upd x2 e t) f) (x2 e).

(** ** Fast derivative kernels *)

(** kernels.py:99-202: constant kernel, all zeros *)
Definition zeros : Mat := fun _ _ => 0.

(** kernels.py:239-244 _linear_kernel_d0k: zeros((nf, ns2)).at[ad].set(x2.T[ad]), tiled *)
Definition linear_d0k (ds : list nat) (nf : nat) (X1 X2 : Mat) : Mat :=
  tile_row nf (fun f t => scat ds (fun a => X2 t (nth a ds O)) f).
(** kernels.py:256-261 *)
Definition linear_d1k (ds : list nat) (nf : nat) (X1 X2 : Mat) : Mat :=
  tile_col nf (fun s f => scat ds (fun a => X1 s (nth a ds O)) f).
(** kernels.py:273-279 *)
Definition linear_d01k (ds : list nat) (nf : nat) (X1 X2 : Mat) : Mat :=
  fun r c => scat_diag ds 1 (r mod nf)%nat (c mod nf)%nat.
(** kernels.py:291-299; einsum "ifv,jf->ivj" *)
Definition linear_d0kj (ds : list nat) (nv : nat) (X1 X2 : Mat) (J : Ten) : Mat :=
  rs_row nv (fun i v j => sum (length ds) (fun f => gatherT ds J i f v * gatherM ds X2 j f)).
(** kernels.py:315-323; einsum "if,jfv->ijv" *)
Definition linear_d1kj (ds : list nat) (nv : nat) (X1 X2 : Mat) (J : Ten) : Mat :=
  rs_col nv (fun i j v => sum (length ds) (fun f => gatherM ds X1 i f * gatherT ds J j f v)).
(** kernels.py:339-354; einsum "ifv,jfu->ivju" *)
Definition linear_d01kj (ds : list nat) (nv1 nv2 : nat) (X1 X2 : Mat) (J1 J2 : Ten) : Mat :=
  rs_4 nv1 nv2 (fun i v j u => sum (length ds) (fun f => gatherT ds J1 i f v * gatherT ds J2 j f u)).

(** kernels.py:419-421: degree * (offset + x1 @ x2.T) ** (degree - 1) *)
Definition poly_c1 (d : nat) (off : R) (ds : list nat) (X1 X2 : Mat) : Mat :=
  fun n m => INR d * (off + mm (length ds) (gatherM ds X1) (tr (gatherM ds X2)) n m) ^ (d - 1).
(** kernels.py:481-485 *)
Definition poly_c2 (d : nat) (off : R) (ds : list nat) (X1 X2 : Mat) : Mat :=
  fun n m => INR d * (INR d - 1) *
             (off + mm (length ds) (gatherM ds X1) (tr (gatherM ds X2)) n m) ^ (d - 2).
(** kernels.py:410-424 _polynomial_kernel_d0k *)
Definition poly_d0k (d : nat) (off : R) (ds : list nat) (nf : nat) (X1 X2 : Mat) : Mat :=
  rs_row nf (fun n f m => scat ds (fun a => poly_c1 d off ds X1 X2 n m * X2 m (nth a ds O)) f).
(** kernels.py:438-454 *)
Definition poly_d1k (d : nat) (off : R) (ds : list nat) (nf : nat) (X1 X2 : Mat) : Mat :=
  rs_col nf (fun n m f => scat ds (fun a => poly_c1 d off ds X1 X2 n m * X1 n (nth a ds O)) f).
(** kernels.py:468-495: tile(eye(nact),(ns1,ns2)).reshape(ns1,nact,ns2,nact) has entry
    [n,f,m,e] = eye[f,e] *)
Definition poly_d01k (d : nat) (off : R) (ds : list nat) (nf : nat) (X1 X2 : Mat) : Mat :=
  let tmp1 := fun n m (f e : nat) => poly_c1 d off ds X1 X2 n m * delta f e in
  let tmp2 := fun n m (f e : nat) =>
    gatherM ds X1 n f * poly_c2 d off ds X1 X2 n m * gatherM ds X2 m e in
  let d01k := fun n m => scat2_xy ds (fun f e => tmp1 n m f e + tmp2 n m f e) in
  rs_4 nf nf (fun n f m e => d01k n m f e).
(** kernels.py:509-525; einsum "nm,fm,nfv->nvm" *)
Definition poly_d0kj (d : nat) (off : R) (ds : list nat) (nv : nat) (X1 X2 : Mat) (J : Ten) : Mat :=
  rs_row nv (fun n v m => sum (length ds) (fun f =>
     poly_c1 d off ds X1 X2 n m * gatherM ds X2 m f * gatherT ds J n f v)).
(** kernels.py:543-559; einsum "nm,nf,mfv->nmv" *)
Definition poly_d1kj (d : nat) (off : R) (ds : list nat) (nv : nat) (X1 X2 : Mat) (J : Ten) : Mat :=
  rs_col nv (fun n m v => sum (length ds) (fun f =>
     poly_c1 d off ds X1 X2 n m * gatherM ds X1 n f * gatherT ds J m f v)).
(** kernels.py:597-602 tmp1 + tmp2 with tmp2 = einsum "nf,nm,me->nemf" *)
Definition poly_tmp (d : nat) (off : R) (ds : list nat) (X1 X2 : Mat) (n f m e : nat) : R :=
  poly_c1 d off ds X1 X2 n m * delta f e
  + gatherM ds X1 n e * poly_c2 d off ds X1 X2 n m * gatherM ds X2 m f.
(** kernels.py:577-609; einsum "nfv,nfme,meu->nvmu" *)
Definition poly_d01kj (d : nat) (off : R) (ds : list nat) (nv1 nv2 : nat)
    (X1 X2 : Mat) (J1 J2 : Ten) : Mat :=
  rs_4 nv1 nv2 (fun n v m u => sum (length ds) (fun f => sum (length ds) (fun e =>
     gatherT ds J1 n f v * poly_tmp d off ds X1 X2 n f m e * gatherT ds J2 m e u))).
(** kernels.py:630-662; einsum "nf,nfme,meu->nmu" *)
Definition poly_d01kjc (d : nat) (off : R) (ds : list nat) (nv : nat)
    (X1 X2 : Mat) (JC : Mat) (J : Ten) : Mat :=
  rs_col nv (fun n m u => sum (length ds) (fun f => sum (length ds) (fun e =>
     gatherM ds JC n f * poly_tmp d off ds X1 X2 n f m e * gatherT ds J m e u))).

(** z1[:, newaxis] - z2 *)
Definition zdiff (l : R) (ds : list nat) (X1 X2 : Mat) (s t a : nat) : R :=
  gatherM ds X1 s a / l - gatherM ds X2 t a / l.
(** exp(-squared_distances(z1, z2)), kernels.py:777-779 *)
Definition se_ed2 (l : R) (ds : list nat) (X1 X2 : Mat) : Mat :=
  se_fast l (length ds) (gatherM ds X1) (gatherM ds X2).
(** kernels.py:772-788 _squared_exponential_kernel_d01k; the .add on
    [:, active_dims, :, active_dims] adds diag[s,t] at paired indices *)
Definition se_d01k (l : R) (ds : list nat) (nf : nat) (X1 X2 : Mat) : Mat :=
  let diff := fun s t => scat ds (fun a => 2 / l * zdiff l ds X1 X2 s t a) in
  let diag := fun s t => se_ed2 l ds X1 X2 s t * (2 / l ^ 2) in
  rs_4 nf nf (fun s f t e =>
     - se_ed2 l ds X1 X2 s t * diff s t f * diff s t e
     + sum (length ds) (fun a => delta (nth a ds O) f * delta (nth a ds O) e * diag s t)).
(** kernels.py:804-831 *)
Definition se_d01kj (l : R) (ds : list nat) (nv1 nv2 : nat) (X1 X2 : Mat) (J1 J2 : Ten) : Mat :=
  let diff := fun s t a => 2 / l * zdiff l ds X1 X2 s t a in
  let diff_j1 := fun s t v => sum (length ds) (fun a => diff s t a * gatherT ds J1 s a v) in
  let diff_j2 := fun s t u => sum (length ds) (fun a => diff s t a * gatherT ds J2 t a u) in
  let diag := fun s t => se_ed2 l ds X1 X2 s t * (2 / l ^ 2) in
  rs_4 nv1 nv2 (fun s v t u =>
     - se_ed2 l ds X1 X2 s t * diff_j1 s t v * diff_j2 s t u
     + sum (length ds) (fun a => gatherT ds J1 s a v * diag s t * gatherT ds J2 t a u)).
(** kernels.py:851-877 *)
Definition se_d01kjc (l : R) (ds : list nat) (nv : nat) (X1 X2 : Mat) (JC : Mat) (J : Ten) : Mat :=
  let diff := fun s t a => 2 / l * zdiff l ds X1 X2 s t a in
  let diff_j1 := fun s t => sum (length ds) (fun a => diff s t a * gatherM ds JC s a) in
  let diff_j2 := fun s t u => sum (length ds) (fun a => diff s t a * gatherT ds J t a u) in
  let diag := fun s t => se_ed2 l ds X1 X2 s t * (2 / l ^ 2) in
  rs_col nv (fun s t u =>
     - se_ed2 l ds X1 X2 s t * diff_j1 s t * diff_j2 s t u
     + sum (length ds) (fun a => gatherM ds JC s a * diag s t * gatherT ds J t a u)).

(** kernels.py:1114-1117: d = sqrt5 * sqrt(max(squared_distances, 1e-36)) *)
Definition m52_d (l : R) (ds : list nat) (X1 X2 : Mat) : Mat :=
  fun s t => sqrt 5 * sqrt (Rmax (squared_distances (length ds)
     (scaled l (gatherM ds X1)) (scaled l (gatherM ds X2)) s t) tiny36).
(** kernels.py:1108-1122 *)
Definition m52_d0k (l : R) (ds : list nat) (nf : nat) (X1 X2 : Mat) : Mat :=
  rs_row nf (fun s f t => scat ds (fun a =>
     - (sqrt 5 / (3 * l)) * (1 + m52_d l ds X1 X2 s t) * exp (- m52_d l ds X1 X2 s t)
     * (sqrt 5 * zdiff l ds X1 X2 s t a)) f).
(** kernels.py:1135-1149: contracts the reshaped d0k; einsum "ifv,ifj->ivj" *)
Definition m52_d0kj (l : R) (ds : list nat) (nf nv : nat) (X1 X2 : Mat) (J : Ten) : Mat :=
  let d0k := m52_d0k l ds nf X1 X2 in
  rs_row nv (fun i v j => sum (length ds) (fun a =>
     gatherT ds J i a v * d0k (i * nf + nth a ds O)%nat j)).
(** kernels.py:1166-1180 *)
Definition m52_d1k (l : R) (ds : list nat) (nf : nat) (X1 X2 : Mat) : Mat :=
  rs_col nf (fun s t f => scat ds (fun a =>
     (sqrt 5 / (3 * l)) * (1 + m52_d l ds X1 X2 s t) * exp (- m52_d l ds X1 X2 s t)
     * (sqrt 5 * zdiff l ds X1 X2 s t a)) f).
(** kernels.py:1193-1207; einsum "ijf,jfv->ijv" *)
Definition m52_d1kj (l : R) (ds : list nat) (nf nv : nat) (X1 X2 : Mat) (J : Ten) : Mat :=
  let d1k := m52_d1k l ds nf X1 X2 in
  rs_col nv (fun i j v => sum (length ds) (fun a =>
     d1k i (j * nf + nth a ds O)%nat * gatherT ds J j a v)).
(** kernels.py:1224-1240 *)
Definition m52_d01k (l : R) (ds : list nat) (nf : nat) (X1 X2 : Mat) : Mat :=
  let diff := fun s t => scat ds (fun a => sqrt 5 * zdiff l ds X1 X2 s t a) in
  let constant := fun s t => 5 / (3 * l ^ 2) * exp (- m52_d l ds X1 X2 s t) in
  let diag := fun s t => constant s t * (1 + m52_d l ds X1 X2 s t) in
  rs_4 nf nf (fun s f t e =>
     - constant s t * diff s t f * diff s t e
     + sum (length ds) (fun a => delta (nth a ds O) f * delta (nth a ds O) e * diag s t)).
(** kernels.py:1253-1283 *)
Definition m52_d01kj (l : R) (ds : list nat) (nv1 nv2 : nat) (X1 X2 : Mat) (J1 J2 : Ten) : Mat :=
  let diff := fun s t a => sqrt 5 * zdiff l ds X1 X2 s t a in
  let constant := fun s t => 5 / (3 * l ^ 2) * exp (- m52_d l ds X1 X2 s t) in
  let diff_j1 := fun s t v => sum (length ds) (fun a => diff s t a * gatherT ds J1 s a v) in
  let diff_j2 := fun s t u => sum (length ds) (fun a => diff s t a * gatherT ds J2 t a u) in
  let diag := fun s t => constant s t * (1 + m52_d l ds X1 X2 s t) in
  rs_4 nv1 nv2 (fun s v t u =>
     - constant s t * diff_j1 s t v * diff_j2 s t u
     + sum (length ds) (fun a => gatherT ds J1 s a v * diag s t * gatherT ds J2 t a u)).
(** kernels.py:1303-1332 *)
Definition m52_d01kjc (l : R) (ds : list nat) (nv : nat) (X1 X2 : Mat) (JC : Mat) (J : Ten) : Mat :=
  let diff := fun s t a => sqrt 5 * zdiff l ds X1 X2 s t a in
  let constant := fun s t => 5 / (3 * l ^ 2) * exp (- m52_d l ds X1 X2 s t) in
  let diff_j1 := fun s t => sum (length ds) (fun a => diff s t a * gatherM ds JC s a) in
  let diff_j2 := fun s t u => sum (length ds) (fun a => diff s t a * gatherT ds J t a u) in
  let diag := fun s t => constant s t * (1 + m52_d l ds X1 X2 s t) in
  rs_col nv (fun s t u =>
     - constant s t * diff_j1 s t * diff_j2 s t u
     + sum (length ds) (fun a => gatherM ds JC s a * diag s t * gatherT ds J t a u)).

(** ** Kernel objects: the method table set up by the constructors *)

(** kernels.py:1381 Kernel (atoms with active_dims), 1794 Sum, 1851 Prod.
    The parameter dictionary {"kernel1": .., "kernel2": ..} is represented by
    carrying parameter values inside the expression. *)
Inductive kexp : Type :=
| KAtom (ad : option (list nat)) (a : atom)
| KSum (k1 k2 : kexp)
| KProd (k1 k2 : kexp).

(** _kernel_base attribute; operations.py:103-124 sum_kernels, 175-193 prod_kernels *)
Fixpoint kb (nf : nat) (k : kexp) (x1 x2 : Vec) : R :=
  match k with
  | KAtom ad a => kernel_base nf ad a x1 x2
  | KSum k1 k2 => kb nf k1 x1 x2 + kb nf k2 x1 x2
  | KProd k1 k2 => kb nf k1 x1 x2 * kb nf k2 x1 x2
  end.

(** atom method .k: fast versions where the class defines them, e.g. kernels.py:1512, else
    kernelize (ExpSinSquared, kernels.py:1442 and 1773-1775) *)
Definition atom_k (nf : nat) (ad : option (list nat)) (a : atom) (X1 X2 : Mat) : Mat :=
  let ds := dims nf ad in
  let g1 := gatherM ds X1 in
  let g2 := gatherM ds X2 in
  match a with
  | AConst v => constant_fast v (length ds) g1 g2
  | ALin => linear_fast (length ds) g1 g2
  | APoly d off => polynomial_fast d off (length ds) g1 g2
  | ANoInt d off => no_intercept_fast d off (length ds) g1 g2
  | ASE l => se_fast l (length ds) g1 g2
  | AM12 l => m12_fast l (length ds) g1 g2
  | AM32 l => m32_fast l (length ds) g1 g2
  | AM52 l => m52_fast l (length ds) g1 g2
  | APer _ _ => kernelize (kernel_base nf ad a) X1 X2
  end.

(** method .k; Sum kernels.py:1827, Prod kernels.py:1883 *)
Fixpoint kk (nf : nat) (k : kexp) (X1 X2 : Mat) : Mat :=
  match k with
  | KAtom ad a => atom_k nf ad a X1 X2
  | KSum k1 k2 => fun s t => kk nf k1 X1 X2 s t + kk nf k2 X1 X2 s t
  | KProd k1 k2 => fun s t => kk nf k1 X1 X2 s t * kk nf k2 X1 X2 s t
  end.

(** atom method .d0k *)
Definition atom_d0k (nf : nat) (ad : option (list nat)) (a : atom) (X1 X2 : Mat) : Mat :=
  let ds := dims nf ad in
  match a with
  | AConst _ => zeros
  | ALin => linear_d0k ds nf X1 X2
  | APoly d off | ANoInt d off => poly_d0k d off ds nf X1 X2
  | AM52 l => m52_d0k l ds nf X1 X2
  | _ => grad0_kernelize nf (jac0 nf ad a) X1 X2
  end.

(** operations.py:196-234 prod_kernels_deriv with axis=0 *)
Fixpoint d0k (nf : nat) (k : kexp) (X1 X2 : Mat) : Mat :=
  match k with
  | KAtom ad a => atom_d0k nf ad a X1 X2
  | KSum k1 k2 => fun r t => d0k nf k1 X1 X2 r t + d0k nf k2 X1 X2 r t
  | KProd k1 k2 => fun r t =>
      rep_row nf (kk nf k1 X1 X2) r t * d0k nf k2 X1 X2 r t
      + d0k nf k1 X1 X2 r t * rep_row nf (kk nf k2 X1 X2) r t
  end.

Definition atom_d1k (nf : nat) (ad : option (list nat)) (a : atom) (X1 X2 : Mat) : Mat :=
  let ds := dims nf ad in
  match a with
  | AConst _ => zeros
  | ALin => linear_d1k ds nf X1 X2
  | APoly d off | ANoInt d off => poly_d1k d off ds nf X1 X2
  | AM52 l => m52_d1k l ds nf X1 X2
  | _ => grad1_kernelize nf (jac1 nf ad a) X1 X2
  end.

(** operations.py:196-234 prod_kernels_deriv with axis=-1 *)
Fixpoint d1k (nf : nat) (k : kexp) (X1 X2 : Mat) : Mat :=
  match k with
  | KAtom ad a => atom_d1k nf ad a X1 X2
  | KSum k1 k2 => fun s c => d1k nf k1 X1 X2 s c + d1k nf k2 X1 X2 s c
  | KProd k1 k2 => fun s c =>
      rep_col nf (kk nf k1 X1 X2) s c * d1k nf k2 X1 X2 s c
      + d1k nf k1 X1 X2 s c * rep_col nf (kk nf k2 X1 X2) s c
  end.

Definition atom_d01k (nf : nat) (ad : option (list nat)) (a : atom) (X1 X2 : Mat) : Mat :=
  let ds := dims nf ad in
  match a with
  | AConst _ => zeros
  | ALin => linear_d01k ds nf X1 X2
  | APoly d off | ANoInt d off => poly_d01k d off ds nf X1 X2
  | ASE l => se_d01k l ds nf X1 X2
  | AM52 l => m52_d01k l ds nf X1 X2
  | _ => grad01_kernelize nf (hess01 nf ad a) X1 X2
  end.

(** operations.py:237-277 prod_kernels_deriv01 *)
Fixpoint d01k (nf : nat) (k : kexp) (X1 X2 : Mat) : Mat :=
  match k with
  | KAtom ad a => atom_d01k nf ad a X1 X2
  | KSum k1 k2 => fun r c => d01k nf k1 X1 X2 r c + d01k nf k2 X1 X2 r c
  | KProd k1 k2 => fun r c =>
      rep_col nf (rep_row nf (kk nf k1 X1 X2)) r c * d01k nf k2 X1 X2 r c
      + rep_col nf (d0k nf k1 X1 X2) r c * rep_row nf (d1k nf k2 X1 X2) r c
      + rep_row nf (d1k nf k1 X1 X2) r c * rep_col nf (d0k nf k2 X1 X2) r c
      + d01k nf k1 X1 X2 r c * rep_col nf (rep_row nf (kk nf k2 X1 X2)) r c
  end.

(** methods with jacobians; n, m are the numbers of samples *)
Definition atom_d0kj (n m nf nv : nat) (ad : option (list nat)) (a : atom)
    (X1 X2 : Mat) (J : Ten) : Mat :=
  let ds := dims nf ad in
  match a with
  | AConst _ => zeros
  | ALin => linear_d0kj ds nv X1 X2 J
  | APoly d off | ANoInt d off => poly_d0kj d off ds nv X1 X2 J
  | AM52 l => m52_d0kj l ds nf nv X1 X2 J
  | _ => grad0jac_kernelize n m nf nv (jac0 nf ad a) X1 X2 J
  end.

(** operations.py:127-148 sum_kernels_jac, 280-317 prod_kernels_deriv_jac axis=0 *)
Fixpoint d0kj (n m nf nv : nat) (k : kexp) (X1 X2 : Mat) (J : Ten) : Mat :=
  match k with
  | KAtom ad a => atom_d0kj n m nf nv ad a X1 X2 J
  | KSum k1 k2 => fun r t => d0kj n m nf nv k1 X1 X2 J r t + d0kj n m nf nv k2 X1 X2 J r t
  | KProd k1 k2 => fun r t =>
      rep_row nv (kk nf k1 X1 X2) r t * d0kj n m nf nv k2 X1 X2 J r t
      + d0kj n m nf nv k1 X1 X2 J r t * rep_row nv (kk nf k2 X1 X2) r t
  end.

Definition atom_d1kj (n m nf nv : nat) (ad : option (list nat)) (a : atom)
    (X1 X2 : Mat) (J : Ten) : Mat :=
  let ds := dims nf ad in
  match a with
  | AConst _ => zeros
  | ALin => linear_d1kj ds nv X1 X2 J
  | APoly d off | ANoInt d off => poly_d1kj d off ds nv X1 X2 J
  | AM52 l => m52_d1kj l ds nf nv X1 X2 J
  | _ => grad1jac_kernelize n m nf nv (jac1 nf ad a) X1 X2 J
  end.

(** operations.py:280-317 prod_kernels_deriv_jac axis=-1 *)
Fixpoint d1kj (n m nf nv : nat) (k : kexp) (X1 X2 : Mat) (J : Ten) : Mat :=
  match k with
  | KAtom ad a => atom_d1kj n m nf nv ad a X1 X2 J
  | KSum k1 k2 => fun s c => d1kj n m nf nv k1 X1 X2 J s c + d1kj n m nf nv k2 X1 X2 J s c
  | KProd k1 k2 => fun s c =>
      rep_col nv (kk nf k1 X1 X2) s c * d1kj n m nf nv k2 X1 X2 J s c
      + d1kj n m nf nv k1 X1 X2 J s c * rep_col nv (kk nf k2 X1 X2) s c
  end.

Definition atom_d01kj (n m nf nv1 nv2 : nat) (ad : option (list nat)) (a : atom)
    (X1 X2 : Mat) (J1 J2 : Ten) : Mat :=
  let ds := dims nf ad in
  match a with
  | AConst _ => zeros
  | ALin => linear_d01kj ds nv1 nv2 X1 X2 J1 J2
  | APoly d off | ANoInt d off => poly_d01kj d off ds nv1 nv2 X1 X2 J1 J2
  | ASE l => se_d01kj l ds nv1 nv2 X1 X2 J1 J2
  | AM52 l => m52_d01kj l ds nv1 nv2 X1 X2 J1 J2
  | _ => grad01jac_kernelize n m nf nv1 nv2 (hess01 nf ad a) X1 X2 J1 J2
  end.

(** operations.py:151-172 sum_kernels_jac2, 345-389 prod_kernels_deriv01_jac *)
Fixpoint d01kj (n m nf nv1 nv2 : nat) (k : kexp) (X1 X2 : Mat) (J1 J2 : Ten) : Mat :=
  match k with
  | KAtom ad a => atom_d01kj n m nf nv1 nv2 ad a X1 X2 J1 J2
  | KSum k1 k2 => fun r c =>
      d01kj n m nf nv1 nv2 k1 X1 X2 J1 J2 r c + d01kj n m nf nv1 nv2 k2 X1 X2 J1 J2 r c
  | KProd k1 k2 => fun r c =>
      rep_col nv2 (rep_row nv1 (kk nf k1 X1 X2)) r c * d01kj n m nf nv1 nv2 k2 X1 X2 J1 J2 r c
      + rep_col nv2 (d0kj n m nf nv1 k1 X1 X2 J1) r c * rep_row nv1 (d1kj n m nf nv2 k2 X1 X2 J2) r c
      + rep_row nv1 (d1kj n m nf nv2 k1 X1 X2 J2) r c * rep_col nv2 (d0kj n m nf nv1 k2 X1 X2 J1) r c
      + d01kj n m nf nv1 nv2 k1 X1 X2 J1 J2 r c * rep_col nv2 (rep_row nv1 (kk nf k2 X1 X2)) r c
  end.

(** methods with coefficient-contracted jacobian (trace_samples=False, kernels.py:1474-1485) *)
Definition atom_d0kjc (n m nf : nat) (ad : option (list nat)) (a : atom)
    (X1 X2 : Mat) (JC : Mat) : Mat :=
  grad0jaccoef_untraced n nf (jac0 nf ad a) X1 X2 JC.

(** operations.py:127-148 (Sum), 320-342 prod_kernels_deriv0_jaccoef *)
Fixpoint d0kjc (n m nf : nat) (k : kexp) (X1 X2 : Mat) (JC : Mat) : Mat :=
  match k with
  | KAtom ad a => atom_d0kjc n m nf ad a X1 X2 JC
  | KSum k1 k2 => fun s t => d0kjc n m nf k1 X1 X2 JC s t + d0kjc n m nf k2 X1 X2 JC s t
  | KProd k1 k2 => fun s t =>
      kk nf k1 X1 X2 s t * d0kjc n m nf k2 X1 X2 JC s t
      + d0kjc n m nf k1 X1 X2 JC s t * kk nf k2 X1 X2 s t
  end.

Definition atom_d01kjc (n m nf nv : nat) (ad : option (list nat)) (a : atom)
    (X1 X2 : Mat) (JC : Mat) (J : Ten) : Mat :=
  let ds := dims nf ad in
  match a with
  | APoly d off | ANoInt d off => poly_d01kjc d off ds nv X1 X2 JC J
  | ASE l => se_d01kjc l ds nv X1 X2 JC J
  | AM52 l => m52_d01kjc l ds nv X1 X2 JC J
  | _ => grad01jaccoef_untraced n m nf nv (hess01 nf ad a) X1 X2 JC J
  end.

(** operations.py:151-172 (Sum), 392-426 prod_kernels_deriv01_jaccoef *)
Fixpoint d01kjc (n m nf nv : nat) (k : kexp) (X1 X2 : Mat) (JC : Mat) (J : Ten) : Mat :=
  match k with
  | KAtom ad a => atom_d01kjc n m nf nv ad a X1 X2 JC J
  | KSum k1 k2 => fun s c =>
      d01kjc n m nf nv k1 X1 X2 JC J s c + d01kjc n m nf nv k2 X1 X2 JC J s c
  | KProd k1 k2 => fun s c =>
      rep_col nv (kk nf k1 X1 X2) s c * d01kjc n m nf nv k2 X1 X2 JC J s c
      + rep_col nv (d0kjc n m nf k1 X1 X2 JC) s c * d1kj n m nf nv k2 X1 X2 J s c
      + d1kj n m nf nv k1 X1 X2 J s c * rep_col nv (d0kjc n m nf k2 X1 X2 JC) s c
      + d01kjc n m nf nv k1 X1 X2 JC J s c * rep_col nv (kk nf k2 X1 X2) s c
  end.
