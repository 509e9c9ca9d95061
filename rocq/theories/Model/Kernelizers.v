(** Models gpx/kernels/kernelizers.py: promotion of single-sample kernels and of
    their autodiff derivatives to batches.

    [kf] is the kernel on two samples; [g0]/[g1] the result of
    jacrev(kernel_func, argnums=0/1) and [h] of jacfwd(jacrev(.,0),1), i.e.
    h x1 x2 f e = d/dx2_e (g0 x1 x2 f).  vmap and lax.scan over samples are
    modelled as pointwise application stacked along a new axis; jit and
    jax.checkpoint do not change values. *)
From Coq Require Import Reals Arith.
From Verif Require Import Base.Sums Base.Mat Model.Arrays.
Open Scope R_scope.

(** kernelizers.py:45-98 kernelize (both the scan and the vmap branch) *)
Definition kernelize (kf : Vec -> Vec -> R) (X1 X2 : Mat) : Mat :=
  fun s t => kf (X1 s) (X2 t).

(** kernelizers.py:106-127 _grad0_kernelize: per row (m, nf) transposed to (nf, m),
    stacked to (n, nf, m), reshaped to (n*nf, m) *)
Definition grad0_kernelize (nf : nat) (g0 : Vec -> Vec -> Vec) (X1 X2 : Mat) : Mat :=
  let gram : Ten := fun s f t => g0 (X1 s) (X2 t) f in
  rs_row nf gram.

(** kernelizers.py:130-160 _grad0jac_kernelize *)
Definition grad0jac_kernelize (n m nf jv : nat) (g0 : Vec -> Vec -> Vec)
    (X1 X2 : Mat) (J : Ten) : Mat :=
  fori n
    (fun i gram =>
       let nabla : Mat := fun k f => g0 (X1 i) (X2 k) f in
       let nabla' : Mat := fun j k => sum nf (fun f => nabla k f * J i f j) in
       dus (n * jv) m jv m gram nabla' (i * jv) 0)
    (fun _ _ => 0).

(** kernelizers.py:163-215 _grad0jaccoef_kernelize, trace_samples=True (168-191) *)
Definition grad0jaccoef_traced (n nf : nat) (g0 : Vec -> Vec -> Vec)
    (X1 X2 : Mat) (JC : Mat) : Vec :=
  fori n
    (fun i gram =>
       let nabla : Vec := fun k => sum nf (fun f => g0 (X1 i) (X2 k) f * JC i f) in
       fun k => gram k + nabla k)
    (fun _ => 0).

(** kernelizers.py:193-215 trace_samples=False: gram.at[i].set(row) *)
Definition grad0jaccoef_untraced (n nf : nat) (g0 : Vec -> Vec -> Vec)
    (X1 X2 : Mat) (JC : Mat) : Mat :=
  fori n
    (fun i gram =>
       let nabla : Vec := fun k => sum nf (fun f => g0 (X1 i) (X2 k) f * JC i f) in
       fun r k => if Nat.eqb r i then nabla k else gram r k)
    (fun _ _ => 0).

(** kernelizers.py:218-239 _grad1_kernelize *)
Definition grad1_kernelize (nf : nat) (g1 : Vec -> Vec -> Vec) (X1 X2 : Mat) : Mat :=
  let gram : Ten := fun s t f => g1 (X1 s) (X2 t) f in
  rs_col nf gram.

(** kernelizers.py:242-272 _grad1jac_kernelize *)
Definition grad1jac_kernelize (n m nf jv : nat) (g1 : Vec -> Vec -> Vec)
    (X1 X2 : Mat) (J : Ten) : Mat :=
  fori m
    (fun j gram =>
       let nabla : Mat := fun k f => g1 (X1 k) (X2 j) f in
       let nabla' : Mat := fun k v => sum nf (fun f => nabla k f * J j f v) in
       dus n (m * jv) n jv gram nabla' 0 (j * jv))
    (fun _ _ => 0).

(** kernelizers.py:275-296 _grad01_kernelize: vmap(out_axes=1) gives (nf, m, mf) per row *)
Definition grad01_kernelize (nf : nat) (h : Vec -> Vec -> Mat) (X1 X2 : Mat) : Mat :=
  rs_4 nf nf (fun s f t e => h (X1 s) (X2 t) f e).

(** kernelizers.py:299-330 _grad01jac_kernelize; einsum "ai,ab,bj->ij" *)
Definition grad01jac_kernelize (n m nf j1v j2v : nat) (h : Vec -> Vec -> Mat)
    (X1 X2 : Mat) (J1 J2 : Ten) : Mat :=
  fori n
    (fun i gram =>
       fori m
         (fun j gram =>
            let nabla : Mat := h (X1 i) (X2 j) in
            let nabla' : Mat := fun u v =>
              sum nf (fun a => sum nf (fun b => J1 i a u * nabla a b * J2 j b v)) in
            dus (n * j1v) (m * j2v) j1v j2v gram nabla' (i * j1v) (j * j2v))
         gram)
    (fun _ _ => 0).

(** kernelizers.py:333-392 _grad01jaccoef_kernelize, trace_samples=True (338-366);
    einsum "f,fe,eu->u" *)
Definition grad01jaccoef_traced (n m nf nv : nat) (h : Vec -> Vec -> Mat)
    (X1 X2 : Mat) (JC : Mat) (J : Ten) : Vec :=
  fori n
    (fun i gram =>
       fori m
         (fun j gram =>
            let nabla : Mat := h (X1 i) (X2 j) in
            let nabla' : Vec := fun u =>
              sum nf (fun f => sum nf (fun e => JC i f * nabla f e * J j e u)) in
            let base := dslice1 (m * nv) nv gram (j * nv) in
            dus1 (m * nv) nv gram (fun u => base u + nabla' u) (j * nv))
         gram)
    (fun _ => 0).

(** kernelizers.py:368-392 trace_samples=False *)
Definition grad01jaccoef_untraced (n m nf nv : nat) (h : Vec -> Vec -> Mat)
    (X1 X2 : Mat) (JC : Mat) (J : Ten) : Mat :=
  fori n
    (fun i gram =>
       fori m
         (fun j gram =>
            let nabla : Mat := h (X1 i) (X2 j) in
            let nabla' : Vec := fun u =>
              sum nf (fun f => sum nf (fun e => JC i f * nabla f e * J j e u)) in
            dus n (m * nv) 1 nv gram (fun _ u => nabla' u) i (j * nv))
         gram)
    (fun _ _ => 0).
