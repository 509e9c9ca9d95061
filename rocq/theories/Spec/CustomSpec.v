(** What is expected of the methods of a kernel object, whoever wrote it. *)
From Coq Require Import List Reals.
From Verif Require Import Base.Sums Base.Mat Base.PSD Model.PyDict Model.Params Model.KernelMethods Spec.Partial.
Open Scope R_scope.

(** With the parameters t and nf features no method raises; k holds the values of the function k, and the other
    methods its derivatives, contracted with the given jacobians and coefficients. Row s*nf+f (column u*nf+e)
    belongs to feature f of the s-th (e of the u-th) point. *)
Record differentiates (o : methods) (t : ptree) (nf : nat) (k : Vec -> Vec -> R) : Prop := {
  f_k : forall X1 X2, exists A, o_k o nf X1 X2 t = Ok (Some A) /\ forall s u, A s u = k (X1 s) (X2 u);
  f_d0k : forall X1 X2, exists A, o_d0k o nf X1 X2 t = Ok (Some A) /\
    forall s f u, (f < nf)%nat -> partial0 k (X1 s) (X2 u) f (A (s * nf + f)%nat u);
  f_d1k : forall X1 X2, exists A, o_d1k o nf X1 X2 t = Ok (Some A) /\
    forall s u e, (e < nf)%nat -> partial1 k (X1 s) (X2 u) e (A s (u * nf + e)%nat);
  f_d01k : forall X1 X2, exists A, o_d01k o nf X1 X2 t = Ok (Some A) /\
    forall s f u e, (f < nf)%nat -> (e < nf)%nat -> partial01 k (X1 s) (X2 u) f e (A (s * nf + f)%nat (u * nf + e)%nat);
  f_d0kj : forall n m nv X1 X2 J, exists A, o_d0kj o n m nf nv X1 X2 t J = Ok (Some A) /\
    forall s v u, (s < n)%nat -> (v < nv)%nat -> (u < m)%nat -> exists d : Vec,
      (forall f, (f < nf)%nat -> partial0 k (X1 s) (X2 u) f (d f)) /\ A (s * nv + v)%nat u = sum nf (fun f => J s f v * d f);
  f_d1kj : forall n m nv X1 X2 J, exists A, o_d1kj o n m nf nv X1 X2 t J = Ok (Some A) /\
    forall s u w, (s < n)%nat -> (u < m)%nat -> (w < nv)%nat -> exists d : Vec,
      (forall e, (e < nf)%nat -> partial1 k (X1 s) (X2 u) e (d e)) /\ A s (u * nv + w)%nat = sum nf (fun e => J u e w * d e);
  f_d01kj : forall n m nv1 nv2 X1 X2 J1 J2, exists A, o_d01kj o n m nf nv1 nv2 X1 X2 t J1 J2 = Ok (Some A) /\
    forall s v u w, (s < n)%nat -> (v < nv1)%nat -> (u < m)%nat -> (w < nv2)%nat -> exists d : Mat,
      (forall f e, (f < nf)%nat -> (e < nf)%nat -> partial01 k (X1 s) (X2 u) f e (d f e)) /\
      A (s * nv1 + v)%nat (u * nv2 + w)%nat = sum nf (fun f => sum nf (fun e => J1 s f v * d f e * J2 u e w));
  f_d0kjc : forall n m X1 X2 C, exists A, o_d0kjc o n m nf X1 X2 t C = Ok (Some A) /\
    forall s u, (s < n)%nat -> (u < m)%nat -> exists d : Vec,
      (forall f, (f < nf)%nat -> partial0 k (X1 s) (X2 u) f (d f)) /\ A s u = sum nf (fun f => C s f * d f);
  f_d01kjc : forall n m nv X1 X2 C J, exists A, o_d01kjc o n m nf nv X1 X2 t C J = Ok (Some A) /\
    forall s u w, (s < n)%nat -> (u < m)%nat -> (w < nv)%nat -> exists d : Mat,
      (forall f e, (f < nf)%nat -> (e < nf)%nat -> partial01 k (X1 s) (X2 u) f e (d f e)) /\
      A s (u * nv + w)%nat = sum nf (fun f => sum nf (fun e => C s f * d f e * J u e w)) }.

(** a covariance function: symmetric, and no quadratic form of a matrix of its values is negative *)
Definition covariance (k : Vec -> Vec -> R) : Prop :=
  (forall x y, k x y = k y x) /\
  forall n (X : Mat) (c : Vec), 0 <= sum n (fun i => sum n (fun j => c i * k (X i) (X j) * c j)).

(** what autodiff is trusted for *)
Definition autodiff (nf : nat) (k : Vec -> Vec -> R) (g0 g1 : Vec -> Vec -> Vec) (h : Vec -> Vec -> Mat) : Prop := forall x y f e,
  (f < nf)%nat -> (e < nf)%nat ->
  partial0 k x y f (g0 x y f) /\ partial1 k x y e (g1 x y e) /\ partial01 k x y f e (h x y f e).

(** every method raises e, on every input *)
Definition raises (o : methods) (e : exn) : Prop :=
  (forall nf X1 X2 t, o_k o nf X1 X2 t = Err e /\ o_d0k o nf X1 X2 t = Err e /\ o_d1k o nf X1 X2 t = Err e /\ o_d01k o nf X1 X2 t = Err e) /\
  (forall n m nf nv X1 X2 t J, o_d0kj o n m nf nv X1 X2 t J = Err e /\ o_d1kj o n m nf nv X1 X2 t J = Err e) /\
  (forall n m nf nv1 nv2 X1 X2 t J1 J2, o_d01kj o n m nf nv1 nv2 X1 X2 t J1 J2 = Err e) /\
  (forall n m nf nv X1 X2 t C J, o_d0kjc o n m nf X1 X2 t C = Err e /\ o_d01kjc o n m nf nv X1 X2 t C J = Err e).
