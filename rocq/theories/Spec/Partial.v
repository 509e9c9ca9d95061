(** Partial derivatives of a kernel function on two samples (vectors). *)
From Coq Require Import Reals.
From Coquelicot Require Import Coquelicot.
From Verif Require Import Base.Mat.
Open Scope R_scope.

(** d/dx_f k(x,y) = d *)
Definition partial0 (k : Vec -> Vec -> R) (x y : Vec) (f : nat) (d : R) : Prop :=
  is_derive (fun t => k (upd x f t) y) (x f) d.
(** d/dy_e k(x,y) = d *)
Definition partial1 (k : Vec -> Vec -> R) (x y : Vec) (e : nat) (d : R) : Prop :=
  is_derive (fun t => k x (upd y e t)) (y e) d.
(** d^2/dx_f dy_e k(x,y) = d: the derivative along y_e of the partial along x_f,
    which exists in a neighbourhood *)
Definition partial01 (k : Vec -> Vec -> R) (x y : Vec) (f e : nat) (d : R) : Prop :=
  exists g : R -> R,
    locally (y e) (fun t => partial0 k x (upd y e t) f (g t)) /\ is_derive g (y e) d.
