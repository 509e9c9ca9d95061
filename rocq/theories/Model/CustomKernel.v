(** Models kernels written by the user: the dispatchers of gpx/kernels/kernelizers.py (400-487) and
    Kernel.__init__ of gpx/kernels/kernels.py (1433-1485) for a subclass that sets _kernel_base and overrides
    no attribute. *)
From Coq Require Import List String Reals.
From Verif Require Import Base.Sums Base.Mat Model.Arrays Model.PyDict Model.Params Model.Calls Model.Kernelizers Model.KernelMethods.
Import ListNotations.
Open Scope string_scope.

(** What tracing _kernel_base yields: its values on two samples, and the results of jacrev with respect to the
    first and the second argument, and of jacfwd(jacrev(.,0),1). They are arguments of the model: autodiff is not
    modelled, its correctness is a hypothesis of the theorems that need it. *)
Record traced : Type := Traced {
  tr_k : Vec -> Vec -> R; tr_g0 : Vec -> Vec -> Vec; tr_g1 : Vec -> Vec -> Vec; tr_h : Vec -> Vec -> Mat }.
(** The function given by the user: its parameters, and what it does with samples of nf features, active_dims and
    params; it can raise. *)
Record user_base : Type := UserBase { u_sig : sig; u_body : nat -> option (list nat) -> ptree -> result traced }.

(** the values accepted and not accepted for argnums *)
Inductive argnums : Type := Arg0 | Arg1 | Arg01 | ArgOther.
(** the low level decorators; the flag is trace_samples *)
Inductive lowlevel : Type := Grad0 | Grad0jac | Grad0jaccoef (trace : bool) | Grad1 | Grad1jac | Grad01 | Grad01jac | Grad01jaccoef (trace : bool).
(** kernelizers.py:400-412 grad0_kernelize *)
Definition grad0_dispatch (with_jacob with_jaccoef trace : bool) : lowlevel :=
  if with_jacob then if with_jaccoef then Grad0jaccoef trace else Grad0jac else Grad0.
(** kernelizers.py:417-421 grad1_kernelize *)
Definition grad1_dispatch (with_jacob : bool) : lowlevel := if with_jacob then Grad1jac else Grad1.
(** kernelizers.py:424-436 grad01_kernelize *)
Definition grad01_dispatch (with_jacob with_jaccoef trace : bool) : lowlevel :=
  if with_jacob then if with_jaccoef then Grad01jaccoef trace else Grad01jac else Grad01.
(** kernelizers.py:439-487 grad_kernelize *)
Definition grad_kernelize (a : argnums) (with_jacob with_jaccoef trace : bool) : result lowlevel :=
  match a with
  | Arg0 => Ok (grad0_dispatch with_jacob with_jaccoef trace)
  | Arg1 => Ok (grad1_dispatch with_jacob)
  | Arg01 => Ok (grad01_dispatch with_jacob with_jaccoef trace)
  | ArgOther => Err ValueError
  end.

(** kernel_func(x1, x2, params, active_dims=active_dims), in every kernelizer (kernelizers.py:76, 94, 116, 143,
    180, 204, 228, 255, 285, 315, 353, 382); the partial of kernels.py:1440 passes the same keyword, the call
    overrides it with the same value *)
Definition traced_base (u : user_base) (nf : nat) (ad : option (list nat)) (t : ptree) (f : traced -> Mat) : out :=
  call (u_sig u) 3 ["active_dims"] (bind (u_body u nf ad t) (fun b => Ok (Some (f b)))).
(** A kernelized function called with the arguments of one of the five kinds of closures. Too few arguments, or a
    jacobian in the place of active_dims, which is also given by keyword: TypeError. The traced variants return
    a vector, not a matrix: not modelled here (None). *)
Definition run_plain (u : user_base) (ad : option (list nat)) (l : result lowlevel) : plain := fun nf X1 X2 t =>
  bind l (fun l => match l with
  | Grad0 => traced_base u nf ad t (fun b => grad0_kernelize nf (tr_g0 b) X1 X2)
  | Grad1 => traced_base u nf ad t (fun b => grad1_kernelize nf (tr_g1 b) X1 X2)
  | Grad01 => traced_base u nf ad t (fun b => grad01_kernelize nf (tr_h b) X1 X2)
  | _ => Err TypeError
  end).
Definition run_jac (u : user_base) (ad : option (list nat)) (l : result lowlevel) : with_jac := fun n m nf nv X1 X2 t J =>
  bind l (fun l => match l with
  | Grad0jac => traced_base u nf ad t (fun b => grad0jac_kernelize n m nf nv (tr_g0 b) X1 X2 J)
  | Grad1jac => traced_base u nf ad t (fun b => grad1jac_kernelize n m nf nv (tr_g1 b) X1 X2 J)
  | _ => Err TypeError
  end).
Definition run_jac2 (u : user_base) (ad : option (list nat)) (l : result lowlevel) : with_jac2 := fun n m nf nv1 nv2 X1 X2 t J1 J2 =>
  bind l (fun l => match l with
  | Grad01jac => traced_base u nf ad t (fun b => grad01jac_kernelize n m nf nv1 nv2 (tr_h b) X1 X2 J1 J2)
  | _ => Err TypeError
  end).
Definition run_coef (u : user_base) (ad : option (list nat)) (l : result lowlevel) : with_coef := fun n m nf X1 X2 t C =>
  bind l (fun l => match l with
  | Grad0jaccoef false => traced_base u nf ad t (fun b => grad0jaccoef_untraced n nf (tr_g0 b) X1 X2 C)
  | Grad0jaccoef true => Ok None
  | _ => Err TypeError
  end).
Definition run_coefjac (u : user_base) (ad : option (list nat)) (l : result lowlevel) : with_coefjac := fun n m nf nv X1 X2 t C J =>
  bind l (fun l => match l with
  | Grad01jaccoef false => traced_base u nf ad t (fun b => grad01jaccoef_untraced n m nf nv (tr_h b) X1 X2 C J)
  | Grad01jaccoef true => Ok None
  | _ => Err TypeError
  end).

(** Kernel.__init__ kernels.py:1433-1485 *)
Definition user_methods (u : user_base) (ad : option (list nat)) : methods := {|
  o_k nf X1 X2 t := traced_base u nf ad t (fun b => kernelize (tr_k b) X1 X2);
  o_d0k := run_plain u ad (grad_kernelize Arg0 false false true);
  o_d1k := run_plain u ad (grad_kernelize Arg1 false false true);
  o_d01k := run_plain u ad (grad_kernelize Arg01 false false true);
  o_d0kj := run_jac u ad (grad_kernelize Arg0 true false true);
  o_d1kj := run_jac u ad (grad_kernelize Arg1 true false true);
  o_d01kj := run_jac2 u ad (grad_kernelize Arg01 true false true);
  o_d0kjc := run_coef u ad (grad_kernelize Arg0 true true false);
  o_d01kjc := run_coefjac u ad (grad_kernelize Arg01 true true false) |}.
