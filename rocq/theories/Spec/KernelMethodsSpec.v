(** All methods of a kernel object compute the methods of one kernel. *)
From Coq Require Import Reals.
From Verif Require Import Base.Sums Base.Mat Model.Arrays Model.Kernels Model.PyDict Model.Params Model.KernelObj Model.KernelMethods.
(** called with the dictionary t, the methods of the object are those of the kernel k (Model/Kernels.v), whose
    meaning as derivatives is the subject of C28-C33 *)
Record computes (o : methods) (t : ptree) (k : kexp) : Prop := {
  c_k : forall nf X1 X2, o_k o nf X1 X2 t = Ok (Some (kk nf k X1 X2));
  c_d0k : forall nf X1 X2, o_d0k o nf X1 X2 t = Ok (Some (d0k nf k X1 X2));
  c_d1k : forall nf X1 X2, o_d1k o nf X1 X2 t = Ok (Some (d1k nf k X1 X2));
  c_d01k : forall nf X1 X2, o_d01k o nf X1 X2 t = Ok (Some (d01k nf k X1 X2));
  c_d0kj : forall n m nf nv X1 X2 J, o_d0kj o n m nf nv X1 X2 t J = Ok (Some (d0kj n m nf nv k X1 X2 J));
  c_d1kj : forall n m nf nv X1 X2 J, o_d1kj o n m nf nv X1 X2 t J = Ok (Some (d1kj n m nf nv k X1 X2 J));
  c_d01kj : forall n m nf nv1 nv2 X1 X2 J1 J2,
    o_d01kj o n m nf nv1 nv2 X1 X2 t J1 J2 = Ok (Some (d01kj n m nf nv1 nv2 k X1 X2 J1 J2));
  c_d0kjc : forall n m nf X1 X2 C, o_d0kjc o n m nf X1 X2 t C = Ok (Some (d0kjc n m nf k X1 X2 C));
  c_d01kjc : forall n m nf nv X1 X2 C J, o_d01kjc o n m nf nv X1 X2 t C J = Ok (Some (d01kjc n m nf nv k X1 X2 C J)) }.
(** no exception *)
Definition ok {A} (r : result A) : Prop := exists a, r = Ok a.
Record succeeds (o : methods) (t : ptree) : Prop := {
  s_k : forall nf X1 X2, ok (o_k o nf X1 X2 t);
  s_d0k : forall nf X1 X2, ok (o_d0k o nf X1 X2 t);
  s_d1k : forall nf X1 X2, ok (o_d1k o nf X1 X2 t);
  s_d01k : forall nf X1 X2, ok (o_d01k o nf X1 X2 t);
  s_d0kj : forall n m nf nv X1 X2 J, ok (o_d0kj o n m nf nv X1 X2 t J);
  s_d1kj : forall n m nf nv X1 X2 J, ok (o_d1kj o n m nf nv X1 X2 t J);
  s_d01kj : forall n m nf nv1 nv2 X1 X2 J1 J2, ok (o_d01kj o n m nf nv1 nv2 X1 X2 t J1 J2);
  s_d0kjc : forall n m nf X1 X2 C, ok (o_d0kjc o n m nf X1 X2 t C);
  s_d01kjc : forall n m nf nv X1 X2 C J, ok (o_d01kjc o n m nf nv X1 X2 t C J) }.
