(** Models all methods of the kernel objects of gpx/kernels/kernels.py (1395-1942) as closures stored in an
    object, and the functions of gpx/kernels/operations.py (103-426) that build the closures of sums and
    products. KernelObj.v follows the method k alone. *)
From Coq Require Import List String Reals.
From Verif Require Import Base.Sums Base.Mat Model.Arrays Model.Kernels Model.PyDict Model.Params Model.KernelObj.
Import ListNotations.
Open Scope string_scope.

(** What a closure returns: an exception, or a matrix, or (None) a value that is not modelled, see
    KernelObj.atom_of. *)
Definition out : Type := result (option Mat).
(** an array expression with two operands, the left one evaluated first *)
Definition binop (f : Mat -> Mat -> Mat) (a b : out) : out :=
  bind a (fun x => bind b (fun y => Ok (lift2 f x y))).
Definition addo : out -> out -> out := binop (fun A B i j => (A i j + B i j)%R).
Definition mulo : out -> out -> out := binop (fun A B i j => (A i j * B i j)%R).
Definition repo (f : Mat -> Mat) (a : out) : out := bind a (fun x => Ok (option_map f x)).
(** params1 = params["kernel1"]; params2 = params["kernel2"] *)
Definition halves (t : ptree) (f : ptree -> ptree -> out) : out :=
  bind (item "kernel1" t) (fun t1 => bind (item "kernel2" t) (fun t2 => f t1 t2)).

(** the five kinds of closures. The numbers of samples n, m, of features nf, and of components nv are those
    of the arrays. *)
Definition plain : Type := nat -> Mat -> Mat -> ptree -> out.
Definition with_jac : Type := nat -> nat -> nat -> nat -> Mat -> Mat -> ptree -> Ten -> out.
Definition with_jac2 : Type := nat -> nat -> nat -> nat -> nat -> Mat -> Mat -> ptree -> Ten -> Ten -> out.
Definition with_coef : Type := nat -> nat -> nat -> Mat -> Mat -> ptree -> Mat -> out.
Definition with_coefjac : Type := nat -> nat -> nat -> nat -> Mat -> Mat -> ptree -> Mat -> Ten -> out.

(** the attributes set by Kernel.__init__, Sum.__init__, Prod.__init__ *)
Record methods : Type := Methods {
  o_k : plain; o_d0k : plain; o_d1k : plain; o_d01k : plain;
  o_d0kj : with_jac; o_d1kj : with_jac; o_d01kj : with_jac2;
  o_d0kjc : with_coef; o_d01kjc : with_coefjac }.

(** operations.py:103-124 sum_kernels *)
Definition sum_kernels (f g : plain) : plain := fun nf X1 X2 t => halves t (fun t1 t2 => addo (f nf X1 X2 t1) (g nf X1 X2 t2)).
(** operations.py:127-148 sum_kernels_jac, applied to closures taking a jacobian and to closures taking a
    jaccoef *)
Definition sum_kernels_jac (f g : with_jac) : with_jac := fun n m nf nv X1 X2 t J =>
  halves t (fun t1 t2 => addo (f n m nf nv X1 X2 t1 J) (g n m nf nv X1 X2 t2 J)).
Definition sum_kernels_coef (f g : with_coef) : with_coef := fun n m nf X1 X2 t C =>
  halves t (fun t1 t2 => addo (f n m nf X1 X2 t1 C) (g n m nf X1 X2 t2 C)).
(** operations.py:151-172 sum_kernels_jac2 *)
Definition sum_kernels_jac2 (f g : with_jac2) : with_jac2 := fun n m nf nv1 nv2 X1 X2 t J1 J2 =>
  halves t (fun t1 t2 => addo (f n m nf nv1 nv2 X1 X2 t1 J1 J2) (g n m nf nv1 nv2 X1 X2 t2 J1 J2)).
Definition sum_kernels_coefjac (f g : with_coefjac) : with_coefjac := fun n m nf nv X1 X2 t C J =>
  halves t (fun t1 t2 => addo (f n m nf nv X1 X2 t1 C J) (g n m nf nv X1 X2 t2 C J)).
(** operations.py:175-193 prod_kernels *)
Definition prod_kernels (f g : plain) : plain := fun nf X1 X2 t => halves t (fun t1 t2 => mulo (f nf X1 X2 t1) (g nf X1 X2 t2)).
(** operations.py:196-234 prod_kernels_deriv; rep is repeat along the axis *)
Definition prod_kernels_deriv (rep : nat -> Mat -> Mat) (k1 k2 d1 d2 : plain) : plain := fun nf X1 X2 t =>
  halves t (fun t1 t2 =>
    addo (mulo (repo (rep nf) (k1 nf X1 X2 t1)) (d2 nf X1 X2 t2)) (mulo (d1 nf X1 X2 t1) (repo (rep nf) (k2 nf X1 X2 t2)))).
(** operations.py:237-277 prod_kernels_deriv01 *)
Definition prod_kernels_deriv01 (k1 k2 a1 a2 b1 b2 h1 h2 : plain) : plain := fun nf X1 X2 t =>
  halves t (fun t1 t2 =>
    addo (addo (addo
      (mulo (repo (rep_col nf) (repo (rep_row nf) (k1 nf X1 X2 t1))) (h2 nf X1 X2 t2))
      (mulo (repo (rep_col nf) (a1 nf X1 X2 t1)) (repo (rep_row nf) (b2 nf X1 X2 t2))))
      (mulo (repo (rep_row nf) (b1 nf X1 X2 t1)) (repo (rep_col nf) (a2 nf X1 X2 t2))))
      (mulo (h1 nf X1 X2 t1) (repo (rep_col nf) (repo (rep_row nf) (k2 nf X1 X2 t2))))).
(** operations.py:280-317 prod_kernels_deriv_jac *)
Definition prod_kernels_deriv_jac (rep : nat -> Mat -> Mat) (k1 k2 : plain) (d1 d2 : with_jac) : with_jac := fun n m nf nv X1 X2 t J =>
  halves t (fun t1 t2 =>
    addo (mulo (repo (rep nv) (k1 nf X1 X2 t1)) (d2 n m nf nv X1 X2 t2 J))
         (mulo (d1 n m nf nv X1 X2 t1 J) (repo (rep nv) (k2 nf X1 X2 t2)))).
(** operations.py:320-342 prod_kernels_deriv0_jaccoef *)
Definition prod_kernels_deriv0_jaccoef (k1 k2 : plain) (d1 d2 : with_coef) : with_coef := fun n m nf X1 X2 t C =>
  halves t (fun t1 t2 =>
    addo (mulo (k1 nf X1 X2 t1) (d2 n m nf X1 X2 t2 C)) (mulo (d1 n m nf X1 X2 t1 C) (k2 nf X1 X2 t2))).
(** operations.py:345-389 prod_kernels_deriv01_jac *)
Definition prod_kernels_deriv01_jac (k1 k2 : plain) (a1 a2 b1 b2 : with_jac) (h1 h2 : with_jac2) : with_jac2 :=
  fun n m nf nv1 nv2 X1 X2 t J1 J2 => halves t (fun t1 t2 =>
    addo (addo (addo
      (mulo (repo (rep_col nv2) (repo (rep_row nv1) (k1 nf X1 X2 t1))) (h2 n m nf nv1 nv2 X1 X2 t2 J1 J2))
      (mulo (repo (rep_col nv2) (a1 n m nf nv1 X1 X2 t1 J1)) (repo (rep_row nv1) (b2 n m nf nv2 X1 X2 t2 J2))))
      (mulo (repo (rep_row nv1) (b1 n m nf nv2 X1 X2 t1 J2)) (repo (rep_col nv2) (a2 n m nf nv1 X1 X2 t2 J1))))
      (mulo (h1 n m nf nv1 nv2 X1 X2 t1 J1 J2) (repo (rep_col nv2) (repo (rep_row nv1) (k2 nf X1 X2 t2))))).
(** operations.py:392-426 prod_kernels_deriv01_jaccoef *)
Definition prod_kernels_deriv01_jaccoef (k1 k2 : plain) (a1 a2 : with_coef) (b1 b2 : with_jac) (h1 h2 : with_coefjac) : with_coefjac :=
  fun n m nf nv X1 X2 t C J => halves t (fun t1 t2 =>
    addo (addo (addo
      (mulo (repo (rep_col nv) (k1 nf X1 X2 t1)) (h2 n m nf nv X1 X2 t2 C J))
      (mulo (repo (rep_col nv) (a1 n m nf X1 X2 t1 C)) (b2 n m nf nv X1 X2 t2 J)))
      (mulo (b1 n m nf nv X1 X2 t1 J) (repo (rep_col nv) (a2 n m nf X1 X2 t2 C))))
      (mulo (h1 n m nf nv X1 X2 t1 C J) (repo (rep_col nv) (k2 nf X1 X2 t2)))).

(** a function of the class c that reads its parameters and computes f *)
Definition reading (c : kclass) (t : ptree) (f : atom -> Mat) : out :=
  bind (values c t) (fun vs => Ok (option_map f (atom_of c vs))).
(** the derivative functions of Constant without jaccoef read no parameter: kernels.py:99-207 *)
Definition reading_deriv (c : kclass) (t : ptree) (f : atom -> Mat) : out :=
  match c with CConstant => Ok (Some zeros) | _ => reading c t f end.

(** Kernel.__init__ kernels.py:1433-1485 and the attributes the subclasses replace (1507-1525, 1544-1559,
    1579-1604, 1633-1648, 1672-1676, 1700-1704, 1728-1744, 1773-1775); which function each attribute is, is
    decided in Kernels.v by atom_k, atom_d0k, ... *)
Definition atom_methods (c : kclass) (ad : option (list nat)) : methods := {|
  o_k nf X1 X2 t := reading c t (fun a => atom_k nf ad a X1 X2);
  o_d0k nf X1 X2 t := reading_deriv c t (fun a => atom_d0k nf ad a X1 X2);
  o_d1k nf X1 X2 t := reading_deriv c t (fun a => atom_d1k nf ad a X1 X2);
  o_d01k nf X1 X2 t := reading_deriv c t (fun a => atom_d01k nf ad a X1 X2);
  o_d0kj n m nf nv X1 X2 t J := reading_deriv c t (fun a => atom_d0kj n m nf nv ad a X1 X2 J);
  o_d1kj n m nf nv X1 X2 t J := reading_deriv c t (fun a => atom_d1kj n m nf nv ad a X1 X2 J);
  o_d01kj n m nf nv1 nv2 X1 X2 t J1 J2 := reading_deriv c t (fun a => atom_d01kj n m nf nv1 nv2 ad a X1 X2 J1 J2);
  o_d0kjc n m nf X1 X2 t C := reading c t (fun a => atom_d0kjc n m nf ad a X1 X2 C);
  o_d01kjc n m nf nv X1 X2 t C J := reading c t (fun a => atom_d01kjc n m nf nv ad a X1 X2 C J) |}.
(** Sum.__init__ kernels.py:1813-1841 *)
Definition sum_methods (p q : methods) : methods := {|
  o_k := sum_kernels (o_k p) (o_k q);
  o_d0k := sum_kernels (o_d0k p) (o_d0k q);
  o_d1k := sum_kernels (o_d1k p) (o_d1k q);
  o_d01k := sum_kernels (o_d01k p) (o_d01k q);
  o_d0kj := sum_kernels_jac (o_d0kj p) (o_d0kj q);
  o_d1kj := sum_kernels_jac (o_d1kj p) (o_d1kj q);
  o_d01kj := sum_kernels_jac2 (o_d01kj p) (o_d01kj q);
  o_d0kjc := sum_kernels_coef (o_d0kjc p) (o_d0kjc q);
  o_d01kjc := sum_kernels_coefjac (o_d01kjc p) (o_d01kjc q) |}.
(** Prod.__init__ kernels.py:1869-1935 *)
Definition prod_methods (p q : methods) : methods := {|
  o_k := prod_kernels (o_k p) (o_k q);
  o_d0k := prod_kernels_deriv rep_row (o_k p) (o_k q) (o_d0k p) (o_d0k q);
  o_d1k := prod_kernels_deriv rep_col (o_k p) (o_k q) (o_d1k p) (o_d1k q);
  o_d01k := prod_kernels_deriv01 (o_k p) (o_k q) (o_d0k p) (o_d0k q) (o_d1k p) (o_d1k q) (o_d01k p) (o_d01k q);
  o_d0kj := prod_kernels_deriv_jac rep_row (o_k p) (o_k q) (o_d0kj p) (o_d0kj q);
  o_d1kj := prod_kernels_deriv_jac rep_col (o_k p) (o_k q) (o_d1kj p) (o_d1kj q);
  o_d01kj := prod_kernels_deriv01_jac (o_k p) (o_k q) (o_d0kj p) (o_d0kj q) (o_d1kj p) (o_d1kj q) (o_d01kj p) (o_d01kj q);
  o_d0kjc := prod_kernels_deriv0_jaccoef (o_k p) (o_k q) (o_d0kjc p) (o_d0kjc q);
  o_d01kjc := prod_kernels_deriv01_jaccoef (o_k p) (o_k q) (o_d0kjc p) (o_d0kjc q) (o_d1kj p) (o_d1kj q) (o_d01kjc p) (o_d01kjc q) |}.
(** the object an expression such as Linear() + Constant() * Matern52() builds *)
Fixpoint build (o : kobj) : methods :=
  match o with
  | OAtom c ad => atom_methods c ad
  | OSum a b => sum_methods (build a) (build b)
  | OProd a b => prod_methods (build a) (build b)
  end.
