(** Models the kernel objects of gpx/kernels/kernels.py (1395-1942) as values holding no numbers: the
    parameters come with each call, as a nested dictionary of Parameters.
    Only the method k (and __call__) is followed. *)
From Coq Require Import List String Reals.
From Verif Require Import Base.Sums Base.Mat Model.Arrays Model.Kernels Model.PyDict Model.Bijectors Model.Priors Model.Params.
Import ListNotations.
Open Scope string_scope.

(** the classes of kernels.py:1497-1791; the flag is no_intercept *)
Inductive kclass : Type :=
| CConstant | CLinear | CPolynomial (no_intercept : bool) | CSE | CM12 | CM32 | CM52 | CPer.
(** kernel objects: an atom with its active_dims, and what __add__, __mul__ build (kernels.py:1490-1494,
    1795-1942) *)
Inductive kobj : Type :=
| OAtom (c : kclass) (ad : option (list nat))
| OSum (k1 k2 : kobj)
| OProd (k1 k2 : kobj).

(** params[name] *)
Definition item (name : string) (t : ptree) : result ptree :=
  match t with
  | Leaf _ => Err TypeError
  | Node l => match get name l with Some s => Ok s | None => Err KeyError end
  end.
(** .value *)
Definition value_of (t : ptree) : result array :=
  match t with Leaf (Some p) => Ok (p_value p) | _ => Err AttributeError end.
(** what the wrappers read, in this order: kernels.py:74, 94 (Constant), 386-387 and the like (Polynomial),
    lengthscale in all others, 1367-1368 (ExpSinSquared); Linear reads nothing (kernels.py:214-232) *)
Definition names (c : kclass) : list string :=
  match c with
  | CConstant => ["variance"]
  | CLinear => []
  | CPolynomial _ => ["degree"; "offset"]
  | CSE | CM12 | CM32 | CM52 => ["lengthscale"]
  | CPer => ["lengthscale"; "periodicity"]
  end.
Definition values (c : kclass) (t : ptree) : result (list array) :=
  mapM (fun n => bind (item n t) value_of) (names c).

(** a 0-d array holding a number *)
Definition scalar_of (a : array) : option R :=
  match a_shape a, a_data a with [], [Some r] => Some r | _, _ => None end.
(** a degree that is a natural number *)
Definition nat_of (r : R) : option nat :=
  let n := Z.to_nat (Int_part r) in if Req_EM_T r (INR n) then Some n else None.
(** the kernel computed from these values; None: values for which the kernels are not modelled (arrays that
    are not 0-d, NaN, degrees that are not natural numbers) *)
Definition atom_of (c : kclass) (vs : list array) : option atom :=
  match c, map scalar_of vs with
  | CConstant, [Some v] => Some (AConst v)
  | CLinear, [] => Some ALin
  | CPolynomial ni, [Some d; Some off] =>
      option_map (fun n => if ni then ANoInt n off else APoly n off) (nat_of d)
  | CSE, [Some l] => Some (ASE l)
  | CM12, [Some l] => Some (AM12 l)
  | CM32, [Some l] => Some (AM32 l)
  | CM52, [Some l] => Some (AM52 l)
  | CPer, [Some l; Some p] => Some (APer l p)
  | _, _ => None
  end.
Definition lift2 (f : Mat -> Mat -> Mat) (a b : option Mat) : option Mat :=
  match a, b with Some x, Some y => Some (f x y) | _, _ => None end.
(** kernels.py:1487-1488 __call__ and the method k. Sum.k and Prod.k are the closures built by
    operations.py:118-122 sum_kernels, 188-191 prod_kernels: both sub-dictionaries are taken before the
    first kernel is evaluated. *)
Fixpoint call_k (nf : nat) (o : kobj) (X1 X2 : Mat) (t : ptree) : result (option Mat) :=
  match o with
  | OAtom c ad => bind (values c t) (fun vs => Ok (option_map (fun a => atom_k nf ad a X1 X2) (atom_of c vs)))
  | OSum k1 k2 =>
      bind (item "kernel1" t) (fun t1 => bind (item "kernel2" t) (fun t2 =>
      bind (call_k nf k1 X1 X2 t1) (fun m1 => bind (call_k nf k2 X1 X2 t2) (fun m2 =>
      Ok (lift2 (fun A B i j => (A i j + B i j)%R) m1 m2)))))
  | OProd k1 k2 =>
      bind (item "kernel1" t) (fun t1 => bind (item "kernel2" t) (fun t2 =>
      bind (call_k nf k1 X1 X2 t1) (fun m1 => bind (call_k nf k2 X1 X2 t2) (fun m2 =>
      Ok (lift2 (fun A B i j => (A i j * B i j)%R) m1 m2)))))
  end.

(** ** default parameters *)
Definition zero_d (r : R) : array := Arr [] F64 [Some r].
(** priors.py:190-290: the defaults are shape () and float64, concentration = rate = 1 *)
Definition gamma_prior : prior_obj := PriorObj [] F64 (GammaPrior 1 1).
Definition normal_prior : prior_obj := PriorObj [] F64 (NormalPrior 0 1).
Definition def (r : R) (trainable : bool) (b : bijector) (pr : prior_obj) : result ptree :=
  bind (mk_param (zero_d r) (Meta trainable b pr)) (fun p => Ok (Leaf (Some p))).
(** kernels.py:1524-1532, 1561-1562, 1606-1620, 1650-1658, 1678-1686, 1706-1714, 1746-1754, 1777-1791,
    1843-1848, 1937-1942: default_params *)
Fixpoint default_params (o : kobj) : result ptree :=
  match o with
  | OAtom CConstant _ => bind (def 1 true Softplus gamma_prior) (fun v => Ok (Node [("variance", v)]))
  | OAtom CLinear _ => Ok (Node [])
  | OAtom (CPolynomial _) _ =>
      bind (def 2 false Softplus gamma_prior) (fun d => bind (def 1 false Identity normal_prior) (fun f =>
      Ok (Node [("degree", d); ("offset", f)])))
  | OAtom (CSE | CM12 | CM32 | CM52) _ =>
      bind (def 1 true Softplus gamma_prior) (fun l => Ok (Node [("lengthscale", l)]))
  | OAtom CPer _ =>
      bind (def 1 true Softplus gamma_prior) (fun l => bind (def (2 * PI) false Softplus gamma_prior) (fun p =>
      Ok (Node [("lengthscale", l); ("periodicity", p)])))
  | OSum k1 k2 | OProd k1 k2 =>
      bind (default_params k1) (fun t1 => bind (default_params k2) (fun t2 =>
      Ok (Node [("kernel1", t1); ("kernel2", t2)])))
  end.
