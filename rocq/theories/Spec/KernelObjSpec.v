(** Where a kernel object finds its parameters in a nested dictionary, and which values keep it a kernel. *)
From Coq Require Import List String Reals.
From Verif Require Import Base.Sums Base.Mat Model.Arrays Model.Kernels Spec.KernelSpec Model.PyDict Model.Bijectors Spec.BijectorSpec
  Model.Params Model.State Model.Optim Spec.StateSpec Spec.RandomSpec Spec.OptimSpec Model.KernelObj.
Import ListNotations.
Open Scope string_scope.

(** what is stored under a path of names *)
Fixpoint sub {A : Type} (path : list string) (t : tree A) : option (tree A) :=
  match path, t with
  | [], t => Some t
  | k :: r, Node l => match get k l with Some s => sub r s | None => None end
  | _, _ => None
  end.
(** the path leads to a Parameter holding the single number r *)
Definition number_at (path : list string) (t : ptree) (r : R) : Prop :=
  exists p, lookup path t = Some (Some p) /\ a_shape (p_value p) = [] /\ a_data (p_value p) = [Some r].

(** the kernel of class c whose parameters lie below q in t is a *)
Definition atom_reads (q : list string) (c : kclass) (t : ptree) (a : atom) : Prop :=
  match c, a with
  | CConstant, AConst v => number_at (q ++ ["variance"]) t v
  | CLinear, ALin => True
  | CPolynomial false, APoly n off | CPolynomial true, ANoInt n off =>
      number_at (q ++ ["degree"]) t (INR n) /\ number_at (q ++ ["offset"]) t off
  | CSE, ASE l | CM12, AM12 l | CM32, AM32 l | CM52, AM52 l => number_at (q ++ ["lengthscale"]) t l
  | CPer, APer l p => number_at (q ++ ["lengthscale"]) t l /\ number_at (q ++ ["periodicity"]) t p
  | _, _ => False
  end%list.
(** the kernel object o with the parameters below q in t is the kernel k *)
Fixpoint reads (q : list string) (o : kobj) (t : ptree) (k : kexp) : Prop :=
  match o, k with
  | OAtom c ad, KAtom ad' a => ad' = ad /\ atom_reads q c t a
  | OSum o1 o2, KSum k1 k2 | OProd o1 o2, KProd k1 k2 =>
      reads (q ++ ["kernel1"]) o1 t k1 /\ reads (q ++ ["kernel2"]) o2 t k2
  | _, _ => False
  end%list.
(** the places of the parameters of o, and of the dictionaries of its components *)
Fixpoint leaves (q : list string) (o : kobj) : list (list string) :=
  match o with
  | OAtom CConstant _ => [q ++ ["variance"]]
  | OAtom CLinear _ => []
  | OAtom (CPolynomial _) _ => [q ++ ["degree"]; q ++ ["offset"]]
  | OAtom (CSE | CM12 | CM32 | CM52) _ => [q ++ ["lengthscale"]]
  | OAtom CPer _ => [q ++ ["lengthscale"]; q ++ ["periodicity"]]
  | OSum o1 o2 | OProd o1 o2 => leaves (q ++ ["kernel1"]) o1 ++ leaves (q ++ ["kernel2"]) o2
  end%list.
Fixpoint dicts (q : list string) (o : kobj) : list (list string) :=
  match o with
  | OAtom _ _ => []
  | OSum o1 o2 | OProd o1 o2 =>
      (q ++ ["kernel1"]) :: (q ++ ["kernel2"]) :: dicts (q ++ ["kernel1"]) o1 ++ dicts (q ++ ["kernel2"]) o2
  end%list.
Definition present (q : list string) (o : kobj) (t : ptree) : Prop :=
  forall path, In path (dicts q o) -> sub path t <> None.

(** the kernel with the documented default values *)
Definition default_atom (c : kclass) : atom :=
  match c with
  | CConstant => AConst 1 | CLinear => ALin
  | CPolynomial false => APoly 2 1 | CPolynomial true => ANoInt 2 1
  | CSE => ASE 1 | CM12 => AM12 1 | CM32 => AM32 1 | CM52 => AM52 1 | CPer => APer 1 (2 * PI)
  end.
Fixpoint default_kernel (o : kobj) : kexp :=
  match o with
  | OAtom c ad => KAtom ad (default_atom c)
  | OSum a b => KSum (default_kernel a) (default_kernel b)
  | OProd a b => KProd (default_kernel a) (default_kernel b)
  end.

(** the parameter at path is a number with the property needed by its kernel, and so is every other value
    its bijector can give if it is trainable *)
Definition safe_at (need : R -> Prop) (path : list string) (t : ptree) : Prop :=
  exists p r, lookup path t = Some (Some p) /\ a_shape (p_value p) = [] /\ a_data (p_value p) = [Some r] /\ need r /\
    (m_trainable (p_meta p) = true -> forall y, in_range (m_bijector (p_meta p)) y -> need y).
Definition nonneg (r : R) : Prop := (0 <= r)%R.
Definition positive (r : R) : Prop := (0 < r)%R.
Definition integral (r : R) : Prop := exists n, r = INR n.
Fixpoint safe_params (q : list string) (o : kobj) (t : ptree) : Prop :=
  match o with
  | OAtom CConstant _ => safe_at nonneg (q ++ ["variance"]) t
  | OAtom CLinear _ => True
  | OAtom (CPolynomial _) _ => safe_at integral (q ++ ["degree"]) t /\ safe_at nonneg (q ++ ["offset"]) t
  | OAtom (CSE | CM12 | CM32 | CM52) _ => safe_at positive (q ++ ["lengthscale"]) t
  | OAtom CPer _ => safe_at positive (q ++ ["lengthscale"]) t /\ safe_at positive (q ++ ["periodicity"]) t
  | OSum o1 o2 | OProd o1 o2 => safe_params (q ++ ["kernel1"]) o1 t /\ safe_params (q ++ ["kernel2"]) o2 t
  end%list.
Definition safe (q : list string) (o : kobj) (t : ptree) : Prop := safe_params q o t /\ present q o t.

(** ** runs *)
(** prior.sample gives as many numbers as the shape of the prior says *)
Definition sampler_full (sample : key -> prior_obj -> array) : Prop :=
  forall k pr, List.length (a_data (sample k pr)) = size_of (pr_shape pr).
(** from s to u: u is the result of a minimisation started at s, or a state at which its loss was evaluated,
    or a randomisation of s *)
Inductive move (sample : key -> prior_obj -> array) (s u : state) : Prop :=
| by_minimize : forall A (loss : array -> state -> result A) minimize,
    proposes_reals (minimize (ravel_backward (s_params s))) ->
    fst (scipy_minimize loss minimize s) = Ok u \/ In u (snd (scipy_minimize loss minimize s)) -> move sample s u
| by_randomize : forall k, randomize sample s k [] = Ok u -> move sample s u.
Inductive run (sample : key -> prior_obj -> array) (s : state) : state -> Prop :=
| run_start : run sample s s
| run_move : forall u v, run sample s u -> move sample u v -> run sample s v.
