(** Puts together Model/Lifecycle.v (model objects, their states, files), Model/KernelObj.v (kernel objects and
    the parameters given with each call), and Model/Public.v (the public functions on matrices): the numerics of
    the classes GPR, SGPR and SGPR_RPChol on arrays and parameter dictionaries.
    Arrays are float64, of the shapes the code is written for and without NaN; for all other arguments the result
    is that of rest, an argument. fit_ol and predict_ol are those of rest, and so are the covariances of predicted
    derivatives of the sparse classes. *)
From Coq Require Import List String Reals Arith Bool ZArith.
From Verif Require Import Base.Sums Base.Mat Model.Arrays Model.Kernels Model.LinAlg Model.GPR Model.PyDict Model.Params Model.State
  Model.Calls Model.Lifecycle Model.KernelObj Model.Public.
Import ListNotations.
Open Scope string_scope.
Open Scope R_scope.

(** ** arrays *)
Definition is_real (x : num) : bool := match x with Some _ => true | None => false end.
Definition at_ (a : array) (i : nat) : R := match nth i (a_data a) None with Some r => r | None => 0 end.
Definition float64 (a : array) : bool :=
  match a_dtype a with
  | F64 => Nat.eqb (List.length (a_data a)) (size_of (a_shape a)) && forallb is_real (a_data a)
  | _ => false
  end.
(** row-major storage *)
Definition mat_of (a : array) : option (nat * nat * Mat) :=
  match a_shape a with
  | [n; m] => if float64 a then Some (n, m, fun i j => at_ a (i * m + j)) else None
  | _ => None
  end.
Definition ten_of (a : array) : option (nat * nat * nat * Ten) :=
  match a_shape a with
  | [n; m; p] => if float64 a then Some (n, m, p, fun i j k => at_ a ((i * m + j) * p + k)) else None
  | _ => None
  end.
Definition arr2 (n m : nat) (M : Mat) : array :=
  Arr [n; m] F64 (map (fun r => Some (M (r / m)%nat (r mod m)%nat)) (seq 0 (n * m))).
Definition arr0 (r : R) : array := Arr [] F64 [Some r].
Definition arr3 (n m p : nat) (T : Ten) : array :=
  Arr [n; m; p] F64 (map (fun r => Some (T (r / (m * p))%nat (r mod (m * p) / p)%nat (r mod p)%nat)) (seq 0 (n * (m * p)))).

(** ** parameters *)
(** the kernel whose methods the methods of the object compute when called with the dictionary t (C62); None
    when a parameter is missing or is not a single number *)
Fixpoint kernel_of (o : kobj) (t : ptree) : option kexp :=
  match o with
  | OAtom c ad => match values c t with Ok vs => option_map (KAtom ad) (atom_of c vs) | Err _ => None end
  | OSum o1 o2 =>
      match item "kernel1" t, item "kernel2" t with
      | Ok t1, Ok t2 => match kernel_of o1 t1, kernel_of o2 t2 with Some k1, Some k2 => Some (KSum k1 k2) | _, _ => None end
      | _, _ => None
      end
  | OProd o1 o2 =>
      match item "kernel1" t, item "kernel2" t with
      | Ok t1, Ok t2 => match kernel_of o1 t1, kernel_of o2 t2 with Some k1, Some k2 => Some (KProd k1 k2) | _, _ => None end
      | _, _ => None
      end
  end.

Section Numerics.
  Variables (la : linalg) (choose : nat -> Vec -> nat).
  (** the kernel object and the mean function behind a Python object *)
  Variables (kernels : obj -> option kobj) (means : obj -> option (nat -> nat -> Mat -> R)).
  Variable rest : numerics.
  (** what the key of SGPR_RPChol makes jax.random.choice pick; choose is that of gpxargs.key_precond *)
  Variable keyed : obj -> nat -> Vec -> nat.

  (** params["kernel_params"] given to the kernel, params["sigma"].value *)
  Definition hyper (p : ptree) (kernel : obj) : option (kexp * R) :=
    match kernels kernel, item "kernel_params" p, bind (item "sigma" p) value_of with
    | Some o, Ok t, Ok a =>
        match kernel_of o t, scalar_of a with Some k, Some s => Some (k, s) | _, _ => None end
    | _, _, _ => None
    end.
  (** n_pivots, an integer between 0 and m for the iterative routines, not used by the others *)
  Definition pivots (m : nat) (o : options) : option nat :=
    if o_iterative o then
      match o_n_pivots o with
      | OInt z => if (0 <=? z)%Z && Nat.leb (Z.to_nat z) m then Some (Z.to_nat z) else None
      | _ => None
      end
    else Some O.
  Definition blank : gpr_state := GPRState O O (fun _ _ => 0) (fun _ _ _ => 0) (fun _ _ => 0) 0 (fun _ _ => 0) false false.
  Definition fields (l : list (string * array)) : string -> array := fun name => match get name l with Some a => a | None => arr0 0 end.

  (** gpr.py:397-433 fit *)
  Definition c_gpr_fit (p : ptree) (kernel mean : obj) (vs : list obj) (d : data) (o : options) : result (string -> array) :=
    let unmodelled := n_fit rest (task_of d) p kernel mean vs d o in
    match d with
    | Targets x y =>
        match hyper p kernel, means mean, mat_of x, mat_of y with
        | Some (k, sigma), Some mf, Some (m, nf, X), Some (m', oo, Y) =>
            match pivots m o with
            | Some np =>
                if Nat.eqb m m' then
                  let s := gpr_fit la choose nf k sigma mf blank m oo X Y (o_iterative o) np in
                  Ok (fields [("c", arr2 m oo (g_c s)); ("mu", arr0 (g_mu s))])
                else unmodelled
            | None => unmodelled
            end
        | _, _, _, _ => unmodelled
        end
    (** gpr.py:436-490 fit_derivs *)
    | Derivs x y j =>
        match hyper p kernel, mat_of x, mat_of y, ten_of j with
        | Some (k, sigma), Some (m, nf, X), Some (m1, nv, Y), Some (m2, nf', nv', J) =>
            match pivots (m * nv) o with
            | Some np =>
                if Nat.eqb m m1 && Nat.eqb m m2 && Nat.eqb nf nf' && Nat.eqb nv nv' then
                  let s := gpr_fit_derivs la choose nf k sigma m nv X Y J (o_iterative o) np in
                  Ok (fields [("jaccoef", arr2 m nf (g_jaccoef s)); ("c", arr2 (m * nv) 1 (g_c s)); ("mu", arr0 (g_mu s))])
                else unmodelled
            | None => unmodelled
            end
        | _, _, _, _ => unmodelled
        end
    | Both _ _ _ _ => unmodelled
    end.
  (** gpr.py:542-594 predict; vs are x_train, c and mu *)
  Definition c_gpr_predict (p : ptree) (kernel : obj) (vs : list obj) (q : query) : result (list array) :=
    let unmodelled := n_predict rest p kernel vs q in
    match vs with
    | [OArr x; OArr c; OArr mu] =>
        match hyper p kernel, mat_of x, mat_of c, scalar_of mu, mat_of (q_x q) with
        | Some (k, sigma), Some (m, nf, X), Some (m', oo, C), Some u, Some (n, nf', XS) =>
            if Nat.eqb m m' && Nat.eqb nf nf' then
              bind (gpr_predict la nf k sigma (GPRState m O X (fun _ _ _ => 0) C u (fun _ _ => 0) true false) n XS (q_full q) (q_iterative q))
                (fun out => Ok (match out with Mean M => [arr2 n oo M] | MeanCov M V => [arr2 n oo M; arr2 n n V] end))
            else unmodelled
        | _, _, _, _, _ => unmodelled
        end
    | _ => unmodelled
    end.
  (** gpr.py:597-656 predict_derivs; vs are x_train, jacobian_train, c and, in the default mode, jaccoef. With
      the covariance the mean is not reshaped. *)
  Definition c_gpr_predict_derivs (p : ptree) (kernel : obj) (vs : list obj) (q : query) : result (list array) :=
    let unmodelled := n_predict_derivs rest p kernel vs q in
    match vs, q_jacobian q with
    | OArr x :: OArr j :: OArr c :: more, Some jq =>
        match hyper p kernel, mat_of x, ten_of j, mat_of c, mat_of (q_x q), ten_of jq with
        | Some (k, sigma), Some (m, nf, X), Some (m1, nf1, nv, J), Some (r, 1%nat, C), Some (n, nf2, XS), Some (n1, nf3, nd, JS) =>
            match more with
            | [] | [OArr _] =>
                match (match more with [OArr jc] => mat_of jc | _ => Some (m, nf, fun _ _ => 0) end) with
                | Some (m3, nf4, JC) =>
                    if Nat.eqb m m1 && Nat.eqb nf nf1 && Nat.eqb r (m * nv) && Nat.eqb nf nf2 && Nat.eqb n n1 && Nat.eqb nf nf3
                       && Nat.eqb m m3 && Nat.eqb nf nf4 then
                      bind (gpr_predict_derivs la nf k sigma (GPRState m nv X J C 0 JC false true) n nd XS JS (q_full q) (q_iterative q))
                        (fun out => Ok (match out with Mean M => [arr2 n nd M] | MeanCov M V => [arr2 (n * nd) 1 M; arr2 (n * nd) (n * nd) V] end))
                    else unmodelled
                | None => unmodelled
                end
            | _ => unmodelled
            end
        | _, _, _, _, _, _ => unmodelled
        end
    | _, _ => unmodelled
    end.
  (** gpr.py:659-717 predict_y_derivs; vs are x_train, jacobian_train, c, mu and, in the default mode, jaccoef *)
  Definition c_gpr_predict_y_derivs (p : ptree) (kernel : obj) (vs : list obj) (q : query) : result (list array) :=
    let unmodelled := n_predict_y_derivs rest p kernel vs q in
    match vs with
    | OArr x :: OArr j :: OArr c :: OArr mu :: more =>
        match hyper p kernel, mat_of x, ten_of j, mat_of c, scalar_of mu, mat_of (q_x q) with
        | Some (k, sigma), Some (m, nf, X), Some (m1, nf1, nv, J), Some (r, 1%nat, C), Some u, Some (n, nf2, XS) =>
            match more with
            | [] | [OArr _] =>
                match (match more with [OArr jc] => mat_of jc | _ => Some (m, nf, fun _ _ => 0) end) with
                | Some (m3, nf4, JC) =>
                    if Nat.eqb m m1 && Nat.eqb nf nf1 && Nat.eqb r (m * nv) && Nat.eqb nf nf2 && Nat.eqb m m3 && Nat.eqb nf nf4 then
                      bind (gpr_predict_y_derivs la nf k sigma (GPRState m nv X J C u JC false true) n XS (q_full q) (q_iterative q))
                        (fun out => Ok (match out with Mean M => [arr2 n 1 M] | MeanCov M V => [arr2 n 1 M; arr2 n n V] end))
                    else unmodelled
                | None => unmodelled
                end
            | _ => unmodelled
            end
        | _, _, _, _, _, _ => unmodelled
        end
    | _ => unmodelled
    end.
  Definition gpr_numerics : numerics :=
    Numerics (fun _ => c_gpr_fit) c_gpr_predict c_gpr_predict_derivs c_gpr_predict_y_derivs (n_predict_ol rest).

  (** ** sparse models *)
  Definition s_blank (m : nat) (xl : Mat) : sgpr_state :=
    SGPRState m O xl (fun _ _ _ => 0) (fun _ _ => 0) 0 (fun _ _ => 0) false false.
  Definition param_array (p : ptree) (name : string) : option array :=
    match bind (item name p) value_of with Ok a => Some a | Err _ => None end.
  (** sgpr.py:309-338 fit; the inducing points are a parameter *)
  Definition c_sgpr_fit (p : ptree) (kernel mean : obj) (vs : list obj) (d : data) (o : options) : result (string -> array) :=
    let unmodelled := n_fit rest (task_of d) p kernel mean vs d o in
    match d with
    | Targets x y =>
        match hyper p kernel, means mean, mat_of x, mat_of y, option_map mat_of (param_array p "x_locs") with
        | Some (k, sigma), Some mf, Some (n, nf, X), Some (n', oo, Y), Some (Some (m, nf', XL)) =>
            if Nat.eqb n n' && Nat.eqb nf nf' then
              let s := sgpr_fit la nf k sigma mf (s_blank m XL) n oo X Y (o_iterative o) in
              Ok (fields [("c", arr2 m oo (s_c s)); ("mu", arr0 (s_mu s))])
            else unmodelled
        | _, _, _, _, _ => unmodelled
        end
    (** sgpr.py:341-388 fit_derivs; jacobian_locs is a parameter too *)
    | Derivs x y j =>
        match hyper p kernel, mat_of x, mat_of y, ten_of j, option_map mat_of (param_array p "x_locs"), option_map ten_of (param_array p "jacobian_locs") with
        | Some (k, sigma), Some (n, nf, X), Some (n1, nd, Y), Some (n2, nf1, nd1, J), Some (Some (m, nf2, XL)), Some (Some (m1, nf3, nv, JL)) =>
            if Nat.eqb n n1 && Nat.eqb n n2 && Nat.eqb nf nf1 && Nat.eqb nd nd1 && Nat.eqb nf nf2 && Nat.eqb m m1 && Nat.eqb nf nf3 then
              let s := sgpr_fit_derivs la nf k sigma (SGPRState m nv XL JL (fun _ _ => 0) 0 (fun _ _ => 0) false false) n nd X Y J (o_iterative o) in
              Ok (fields [("jaccoef", arr2 m nf (s_jaccoef s)); ("c", arr2 (m * nv) 1 (s_c s)); ("mu", arr0 (s_mu s))])
            else unmodelled
        | _, _, _, _, _, _ => unmodelled
        end
    | Both _ _ _ _ => unmodelled
    end.
  (** sgpr_rpchol.py:312-347 fit; vs are the key and n_locs *)
  Definition c_rp_fit (p : ptree) (kernel mean : obj) (vs : list obj) (d : data) (o : options) : result (string -> array) :=
    let unmodelled := n_fit rest (task_of d) p kernel mean vs d o in
    match d, vs with
    | Targets x y, [key; OArr a] =>
        match hyper p kernel, means mean, mat_of x, mat_of y, option_map nat_of (scalar_of a) with
        | Some (k, sigma), Some mf, Some (n, nf, X), Some (n', oo, Y), Some (Some nl) =>
            if Nat.eqb n n' && Nat.leb nl n then
              let s := rp_fit la (keyed key) nf k sigma mf (s_blank O (fun _ _ => 0)) nl n oo X Y (o_iterative o) in
              Ok (fields [("c", arr2 nl oo (s_c s)); ("mu", arr0 (s_mu s)); ("x_locs", arr2 nl nf (s_locs s))])
            else unmodelled
        | _, _, _, _, _ => unmodelled
        end
    (** sgpr_rpchol.py:350-401 fit_derivs *)
    | Derivs x y j, [key; OArr a] =>
        match hyper p kernel, mat_of x, mat_of y, ten_of j, option_map nat_of (scalar_of a) with
        | Some (k, sigma), Some (n, nf, X), Some (n1, nd, Y), Some (n2, nf1, nd1, J), Some (Some nl) =>
            if Nat.eqb n n1 && Nat.eqb n n2 && Nat.eqb nf nf1 && Nat.eqb nd nd1 && Nat.leb nl n then
              let s := rp_fit_derivs la (keyed key) nf k sigma nl n nd X Y J (o_iterative o) in
              Ok (fields [("jaccoef", arr2 nl nf (s_jaccoef s)); ("c", arr2 (nl * nd) 1 (s_c s)); ("mu", arr0 (s_mu s));
                          ("x_locs", arr2 nl nf (s_locs s)); ("jacobian_locs", arr3 nl nf nd (s_jac_locs s))])
            else unmodelled
        | _, _, _, _, _ => unmodelled
        end
    | _, _ => unmodelled
    end.
  (** sgpr.py:391-441 and sgpr_rpchol.py:404-454 predict; vs are x_locs, c and mu *)
  Definition c_sgpr_predict (p : ptree) (kernel : obj) (vs : list obj) (q : query) : result (list array) :=
    let unmodelled := n_predict rest p kernel vs q in
    match vs with
    | [OArr xl; OArr c; OArr mu] =>
        match hyper p kernel, mat_of xl, mat_of c, scalar_of mu, mat_of (q_x q) with
        | Some (k, sigma), Some (m, nf, XL), Some (m', oo, C), Some u, Some (n, nf', XS) =>
            if Nat.eqb m m' && Nat.eqb nf nf' then
              bind (sgpr_predict la nf k sigma (SGPRState m O XL (fun _ _ _ => 0) C u (fun _ _ => 0) true false) n XS (q_full q) (q_iterative q))
                (fun out => Ok (match out with Mean M => [arr2 n oo M] | MeanCov M V => [arr2 n oo M; arr2 n n V] end))
            else unmodelled
        | _, _, _, _, _ => unmodelled
        end
    | _ => unmodelled
    end.
  (** sgpr.py:444-503 and sgpr_rpchol.py:457-516 predict_derivs without the covariance: from x_locs, jacobian_locs,
      c and, unless iterative, jaccoef *)
  Definition s_derivs (p : ptree) (kernel : obj) (xl jl c : array) (jc : option array) (q : query) (unmodelled : result (list array)) : result (list array) :=
    match hyper p kernel, mat_of xl, ten_of jl, mat_of c, mat_of (q_x q), option_map ten_of (q_jacobian q) with
    | Some (k, sigma), Some (m, nf, XL), Some (m1, nf1, nv, JL), Some (r, 1%nat, C), Some (n, nf2, XS), Some (Some (n1, nf3, nd, JS)) =>
        match (match jc with Some a => mat_of a | None => Some (m, nf, fun _ _ => 0) end) with
        | Some (m2, nf4, JC) =>
            if Nat.eqb m m1 && Nat.eqb nf nf1 && Nat.eqb r (m * nv) && Nat.eqb nf nf2 && Nat.eqb n n1 && Nat.eqb nf nf3 && Nat.eqb m m2 && Nat.eqb nf nf4
               && negb (q_full q) then
              bind (sgpr_predict_derivs nf k sigma (SGPRState m nv XL JL C 0 JC false true) n nd XS JS (q_iterative q))
                (fun out => Ok (match out with Mean M => [arr2 n nd M] | MeanCov M _ => [arr2 n nd M] end))
            else unmodelled
        | None => unmodelled
        end
    | _, _, _, _, _, _ => unmodelled
    end.
  (** sgpr.py:506-561 and sgpr_rpchol.py:519-574 predict_y_derivs without the covariance *)
  Definition s_y_derivs (p : ptree) (kernel : obj) (xl jl c mu : array) (jc : option array) (q : query) (unmodelled : result (list array)) : result (list array) :=
    match hyper p kernel, mat_of xl, ten_of jl, mat_of c, scalar_of mu, mat_of (q_x q) with
    | Some (k, sigma), Some (m, nf, XL), Some (m1, nf1, nv, JL), Some (r, 1%nat, C), Some u, Some (n, nf2, XS) =>
        match (match jc with Some a => mat_of a | None => Some (m, nf, fun _ _ => 0) end) with
        | Some (m2, nf4, JC) =>
            if Nat.eqb m m1 && Nat.eqb nf nf1 && Nat.eqb r (m * nv) && Nat.eqb nf nf2 && Nat.eqb m m2 && Nat.eqb nf nf4 && negb (q_full q) then
              bind (sgpr_predict_y_derivs nf k (SGPRState m nv XL JL C u JC false true) n XS (q_iterative q))
                (fun out => Ok (match out with Mean M => [arr2 n 1 M] | MeanCov M _ => [arr2 n 1 M] end))
            else unmodelled
        | None => unmodelled
        end
    | _, _, _, _, _, _ => unmodelled
    end.
  (** SGPR reads jaccoef first, in both modes; SGPR_RPChol reads it last and in the default mode only *)
  Definition c_sgpr_predict_derivs (p : ptree) (kernel : obj) (vs : list obj) (q : query) : result (list array) :=
    let unmodelled := n_predict_derivs rest p kernel vs q in
    match vs with
    | [OArr jc; OArr xl; OArr jl; OArr c] => s_derivs p kernel xl jl c (Some jc) q unmodelled
    | _ => unmodelled
    end.
  Definition c_sgpr_predict_y_derivs (p : ptree) (kernel : obj) (vs : list obj) (q : query) : result (list array) :=
    let unmodelled := n_predict_y_derivs rest p kernel vs q in
    match vs with
    | [OArr jc; OArr xl; OArr jl; OArr c; OArr mu] => s_y_derivs p kernel xl jl c mu (Some jc) q unmodelled
    | _ => unmodelled
    end.
  Definition c_rp_predict_derivs (p : ptree) (kernel : obj) (vs : list obj) (q : query) : result (list array) :=
    let unmodelled := n_predict_derivs rest p kernel vs q in
    match vs with
    | [OArr xl; OArr jl; OArr c; OArr jc] => s_derivs p kernel xl jl c (Some jc) q unmodelled
    | [OArr xl; OArr jl; OArr c] => s_derivs p kernel xl jl c None q unmodelled
    | _ => unmodelled
    end.
  Definition c_rp_predict_y_derivs (p : ptree) (kernel : obj) (vs : list obj) (q : query) : result (list array) :=
    let unmodelled := n_predict_y_derivs rest p kernel vs q in
    match vs with
    | [OArr xl; OArr jl; OArr c; OArr mu; OArr jc] => s_y_derivs p kernel xl jl c mu (Some jc) q unmodelled
    | [OArr xl; OArr jl; OArr c; OArr mu] => s_y_derivs p kernel xl jl c mu None q unmodelled
    | _ => unmodelled
    end.
  Definition sgpr_numerics : numerics :=
    Numerics (fun _ => c_sgpr_fit) c_sgpr_predict c_sgpr_predict_derivs c_sgpr_predict_y_derivs (n_predict_ol rest).
  Definition rp_numerics : numerics :=
    Numerics (fun _ => c_rp_fit) c_sgpr_predict c_rp_predict_derivs c_rp_predict_y_derivs (n_predict_ol rest).
End Numerics.
