(** Properties C01-C08: nested dictionaries, parameters, model states, files, random keys. *)
From Coq Require Import String List Bool Arith Reals.
From Verif Require Import Model.PyDict Model.Bijectors Model.Params Model.State Spec.DictSpec Spec.StateSpec Spec.BijectorSpec
  Spec.RandomSpec Proofs.DictFacts Proofs.StateFacts Proofs.UpdateFacts Proofs.SaveLoad Proofs.RandomFacts
  Proofs.StatePropLemmas Proofs.StateExamples.
Import ListNotations.
Open Scope string_scope.

(** ** C01 *)
Theorem C01_flatten_unflatten : forall {A V} (interned : string -> bool) (null : V) (f : A -> V) l,
  names_ok interned [] (Node l) ->
  exists d, flatten_dict null (fun a => Ok (f a)) (Node l) [] "" = Ok d /\
    unflatten_dict interned d = Ok (map (fun kv => (fst kv, map_tree f (snd kv))) l).
Proof. exact @flatten_unflatten. Qed.
Print Assumptions C01_flatten_unflatten.
Theorem C01_colon_refuted : exists (l : list (string * tree nat)) d m,
  flatten_dict 0%nat (fun a => Ok a) (Node l) [] "" = Ok d /\ unflatten_dict cpython_interned d = Ok m /\
  Node m <> Node l /\ Forall (fun kv => fst kv <> "" /\ fst kv <> "NULL") l.
Proof. exact colon_breaks. Qed.
Print Assumptions C01_colon_refuted.
(** one-letter name used again below itself: the comparison by identity takes it for the last one *)
Theorem C01_identity_refuted : exists (l : list (string * tree nat)) d m,
  flatten_dict 0%nat (fun a => Ok a) (Node l) [] "" = Ok d /\ unflatten_dict cpython_interned d = Ok m /\
  Node m <> Node l /\ names_ok (fun _ => false) [] (Node l).
Proof. exact repeated_breaks. Qed.
Print Assumptions C01_identity_refuted.
Theorem C01_null_refuted : exists (l : list (string * tree nat)) d m,
  flatten_dict 0%nat (fun a => Ok a) (Node l) [] "" = Ok d /\ unflatten_dict cpython_interned d = Ok m /\
  Node m <> Node l /\ Forall (fun kv => fst kv <> "" /\ no_colon (fst kv)) l.
Proof. exact null_breaks. Qed.
Print Assumptions C01_null_refuted.
Example C01_example : names_ok cpython_interned [] (Node ex_tree).
Proof. exact ex_tree_ok. Qed.

(** ** C02 *)
Theorem C02_save_load : forall interned s t f fs, state_ok s -> state_ok t -> savable interned (s_params s) ->
  Forall (fun kv => is_callable (snd kv) = false -> aux_name (fst kv)) (s_register s) ->
  same_names (s_params s) (s_params t) -> no_none (s_params t) ->
  (forall path p q, lookup path (s_params s) = Some (Some p) -> lookup path (s_params t) = Some (Some q) ->
     fits (p_meta q) (p_value p)) ->
  exists d fs' t', save s f fs = (Ok d, fs') /\ (forall g, g <> npz_name f -> fs' g = fs g) /\
    load interned t (npz_name f) fs' = Ok t' /\
    s_kernel t' = s_kernel t /\ s_mean t' = s_mean t /\ same_names (s_params t') (s_params t) /\
    (forall path p q, lookup path (s_params s) = Some (Some p) -> lookup path (s_params t) = Some (Some q) ->
       lookup path (s_params t') = Some (Some (Param (p_value p) (p_meta q)))) /\
    (forall k v, get k (s_register s) = Some v -> storable v -> get k (s_register t') = Some v) /\
    (forall k, match get k (s_register s) with Some v => is_callable v = true | None => True end ->
       get k (s_register t') = get k (s_register t)).
Proof. exact save_load_file. Qed.
Print Assumptions C02_save_load.
(** a save that raises writes nothing *)
Theorem C02_failed_save : forall s f fs e, save_dict s = Err e -> save s f fs = (Err e, fs).
Proof. exact save_failed. Qed.
Print Assumptions C02_failed_save.
(** load under the name given to save fails unless that name ends in .npz *)
Theorem C02_suffix_refuted : forall interned s t f fs d fs', ends_with ".npz" f = false ->
  save s f fs = (Ok d, fs') -> fs f = None -> load interned t f fs' = Err FileNotFoundError.
Proof. exact load_without_suffix. Qed.
Print Assumptions C02_suffix_refuted.
(** a state with a None among its parameters (the default of GPR_TD) cannot be saved *)
Theorem C02_none_refuted : forall s l lk, state_ok s -> s_params s = Node l ->
  get "kernel_params" l = Some (Node lk) -> ~ no_none (s_params s) -> save_dict s = Err AttributeError.
Proof. exact save_none. Qed.
Print Assumptions C02_none_refuted.
Theorem C02_string_refuted : exists s d t', state_ok s /\ savable cpython_interned (s_params s) /\
  save_dict s = Ok d /\ load_dict cpython_interned s (dumped d) = Ok t' /\
  get "label" (s_register s) = Some (OStr "run") /\ get "label" (s_register t') = Some (OBox (OStr "run")).
Proof. exact string_boxed. Qed.
Print Assumptions C02_string_refuted.
Theorem C02_bool_array_refuted : exists s d t', state_ok s /\ savable cpython_interned (s_params s) /\
  save_dict s = Ok d /\ load_dict cpython_interned s (dumped d) = Ok t' /\
  get "flag" (s_register s) = Some (OArr (Arr [] BoolT [Some 1%R])) /\
  get "flag" (s_register t') = Some (OBool true).
Proof. exact bool_array_scalar. Qed.
Print Assumptions C02_bool_array_refuted.
Theorem C02_file_attribute_refuted : exists s, state_ok s /\ savable cpython_interned (s_params s) /\
  save_dict s = Err TypeError.
Proof. exact file_attr. Qed.
Print Assumptions C02_file_attribute_refuted.
Example C02_example : state_ok (ex_state 1 2 3) /\ state_ok (ex_state 4 5 6) /\
  savable cpython_interned (s_params (ex_state 1 2 3)) /\
  Forall (fun kv => is_callable (snd kv) = false -> aux_name (fst kv)) (s_register (ex_state 1 2 3)) /\
  same_names (s_params (ex_state 1 2 3)) (s_params (ex_state 4 5 6)) /\ no_none (s_params (ex_state 4 5 6)) /\
  (forall path p q, lookup path (s_params (ex_state 1 2 3)) = Some (Some p) ->
     lookup path (s_params (ex_state 4 5 6)) = Some (Some q) -> fits (p_meta q) (p_value p)).
Proof.
  exact (conj (ex_state_ok 1 2 3) (conj (ex_state_ok 4 5 6) (conj (ex_savable 1 2 3) (conj ex_aux
    (conj eq_refl (conj (proj1 (ex_savable 4 5 6)) (ex_fits 1 2 3 4 5 6))))))).
Qed.

(** ** C03 *)
Theorem C03_accepted : forall interned s c s', state_ok s -> load_dict interned s c = Ok s' ->
  exists dd dp vs, unflatten_dict interned c = Ok dd /\ get "params" dd = Some dp /\
    tleaves (canon dp) = map FArr vs /\ Forall2 fits (metas (s_params s)) vs /\
    tree_values (s_params s') = vs /\ tree_def (s_params s') = tree_def (s_params s).
Proof. exact load_inv. Qed.
Print Assumptions C03_accepted.
Theorem C03_no_params : forall interned s c dd, unflatten_dict interned c = Ok dd -> get "params" dd = None ->
  load_dict interned s c = Err KeyError.
Proof. exact load_missing. Qed.
Print Assumptions C03_no_params.
Theorem C03_count : forall interned s c dd dp, unflatten_dict interned c = Ok dd -> get "params" dd = Some dp ->
  List.length (tleaves dp) <> List.length (params_of (s_params s)) -> load_dict interned s c = Err ValueError.
Proof. exact load_count. Qed.
Print Assumptions C03_count.
Theorem C03_misfit : forall interned s t, state_ok s -> state_ok t -> savable interned (s_params s) ->
  Forall (fun kv => is_callable (snd kv) = false -> aux_name (fst kv)) (s_register s) ->
  same_names (s_params s) (s_params t) -> no_none (s_params t) ->
  (exists path p q, lookup path (s_params s) = Some (Some p) /\ lookup path (s_params t) = Some (Some q) /\
     ~ fits (p_meta q) (p_value p)) ->
  exists d, save_dict s = Ok d /\ load_dict interned t (dumped d) = Err ValueError.
Proof. exact load_wrong_path. Qed.
Print Assumptions C03_misfit.
(** names play no role: two states with the same values in sorted order give the same load *)
Theorem C03_names_ignored : forall interned s1 s2 t d1 d2, state_ok s1 -> state_ok s2 ->
  savable interned (s_params s1) -> savable interned (s_params s2) ->
  Forall (fun kv => is_callable (snd kv) = false -> aux_name (fst kv)) (s_register s1) ->
  s_register s2 = s_register s1 -> tree_values (s_params s1) = tree_values (s_params s2) ->
  save_dict s1 = Ok d1 -> save_dict s2 = Ok d2 ->
  load_dict interned t (dumped d1) = load_dict interned t (dumped d2).
Proof. exact load_ignores_names. Qed.
Print Assumptions C03_names_ignored.
(** the degree of one model silently becomes the lengthscale of another *)
Theorem C03_names_refuted : forall v s v' s', exists d, save_dict (renamed v s) = Ok d /\
  load_dict cpython_interned (renamed' v' s') (dumped d) = Ok (renamed' v s).
Proof. exact names_not_checked. Qed.
Print Assumptions C03_names_refuted.
Example C03_example : ~ fits (Meta true Softplus (PriorObj [2%nat] F64 (Priors.GammaPrior 2 1))) (scalar 1).
Proof. intros [H _]. discriminate H. Qed.

(** ** C04 *)
Theorem C04_fields : forall s d s', state_ok s -> dict_ok d -> fst (state_update s d) = Ok s' ->
  s_kernel s' = match get "kernel" d with Some v => v | None => s_kernel s end /\
  s_mean s' = match get "mean_function" d with Some v => v | None => s_mean s end /\
  match get "params" d with
  | None => s_params s' = s_params s
  | Some (OParams t) => same_leaves (s_params s') t
  | Some o => o = ONone /\ s_params s' = Leaf None
  end /\
  forall k, match get k d with
    | Some v => if existsb (String.eqb k) ["kernel"; "mean_function"; "params"]
                then get k (s_register s') = get k (s_register s)
                else exists v', get k (s_register s') = Some v' /\ stored v v'
    | None => get k (s_register s') = get k (s_register s)
    end.
Proof. exact update_fields. Qed.
Print Assumptions C04_fields.
Theorem C04_succeeds : forall s d, state_ok s -> dict_ok d ->
  match get "params" d with
  | None | Some (OParams _) | Some ONone => exists s', fst (state_update s d) = Ok s'
  | Some _ => fst (state_update s d) = Err AttributeError
  end.
Proof. exact update_result. Qed.
Print Assumptions C04_succeeds.
Theorem C04_compose : forall s d1 d2 s1, state_ok s -> dict_ok d1 -> dict_ok d2 ->
  fst (state_update s d1) = Ok s1 -> fst (state_update s1 d2) = fst (state_update s (merge d1 d2)).
Proof. exact update_update. Qed.
Print Assumptions C04_compose.
Theorem C04_copy : forall s, state_ok s -> state_copy s = Ok s.
Proof. exact copy_id. Qed.
Print Assumptions C04_copy.
Theorem C04_caller_dict : forall s d k, get k (snd (state_update s d)) =
  if existsb (String.eqb k) ["kernel"; "mean_function"; "params"] then None else get k d.
Proof. exact update_leftover. Qed.
Print Assumptions C04_caller_dict.
Theorem C04_twice_refuted : exists s d s1, state_ok s /\ dict_ok d /\ fst (state_update s d) = Ok s1 /\
  fst (state_update s (snd (state_update s d))) <> Ok s1.
Proof. exact twice. Qed.
Print Assumptions C04_twice_refuted.
Theorem C04_parameter : forall p d q, fst (param_update p d) = Ok q ->
  p_value q = match get "value" d with Some (PArr a) => a | _ => p_value p end /\
  m_trainable (p_meta q) = match get "trainable" d with Some (PBool b) => b | _ => m_trainable (p_meta p) end /\
  m_bijector (p_meta q) = match get "bijector" d with Some (PBij b) => b | _ => m_bijector (p_meta p) end /\
  m_prior (p_meta q) = match get "prior" d with Some (PPri b) => b | _ => m_prior (p_meta p) end.
Proof. exact param_update_fields. Qed.
Print Assumptions C04_parameter.
Theorem C04_parameter_caller_dict : forall p d k, get k (snd (param_update p d)) =
  if existsb (String.eqb k) ["value"; "trainable"; "bijector"; "prior"] then None else get k d.
Proof. exact param_leftover. Qed.
Print Assumptions C04_parameter_caller_dict.
Example C04_example : state_ok (ex_state 1 2 3) /\
  dict_ok [("params", OParams (ex_params 4 5 6)); ("c", OInt 3); ("kernel", OCall 9)].
Proof.
  split; [exact (ex_state_ok 1 2 3)|]. split; [nodup|].
  exact (Forall_cons (_, OParams _) (proj1 (ex_params_ok 4 5 6)) (Forall_cons (_, OInt 3) I (Forall_cons (_, OCall 9) I (Forall_nil _)))).
Qed.

(** ** C05 *)
Theorem C05_constructor : forall v m, (fits m v /\ mk_param v m = Ok (Param v m)) \/
  (~ fits m v /\ mk_param v m = Err ValueError).
Proof. exact mk_param_spec. Qed.
Print Assumptions C05_constructor.
Theorem C05_parameter_history : forall sample os p, param_ok p -> param_ok (phistory sample os p).
Proof. exact phistory_ok. Qed.
Print Assumptions C05_parameter_history.
Theorem C05_state_history : forall interned sample os s, state_ok s -> Forall sop_ok os ->
  state_ok (shistory interned sample os s).
Proof. exact shistory_ok. Qed.
Print Assumptions C05_state_history.
Example C05_example : state_ok (ex_state 1 2 3) /\
  Forall sop_ok [SUpdate [("params", OParams (ex_params 4 5 6))]; SRandomize (Key 0) []; STransform "backward"; SCopy;
                 SRebuild [scalar 1]; SLoad [("params:kernel_params:lengthscale", FArr (scalar 1))]].
Proof.
  split; [exact (ex_state_ok 1 2 3)|]. constructor.
  { split; [nodup|]. constructor; [exact (proj1 (ex_params_ok 4 5 6))|constructor]. }
  constructor; [split; constructor|]. constructor; [exact I|]. constructor; [exact I|]. constructor; [exact I|].
  constructor; [nodup|constructor].
Qed.

(** ** C06 *)
Theorem C06_roundtrip : forall s, state_ok s ->
  state_unflatten (snd (state_flatten s)) (fst (state_flatten s)) = Ok s.
Proof. exact state_roundtrip. Qed.
Print Assumptions C06_roundtrip.
Theorem C06_replace : forall s vs, state_ok s -> Forall2 fits (metas (s_params s)) vs ->
  exists s', state_unflatten (snd (state_flatten s)) vs = Ok s' /\ s_kernel s' = s_kernel s /\ s_mean s' = s_mean s /\
    s_register s' = s_register s /\ tree_def (s_params s') = tree_def (s_params s) /\ tree_values (s_params s') = vs.
Proof. exact state_rebuild. Qed.
Print Assumptions C06_replace.
Theorem C06_reject : forall s vs, ~ Forall2 fits (metas (s_params s)) vs ->
  state_unflatten (snd (state_flatten s)) vs = Err ValueError.
Proof. exact state_rebuild_err. Qed.
Print Assumptions C06_reject.
Example C06_example : state_ok (ex_state 1 2 3) /\
  Forall2 fits (metas (s_params (ex_state 1 2 3))) [scalar 7; scalar 8; scalar 9].
Proof. split; [exact (ex_state_ok 1 2 3)|]. repeat constructor. Qed.

(** ** C07 *)
Theorem C07_randomize : forall sample s k opt, state_ok s -> sampler_ok sample -> float_params (s_params s) ->
  bijs_ok (s_params s) -> dict_ok opt -> get "params" opt = None ->
  exists s', randomize sample s k opt = Ok s' /\
    s_kernel s' = match get "kernel" opt with Some v => v | None => s_kernel s end /\
    s_mean s' = match get "mean_function" opt with Some v => v | None => s_mean s end /\
    (forall a, get a opt = None -> get a (s_register s') = get a (s_register s)) /\
    same_names (s_params s') (s_params s) /\
    forall path, match lookup path (s_params s) with
      | Some (Some p) => exists v, lookup path (s_params s') = Some (Some (Param v (p_meta p))) /\
          if m_trainable (p_meta p)
          then legal (m_bijector (p_meta p)) v /\
               exists k', v = forward_arr (m_bijector (p_meta p)) (sample k' (m_prior (p_meta p)))
          else v = p_value p
      | o => lookup path (s_params s') = o end.
Proof. exact randomize_legal. Qed.
Print Assumptions C07_randomize.
(** the result depends on the old state only through what is not trainable *)
Theorem C07_forgets : forall sample s s' k opt, state_ok s -> state_ok s' -> s_kernel s = s_kernel s' ->
  s_mean s = s_mean s' -> s_register s = s_register s' -> same_names (s_params s) (s_params s') -> dict_ok opt ->
  (forall path, match lookup path (s_params s), lookup path (s_params s') with
     | Some (Some p), Some (Some p') =>
         p_meta p = p_meta p' /\ (m_trainable (p_meta p) = false -> p_value p = p_value p')
     | a, b => a = b end) ->
  randomize sample s k opt = randomize sample s' k opt.
Proof. exact randomize_indep. Qed.
Print Assumptions C07_forgets.
Example C07_example : state_ok (ex_state 1 2 3) /\ sampler_ok ex_sampler /\ float_params (ex_params 1 2 3) /\
  bijs_ok (ex_params 1 2 3) /\ trainables (ex_params 1 2 3) <> [] /\ trainables (ex_params 1 2 3) <> params_of (ex_params 1 2 3).
Proof.
  split; [exact (ex_state_ok 1 2 3)|]. split; [exact ex_sampler_ok|]. split; [apply ex_float|]. split; [apply ex_float|].
  split; discriminate.
Qed.

(** ** C08 (one randomize call; the restarts are in OptimProps.v) *)
Theorem C08_keys_distinct : forall sample s k, NoDup (snd (randomize_values sample k (params_of (s_params s)))).
Proof. intros sample s k. exact (rkeys_nodup sample (params_of (s_params s)) k). Qed.
Print Assumptions C08_keys_distinct.
Theorem C08_keys : forall s k, randomize_keys s k =
  map (fun j => right (S j) k) (seq 0 (List.length (trainables (s_params s)))).
Proof. exact keys_list. Qed.
Print Assumptions C08_keys.
(** these are the keys the new values are drawn with, one for each trainable parameter *)
Theorem C08_draws : forall sample s k opt s', state_ok s -> sampler_ok sample -> float_params (s_params s) ->
  dict_ok opt -> get "params" opt = None -> randomize sample s k opt = Ok s' ->
  map p_value (trainables (s_params s')) =
  map (fun x => forward_arr (m_bijector (p_meta (fst x))) (sample (snd x) (m_prior (p_meta (fst x)))))
    (zip (trainables (s_params s)) (randomize_keys s k)).
Proof. exact randomize_draws. Qed.
Print Assumptions C08_draws.
Example C08_example : randomize_keys (ex_state 1 2 3) (Key 5) = [SplitR (Key 5); SplitR (SplitR (Key 5))].
Proof. reflexivity. Qed.
