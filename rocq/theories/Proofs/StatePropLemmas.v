(** Lemmas in the form in which Props/StateProps.v states them. *)
From Coq Require Import String List Bool Arith Reals Permutation Lia Lra.
From Verif Require Import Model.PyDict Model.Bijectors Model.Priors Model.Params Model.State Spec.DictSpec Spec.StateSpec Spec.BijectorSpec
  Spec.RandomSpec Proofs.BijectorLemmas Proofs.DictFacts Proofs.TreeFacts Proofs.StateFacts Proofs.UpdateFacts Proofs.SaveLoad Proofs.RandomFacts.
Import ListNotations.
Open Scope string_scope.
Open Scope nat_scope.

(** ** C02 *)
Lemma save_load_file : forall interned s t f fs, state_ok s -> state_ok t -> savable interned (s_params s) ->
  Forall (fun kv => is_callable (snd kv) = false -> aux_name (fst kv)) (s_register s) ->
  same_names (s_params s) (s_params t) -> no_none (s_params t) ->
  (forall path p q, lookup path (s_params s) = Some (Some p) -> lookup path (s_params t) = Some (Some q) -> fits (p_meta q) (p_value p)) ->
  exists d fs' t', save s f fs = (Ok d, fs') /\ (forall g, g <> npz_name f -> fs' g = fs g) /\
    load interned t (npz_name f) fs' = Ok t' /\
    s_kernel t' = s_kernel t /\ s_mean t' = s_mean t /\ same_names (s_params t') (s_params t) /\
    (forall path p q, lookup path (s_params s) = Some (Some p) -> lookup path (s_params t) = Some (Some q) ->
       lookup path (s_params t') = Some (Some (Param (p_value p) (p_meta q)))) /\
    (forall k v, get k (s_register s) = Some v -> storable v -> get k (s_register t') = Some v) /\
    (forall k, match get k (s_register s) with Some v => is_callable v = true | None => True end ->
       get k (s_register t') = get k (s_register t)).
Proof.
  intros interned s t f fs H1 H2 H3 H4 H5 H6 H7. destruct (save_load interned s t H1 H2 H3 H4 H5 H6 H7) as [d [t' [E [L R]]]].
  exists d. eexists. exists t'. unfold save. rewrite E. split; [reflexivity|]. split.
  - intros g Hg. now apply String.eqb_neq in Hg; rewrite Hg.
  - split; [|exact R]. unfold load. rewrite String.eqb_refl. exact L.
Qed.
Lemma npz_name_other : forall f, ends_with ".npz" f = false -> npz_name f <> f.
Proof.
  intros f H E. unfold npz_name in E. rewrite H in E. apply (f_equal String.length) in E.
  assert (G : forall a b, String.length (a ++ b) = String.length a + String.length b) by (induction a; simpl; auto).
  rewrite G in E. simpl in E. lia.
Qed.
Lemma load_without_suffix : forall interned s t f fs d fs', ends_with ".npz" f = false -> save s f fs = (Ok d, fs') -> fs f = None ->
  load interned t f fs' = Err FileNotFoundError.
Proof.
  intros interned s t f fs d fs' H E N. unfold save in E. destruct (save_dict s); [|discriminate]. inversion E; subst. unfold load.
  pose proof (npz_name_other f H) as NN. destruct (String.eqb_spec f (npz_name f)); [congruence|]. now rewrite N.
Qed.
Lemma save_failed : forall s f fs e, save_dict s = Err e -> save s f fs = (Err e, fs).
Proof. intros s f fs e H. unfold save. now rewrite H. Qed.
(** a None anywhere among the parameters *)
Lemma flatten_none : forall (t : ptree) acc start, match t with Leaf _ => True | Node _ =>
  (no_none t /\ exists d, flatten_dict ONone param_value t acc start = Ok d) \/
  (~ no_none t /\ flatten_dict ONone param_value t acc start = Err AttributeError) end.
Proof.
  intro t. induction t as [a|l IH] using tree_ind'; intros acc start; [exact I|].
  unfold no_none. rewrite every_node. destruct l as [|kv0 r0]; [left; split; [constructor|eexists; reflexivity]|].
  remember (kv0 :: r0) as l eqn:El.
  assert (E : flatten_dict ONone param_value (Node l) acc start =
    (fix items (l : list (string * tree (option param))) (flattened : dict obj) : result (dict obj) :=
         match l with
         | [] => Ok flattened
         | (k, v) :: r =>
             let k := if String.eqb start "" then k else start ++ ":" ++ k in
             match v with
             | Node _ => bind (flatten_dict ONone param_value v flattened k) (items r)
             | Leaf a => bind (param_value a) (fun b => items r (set k b flattened))
             end
         end) l acc) by (rewrite El; reflexivity).
  rewrite E. clear E El kv0 r0. revert acc. induction l as [|[k v] r IHr]; intro acc; [left; split; [constructor|eexists; reflexivity]|].
  inversion IH as [|x y J1 J2]; subst. cbn [snd] in J1. specialize (IHr J2). cbv zeta.
  destruct v as [o|lv].
  - destruct o as [p|]; cbn [param_value bind].
    + specialize (IHr (set (if String.eqb start "" then k else start ++ ":" ++ k) (OArr (p_value p)) acc)).
      destruct IHr as [[A1 A2]|[A1 A2]]; [left|right]; split; auto.
      * constructor; auto. cbn. discriminate.
      * intro Q. inversion Q; subst. auto.
    + right. split; [|reflexivity]. intro Q. inversion Q as [|? ? Q1 Q2]; subst. now apply Q1.
  - destruct (J1 acc (if String.eqb start "" then k else start ++ ":" ++ k)) as [[A1 [d A2]]|[A1 A2]]; rewrite A2; cbn [bind].
    + specialize (IHr d). destruct IHr as [[B1 B2]|[B1 B2]]; [left|right]; split; auto.
      intro Q. inversion Q; subst. auto.
    + right. split; [|reflexivity]. intro Q. inversion Q; subst. auto.
Qed.
Lemma no_none_parts : forall l lk, NoDup (map fst l) -> get "kernel_params" l = Some (Node lk) ->
  no_none (Node lk) -> no_none (Node (del "kernel_params" l)) -> no_none (Node l).
Proof.
  intros l lk N G H1 H2. unfold no_none in *. rewrite every_node in H2. apply every_node. rewrite Forall_forall in *. intros [k v] Hk.
  destruct (String.eqb_spec "kernel_params" k) as [<-|E].
  - apply get_in_nodup in Hk; auto. rewrite G in Hk. inversion Hk; subst. exact H1.
  - apply H2. unfold del. apply filter_In. split; auto. cbn [fst]. apply String.eqb_neq in E. now rewrite E.
Qed.
Lemma save_none : forall s l lk, state_ok s -> s_params s = Node l -> get "kernel_params" l = Some (Node lk) -> ~ no_none (s_params s) ->
  save_dict s = Err AttributeError.
Proof.
  intros s l lk S E G H. unfold save_dict. rewrite E. cbn [as_node bind]. rewrite G.
  destruct (flatten_none (Node lk) [] "params:kernel_params") as [[A1 [d A2]]|[A1 A2]]; rewrite A2; cbn [bind]; [|reflexivity].
  destruct (flatten_none (Node (del "kernel_params" l)) [] "params") as [[B1 [d' B2]]|[B1 B2]]; rewrite B2; cbn [bind]; [|reflexivity].
  exfalso. apply H. rewrite E. eapply no_none_parts; eauto. destruct S as [[KD _] _]. rewrite E in KD. apply kd_node in KD. apply KD.
Qed.

(** ** C03 *)
Lemma load_missing : forall interned s c dd, unflatten_dict interned c = Ok dd -> get "params" dd = None -> load_dict interned s c = Err KeyError.
Proof. intros interned s c dd U G. unfold load_dict. rewrite U. cbn [bind]. now rewrite G. Qed.
Lemma load_wrong_path : forall interned s t, state_ok s -> state_ok t -> savable interned (s_params s) ->
  Forall (fun kv => is_callable (snd kv) = false -> aux_name (fst kv)) (s_register s) ->
  same_names (s_params s) (s_params t) -> no_none (s_params t) ->
  (exists path p q, lookup path (s_params s) = Some (Some p) /\ lookup path (s_params t) = Some (Some q) /\ ~ fits (p_meta q) (p_value p)) ->
  exists d, save_dict s = Ok d /\ load_dict interned t (dumped d) = Err ValueError.
Proof.
  intros interned s t S T SV AN SN NT [path [p [q [L1 [L2 NF]]]]].
  destruct (unflatten_saved interned s S SV AN) as [l [lk [E [HK [HN [d [ES U]]]]]]]. exists d. split; auto.
  eapply load_misfit; [exact U|cbn [get]; rewrite String.eqb_refl; reflexivity|exact (saved_leaves interned s S SV l lk E HK)|].
  intro F. apply NF. clear NF.
  destruct (tree_pair _ _ SN) as [u [U1 U2]].
  assert (S1 : sorted (s_params s)) by apply S. assert (S2 : sorted (s_params t)) by apply T.
  assert (NS : no_none (s_params s)) by apply SV.
  unfold metas, tree_values, params_of in F. rewrite !sorted_canon in F by auto. unfold no_none in NS, NT. rewrite U1 in F, NS, L1. rewrite U2 in F, NT, L2.
  rewrite !tleaves_map in F. rewrite lookup_map in L1, L2. destruct (lookup path u) as [[a b]|] eqn:Lu; [|discriminate]. cbn [option_map fst snd] in L1, L2.
  inversion L1; inversion L2; subst a b.
  apply (proj1 (every_map fst (fun o => o <> None) u)) in NS. apply (proj1 (every_map snd (fun o => o <> None) u)) in NT. apply every_leaves in NS. apply every_leaves in NT.
  assert (FU : Forall (fun x => forall p q, fst x = Some p -> snd x = Some q -> fits (p_meta q) (p_value p)) (tleaves u)).
  { clear -F NS NT. induction (tleaves u) as [|[a b] r IH]; [constructor|]. inversion NS; inversion NT; subst. cbn [fst snd] in *.
    destruct a as [a|]; [|congruence]. destruct b as [b|]; [|congruence]. unfold somes in F. simpl in F. inversion F; subst.
    constructor; [|apply IH; auto]. intros p q Hp Hq. cbn in Hp, Hq. inversion Hp; inversion Hq; subst. auto. }
  apply every_leaves in FU. 
  clear -FU Lu. revert path Lu. induction u as [x|l IH] using tree_ind'; intros path Lu.
  - destruct path; [|discriminate]. simpl in Lu. inversion Lu; subst. simpl in FU. now apply FU.
  - destruct path as [|k r]; [discriminate|]. simpl in Lu. destruct (get k l) as [s'|] eqn:G; [|discriminate].
    apply get_in in G. apply every_node in FU. rewrite Forall_forall in IH, FU. exact (IH _ G (FU _ G) _ Lu).
Qed.
Lemma load_ignores_names : forall interned s1 s2 t d1 d2, state_ok s1 -> state_ok s2 -> savable interned (s_params s1) -> savable interned (s_params s2) ->
  Forall (fun kv => is_callable (snd kv) = false -> aux_name (fst kv)) (s_register s1) ->
  s_register s2 = s_register s1 -> tree_values (s_params s1) = tree_values (s_params s2) ->
  save_dict s1 = Ok d1 -> save_dict s2 = Ok d2 -> load_dict interned t (dumped d1) = load_dict interned t (dumped d2).
Proof.
  intros interned s1 s2 t d1 d2 S1 S2 V1 V2 AN R TV E1 E2.
  assert (AN2 : Forall (fun kv => is_callable (snd kv) = false -> aux_name (fst kv)) (s_register s2)) by (now rewrite R).
  destruct (unflatten_saved interned s1 S1 V1 AN) as [l [lk [E [HK [HN [d [ES U]]]]]]].
  destruct (unflatten_saved interned s2 S2 V2 AN2) as [l' [lk' [E' [HK' [HN' [d' [ES' U']]]]]]].
  rewrite E1 in ES. inversion ES; subst d. rewrite E2 in ES'. inversion ES'; subst d'.
  eapply load_by_position; [exact U|exact U'|cbn [get]; rewrite String.eqb_refl; reflexivity|cbn [get]; rewrite String.eqb_refl; reflexivity| |].
  - rewrite (saved_leaves interned s1 S1 V1 l lk E HK), (saved_leaves interned s2 S2 V2 l' lk' E' HK'). now rewrite TV.
  - rewrite !del_cons, !String.eqb_refl. unfold kept. now rewrite R.
Qed.

(** ** C04 *)
Lemma update_fields : forall s d s', state_ok s -> dict_ok d -> fst (state_update s d) = Ok s' ->
  s_kernel s' = match get "kernel" d with Some v => v | None => s_kernel s end /\
  s_mean s' = match get "mean_function" d with Some v => v | None => s_mean s end /\
  match get "params" d with
  | None => s_params s' = s_params s
  | Some (OParams t) => same_leaves (s_params s') t
  | Some o => o = ONone /\ s_params s' = Leaf None
  end /\
  forall k, match get k d with
    | Some v => if existsb (String.eqb k) ["kernel"; "mean_function"; "params"] then get k (s_register s') = get k (s_register s)
                else exists v', get k (s_register s') = Some v' /\ stored v v'
    | None => get k (s_register s') = get k (s_register s)
    end.
Proof.
  intros s d s' S D H. rewrite update_eq in H. apply bind_ok in H. destruct H as [t [T H]]. inversion H as [H']. clear H H' s'.
  cbn [s_kernel s_mean s_params s_register]. split; [reflexivity|]. split; [reflexivity|]. split.
  - unfold pick in T. destruct (get "params" d) as [o|] eqn:G.
    + assert (OK : obj_ok o) by (eapply (get_forall obj_ok); [apply D|exact G]).
      destruct (set_params_inv o t OK T) as [_ [_ ->]]. destruct o; try discriminate; auto. intro path. now apply lookup_canon, OK.
    + rewrite set_own_params in T by auto. now inversion T.
  - intro k. unfold norm. rewrite get_vmap. rewrite get_merge by (apply rest_nodup; apply D). rewrite get_del3.
    assert (RT : option_map as_attr (get k (s_register s)) = get k (s_register s)).
    { destruct (get k (s_register s)) as [v|] eqn:Ev; [|reflexivity]. simpl. f_equal. apply as_attr_id.
      destruct S as [_ [_ [_ [TF _]]]]. eapply (get_forall (fun v => obj_ok v /\ ~ is_raw v)); eauto. }
    cbn [existsb].
    destruct (String.eqb k "kernel"); [destruct (get k d); exact RT|].
    destruct (String.eqb k "mean_function"); [destruct (get k d); exact RT|].
    destruct (String.eqb k "params"); [destruct (get k d); exact RT|]. cbn [orb].
    destruct (get k d) as [v|]; [|exact RT]. exists (as_attr v). split; [reflexivity|apply stored_as_attr].
Qed.
Lemma update_result : forall s d, state_ok s -> dict_ok d ->
  match get "params" d with
  | None | Some (OParams _) | Some ONone => exists s', fst (state_update s d) = Ok s'
  | Some _ => fst (state_update s d) = Err AttributeError
  end.
Proof.
  intros s d S D. rewrite update_eq. unfold pick. destruct (get "params" d) as [o|] eqn:G.
  - assert (OK : obj_ok o) by (eapply (get_forall obj_ok); [apply D|exact G]). destruct o; try reflexivity; [eexists; reflexivity|].
    rewrite set_params_ok by apply OK. eexists. reflexivity.
  - rewrite set_own_params by auto. eexists. reflexivity.
Qed.
Lemma update_leftover : forall s d k, get k (snd (state_update s d)) =
  if existsb (String.eqb k) ["kernel"; "mean_function"; "params"] then None else get k d.
Proof.
  intros s d k. change (snd (state_update s d)) with (rest_of d). rewrite get_del3. cbn [existsb].
  destruct (String.eqb k "kernel"); [reflexivity|]. destruct (String.eqb k "mean_function"); [reflexivity|].
  destruct (String.eqb k "params"); reflexivity.
Qed.
Lemma param_update_fields : forall p d q, fst (param_update p d) = Ok q ->
  p_value q = match get "value" d with Some (PArr a) => a | _ => p_value p end /\
  m_trainable (p_meta q) = match get "trainable" d with Some (PBool b) => b | _ => m_trainable (p_meta p) end /\
  m_bijector (p_meta q) = match get "bijector" d with Some (PBij b) => b | _ => m_bijector (p_meta p) end /\
  m_prior (p_meta q) = match get "prior" d with Some (PPri b) => b | _ => m_prior (p_meta p) end.
Proof.
  intros p d q H. unfold param_update in H. cbn [fst] in H. apply bind_ok in H. destruct H as [v [V H]]. apply bind_ok in H. destruct H as [t [T H]].
  apply bind_ok in H. destruct H as [b [B H]]. apply bind_ok in H. destruct H as [pr [Pr H]]. apply mk_param_ok in H. destruct H as [_ ->]. cbn.
  unfold pop_field in *. 
  destruct (get "value" d) as [[]|]; inversion V; destruct (get "trainable" d) as [[]|]; inversion T; destruct (get "bijector" d) as [[]|]; inversion B;
    destruct (get "prior" d) as [[]|]; inversion Pr; auto.
Qed.
Lemma param_leftover : forall p d k, get k (snd (param_update p d)) =
  if existsb (String.eqb k) ["value"; "trainable"; "bijector"; "prior"] then None else get k d.
Proof.
  intros p d k. unfold param_update. cbn [snd existsb].
  destruct (String.eqb_spec k "value") as [->|E1]; [rewrite !get_del_other by discriminate; apply get_del_same|].
  destruct (String.eqb_spec k "trainable") as [->|E2]; [rewrite !get_del_other by discriminate; apply get_del_same|].
  destruct (String.eqb_spec k "bijector") as [->|E3]; [rewrite !get_del_other by discriminate; apply get_del_same|].
  destruct (String.eqb_spec k "prior") as [->|E4]; [apply get_del_same|].
  cbn [orb]. rewrite !get_del_other by congruence. reflexivity.
Qed.

(** ** C07 *)
Lemma drawn_legal : forall sample p v, sampler_ok sample -> m_trainable (p_meta p) = true -> bij_ok (m_bijector (p_meta p)) -> drawn sample p v ->
  legal (m_bijector (p_meta p)) v.
Proof.
  intros sample p v SO T B D. unfold drawn in D. rewrite T in D. destruct D as [k ->]. unfold legal, forward_arr. cbn [a_data].
  destruct (SO k (m_prior (p_meta p))) as [_ [_ F]]. apply Forall_forall. intros x Hx. apply in_map_iff in Hx. destruct Hx as [o [<- Ho]].
  rewrite Forall_forall in F. specialize (F _ Ho). destruct o as [y|]; [|congruence]. cbn. eexists. split; [reflexivity|]. now apply forward_range.
Qed.
Lemma on_trainable_lookup : forall P t path p, on_trainable P t -> lookup path t = Some (Some p) -> m_trainable (p_meta p) = true -> P p.
Proof.
  intros P t path p H. revert path. induction t as [x|l IH] using tree_ind'; intros path L T.
  - destruct path; [|discriminate]. inversion L; subst. now apply H.
  - destruct path as [|k r]; [discriminate|]. simpl in L. destruct (get k l) as [s'|] eqn:G; [|discriminate].
    apply get_in in G. unfold on_trainable in *. apply every_node in H. rewrite Forall_forall in IH, H. exact (IH _ G (H _ G) _ L T).
Qed.
Lemma randomize_legal : forall sample s k opt, state_ok s -> sampler_ok sample -> float_params (s_params s) -> bijs_ok (s_params s) ->
  dict_ok opt -> get "params" opt = None ->
  exists s', randomize sample s k opt = Ok s' /\
    s_kernel s' = match get "kernel" opt with Some v => v | None => s_kernel s end /\
    s_mean s' = match get "mean_function" opt with Some v => v | None => s_mean s end /\
    (forall a, get a opt = None -> get a (s_register s') = get a (s_register s)) /\
    same_names (s_params s') (s_params s) /\
    forall path, match lookup path (s_params s) with
      | Some (Some p) => exists v, lookup path (s_params s') = Some (Some (Param v (p_meta p))) /\
          if m_trainable (p_meta p)
          then legal (m_bijector (p_meta p)) v /\ exists k', v = forward_arr (m_bijector (p_meta p)) (sample k' (m_prior (p_meta p)))
          else v = p_value p
      | o => lookup path (s_params s') = o end.
Proof.
  intros sample s k opt S SO FP BO OK NP. destruct (randomize_ok sample s k opt S SO FP OK NP) as [s' [E [K [M [R [SN [_ [_ [_ L]]]]]]]]].
  exists s'. split; [exact E|]. split; [exact K|]. split; [exact M|]. split; [|split; [exact SN|]].
  - intros a Ga. rewrite R. unfold norm. rewrite get_vmap, get_merge by (apply rest_nodup; apply OK). rewrite get_del3, Ga.
    assert (X : (if String.eqb a "kernel" then None else if String.eqb a "mean_function" then None else if String.eqb a "params" then None else @None obj) = None)
      by (destruct (String.eqb a "kernel"), (String.eqb a "mean_function"), (String.eqb a "params"); reflexivity).
    rewrite X. destruct (get a (s_register s)) as [v|] eqn:Ev; [|reflexivity]. simpl. f_equal. apply as_attr_id.
    destruct S as [_ [_ [_ [TF _]]]]. eapply (get_forall (fun v => obj_ok v /\ ~ is_raw v)); eauto.
  - intro path. specialize (L path). destruct (lookup path (s_params s)) as [[p|]|] eqn:Lp; auto. destruct L as [v [D Lv]]. exists v. split; auto.
    destruct (m_trainable (p_meta p)) eqn:T.
    + split; [eapply drawn_legal; eauto; eapply (on_trainable_lookup (fun p => bij_ok (m_bijector (p_meta p)))); eauto|]. unfold drawn in D. now rewrite T in D.
    + unfold drawn in D. now rewrite T in D.
Qed.
Lemma pair_leaves : forall (a b : ptree) (R : option param -> option param -> Prop), keys_distinct a -> same_names a b ->
  (forall path x y, lookup path a = Some x -> lookup path b = Some y -> R x y) -> Forall2 R (tleaves a) (tleaves b).
Proof.
  intros a b R K SN H. destruct (tree_pair _ _ SN) as [u [U1 U2]].
  assert (KU : keys_distinct u) by (apply (kd_map fst); now rewrite <- U1).
  assert (E : every (fun x => R (fst x) (snd x)) u).
  { apply every_lookup; auto. intros path x Lx. apply (H path); rewrite ?U1, ?U2, lookup_map, Lx; reflexivity. }
  apply every_leaves in E. rewrite U1, U2, !tleaves_map. clear -E. induction E; constructor; auto.
Qed.
Lemma randomize_indep : forall sample s s' k opt, state_ok s -> state_ok s' -> s_kernel s = s_kernel s' -> s_mean s = s_mean s' ->
  s_register s = s_register s' -> same_names (s_params s) (s_params s') -> dict_ok opt ->
  (forall path, match lookup path (s_params s), lookup path (s_params s') with
     | Some (Some p), Some (Some p') => p_meta p = p_meta p' /\ (m_trainable (p_meta p) = false -> p_value p = p_value p')
     | a, b => a = b end) ->
  randomize sample s k opt = randomize sample s' k opt.
Proof.
  intros sample s s' k opt S S' EK EM ER SN OK H. unfold randomize. rewrite !copy_id by auto. cbn [bind]. cbv zeta.
  assert (F : Forall2 (fun x y => match x, y with Some p, Some p' => p_meta p = p_meta p' /\ (m_trainable (p_meta p) = false -> p_value p = p_value p') | a, b => a = b end)
    (tleaves (s_params s)) (tleaves (s_params s'))).
  { apply pair_leaves; auto; [apply S|]. intros path x y Lx Ly. specialize (H path). rewrite Lx, Ly in H. destruct x, y; congruence. }
  assert (St : sorted (s_params s)) by apply S. assert (St' : sorted (s_params s')) by apply S'.
  rewrite (randomize_values_indep sample (params_of (s_params s)) (params_of (s_params s'))).
  2:{ unfold params_of. rewrite !sorted_canon by auto. clear -F. induction F as [|[p|] [p'|] l l' Hp F IH]; unfold somes; simpl; try discriminate; auto. }
  assert (D : tree_def (s_params s) = tree_def (s_params s')).
  { unfold tree_def. rewrite !sorted_canon by auto. destruct (tree_pair _ _ SN) as [u [U1 U2]]. rewrite U1, U2, !map_map_tree. apply map_tree_ext.
    apply every_leaves. rewrite U1, U2, !tleaves_map in F. clear -F. induction (tleaves u) as [|[[p|] [p'|]] r IH]; simpl in *; inversion F; subst; constructor; auto; simpl; try congruence.
    destruct H2 as [-> _]. reflexivity. }
  rewrite D. destruct (tree_unflatten (tree_def (s_params s')) _); cbn [bind]; [|reflexivity].
  rewrite !update_eq. unfold pick. rewrite EK, EM, ER.
  assert (GP : get "params" (merge [("params", OParams a)] opt) <> None).
  { rewrite get_merge by apply OK. destruct (get "params" opt); simpl; discriminate. }
  destruct (get "params" (merge [("params", OParams a)] opt)); [reflexivity|congruence].
Qed.

(** ** C08 *)
Lemma filter_map_meta : forall (f : meta -> bool) ps, map p_meta (filter (fun p => f (p_meta p)) ps) = filter f (map p_meta ps).
Proof. intros f ps. induction ps as [|p r IH]; simpl; auto. destruct (f (p_meta p)); simpl; now rewrite IH. Qed.
Lemma values_trainable : forall sample ps ps' k, map p_meta ps' = map p_meta ps -> map p_value ps' = fst (randomize_values sample k ps) ->
  map p_value (filter (fun p => m_trainable (p_meta p)) ps') =
  map (fun x => forward_arr (m_bijector (p_meta (fst x))) (sample (snd x) (m_prior (p_meta (fst x)))))
    (zip (filter (fun p => m_trainable (p_meta p)) ps) (snd (randomize_values sample k ps))).
Proof.
  intros sample ps. induction ps as [|p r IH]; intros [|p' r'] k M V; try discriminate; [reflexivity|]. simpl in M. injection M as M1 M2.
  simpl in V. simpl. rewrite M1. destruct (m_trainable (p_meta p)) eqn:T; simpl in V; injection V as V1 V2; simpl.
  - f_equal; [exact V1|]. now apply IH.
  - now apply IH.
Qed.
Lemma keys_any_sampler : forall sample s k, randomize_keys s k = snd (randomize_values sample k (params_of (s_params s))).
Proof. intros. unfold randomize_keys. now rewrite !rkeys. Qed.
Lemma defs_eq_metas : forall t t', tree_def t = tree_def t' -> metas t = metas t'.
Proof.
  intros t t' H. unfold metas, params_of. unfold tree_def in H. apply (f_equal tleaves) in H. rewrite !tleaves_map in H. apply (f_equal somes) in H.
  now rewrite !somes_map in H.
Qed.
Lemma randomize_draws : forall sample s k opt s', state_ok s -> sampler_ok sample -> float_params (s_params s) -> dict_ok opt -> get "params" opt = None ->
  randomize sample s k opt = Ok s' ->
  map p_value (trainables (s_params s')) =
  map (fun x => forward_arr (m_bijector (p_meta (fst x))) (sample (snd x) (m_prior (p_meta (fst x)))))
    (zip (trainables (s_params s)) (randomize_keys s k)).
Proof.
  intros sample s k opt s' S SO FP OK NP E. destruct (randomize_ok sample s k opt S SO FP OK NP) as [s2 [E2 [_ [_ [_ [_ [V [D _]]]]]]]].
  rewrite E in E2. inversion E2; subst s2. rewrite (keys_any_sampler sample). apply values_trainable; [exact (defs_eq_metas _ _ D)|exact V].
Qed.
Lemma keys_list : forall s k, randomize_keys s k = map (fun j => right (S j) k) (seq 0 (length (trainables (s_params s)))).
Proof. intros. unfold randomize_keys. apply rkeys. Qed.
