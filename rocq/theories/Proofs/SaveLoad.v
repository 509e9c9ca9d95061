(** Saving a state and loading it. *)
From Coq Require Import String List Bool Arith Reals Permutation Lia.
From Verif Require Import Model.PyDict Model.Bijectors Model.Params Model.State Spec.DictSpec Spec.StateSpec
  Proofs.DictFacts Proofs.TreeFacts Proofs.StateFacts Proofs.UpdateFacts.
Import ListNotations.
Open Scope string_scope.

(** ** trees with the same names *)
Lemma lookup_map : forall {A B} (f : A -> B) path t, lookup path (map_tree f t) = option_map f (lookup path t).
Proof.
  intros A B f. induction path as [|k r IH]; intros [a|l]; try reflexivity.
  rewrite map_node. simpl. rewrite get_vmap. destruct (get k l); simpl; auto.
Qed.
Lemma tree_pair : forall {A B} (a : tree A) (b : tree B), same_names a b ->
  exists u : tree (A * B), a = map_tree fst u /\ b = map_tree snd u.
Proof.
  intros A B a. unfold same_names. induction a as [x|l IH] using tree_ind'; intros b H.
  - destruct b as [y|l']; [|discriminate]. now exists (Leaf (x, y)).
  - destruct b as [y|l']; [discriminate|]. rewrite !map_node in H. inversion H as [H']. clear H.
    assert (G : exists u, l = vmap (map_tree fst) u /\ l' = vmap (map_tree snd) u).
    { revert l' H'. induction l as [|[k s] r IHr]; intros [|[k' s'] r'] H; try discriminate; [now exists []|].
      inversion IH as [|x y J1 J2]; subst. cbn [snd] in J1. simpl in H. inversion H; subst.
      destruct (J1 _ H2) as [u [U1 U2]]. destruct (IHr J2 _ H3) as [v [V1 V2]]. exists ((k', u) :: v). simpl. now subst. }
    destruct G as [u [U1 U2]]. exists (Node u). rewrite !map_node. now subst.
Qed.
Lemma every_lookup : forall {A} (P : A -> Prop) t, keys_distinct t -> (forall path x, lookup path t = Some x -> P x) -> every P t.
Proof.
  intros A P t. induction t as [a|l IH] using tree_ind'; intros K H; [exact (H [] a eq_refl)|].
  apply every_node. apply kd_node in K. destruct K as [N K]. rewrite Forall_forall in *. intros [k s] Hkv. cbn [snd].
  apply (IH (k, s) Hkv (K _ Hkv)). intros path x E. apply (H (k :: path)). simpl.
  apply get_in_nodup in Hkv; auto. now rewrite Hkv.
Qed.

Lemma nodup_app_r : forall {A} (l m : list A), NoDup (l ++ m) -> NoDup m.
Proof. intros A l m. induction l as [|a l IH]; [auto|]. intro H. inversion H; auto. Qed.
Lemma nodup_app_l : forall {A} (l m : list A), NoDup (l ++ m) -> NoDup l.
Proof.
  intros A l m. induction l as [|a l IH]; intro H; [constructor|]. inversion H; subst. constructor; [|auto].
  intro J. apply H2. apply in_or_app. auto.
Qed.

(** ** the saved dictionary *)
Section Save.
  Context (interned : string -> bool).
  Lemma names_node : forall {A} path (l : list (string * tree A)), names_ok interned path (Node l) <->
    NoDup (map fst l) /\ Forall (fun kv => fst kv <> "" /\ no_colon (fst kv) /\
      match snd kv with
      | Leaf _ => fst kv <> "NULL" /\ (interned (fst kv) = true -> ~ In (fst kv) path)
      | Node [] => interned "NULL" = true -> ~ In "NULL" (path ++ [fst kv])%list
      | Node _ => names_ok interned (path ++ [fst kv])%list (snd kv)
      end) l.
  Proof.
    intros A path l. simpl. 
    match goal with |- _ /\ ?X <-> _ /\ ?Y => assert (E : X <-> Y); [|now rewrite E] end.
    induction l as [|[k s] r IH]; [split; auto; constructor|]. split; intro H.
    - destruct H as [H1 H2]. constructor; [exact H1|]. now apply IH.
    - inversion H; subst. split; [exact H2|]. now apply IH.
  Qed.
  Definition pv (o : option param) : obj := match o with Some p => OArr (p_value p) | None => ONone end.
  Lemma all_tree_every : forall {A} (P : A -> Prop) t, all_tree P t <-> every P t.
  Proof. reflexivity. Qed.
  Lemma fp_map : forall {A V W} (g : V -> W) (null : V) (f : A -> V) t,
    fp (g null) (fun a => g (f a)) t = map (fun p => (fst p, g (snd p))) (fp null f t).
  Proof.
    intros A V W g null f t. induction t as [a|l IH] using tree_ind'; [reflexivity|].
    destruct l as [|kv r]; [reflexivity|]. rewrite !fp_node by discriminate. remember (kv :: r) as l eqn:E. clear E kv r.
    unfold fpl. induction l as [|[k s] r IHr]; [reflexivity|]. inversion IH as [|x y J1 J2]; subst. cbn [fst snd] in *.
    simpl flat_map. rewrite map_app, IHr by auto. f_equal. rewrite J1. unfold pre. rewrite !map_map. reflexivity.
  Qed.
  Lemma del_forall_keys : forall {A} k (d : dict A), ~ In k (map fst (del k d)).
  Proof.
    intros A k d H. apply in_map_iff in H. destruct H as [x [E Hx]]. unfold del in Hx. apply filter_In in Hx.
    destruct Hx as [_ Hx]. subst. rewrite String.eqb_refl in Hx. discriminate.
  Qed.
  Lemma del_perm : forall {A} k (v : A) d, NoDup (map fst d) -> get k d = Some v -> Permutation (del k d ++ [(k, v)])%list d.
  Proof.
    intros A k v d N. induction d as [|[k' v'] r IH]; intro G; [discriminate|]. simpl in N, G. inversion N; subst.
    rewrite del_cons. destruct (String.eqb_spec k k') as [->|E].
    - inversion G; subst. assert (E : del k' r = r).
      { clear -H1. induction r as [|[k2 v2] r IH]; [reflexivity|]. rewrite del_cons. simpl in H1.
        destruct (String.eqb_spec k' k2); [exfalso; auto|]. rewrite IH; auto. }
      rewrite E. apply Permutation_sym, Permutation_cons_append.
    - simpl. apply perm_skip. auto.
  Qed.
  (** paths of all parameters, the kernel's last *)
  Definition all_paths {V} (null : V) (f : option param -> V) (l lk : list (string * ptree)) : list (list string * V) :=
    (fp null f (Node (del "kernel_params" l)) ++ pre "kernel_params" (fp null f (Node lk)))%list.
  Lemma keyed_pre : forall {V} path k (ps : list (list string * V)), keyed path (pre k ps) = keyed (path ++ [k])%list ps.
  Proof. intros. unfold keyed, pre. rewrite map_map. apply map_ext. intros [p v]. cbn [fst snd]. now rewrite <- app_assoc. Qed.
  Lemma keyed_app : forall {V} path (a b : list (list string * V)), keyed path (a ++ b)%list = (keyed path a ++ keyed path b)%list.
  Proof. intros. unfold keyed. apply map_app. Qed.

  Context (l lk : list (string * ptree)) (HN : names_ok interned ["params"] (Node l))
    (HK : get "kernel_params" l = Some (Node lk)).
  Let l' := del "kernel_params" l.
  Lemma l_nodup : NoDup (map fst l).
  Proof. apply names_node in HN. apply HN. Qed.
  Lemma names_rest : names_ok interned ["params"] (Node l').
  Proof.
    apply names_node in HN. destruct HN as [N F]. apply names_node. unfold l'. split; [now apply del_nodup|now apply del_forall].
  Qed.
  Lemma names_kernel : match lk with [] => interned "NULL" = true -> ~ In "NULL" ["params"; "kernel_params"]
      | _ => names_ok interned ["params"; "kernel_params"] (Node lk) end.
  Proof.
    apply names_node in HN. destruct HN as [N F]. apply get_in_nodup in HK; auto. rewrite Forall_forall in F. specialize (F _ HK).
    cbn [fst snd] in F. destruct F as [_ [_ F]]. destruct lk; exact F.
  Qed.
  Lemma kernel_wd : @wnames (option param) (Node lk) /\ dnames (Node lk).
  Proof.
    pose proof names_kernel as F. destruct lk as [|kv r] eqn:E; [simpl; repeat constructor|]. now apply ok_w in F.
  Qed.
  Lemma all_paths_good : forall {V} (null : V) f, Forall (fun p => goodp interned ["params"] (fst p)) (all_paths null f l lk).
  Proof.
    intros V null f. unfold all_paths. apply Forall_app. split.
    - pose proof (ok_paths null f interned (Node l') ["params"] names_rest) as Q. fold l'.
      destruct l'; [|exact Q]. apply Q. intros _ [H|[]]. discriminate.
    - assert (Q : Forall (fun p => goodp interned ["params"; "kernel_params"] (fst p)) (fp null f (Node lk))).
      { pose proof names_kernel as F. destruct lk as [|kv r] eqn:E.
        - pose proof (ok_paths null f interned (Node []) ["params"; "kernel_params"]) as Q. cbv iota in Q. apply Q; [|exact F].
          simpl. split; [constructor|auto].
        - exact (ok_paths null f interned _ _ F). }
      unfold pre. apply Forall_map. eapply Forall_impl; [|exact Q]. intros p [G1 [G2 G3]]. cbn [fst].
      split; [discriminate|]. split; [|exact G3]. constructor; auto. simpl. repeat split; discriminate.
  Qed.
  Lemma all_paths_nodup : forall {V} (null : V) f, NoDup (map fst (all_paths null f l lk)).
  Proof.
    intros V null f. unfold all_paths. fold l'. rewrite map_app.
    assert (A1 : NoDup (map fst (fp null f (Node l')))).
    { apply wnames_paths. exact (proj1 (ok_w interned _ _ names_rest)). }
    assert (A2 : NoDup (map fst (pre "kernel_params" (fp null f (Node lk))))).
    { unfold pre. rewrite map_map. cbn [fst]. rewrite <- (map_map fst (fun p => "kernel_params" :: p)).
      apply FinFun.Injective_map_NoDup; [intros a b E; now inversion E|]. apply wnames_paths. apply kernel_wd. }
    assert (A3 : forall p, In p (map fst (fp null f (Node l'))) -> ~ In p (map fst (pre "kernel_params" (fp null f (Node lk))))).
    { intros p H1 H2. unfold pre in H2. rewrite map_map in H2. apply in_map_iff in H2. destruct H2 as [x [E _]]. cbn [fst] in E. subst p.
      destruct l' as [|kv r] eqn:E.
      - simpl in H1. destruct H1 as [H1|[]]. discriminate.
      - rewrite fp_node in H1 by discriminate. destruct (fpl_head _ _ _ _ H1) as [k [q [E' J]]]. inversion E'; subst k.
        rewrite <- E in J. unfold l' in J. now apply del_forall_keys in J. }
    revert A1 A3. generalize (map fst (fp null f (Node l'))). intro L. induction L as [|a L IHL]; intros A1 A3; simpl; auto.
    inversion A1; subst. constructor.
    - intro J. apply in_app_or in J. destruct J as [J|J]; [contradiction|]. apply (A3 a); simpl; auto.
    - apply IHL; auto. intros p Hp. apply A3. now right.
  Qed.
  Lemma nocolon_params : Forall no_colon ["params"].
  Proof. repeat constructor; simpl; discriminate. Qed.
  Lemma keyed_all_nodup : forall {V} (null : V) f, NoDup (map fst (keyed ["params"] (all_paths null f l lk))).
  Proof.
    intros. apply keyed_nodup; [apply nocolon_params| |apply all_paths_nodup].
    eapply Forall_impl; [|apply all_paths_good]. intros p [G1 [G2 _]]. auto.
  Qed.
  Lemma keyed_colon : forall {V} (null : V) f k, In k (map fst (keyed ["params"] (all_paths null f l lk))) -> ~ no_colon k.
  Proof.
    intros V null f k H N. unfold keyed in H. rewrite map_map in H. apply in_map_iff in H. destruct H as [p [E Hp]]. cbn [fst] in E.
    pose proof (all_paths_good null f) as F. rewrite Forall_forall in F. destruct (F _ Hp) as [G1 [G2 _]].
    assert (S : split_colon k = ("params" :: fst p)).
    { subst k. apply split_jn; [discriminate|]. constructor; [simpl; repeat split; discriminate|auto]. }
    rewrite split_nc in S by auto. inversion S. congruence.
  Qed.
  (** what save writes for the parameters *)
  Lemma save_params : no_none (Node l) ->
    flatten_dict ONone param_value (Node lk) [] "params:kernel_params" = Ok (keyed ["params"; "kernel_params"] (fp ONone pv (Node lk))) /\
    flatten_dict ONone param_value (Node l') [] "params" = Ok (keyed ["params"] (fp ONone pv (Node l'))).
  Proof.
    intro NN. unfold no_none in NN.
    assert (M : forall t : ptree, every (fun o => o <> None) t -> all_tree (fun a => param_value a = Ok (pv a)) t).
    { intros t H. apply all_tree_every. apply every_leaves. apply every_leaves in H. eapply Forall_impl; [|exact H].
      intros [p|] J; [reflexivity|congruence]. }
    assert (N1 : every (fun o => o <> None) (Node l')).
    { apply every_node. unfold l'. apply del_forall. now apply every_node. }
    assert (N2 : every (fun o : option param => o <> None) (Node lk)).
    { apply every_node in NN. rewrite Forall_forall in NN. apply get_in_nodup in HK; [|apply l_nodup]. exact (NN _ HK). }
    assert (E0 : Forall (fun k => k <> "") ["params"]) by (repeat constructor; discriminate).
    assert (E1 : Forall (fun k => k <> "") ["params"; "kernel_params"]) by (repeat constructor; discriminate).
    split.
    - pose proof (flatten_fp ONone pv param_value (Node lk) ["params"; "kernel_params"] [] E1 (proj2 kernel_wd) (M _ N2)) as F.
      cbv beta iota in F. change (jn ["params"; "kernel_params"]) with "params:kernel_params" in F. rewrite F. f_equal.
      rewrite fold_setp, fold_set_app; [reflexivity|]. cbn [map app].
      pose proof (keyed_all_nodup ONone pv) as G. unfold all_paths in G. rewrite keyed_app, keyed_pre, map_app in G.
      exact (nodup_app_r _ _ G).
    - pose proof (flatten_fp ONone pv param_value (Node l') ["params"] [] E0 (proj2 (ok_w interned _ _ names_rest)) (M _ N1)) as F.
      cbv beta iota in F. change (jn ["params"]) with "params" in F. rewrite F. f_equal.
      rewrite fold_setp, fold_set_app; [reflexivity|]. cbn [map app].
      pose proof (keyed_all_nodup ONone pv) as G. unfold all_paths in G. rewrite keyed_app, map_app in G.
      exact (nodup_app_l _ _ G).
  Qed.
  (** what unflattening makes of it *)
  Lemma load_params : forall {V} (null : V) f,
    unflatten_from interned (keyed ["params"] (all_paths null f l lk)) [] =
      Ok [("params", Node (mapl f (l' ++ [("kernel_params", Node lk)])%list))].
  Proof.
    intros V null f. rewrite unflatten_keyed; [|apply nocolon_params|apply all_paths_good].
    change (map (fun p => (["params"] ++ fst p, snd p)%list) (all_paths null f l lk)) with (pre "params" (all_paths null f l lk)).
    assert (NE : Forall (fun p : list string * V => fst p <> []) (all_paths null f l lk)).
    { eapply Forall_impl; [|apply all_paths_good]. intros p [G _]. exact G. }
    assert (I : insL (all_paths null f l lk) [] = Ok (mapl f (l' ++ [("kernel_params", Node lk)])%list)).
    { unfold all_paths. fold l'. rewrite insL_app.
      pose proof (insL_node null f (Node l') (proj1 (ok_w interned _ _ names_rest))) as I1. cbv iota in I1. rewrite I1. cbn [bind].
      rewrite insL_pre_new; [|apply fp_nonempty|apply fp_node_nonnil|].
      - pose proof (insL_node null f (Node lk) (proj1 kernel_wd)) as I2. cbv iota in I2. rewrite I2. cbn [bind].
        rewrite <- map_tree_node. unfold mapl. rewrite map_app. reflexivity.
      - apply get_none. rewrite mapl_keys. unfold l'. apply del_forall_keys. }
    rewrite insL_pre_new; auto.
    - rewrite I. reflexivity.
    - unfold all_paths. intro Z. apply app_eq_nil in Z. destruct Z as [Z _]. now apply fp_nonempty in Z.
  Qed.
End Save.

Lemma mem_in : forall {A} k (d : dict A), mem k d = true <-> In k (map fst d).
Proof.
  intros A k d. induction d as [|[k' v] r IH]; simpl; [split; [discriminate|tauto]|].
  rewrite orb_true_iff, IH, String.eqb_eq. split; intros [H|H]; auto.
Qed.
Definition kept (s : state) : dict obj := filter (fun kv => negb (is_callable (snd kv))) (s_register s).
Lemma filter_keys_nodup : forall {A} (f : string * A -> bool) d, NoDup (map fst d) -> NoDup (map fst (filter f d)).
Proof.
  intros A f d. induction d as [|[k v] r IH]; simpl; intro N; [constructor|]. inversion N; subst.
  destruct (f (k, v)); simpl; auto. constructor; auto. intro H. apply H1. apply in_map_iff in H. destruct H as [x [E Hx]].
  apply filter_In in Hx. rewrite <- E. now apply in_map.
Qed.
Lemma nodup_app : forall {A} (l m : list A), NoDup l -> NoDup m -> (forall x, In x l -> ~ In x m) -> NoDup (l ++ m).
Proof.
  intros A l m H. induction H as [|a l Ha H IH]; intros M D; simpl; auto. constructor.
  - intro J. apply in_app_or in J. destruct J as [J|J]; [auto|]. apply (D a); simpl; auto.
  - apply IH; auto. intros x Hx. apply D. now right.
Qed.
Section Whole.
  Context (interned : string -> bool) (s : state) (S : state_ok s) (SV : savable interned (s_params s))
    (AN : Forall (fun kv => is_callable (snd kv) = false -> aux_name (fst kv)) (s_register s)).
  Lemma kept_names : Forall (fun kv => aux_name (fst kv)) (kept s).
  Proof.
    apply Forall_forall. intros kv H. unfold kept in H. apply filter_In in H. destruct H as [H1 H2].
    rewrite Forall_forall in AN. apply (AN _ H1). now apply negb_true_iff.
  Qed.
  Lemma kept_nodup : NoDup (map fst (kept s)).
  Proof. apply filter_keys_nodup. apply S. Qed.
  Lemma save_dict_eq : exists l lk, s_params s = Node l /\ get "kernel_params" l = Some (Node lk) /\
    names_ok interned ["params"] (Node l) /\
    save_dict s = Ok (keyed ["params"] (all_paths ONone pv l lk) ++ kept s)%list.
  Proof.
    destruct SV as [NN [HN [l [lk [E HK]]]]]. exists l, lk. rewrite E in *. split; auto. split; auto. split; auto.
    unfold save_dict. rewrite E. cbn [as_node bind]. rewrite HK.
    destruct (save_params interned l lk HN HK NN) as [F1 F2]. rewrite F1. cbn [bind]. rewrite F2. cbn [bind]. cbv zeta.
    pose proof (keyed_all_nodup interned l lk HN HK ONone pv) as ND.
    assert (K : forall k, In k (map fst (kept s)) -> no_colon k /\ k <> "file").
    { intros k H. apply in_map_iff in H. destruct H as [kv [<- H]]. pose proof kept_names as KN. rewrite Forall_forall in KN.
      destruct (KN _ H) as [A1 [A2 [A3 _]]]. auto. }
    assert (M1 : merge (keyed ["params"] (fp ONone pv (Node (del "kernel_params" l))))
       (keyed ["params"; "kernel_params"] (fp ONone pv (Node lk))) = keyed ["params"] (all_paths ONone pv l lk)).
    { unfold merge. unfold all_paths in *. rewrite keyed_app, keyed_pre in *. rewrite fold_set_app; [reflexivity|].
      rewrite map_app in ND. exact ND. }
    rewrite M1.
    assert (M2 : merge (keyed ["params"] (all_paths ONone pv l lk)) (kept s) = (keyed ["params"] (all_paths ONone pv l lk) ++ kept s)%list).
    { unfold merge. apply fold_set_app. apply nodup_app; auto; [apply kept_nodup|].
      intros k H1 H2. eapply keyed_colon; [| |exact H1|apply K; exact H2]; eauto. }
    fold (kept s). rewrite M2.
    destruct (mem "file" _) eqn:E1; [|reflexivity]. exfalso. apply mem_in in E1. rewrite map_app in E1. apply in_app_or in E1.
    destruct E1 as [E1|E1].
    - eapply keyed_colon; [| |exact E1|]; eauto. simpl. repeat split; discriminate.
    - now apply K in E1.
  Qed.
  Lemma dumped_vmap : forall d, dumped d = vmap dump d.
  Proof. reflexivity. Qed.
  Lemma keyed_vmap : forall {V W} (g : V -> W) path ps, vmap g (keyed path ps) = keyed path (map (fun p => (fst p, g (snd p))) ps).
  Proof. intros. unfold vmap, keyed. rewrite !map_map. reflexivity. Qed.
  Definition fpv (o : option param) : fval := dump (pv o).
  Lemma all_paths_map : forall l lk, map (fun p => (fst p, dump (snd p))) (all_paths ONone pv l lk) = all_paths (FBox ONone) fpv l lk.
  Proof.
    intros l lk. unfold all_paths. rewrite map_app. change (FBox ONone) with (dump ONone). unfold fpv. rewrite !fp_map. f_equal.
    unfold pre. rewrite !map_map. reflexivity.
  Qed.
  Lemma unflatten_aux : forall (d : dict fval) acc, Forall (fun kv => aux_name (fst kv)) d -> NoDup (map fst acc ++ map fst d) ->
    unflatten_from interned d acc = Ok (acc ++ vmap Leaf d)%list.
  Proof.
    induction d as [|[k v] r IH]; intros acc F N; [simpl; now rewrite app_nil_r|]. inversion F; subst.
    destruct H1 as [A1 [A2 _]]. cbn [fst] in *. simpl unflatten_from. rewrite split_nc by auto. simpl insert_keys. cbn [bind].
    destruct (String.eqb_spec k "NULL"); [congruence|]. rewrite set_new.
    - rewrite IH; auto; [now rewrite <- app_assoc|]. rewrite map_app, <- app_assoc. exact N.
    - apply get_none. intro H. apply NoDup_remove_2 in N. apply N. apply in_or_app. auto.
  Qed.
  Lemma unflatten_saved : exists l lk, s_params s = Node l /\ get "kernel_params" l = Some (Node lk) /\
    names_ok interned ["params"] (Node l) /\
    exists d, save_dict s = Ok d /\ unflatten_dict interned (dumped d) =
      Ok (("params", Node (mapl fpv (del "kernel_params" l ++ [("kernel_params", Node lk)])%list)) :: vmap Leaf (dumped (kept s))).
  Proof.
    destruct save_dict_eq as [l [lk [E [HK [HN ES]]]]]. exists l, lk. split; auto. split; auto. split; auto.
    eexists. split; [exact ES|]. unfold dumped at 1, vmap. rewrite map_app.
    fold (vmap dump (keyed ["params"] (all_paths ONone pv l lk))). fold (vmap dump (kept s)). rewrite keyed_vmap, all_paths_map.
    unfold unflatten_dict. rewrite unflatten_app, (load_params interned l lk HN HK). cbn [bind].
    rewrite unflatten_aux; [reflexivity| |].
    - apply Forall_vmap. cbn [fst]. apply kept_names.
    - cbn [map fst app]. rewrite vmap_keys. constructor; [|apply kept_nodup].
      intro H. apply in_map_iff in H. destruct H as [kv [E1 H]]. pose proof kept_names as KN. rewrite Forall_forall in KN.
      destruct (KN _ H) as [_ [_ [_ A4]]]. rewrite E1 in A4. apply A4. unfold reserved. auto.
  Qed.
  Lemma saved_leaves : forall l lk, s_params s = Node l -> get "kernel_params" l = Some (Node lk) ->
    tleaves (canon (Node (mapl fpv (del "kernel_params" l ++ [("kernel_params", Node lk)])%list))) =
    map FArr (tree_values (s_params s)).
  Proof.
    intros l lk E HK. destruct S as [[KD _] [ST _]]. rewrite E in KD, ST. apply kd_node in KD. destruct KD as [N KD].
    assert (C : canon (Node (mapl fpv (del "kernel_params" l ++ [("kernel_params", Node lk)])%list)) = map_tree fpv (Node l)).
    { rewrite <- map_tree_node, canon_map. f_equal. rewrite <- (sorted_canon (Node l) ST). rewrite !canon_node. f_equal.
      apply sort_perm_eq.
      - unfold vmap. apply Permutation_map. now apply del_perm.
      - rewrite vmap_keys. eapply Permutation_NoDup; [apply Permutation_sym, Permutation_map, del_perm; eauto|auto]. }
    rewrite C, tleaves_map. unfold tree_values, params_of. rewrite E, (sorted_canon (Node l)) by auto. rewrite map_map.
    destruct SV as [NN _]. rewrite E in NN. unfold no_none in NN. apply every_leaves in NN. clear -NN.
    induction (tleaves (Node l)) as [|[p|] r IH]; [reflexivity| |inversion NN; congruence].
    inversion NN; subst. simpl. rewrite IH by auto. reflexivity.
  Qed.
End Whole.

(** ** loading *)
Lemma map_update : forall ps vs, Forall2 (fun p v => fits (p_meta p) v) ps vs ->
  mapM (fun x => update_value (fst x) (snd x)) (zip ps (map FArr vs)) = Ok (map (fun x => Param (snd x) (p_meta (fst x))) (zip ps vs)).
Proof.
  intros ps vs H. induction H as [|p v ps vs F H IH]; [reflexivity|]. cbn [zip map mapM fst snd].
  unfold update_value at 1. rewrite param_set_value. rewrite (proj2 (mk_param_ok v (p_meta p) _) (conj F eq_refl)). cbn [bind]. now rewrite IH.
Qed.
Lemma load_fill : forall t vs, ptree_ok t -> sorted t -> Forall2 fits (metas t) vs ->
  exists t', fill (fun (_ : meta) p => Ok p) (tree_def t) (map (fun x => Param (snd x) (p_meta (fst x))) (zip (params_of t) vs)) = Ok (t', []) /\
    ptree_ok t' /\ sorted t' /\ tree_def t' = tree_def t /\ tree_values t' = vs.
Proof.
  intros t vs T St F. unfold metas in F.
  assert (L : length vs = length (somes (tleaves (canon t)))).
  { apply F2_length in F. rewrite map_length in F. symmetry. exact F. }
  destruct (tree_zip (canon t) vs L) as [u [U1 U2]].
  set (w := map_tree (option_map (fun x : param * array => (p_meta (fst x), Param (snd x) (p_meta (fst x)), Param (snd x) (p_meta (fst x))))) u).
  assert (W0 : zip (params_of t) vs = somes (tleaves u)).
  { unfold params_of. rewrite <- U1, <- U2, tleaves_map, somes_map. clear. induction (somes (tleaves u)) as [|[a b] r IH]; [reflexivity|].
    simpl. now rewrite IH. }
  assert (W1 : map_tree (option_map (fun x : meta * param * param => fst (fst x))) w = tree_def t).
  { unfold w, tree_def. rewrite <- U1, !map_map_tree. apply map_tree_ext, every_all. now intros [[]|]. }
  assert (W2 : map (fun x : meta * param * param => snd (fst x)) (somes (tleaves w)) =
     map (fun x => Param (snd x) (p_meta (fst x))) (zip (params_of t) vs)).
  { rewrite W0. unfold w. rewrite tleaves_map, somes_map, map_map. reflexivity. }
  pose proof (fill_triples (fun (_ : meta) (p : param) => Ok p) w []) as G. rewrite W1, W2, app_nil_r in G.
  set (t' := map_tree (option_map snd) w) in *.
  assert (M : map_tree (option_map p_meta) t' = tree_def t).
  { unfold t', w. rewrite !map_map_tree. unfold tree_def. rewrite <- U1, map_map_tree. apply map_tree_ext, every_all. now intros [[]|]. }
  destruct (tree_def_of t t' St M) as [S' D]. exists t'. split.
  { apply G. unfold w. apply every_map, every_all. now intros [[]|]. }
  split; [split|].
  - now apply sorted_distinct.
  - unfold t', w. rewrite map_map_tree. apply every_map. apply every_leaves.
    assert (F' : Forall (fun x => fits (p_meta (fst x)) (snd x)) (somes (tleaves u))).
    { rewrite <- W0. clear -F. remember (params_of t) as ps. clear Heqps. revert vs F. induction ps as [|p ps IH]; intros vs F; simpl; [constructor|].
      simpl in F. inversion F; subst. constructor; auto. }
    clear -F'. induction (tleaves u) as [|[x|] r IH]; [constructor| |constructor; [exact I|auto]].
    unfold somes in F'. simpl in F'. inversion F'; subst. constructor; auto.
  - split; auto. split; auto. unfold tree_values, params_of. rewrite sorted_canon by auto. unfold t', w. rewrite map_map_tree, tleaves_map.
    rewrite (map_ext _ (option_map (fun x : param * array => Param (snd x) (p_meta (fst x))))) by (now intros [[]|]).
    rewrite somes_map, map_map. cbn [p_value]. exact U2.
Qed.
Lemma mapM_ok : forall {A B} (f : A -> result B) g l, Forall (fun a => f a = Ok (g a)) l -> mapM f l = Ok (map g l).
Proof. intros A B f g l H. induction H as [|a r E H IH]; [reflexivity|]. simpl. rewrite E. cbn [bind]. now rewrite IH. Qed.
Lemma metas_len : forall t, length (params_of t) = length (metas t).
Proof. intro t. unfold metas. now rewrite map_length. Qed.
Lemma F2_map_l : forall {A B C} (f : A -> B) (P : B -> C -> Prop) l m, Forall2 P (map f l) m <-> Forall2 (fun a c => P (f a) c) l m.
Proof.
  intros A B C f P l. induction l as [|a l IH]; intro m; simpl; split; intro H; inversion H; subst; constructor; auto; now apply IH.
Qed.
(** loading a file whose parameters fit *)
Lemma load_ok : forall interned s c dp (aux : dict fval) vs, state_ok s ->
  unflatten_dict interned c = Ok (("params", dp) :: vmap Leaf aux) -> NoDup (map fst aux) -> ~ In "params" (map fst aux) ->
  tleaves (canon dp) = map FArr vs -> Forall2 fits (metas (s_params s)) vs ->
  exists t', ptree_ok t' /\ sorted t' /\ tree_def t' = tree_def (s_params s) /\ tree_values t' = vs /\
    load_dict interned s c = Ok (State (pick "kernel" (vmap undump aux) (s_kernel s)) (pick "mean_function" (vmap undump aux) (s_mean s)) t'
      (norm (merge (s_register s) (rest_of (vmap undump aux))))).
Proof.
  intros interned s c dp aux vs S U ND NP L F.
  destruct (load_fill (s_params s) vs) as [t' [Ft [T1 [T2 [T3 T4]]]]]; try apply S; auto.
  exists t'. repeat (split; [assumption|]). unfold load_dict. rewrite U. cbn [bind get].
  rewrite String.eqb_refl. cbv zeta. rewrite L, map_length, metas_len.
  assert (E : length vs = length (metas (s_params s))) by (symmetry; eapply F2_length; eauto).
  rewrite E, Nat.eqb_refl.
  rewrite map_update by (unfold metas in F; exact (proj1 (F2_map_l _ _ _ _) F)). cbn [bind]. rewrite Ft. cbn [bind].
  assert (D : del "params" (("params", dp) :: vmap Leaf aux) = vmap Leaf aux).
  { rewrite del_cons, String.eqb_refl. apply del_none. apply get_none. rewrite vmap_keys. exact NP. }
  rewrite D. rewrite (mapM_ok _ (fun kv => (fst kv, match snd kv with Leaf v => undump v | Node _ => ONone end))).
  2: { apply Forall_vmap. apply Forall_forall. intros [k v] _. reflexivity. }
  cbn [bind fst]. unfold vmap at 1. rewrite map_map. cbn [fst snd]. fold (vmap undump aux).
  assert (M : merge [("params", OParams t')] (vmap undump aux) = (("params", OParams t') :: vmap undump aux)).
  { unfold merge. rewrite fold_set_app; [reflexivity|]. cbn [map fst app]. rewrite vmap_keys. constructor; auto. }
  rewrite M. rewrite update_eq.
  assert (G : forall k x, k <> "params" -> pick k (("params", OParams t') :: vmap undump aux) x = pick k (vmap undump aux) x).
  { intros k x H. unfold pick. simpl get. destruct (String.eqb_spec k "params"); [congruence|reflexivity]. }
  rewrite (G "kernel"), (G "mean_function") by discriminate. unfold pick at 1. cbn [get]. rewrite String.eqb_refl. rewrite set_params_ok by apply T1. cbn [bind].
  rewrite sorted_canon by auto. reflexivity.
Qed.

(** the parameters after loading, by name *)
Definition graft (x : option param * option param) : option param :=
  match x with (Some p, Some q) => Some (Param (p_value p) (p_meta q)) | (_, q) => q end.
Lemma grafted : forall (u : tree (option param * option param)) t',
  sorted (map_tree fst u) -> sorted t' -> no_none (map_tree fst u) -> no_none (map_tree snd u) ->
  tree_def t' = tree_def (map_tree snd u) -> tree_values t' = tree_values (map_tree fst u) -> t' = map_tree graft u.
Proof.
  intros u t' Su St N1 N2 D V.
  assert (SU : forall {B} (f : _ -> B), sorted (map_tree f u)).
  { intros B f. clear - Su. revert Su. induction u as [a|l IH] using tree_ind'; intro H; [exact I|].
    rewrite map_node in H. rewrite map_node. apply sorted_node in H. rewrite vmap_keys, Forall_vmap in H. destruct H as [H1 H2]. cbn [snd] in H2.
    apply sorted_node. rewrite vmap_keys, Forall_vmap. split; auto. cbn [snd]. rewrite Forall_forall in IH, H2. apply Forall_forall. auto. }
  unfold no_none in N1, N2. apply (proj1 (every_map fst (fun o => o <> None) u)) in N1.
  apply (proj1 (every_map snd (fun o => o <> None) u)) in N2. apply every_leaves in N1. apply every_leaves in N2.
  apply ptree_eq; auto.
  - rewrite D. unfold tree_def. rewrite !sorted_canon by auto. rewrite !map_map_tree. apply map_tree_ext. apply every_leaves.
    clear - N1 N2. induction (tleaves u) as [|[a b] r IH]; [constructor|]. inversion N1; subst. inversion N2; subst. constructor; [|apply IH; auto].
    simpl in *. destruct a, b; try congruence. reflexivity.
  - rewrite V. unfold tree_values, params_of. rewrite !sorted_canon by auto. rewrite !tleaves_map.
    clear - N1 N2. induction (tleaves u) as [|[a b] r IH]; [reflexivity|]. inversion N1; subst. inversion N2; subst.
    simpl in *. destruct a, b; try congruence. unfold somes in *. simpl. f_equal. auto.
Qed.
Lemma fits_by_name : forall (u : tree (option param * option param)),
  sorted (map_tree fst u) -> sorted (map_tree snd u) -> no_none (map_tree fst u) -> no_none (map_tree snd u) ->
  (forall path p q, lookup path (map_tree fst u) = Some (Some p) -> lookup path (map_tree snd u) = Some (Some q) -> fits (p_meta q) (p_value p)) ->
  Forall2 fits (metas (map_tree snd u)) (tree_values (map_tree fst u)).
Proof.
  intros u S1 S2 N1 N2 H.
  assert (E : every (fun x => match x with (Some p, Some q) => fits (p_meta q) (p_value p) | _ => True end) u).
  { apply every_lookup.
    - apply sorted_distinct in S1. now apply kd_map in S1.
    - intros path [[p|] [q|]] L; auto. apply (H path); rewrite lookup_map, L; reflexivity. }
  unfold metas, tree_values, params_of. rewrite !sorted_canon by auto. rewrite !tleaves_map.
  unfold no_none in N1, N2. apply (proj1 (every_map fst (fun o => o <> None) u)) in N1.
  apply (proj1 (every_map snd (fun o => o <> None) u)) in N2. apply every_leaves in N1. apply every_leaves in N2. apply every_leaves in E.
  clear - N1 N2 E. induction (tleaves u) as [|[a b] r IH]; [constructor|]. inversion N1; subst. inversion N2; subst. inversion E; subst.
  simpl in *. destruct a, b; try congruence. unfold somes in *. simpl. constructor; auto.
Qed.
Lemma undump_dump : forall o, storable o -> undump (dump o) = o.
Proof.
  intros [a|z|x|b| |x|n|t|n|o] H; try (exact (match H with end)); try reflexivity.
  - simpl in H. unfold dump. simpl asarray. cbv iota. destruct a as [[|n sh] [| | | |y] d]; try reflexivity. exfalso. now apply H.
  - simpl. unfold b2num. destruct b; simpl; destruct (Req_EM_T _ _) as [E|E]; auto; exfalso; auto with real.
Qed.
Lemma storable_not_raw : forall o, storable o -> as_attr o = o.
Proof. intros o H. apply as_attr_id. destruct o; simpl in *; tauto. Qed.
Lemma get_filter : forall {A} (f : string * A -> bool) k d, NoDup (map fst d) ->
  get k (filter f d) = match get k d with Some v => if f (k, v) then Some v else None | None => None end.
Proof.
  intros A f k d. induction d as [|[k' v'] r IH]; intro N; [reflexivity|]. simpl in N. inversion N; subst. simpl.
  destruct (String.eqb_spec k k') as [->|E].
  - destruct (f (k', v')) eqn:F; simpl; [now rewrite String.eqb_refl|]. rewrite IH by auto.
    apply get_none in H1. now rewrite H1.
  - destruct (f (k', v')); simpl; [|auto]. destruct (String.eqb_spec k k'); [congruence|auto].
Qed.
Theorem save_load : forall interned s t, state_ok s -> state_ok t -> savable interned (s_params s) ->
  Forall (fun kv => is_callable (snd kv) = false -> aux_name (fst kv)) (s_register s) ->
  same_names (s_params s) (s_params t) -> no_none (s_params t) ->
  (forall path p q, lookup path (s_params s) = Some (Some p) -> lookup path (s_params t) = Some (Some q) -> fits (p_meta q) (p_value p)) ->
  exists d t', save_dict s = Ok d /\ load_dict interned t (dumped d) = Ok t' /\
    s_kernel t' = s_kernel t /\ s_mean t' = s_mean t /\ same_names (s_params t') (s_params t) /\
    (forall path p q, lookup path (s_params s) = Some (Some p) -> lookup path (s_params t) = Some (Some q) ->
       lookup path (s_params t') = Some (Some (Param (p_value p) (p_meta q)))) /\
    (forall k v, get k (s_register s) = Some v -> storable v -> get k (s_register t') = Some v) /\
    (forall k, match get k (s_register s) with Some v => is_callable v = true | None => True end ->
       get k (s_register t') = get k (s_register t)).
Proof.
  intros interned s t S T SV AN SN NT FT.
  destruct (unflatten_saved interned s S SV AN) as [l [lk [E [HK [HN [d [ES U]]]]]]].
  destruct (tree_pair _ _ SN) as [u [U1 U2]].
  assert (NS : no_none (s_params s)) by apply SV.
  assert (S1 : sorted (map_tree fst u)) by (rewrite <- U1; apply S).
  assert (S2 : sorted (map_tree snd u)) by (rewrite <- U2; apply T).
  pose proof (kept_names s AN) as KN. pose proof (kept_nodup s S) as KD.
  assert (RN : forall k, reserved k -> get k (dumped (kept s)) = None).
  { intros k Hk. apply get_none. rewrite dumped_vmap, vmap_keys. intro H. apply in_map_iff in H. destruct H as [kv [<- H]].
    rewrite Forall_forall in KN. destruct (KN _ H) as [_ [_ [_ A4]]]. auto. }
  destruct (load_ok interned t (dumped d) _ (dumped (kept s)) (tree_values (s_params s)) T U) as [t' [T1 [T2 [T3 [T4 L]]]]].
  - now rewrite dumped_vmap, vmap_keys.
  - apply get_none. apply RN. unfold reserved. auto.
  - apply (saved_leaves interned); auto.
  - rewrite U1, U2. apply fits_by_name; auto; try (now rewrite <- U1); try (now rewrite <- U2).
    rewrite <- U1, <- U2. exact FT.
  - exists d. eexists. split; [exact ES|]. split; [exact L|]. cbn [s_kernel s_mean s_params s_register].
    unfold pick. rewrite !get_vmap, !RN by (unfold reserved; auto). cbn [option_map]. split; auto. split; auto.
    assert (G : t' = map_tree graft u).
    { apply grafted; auto; try (now rewrite <- U1); try (now rewrite <- U2); congruence. }
    split; [|split].
    + unfold same_names. rewrite G, U2, !map_map_tree. reflexivity.
    + intros path p q L1 L2. rewrite G, lookup_map. rewrite U1, lookup_map in L1. rewrite U2, lookup_map in L2.
      destruct (lookup path u) as [[a b]|]; [|discriminate]. simpl in *. inversion L1; inversion L2; subst. reflexivity.
    + assert (GR : forall k, get k (norm (merge (s_register t) (rest_of (vmap undump (dumped (kept s)))))) =
        match get k (kept s) with Some v => Some (as_attr (undump (dump v))) | None => get k (s_register t) end).
      { intro k. unfold norm. rewrite get_vmap. rewrite get_merge by (apply rest_nodup; rewrite dumped_vmap; now rewrite !vmap_keys).
        rewrite get_del3. rewrite !get_vmap. rewrite dumped_vmap in *. rewrite get_vmap.
        assert (N3 : k = "kernel" \/ k = "mean_function" \/ k = "params" -> get k (kept s) = None).
        { intro Hk. specialize (RN k Hk). rewrite get_vmap in RN. destruct (get k (kept s)); [discriminate|auto]. }
        assert (RT : option_map as_attr (get k (s_register t)) = get k (s_register t)).
        { destruct (get k (s_register t)) as [v|] eqn:Ev; [|reflexivity]. simpl. f_equal. apply as_attr_id.
          destruct T as [_ [_ [_ [TF _]]]]. eapply (get_forall (fun v => obj_ok v /\ ~ is_raw v)); eauto. }
        destruct (String.eqb_spec k "kernel"); [rewrite N3 by auto; exact RT|].
        destruct (String.eqb_spec k "mean_function"); [rewrite N3 by auto; exact RT|].
        destruct (String.eqb_spec k "params"); [rewrite N3 by auto; exact RT|].
        destruct (get k (kept s)); [reflexivity|exact RT]. }
      split.
      * intros k v Gv St. rewrite GR. unfold kept. rewrite get_filter by apply S. rewrite Gv. cbn [snd].
        assert (C : is_callable v = false) by (destruct v; simpl in St; tauto). rewrite C. simpl.
        now rewrite undump_dump, storable_not_raw by auto.
      * intros k Hk. rewrite GR. unfold kept. rewrite get_filter by apply S. destruct (get k (s_register s)); [|reflexivity].
        cbn [snd]. now rewrite Hk.
Qed.
