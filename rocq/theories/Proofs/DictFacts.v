(** Facts about dictionaries, flattening and unflattening. *)
From Coq Require FinFun.
From Coq Require Import List String Ascii Bool Arith Lia.
From Verif Require Import Model.PyDict Spec.DictSpec.
Import ListNotations.
Open Scope string_scope.

(** ** trees *)
Section TreeInd.
  Variables (A : Type) (P : tree A -> Prop).
  Hypothesis HL : forall a, P (Leaf a).
  Hypothesis HN : forall l, Forall (fun kv => P (snd kv)) l -> P (Node l).
  Fixpoint tree_ind' (t : tree A) : P t :=
    match t with
    | Leaf a => HL a
    | Node l => HN l ((fix go (l : list (string * tree A)) : Forall (fun kv => P (snd kv)) l :=
        match l with [] => Forall_nil _ | kv :: r => Forall_cons kv (tree_ind' (snd kv)) (go r) end) l)
    end.
End TreeInd.

(** ** dict *)
Lemma eqb_refl' : forall s, String.eqb s s = true.
Proof. exact String.eqb_refl. Qed.
Lemma eqb_neq' : forall a b, a <> b -> String.eqb a b = false.
Proof. intros. now apply String.eqb_neq. Qed.
Lemma get_set_same : forall {A} k (v : A) d, get k (set k v d) = Some v.
Proof.
  intros A k v d. induction d as [|[k' v'] r IH]; simpl.
  - now rewrite eqb_refl'.
  - destruct (String.eqb k k') eqn:E; simpl; rewrite E; auto.
Qed.
Lemma get_set_other : forall {A} k k' (v : A) d, k <> k' -> get k (set k' v d) = get k d.
Proof.
  intros A k k' v d H. induction d as [|[k2 v2] r IH]; simpl.
  - now rewrite eqb_neq'.
  - destruct (String.eqb k' k2) eqn:E; simpl.
    + apply String.eqb_eq in E. subst. now rewrite eqb_neq'.
    + destruct (String.eqb k k2); auto.
Qed.
Lemma set_set : forall {A} k (v w : A) d, set k v (set k w d) = set k v d.
Proof.
  intros A k v w d. induction d as [|[k' v'] r IH]; simpl.
  - now rewrite eqb_refl'.
  - destruct (String.eqb k k') eqn:E; simpl; rewrite E; [reflexivity|now rewrite IH].
Qed.
Lemma set_new : forall {A} k (v : A) d, get k d = None -> set k v d = (d ++ [(k, v)])%list.
Proof.
  intros A k v d. induction d as [|[k' v'] r IH]; simpl; intro H; auto.
  destruct (String.eqb k k'); [discriminate|]. now rewrite IH.
Qed.
Lemma get_none : forall {A} k (d : dict A), get k d = None <-> ~ In k (map fst d).
Proof.
  intros A k d. induction d as [|[k' v'] r IH]; simpl; [tauto|].
  destruct (String.eqb_spec k k') as [->|N].
  - split; [discriminate|tauto].
  - rewrite IH. intuition congruence.
Qed.
Lemma get_in : forall {A} k (d : dict A) v, get k d = Some v -> In (k, v) d.
Proof.
  intros A k d v. induction d as [|[k' v'] r IH]; simpl; [discriminate|].
  destruct (String.eqb_spec k k') as [->|N]; intro H; [inversion H; auto|auto].
Qed.
Lemma in_get : forall {A} k (d : dict A) v, NoDup (map fst d) -> In (k, v) d -> get k d = Some v.
Proof.
  intros A k d v. induction d as [|[k' v'] r IH]; simpl; [tauto|].
  intros N [H|H]; inversion N; subst.
  - inversion H; subst. now rewrite eqb_refl'.
  - destruct (String.eqb_spec k k') as [->|_]; [|auto].
    exfalso. apply H2. apply (in_map fst) in H. exact H.
Qed.
Lemma get_app : forall {A} k (d e : dict A), get k (d ++ e)%list = match get k d with Some v => Some v | None => get k e end.
Proof.
  intros A k d e. induction d as [|[k' v'] r IH]; simpl; auto. destruct (String.eqb k k'); auto.
Qed.
Lemma set_keys : forall {A} k (v : A) d, In k (map fst d) -> map fst (set k v d) = map fst d.
Proof.
  intros A k v d. induction d as [|[k' v'] r IH]; simpl; [tauto|].
  destruct (String.eqb_spec k k') as [->|N]; simpl; auto.
  intros [H|H]; [congruence|]. now rewrite IH.
Qed.
Lemma set_nodup : forall {A} k (v : A) d, NoDup (map fst d) -> NoDup (map fst (set k v d)).
Proof.
  intros A k v d N. destruct (in_dec string_dec k (map fst d)) as [H|H].
  - now rewrite set_keys.
  - rewrite set_new by now apply get_none. rewrite map_app. simpl.
    apply NoDup_rev in N. rewrite <- (rev_involutive (map fst d ++ [k])).
    apply NoDup_rev. rewrite rev_app_distr. simpl. constructor; auto. now rewrite <- in_rev.
Qed.
Lemma get_del_other : forall {A} k k' (d : dict A), k <> k' -> get k (del k' d) = get k d.
Proof.
  intros A k k' d H. induction d as [|[k2 v2] r IH]; simpl; auto.
  destruct (String.eqb_spec k' k2) as [->|N]; simpl.
  - rewrite IH. now rewrite eqb_neq'.
  - destruct (String.eqb k k2); auto.
Qed.
Lemma get_del_same : forall {A} k (d : dict A), get k (del k d) = None.
Proof.
  intros A k d. induction d as [|[k2 v2] r IH]; simpl; auto.
  destruct (String.eqb_spec k k2) as [->|N]; simpl; auto. now rewrite eqb_neq'.
Qed.
Lemma del_none : forall {A} k (d : dict A), get k d = None -> del k d = d.
Proof.
  intros A k d. induction d as [|[k2 v2] r IH]; simpl; auto.
  destruct (String.eqb k k2); [discriminate|]. simpl. intro H. now rewrite IH.
Qed.
Lemma del_nodup : forall {A} k (d : dict A), NoDup (map fst d) -> NoDup (map fst (del k d)).
Proof.
  intros A k d. induction d as [|[k2 v2] r IH]; simpl; intro N; auto. inversion N; subst.
  destruct (negb (String.eqb k k2)); simpl; auto. constructor; auto.
  intro H. apply H1. apply in_map_iff in H. destruct H as [x [E H]]. unfold del in H. apply filter_In in H.
  apply in_map_iff. exists x. tauto.
Qed.
Lemma get_merge : forall {A} k (d2 d1 : dict A), NoDup (map fst d2) ->
  get k (merge d1 d2) = match get k d2 with Some v => Some v | None => get k d1 end.
Proof.
  unfold merge. intros A k d2. induction d2 as [|[k2 v2] r IH]; simpl; intros d1 N; auto.
  inversion N; subst. rewrite IH by auto.
  destruct (String.eqb_spec k k2) as [->|H].
  - destruct (get k2 r) eqn:E; [|now rewrite get_set_same].
    exfalso. apply H1. apply get_in in E. apply (in_map fst) in E. exact E.
  - destruct (get k r); auto. now apply get_set_other.
Qed.
Lemma fold_set_app : forall {A} (e d : dict A), NoDup (map fst d ++ map fst e)%list ->
  fold_left (fun d kv => set (fst kv) (snd kv) d) e d = (d ++ e)%list.
Proof.
  intros A e. induction e as [|[k v] r IH]; intros d N; simpl; [now rewrite app_nil_r|].
  rewrite set_new.
  - rewrite IH; [now rewrite <- app_assoc|]. rewrite map_app, <- app_assoc. exact N.
  - apply get_none. intro H. apply NoDup_remove_2 in N. apply N. apply in_or_app. now left.
Qed.

(** ** paths *)
Section Paths.
  Context {A V : Type} (null : V) (f : A -> V).
  Fixpoint fp (t : tree A) : list (list string * V) :=
    match t with
    | Leaf a => [([], f a)]
    | Node [] => [(["NULL"], null)]
    | Node l => flat_map (fun kv => match kv with (k, s) => map (fun pv => (k :: fst pv, snd pv)) (fp s) end) l
    end.
  Definition pre (k : string) (ps : list (list string * V)) : list (list string * V) :=
    map (fun pv => (k :: fst pv, snd pv)) ps.
  Definition fpl (l : list (string * tree A)) : list (list string * V) :=
    flat_map (fun kv => pre (fst kv) (fp (snd kv))) l.
  Lemma fp_node : forall l, l <> [] -> fp (Node l) = fpl l.
  Proof.
    intros [|kv r] H; [congruence|]. unfold fpl. simpl. destruct kv as [k s]. simpl. f_equal.
    clear. induction r as [|[k s] r IH]; simpl; auto. now rewrite IH.
  Qed.
  Lemma fp_nonempty : forall t, fp t <> [].
  Proof.
    induction t as [a|l IH] using tree_ind'; [discriminate|].
    destruct l as [|kv r]; [discriminate|]. rewrite fp_node by discriminate. unfold fpl. simpl.
    inversion IH; subst. unfold pre. destruct (fp (snd kv)); [congruence|discriminate].
  Qed.
End Paths.
Definition jn (ks : list string) : string := String.concat ":" ks.

Lemma jn_snoc : forall p k, p <> [] -> jn (p ++ [k])%list = jn p ++ ":" ++ k.
Proof.
  intros p k. induction p as [|a p IH]; intro H; [congruence|].
  destruct p as [|b p].
  - reflexivity.
  - change (jn ((a :: b :: p) ++ [k])) with (a ++ ":" ++ jn ((b :: p) ++ [k])).
    rewrite IH by discriminate. change (jn (a :: b :: p)) with (a ++ ":" ++ jn (b :: p)).
    assert (AS : forall x y z, (x ++ y) ++ z = x ++ (y ++ z)).
    { clear. induction x as [|c x IH]; intros; simpl; auto. now rewrite IH. }
    now rewrite !AS.
Qed.
Lemma app_nil_inv : forall a b, a ++ b = "" -> a = "".
Proof. intros a b. destruct a; simpl; [auto|discriminate]. Qed.
Lemma jn_nonempty : forall p, p <> [] -> Forall (fun k => k <> "") p -> jn p <> "".
Proof.
  intros [|a p] H F; [congruence|]. inversion F; subst. destruct p as [|b p]; [assumption|].
  change (jn (a :: b :: p)) with (a ++ ":" ++ jn (b :: p)). intro E. apply app_nil_inv in E. congruence.
Qed.
Lemma key_of : forall p k, Forall (fun k => k <> "") p ->
  (if String.eqb (jn p) "" then k else jn p ++ ":" ++ k) = jn (p ++ [k])%list.
Proof.
  intros p k F. destruct p as [|a p]; [reflexivity|].
  rewrite eqb_neq' by (apply jn_nonempty; [discriminate|auto]). rewrite jn_snoc by discriminate. reflexivity.
Qed.

(** ** split *)
Lemma split_nc : forall a, no_colon a -> split_colon a = [a].
Proof.
  induction a as [|c a IH]; intro H; [reflexivity|]. destruct H as [H1 H2]. simpl.
  rewrite (proj2 (Ascii.eqb_neq c ":")) by auto. now rewrite IH.
Qed.
Lemma split_app : forall a s, no_colon a -> split_colon (a ++ ":" ++ s) = a :: split_colon s.
Proof.
  induction a as [|c a IH]; intros s H; [reflexivity|]. destruct H as [H1 H2]. simpl.
  rewrite (proj2 (Ascii.eqb_neq c ":")) by auto. simpl in IH. now rewrite IH.
Qed.
Lemma split_jn : forall ks, ks <> [] -> Forall no_colon ks -> split_colon (jn ks) = ks.
Proof.
  induction ks as [|a ks IH]; intros H F; [congruence|]. inversion F; subst.
  destruct ks as [|b ks]; [now apply split_nc|].
  change (jn (a :: b :: ks)) with (a ++ ":" ++ jn (b :: ks)).
  rewrite split_app by auto. now rewrite IH by (auto; discriminate).
Qed.
Lemma jn_inj : forall p q, p <> [] -> q <> [] -> Forall no_colon p -> Forall no_colon q -> jn p = jn q -> p = q.
Proof. intros p q Hp Hq Fp Fq E. now rewrite <- (split_jn p), <- (split_jn q), E by auto. Qed.

(** ** insertion without identity clashes *)
Section Ins.
  Context {V : Type}.
  Fixpoint ins (ks : list string) (v : V) (cur : dict (tree V)) : result (dict (tree V)) :=
    match ks with
    | [] => Ok cur
    | [k] => Ok (if String.eqb k "NULL" then cur else set k (Leaf v) cur)
    | k :: rest =>
        match get k cur with
        | Some (Node d) => bind (ins rest v d) (fun d' => Ok (set k (Node d') cur))
        | Some (Leaf _) => Err TypeError
        | None => bind (ins rest v []) (fun d' => Ok (set k (Node d') cur))
        end
    end.
  Definition noclash (interned : string -> bool) (ks : list string) : Prop :=
    interned (last ks "") = true -> ~ In (last ks "") (removelast ks).
  Lemma insert_ins : forall interned ks v cur, noclash interned ks -> insert_keys interned ks v cur = ins ks v cur.
  Proof.
    intros interned ks v. induction ks as [|k rest IH]; intros cur H; [reflexivity|].
    destruct rest as [|k2 rest]; [reflexivity|].
    assert (H' : noclash interned (k2 :: rest)).
    { intros I J. apply (H I). change (last (k :: k2 :: rest) "") with (last (k2 :: rest) "").
      change (removelast (k :: k2 :: rest)) with (k :: removelast (k2 :: rest)). now right. }
    change (insert_keys interned (k :: k2 :: rest) v cur) with
      (if String.eqb k (last (k2 :: rest) "") && interned k then
        insert_keys interned (k2 :: rest) v (if String.eqb k "NULL" then cur else set k (Leaf v) cur)
      else
        match get k cur with
        | Some (Node d) => bind (insert_keys interned (k2 :: rest) v d) (fun d' => Ok (set k (Node d') cur))
        | Some (Leaf _) => Err TypeError
        | None => bind (insert_keys interned (k2 :: rest) v []) (fun d' => Ok (set k (Node d') cur))
        end).
    change (ins (k :: k2 :: rest) v cur) with
      (match get k cur with
        | Some (Node d) => bind (ins (k2 :: rest) v d) (fun d' => Ok (set k (Node d') cur))
        | Some (Leaf _) => Err TypeError
        | None => bind (ins (k2 :: rest) v []) (fun d' => Ok (set k (Node d') cur))
        end).
    destruct (String.eqb_spec k (last (k2 :: rest) "")) as [E|E].
    - destruct (interned k) eqn:I.
      + exfalso. apply H; change (last (k :: k2 :: rest) "") with (last (k2 :: rest) ""); rewrite <- E; auto.
        left. reflexivity.
      + simpl andb. cbv iota. destruct (get k cur) as [[a|d]|]; auto; now rewrite IH.
    - simpl andb. cbv iota. destruct (get k cur) as [[a|d]|]; auto; now rewrite IH.
  Qed.
  Fixpoint insL (ps : list (list string * V)) (cur : dict (tree V)) : result (dict (tree V)) :=
    match ps with
    | [] => Ok cur
    | (ks, v) :: r => bind (ins ks v cur) (insL r)
    end.
  Lemma insL_app : forall p q cur, insL (p ++ q)%list cur = bind (insL p cur) (insL q).
  Proof.
    induction p as [|[ks v] r IH]; intros q cur; [reflexivity|]. simpl.
    destruct (ins ks v cur); simpl; auto.
  Qed.
  Lemma insL_pre_node : forall ps k d cur, Forall (fun pv => fst pv <> []) ps -> get k cur = Some (Node d) ->
    insL (pre k ps) cur = bind (insL ps d) (fun d' => Ok (match ps with [] => cur | _ => set k (Node d') cur end)).
  Proof.
    induction ps as [|[ks v] r IH]; intros k d cur F G; [reflexivity|]. inversion F; subst. simpl in H1.
    simpl. destruct ks as [|k1 ks]; [congruence|]. rewrite G.
    destruct (ins (k1 :: ks) v d) as [d1|e]; simpl; auto.
    rewrite (IH k d1) by (auto; apply get_set_same).
    destruct r as [|x r]; [reflexivity|]. destruct (insL (x :: r) d1) as [d2|e]; simpl; auto. now rewrite set_set.
  Qed.
  Lemma insL_pre_new : forall ps k cur, ps <> [] -> Forall (fun pv => fst pv <> []) ps -> get k cur = None ->
    insL (pre k ps) cur = bind (insL ps []) (fun d' => Ok (cur ++ [(k, Node d')])%list).
  Proof.
    intros [|[ks v] r] k cur H F G; [congruence|]. inversion F; subst. simpl in H2.
    simpl. destruct ks as [|k1 ks]; [congruence|]. rewrite G.
    destruct (ins (k1 :: ks) v []) as [d1|e]; simpl; auto.
    rewrite (insL_pre_node r k d1) by (auto; apply get_set_same).
    destruct r as [|x r]; [simpl; now rewrite set_new|].
    destruct (insL (x :: r) d1) as [d2|e]; simpl; auto. rewrite set_set. now rewrite set_new.
  Qed.
End Ins.

(** names relevant for insertion *)
Fixpoint wnames {A : Type} (t : tree A) : Prop :=
  match t with
  | Leaf _ => True
  | Node l =>
      NoDup (map fst l) /\
      (fix all (l : list (string * tree A)) : Prop :=
         match l with
         | [] => True
         | (k, s) :: r => match s with Leaf _ => k <> "NULL" | _ => wnames s end /\ all r
         end) l
  end.
Definition kids {A} (t : tree A) : list (string * tree A) := match t with Leaf _ => [] | Node l => l end.
Section Rebuild.
  Context {A V : Type} (null : V) (f : A -> V).
  Lemma kids_fp : forall k (t : tree A), Forall (fun pv => fst pv <> []) (pre k (fp null f t)).
  Proof. intros. apply Forall_forall. intros pv H. unfold pre in H. apply in_map_iff in H. destruct H as [x [<- _]]. discriminate. Qed.
  Lemma fpl_nonnil : forall l, Forall (fun pv => fst pv <> []) (fpl null f l).
  Proof.
    induction l as [|[k s] r IH]; simpl; [constructor|]. unfold fpl in *. simpl. apply Forall_app. split; auto.
    apply kids_fp.
  Qed.
  Lemma fp_node_nonnil : forall l, Forall (fun pv => fst pv <> []) (fp null f (Node l)).
  Proof.
    intros [|kv r]; [repeat constructor; discriminate|]. rewrite fp_node by discriminate. apply fpl_nonnil.
  Qed.
  Definition mapl (l : list (string * tree A)) : list (string * tree V) := map (fun kv => (fst kv, map_tree f (snd kv))) l.
  Lemma map_tree_node : forall l, map_tree f (Node l) = Node (mapl l).
  Proof. intros. simpl. f_equal. unfold mapl. apply map_ext. now intros [k s]. Qed.
  Lemma mapl_keys : forall l, map fst (mapl l) = map fst l.
  Proof. intros. unfold mapl. rewrite map_map. reflexivity. Qed.
  Lemma insL_node : forall t, wnames t -> match t with Leaf _ => True | Node l =>
      insL (fp null f (Node l)) [] = Ok (mapl l) end.
  Proof.
    induction t as [a|l IH] using tree_ind'; [auto|]. intros [N W].
    assert (G : forall D, (forall k, In k (map fst l) -> get k D = None) ->
      insL (fpl null f l) D = Ok (D ++ mapl l)%list).
    { induction l as [|[k s] r IHr]; intros D HD; [simpl; now rewrite app_nil_r|].
      inversion IH as [|x y H1 H2]; subst. cbn [snd] in H1. simpl in N. inversion N as [|x y N1 N2]; subst. destruct W as [W1 W2].
      unfold fpl. simpl. rewrite insL_app. fold (fpl null f r).
      assert (E1 : insL (pre k (fp null f s)) D = Ok (D ++ [(k, map_tree f s)])%list).
      { destruct s as [a|ls].
        - simpl. rewrite eqb_neq' by auto. rewrite set_new by (apply HD; now left). reflexivity.
        - rewrite insL_pre_new; [|apply fp_nonempty|apply fp_node_nonnil|apply HD; now left].
          rewrite (H1 W1). simpl bind. now rewrite <- map_tree_node. }
      rewrite E1. simpl bind. rewrite IHr; auto.
      - now rewrite <- app_assoc.
      - intros k' Hk. rewrite get_app, HD by (now right). simpl. rewrite eqb_neq'; auto. intros ->. contradiction. }
    destruct l as [|kv0 r0]; [reflexivity|]. rewrite fp_node by discriminate.
    exact (G [] (fun k _ => eq_refl)).
  Qed.
End Rebuild.

(** ** flattening *)
Fixpoint all_tree {A : Type} (P : A -> Prop) (t : tree A) : Prop :=
  match t with
  | Leaf a => P a
  | Node l => (fix all (l : list (string * tree A)) : Prop :=
      match l with [] => True | (k, s) :: r => all_tree P s /\ all r end) l
  end.
Section Flat.
  Context {A V : Type} (null : V) (f : A -> V) (mv : A -> result V).
  Definition setp (path : list string) (d : dict V) (pv : list string * V) : dict V :=
    set (jn (path ++ fst pv)%list) (snd pv) d.
  (** sub-dictionary names are not empty *)
  Fixpoint dnames (t : tree A) : Prop :=
    match t with
    | Leaf _ => True
    | Node l => (fix all (l : list (string * tree A)) : Prop :=
        match l with [] => True | (k, s) :: r => k <> "" /\ dnames s /\ all r end) l
    end.
  Lemma fold_pre : forall path k ps acc,
    fold_left (setp path) (pre k ps) acc = fold_left (setp (path ++ [k])%list) ps acc.
  Proof.
    intros path k ps. induction ps as [|[p v] r IH]; intros acc; [reflexivity|]. simpl. rewrite IH. f_equal.
    unfold setp. simpl. now rewrite <- app_assoc.
  Qed.
  Lemma flatten_fp : forall t path acc, Forall (fun k => k <> "") path -> dnames t ->
    all_tree (fun a => mv a = Ok (f a)) t ->
    match t with Leaf _ => True | Node l =>
      flatten_dict null mv (Node l) acc (jn path) = Ok (fold_left (setp path) (fp null f (Node l)) acc) end.
  Proof.
    induction t as [a|l IH] using tree_ind'; [auto|]. intros path acc HP D M.
    destruct l as [|kv0 r0].
    - simpl. unfold setp. simpl. now rewrite <- key_of.
    - rewrite fp_node by discriminate.
      change (flatten_dict null mv (Node (kv0 :: r0)) acc (jn path)) with
       ((fix items (l : list (string * tree A)) (flattened : dict V) : result (dict V) :=
         match l with
         | [] => Ok flattened
         | (k, v) :: r =>
             let k := if String.eqb (jn path) "" then k else jn path ++ ":" ++ k in
             match v with
             | Node _ => bind (flatten_dict null mv v flattened k) (items r)
             | Leaf a => bind (mv a) (fun b => items r (set k b flattened))
             end
         end) (kv0 :: r0) acc).
      remember (kv0 :: r0) as l eqn:E. clear E kv0 r0. revert acc.
      induction l as [|[k s] r IHr]; intros acc; [reflexivity|].
      inversion IH as [|x y H1 H2]; subst. cbn [snd] in H1. destruct D as [D1 [D2 D3]]. destruct M as [M1 M2].
      unfold fpl. simpl flat_map. rewrite fold_left_app, fold_pre. fold (fpl null f r).
      rewrite !key_of by auto. destruct s as [a|ls].
      + simpl in M1. rewrite M1. simpl bind. rewrite IHr by auto. simpl fp. simpl fold_left.
        do 2 f_equal. unfold setp. cbn [fst snd]. now rewrite app_nil_r.
      + rewrite (H1 (path ++ [k])%list acc) by (auto; apply Forall_app; auto). simpl bind. now rewrite IHr by auto.
  Qed.
End Flat.

(** ** paths of dictionaries with good names *)
Section Good.
  Context {A V : Type} (null : V) (f : A -> V) (interned : string -> bool).
  Lemma ok_w : forall (t : tree A) path, names_ok interned path t -> wnames t /\ dnames t.
  Proof using A interned. clear f null.
    induction t as [a|l IH] using tree_ind'; intros path H; [simpl; auto|].
    destruct H as [N H]. simpl. split.
    - split; auto. clear N. induction l as [|[k s] r IHr]; auto. inversion IH as [|x y J1 J2]; subst. cbn [snd] in *.
      destruct H as [[H1 [H2 H4]] H5]. split; [|exact (IHr J2 H5)]. destruct s as [a|ls]; [tauto|].
      destruct ls as [|kv ls]; [simpl; repeat constructor|]. now apply J1 in H4.
    - clear N. induction l as [|[k s] r IHr]; auto. inversion IH as [|x y J1 J2]; subst. cbn [snd] in *.
      destruct H as [[H1 [H2 H4]] H5]. split; auto. split; [|exact (IHr J2 H5)]. destruct s as [a|ls]; [exact I|].
      destruct ls as [|kv ls]; [simpl; auto|]. now apply J1 in H4.
  Qed.
  Definition goodp (path p : list string) : Prop := p <> [] /\ Forall no_colon p /\ noclash interned (path ++ p)%list.
  Lemma removelast_snoc : forall (p : list string) k, removelast (p ++ [k])%list = p.
  Proof. intros. rewrite removelast_app by discriminate. simpl. apply app_nil_r. Qed.
  Lemma last_snoc : forall (p : list string) k, last (p ++ [k])%list "" = k.
  Proof. intros. apply last_last. Qed.
  Lemma ok_paths : forall (t : tree A) path, names_ok interned path t ->
    match t with
    | Leaf _ => True
    | Node [] => (interned "NULL" = true -> ~ In "NULL" path) -> Forall (fun pv => goodp path (fst pv)) (fp null f t)
    | Node l => Forall (fun pv => goodp path (fst pv)) (fp null f t)
    end.
  Proof.
    induction t as [a|l IH] using tree_ind'; intros path H; [auto|].
    destruct l as [|kv0 r0].
    - intro K. simpl. repeat constructor; simpl; try discriminate.
      unfold noclash. rewrite last_snoc, removelast_snoc. exact K.
    - rewrite fp_node by discriminate. remember (kv0 :: r0) as l eqn:E. clear E kv0 r0.
      destruct H as [_ H]. induction l as [|[k s] r IHr]; [constructor|].
      inversion IH as [|x y H1 H2]; subst. cbn [snd] in H1. destruct H as [[K1 [K2 K3]] K4].
      unfold fpl. simpl. apply Forall_app. split; [|apply IHr; auto].
      assert (Q : Forall (fun pv => noclash interned ((path ++ [k]) ++ fst pv)%list /\ Forall no_colon (fst pv)) (fp null f s)).
      { destruct s as [a|ls].
        - simpl. repeat constructor. simpl. rewrite app_nil_r. unfold noclash. rewrite last_snoc, removelast_snoc. tauto.
        - destruct ls as [|kv ls].
          + simpl. repeat constructor; simpl; try discriminate. unfold noclash. now rewrite last_snoc, removelast_snoc.
          + specialize (H1 _ K3). eapply Forall_impl; [|exact H1]. intros pv [G1 [G2 G3]]. split; auto. }
      unfold pre. apply Forall_map. eapply Forall_impl; [|exact Q]. intros pv [G1 G2]. cbn [fst].
      split; [discriminate|]. split; [constructor; auto|]. rewrite <- app_assoc in G1. exact G1.
  Qed.
  Lemma fpl_head : forall l p, In p (map fst (fpl null f l)) -> exists k q, p = k :: q /\ In k (map fst l).
  Proof.
    induction l as [|[k s] r IH]; intros p H; [destruct H|]. unfold fpl in H. simpl in H. rewrite map_app in H.
    apply in_app_or in H. destruct H as [H|H].
    - unfold pre in H. rewrite map_map in H. apply in_map_iff in H. destruct H as [x [<- _]].
      exists k, (fst x). simpl. auto.
    - destruct (IH p H) as [k' [q [E J]]]. exists k', q. simpl. auto.
  Qed.
  Lemma wnames_paths : forall t : tree A, wnames t -> NoDup (map fst (fp null f t)).
  Proof.
    induction t as [a|l IH] using tree_ind'; intro W; [repeat constructor; auto|].
    destruct l as [|kv0 r0]; [repeat constructor; auto|].
    rewrite fp_node by discriminate. remember (kv0 :: r0) as l eqn:E. clear E kv0 r0.
    destruct W as [N W]. induction l as [|[k s] r IHr]; [constructor|].
    inversion IH as [|x y H1 H2]; subst. cbn [snd] in H1. destruct W as [W1 W2]. inversion N as [|x y N1 N2]; subst.
    unfold fpl. simpl. rewrite map_app. fold (fpl null f r).
    assert (P1 : NoDup (map fst (pre k (fp null f s)))).
    { unfold pre. rewrite map_map. cbn [fst]. rewrite <- (map_map fst (fun p => k :: p)).
      apply FinFun.Injective_map_NoDup; [intros a b E; now inversion E|]. destruct s; [repeat constructor; auto|auto]. }
    assert (P2 : NoDup (map fst (fpl null f r))) by (apply IHr; auto).
    assert (P3 : forall p, In p (map fst (pre k (fp null f s))) -> ~ In p (map fst (fpl null f r))).
    { intros p Hp Hq. destruct (fpl_head _ _ Hq) as [k' [q [-> J]]].
      unfold pre in Hp. rewrite map_map in Hp. apply in_map_iff in Hp. destruct Hp as [x [E _]]. inversion E. subst. contradiction. }
    revert P1 P3. generalize (map fst (pre k (fp null f s))). intro L. induction L as [|a L IHL]; intros P1 P3; simpl; auto.
    inversion P1; subst. constructor.
    - intro J. apply in_app_or in J. destruct J as [J|J]; [contradiction|]. apply (P3 a); simpl; auto.
    - apply IHL; auto. intros p Hp. apply P3. now right.
  Qed.
End Good.

(** setting fresh keys appends; the entries of a flattened dictionary *)
Definition keyed {V : Type} (path : list string) (ps : list (list string * V)) : dict V :=
  map (fun pv => (jn (path ++ fst pv)%list, snd pv)) ps.
Lemma fold_setp : forall {V} path (ps : list (list string * V)) acc,
  fold_left (setp path) ps acc = fold_left (fun d kv => set (fst kv) (snd kv) d) (keyed path ps) acc.
Proof. intros V path ps. induction ps as [|[p v] r IH]; intros acc; [reflexivity|]. simpl. now rewrite IH. Qed.
Lemma keyed_nodup : forall {V} path (ps : list (list string * V)),
  Forall no_colon path -> Forall (fun pv => fst pv <> [] /\ Forall no_colon (fst pv)) ps ->
  NoDup (map fst ps) -> NoDup (map fst (keyed path ps)).
Proof.
  intros V path ps HP. induction ps as [|[p v] r IH]; intros F N; [constructor|].
  inversion F; subst. simpl in *. inversion N; subst. constructor; [|auto].
  intro J. apply H3. unfold keyed in J. rewrite map_map in J. apply in_map_iff in J. destruct J as [[q w] [E Hq]]. cbn [fst] in E.
  rewrite Forall_forall in H2. destruct (H2 _ Hq) as [Q1 Q2]. cbn [fst] in *. destruct H1 as [H1a H1b].
  apply jn_inj in E.
  - apply app_inv_head in E. subst. apply (in_map fst) in Hq. exact Hq.
  - intro Z. apply app_eq_nil in Z. tauto.
  - intro Z. apply app_eq_nil in Z. tauto.
  - apply Forall_app; auto.
  - apply Forall_app; auto.
Qed.
Lemma unflatten_keyed : forall {V} interned path (ps : list (list string * V)) acc,
  Forall no_colon path -> Forall (fun pv => goodp interned path (fst pv)) ps ->
  unflatten_from interned (keyed path ps) acc = insL (map (fun pv => (path ++ fst pv, snd pv)%list) ps) acc.
Proof.
  intros V interned path ps. induction ps as [|[p v] r IH]; intros acc HP F; [reflexivity|].
  inversion F; subst. destruct H1 as [G1 [G2 G3]]. cbn [fst] in *.
  change (bind (insert_keys interned (split_colon (jn (path ++ p)%list)) v acc) (unflatten_from interned (keyed path r))
    = bind (ins (path ++ p)%list v acc) (insL (map (fun pv => (path ++ fst pv, snd pv)%list) r))).
  rewrite split_jn; [|intro Z; apply app_eq_nil in Z; tauto|apply Forall_app; auto].
  rewrite insert_ins by auto. destruct (ins (path ++ p)%list v acc); simpl; auto.
Qed.
Lemma unflatten_app : forall {V} interned (d e : dict V) acc,
  unflatten_from interned (d ++ e)%list acc = bind (unflatten_from interned d acc) (unflatten_from interned e).
Proof.
  intros V interned d. induction d as [|[k v] r IH]; intros e acc; [reflexivity|]. simpl.
  destruct (insert_keys interned (split_colon k) v acc); simpl; auto.
Qed.

(** ** round trip *)
Theorem flatten_unflatten : forall {A V : Type} (interned : string -> bool) (null : V) (f : A -> V) l,
  names_ok interned [] (Node l) ->
  exists d, flatten_dict null (fun a => Ok (f a)) (Node l) [] "" = Ok d /\
    unflatten_dict interned d = Ok (map (fun kv => (fst kv, map_tree f (snd kv))) l).
Proof.
  intros A V interned null f l H. destruct (ok_w interned _ _ H) as [W D].
  pose proof (flatten_fp null f (fun a => Ok (f a)) (Node l) [] [] (Forall_nil _) D) as F. cbv beta iota in F.
  assert (M : all_tree (fun a => (Ok (f a) : result V) = Ok (f a)) (Node l)).
  { clear. generalize (Node l). induction t as [a|l' IH] using tree_ind'; [reflexivity|]. simpl.
    induction l' as [|[k s] r IHr]; [exact I|]. inversion IH as [|x y J1 J2]; subst. split; [exact J1|exact (IHr J2)]. }
  specialize (F M). change (jn []) with "" in F. rewrite F. eexists. split; [reflexivity|].
  assert (P : Forall (fun pv => goodp interned [] (fst pv)) (fp null f (Node l))).
  { pose proof (ok_paths null f interned (Node l) [] H) as Q. destruct l; auto. }
  rewrite fold_setp, fold_set_app.
  - simpl app. unfold unflatten_dict. rewrite unflatten_keyed by auto. simpl.
    rewrite (map_ext _ (fun x => x)) by (now intros []). rewrite map_id.
    exact (insL_node null f (Node l) W).
  - cbn [map app]. apply keyed_nodup; auto.
    + eapply Forall_impl; [|exact P]. intros pv [G1 [G2 _]]. auto.
    + now apply wnames_paths.
Qed.
