(** Sorting of keys, canonical trees, filling of tree definitions. *)
From Coq Require Import String List Bool Arith Ascii Permutation Sorting.Sorted Lia NArith.
From Verif Require Import Model.PyDict Model.Params Model.State Spec.StateSpec Proofs.DictFacts.
Import ListNotations.
Open Scope string_scope.

(** ** order on strings *)
Lemma ascii_cmp : forall a b, Ascii.compare a b = N.compare (N_of_ascii a) (N_of_ascii b).
Proof. reflexivity. Qed.
Lemma slt_cons : forall a b s t, slt (String a s) (String b t) <->
  (N_of_ascii a < N_of_ascii b)%N \/ (a = b /\ slt s t).
Proof.
  intros a b s t. unfold slt. simpl. rewrite ascii_cmp.
  destruct (N.compare_spec (N_of_ascii a) (N_of_ascii b)) as [E|E|E]; split; intro H.
  - right. split; auto. rewrite <- (ascii_N_embedding a), <- (ascii_N_embedding b). now rewrite E.
  - destruct H as [H|[_ H]]; [lia|auto].
  - auto.
  - auto.
  - discriminate.
  - destruct H as [H|[H _]]; [lia|]. subst. lia.
Qed.
Lemma slt_trans : forall a b c, slt a b -> slt b c -> slt a c.
Proof.
  induction a as [|x a IH]; intros [|y b] [|z c] H1 H2; try discriminate; try reflexivity.
  apply slt_cons in H1. apply slt_cons in H2. apply slt_cons.
  destruct H1 as [H1|[-> H1]], H2 as [H2|[-> H2]].
  - left. lia.
  - now left.
  - now left.
  - right. split; eauto.
Qed.
Lemma slt_irrefl : forall a, ~ slt a a.
Proof. induction a as [|x a IH]; intro H; [discriminate|]. apply slt_cons in H. destruct H as [H|[_ H]]; [lia|auto]. Qed.
Lemma slt_asym : forall a b, slt a b -> ~ slt b a.
Proof. intros a b H H'. exact (slt_irrefl a (slt_trans _ _ _ H H')). Qed.
Lemma leb_slt : forall a b, String.leb a b = true -> a <> b -> slt a b.
Proof.
  intros a b H N. unfold String.leb in H. unfold slt. destruct (String.compare a b) eqn:E; auto; [|discriminate].
  now apply String.compare_eq_iff in E.
Qed.
Lemma leb_false : forall a b, String.leb a b = false -> slt b a.
Proof.
  intros a b H. unfold String.leb in H. unfold slt. rewrite String.compare_antisym.
  destruct (String.compare a b); try discriminate. reflexivity.
Qed.
Lemma slt_leb : forall a b, slt a b -> String.leb a b = true.
Proof. intros a b H. unfold String.leb. now rewrite H. Qed.

(** ** sorting *)
Notation ssorted := (Sorted.StronglySorted slt).
Section Sort.
  Context {A : Type}.
  Implicit Type l : list (string * A).
  Lemma sinsert_keys : forall k v l x, In x (map fst (sinsert k v l)) <-> x = k \/ In x (map fst l).
  Proof.
    intros k v l x. induction l as [|[k' v'] r IH]; simpl; [intuition|].
    destruct (String.leb k k'); simpl; [intuition|]. rewrite IH. intuition.
  Qed.
  Lemma sinsert_perm : forall k v l, Permutation (sinsert k v l) ((k, v) :: l).
  Proof.
    intros k v l. induction l as [|[k' v'] r IH]; simpl; auto.
    destruct (String.leb k k'); auto. rewrite IH. apply perm_swap.
  Qed.
  Lemma sort_perm : forall l, Permutation (sort l) l.
  Proof. induction l as [|[k v] r IH]; simpl; auto. rewrite sinsert_perm. auto. Qed.
  Lemma sinsert_sorted : forall k v l, ~ In k (map fst l) -> ssorted (map fst l) -> ssorted (map fst (sinsert k v l)).
  Proof.
    intros k v l. induction l as [|[k' v'] r IH]; intros N S; simpl; [repeat constructor|].
    simpl in N, S. inversion S as [|x y S1 S2]; subst. destruct (String.leb k k') eqn:E.
    - apply leb_slt in E; [|intro; subst; apply N; now left]. simpl. constructor; auto. constructor; auto.
      eapply Forall_impl; [|exact S2]. intros z Hz. eapply slt_trans; eauto.
    - apply leb_false in E. simpl. constructor; [apply IH; auto|]. apply Forall_forall. intros x Hx.
      apply sinsert_keys in Hx. destruct Hx as [->|Hx]; auto. rewrite Forall_forall in S2. auto.
  Qed.
  Lemma sort_keys_perm : forall l, Permutation (map fst (sort l)) (map fst l).
  Proof. intro l. apply Permutation_map, sort_perm. Qed.
  Lemma sort_sorted : forall l, NoDup (map fst l) -> ssorted (map fst (sort l)).
  Proof.
    induction l as [|[k v] r IH]; intro N; simpl; [constructor|]. simpl in N. inversion N; subst.
    apply sinsert_sorted; auto. intro H. apply H1. eapply Permutation_in; [apply sort_keys_perm|exact H].
  Qed.
  Lemma sort_id : forall l, ssorted (map fst l) -> sort l = l.
  Proof.
    induction l as [|[k v] r IH]; intro S; [reflexivity|]. simpl in *. inversion S as [|x y S1 S2]; subst.
    rewrite IH by auto. destruct r as [|[k' v'] r']; [reflexivity|]. simpl.
    inversion S2; subst. simpl in *. now rewrite (slt_leb _ _ H1).
  Qed.
  Lemma ssorted_nodup : forall ks, ssorted ks -> NoDup ks.
  Proof.
    induction ks as [|k r IH]; intro S; [constructor|]. inversion S; subst. constructor; auto.
    intro H. rewrite Forall_forall in H2. exact (slt_irrefl k (H2 k H)).
  Qed.
  Lemma sort_unique : forall l l', Permutation l l' -> ssorted (map fst l) -> ssorted (map fst l') -> l = l'.
  Proof.
    induction l as [|[k v] r IH]; intros l' P S S'.
    - apply Permutation_nil in P. now subst.
    - destruct l' as [|[k' v'] r']; [apply Permutation_sym, Permutation_nil in P; discriminate|].
      simpl in S, S'. inversion S as [|a b S1 S2]; subst. inversion S' as [|a b S1' S2']; subst.
      assert (E : (k, v) = (k', v')).
      { assert (H : In (k, v) ((k', v') :: r')) by (eapply Permutation_in; [exact P|now left]).
        destruct H as [H|H]; [auto|].
        assert (H' : In (k', v') ((k, v) :: r)) by (eapply Permutation_in; [apply Permutation_sym; exact P|now left]).
        destruct H' as [H'|H']; [auto|]. exfalso.
        apply (in_map fst) in H. apply (in_map fst) in H'. rewrite Forall_forall in S2, S2'.
        exact (slt_asym _ _ (S2 _ H') (S2' _ H)). }
      inversion E; subst. f_equal. apply IH; auto. eapply Permutation_cons_inv. exact P.
  Qed.
  Lemma sort_perm_eq : forall l l', Permutation l l' -> NoDup (map fst l) -> sort l = sort l'.
  Proof.
    intros l l' P N. apply sort_unique.
    - rewrite sort_perm, P. symmetry. apply sort_perm.
    - now apply sort_sorted.
    - apply sort_sorted. eapply Permutation_NoDup; [apply Permutation_map; exact P|auto].
  Qed.
End Sort.
Lemma sort_map : forall {A B} (f : A -> B) l,
  sort (map (fun kv => (fst kv, f (snd kv))) l) = map (fun kv => (fst kv, f (snd kv))) (sort l).
Proof.
  intros A B f. assert (I : forall k v l, sinsert k (f v) (map (fun kv => (fst kv, f (snd kv))) l)
    = map (fun kv => (fst kv, f (snd kv))) (sinsert k v l)).
  { intros k v l. induction l as [|[k' v'] r IH]; [reflexivity|]. simpl. destruct (String.leb k k'); simpl; auto. now rewrite IH. }
  induction l as [|[k v] r IH]; [reflexivity|]. simpl. now rewrite IH, I.
Qed.

(** ** trees as maps over their lists *)
Definition vmap {A B} (f : A -> B) (l : list (string * A)) : list (string * B) := map (fun kv => (fst kv, f (snd kv))) l.
Lemma vmap_keys : forall {A B} (f : A -> B) l, map fst (vmap f l) = map fst l.
Proof. intros. unfold vmap. rewrite map_map. reflexivity. Qed.
Lemma vmap_vmap : forall {A B C} (f : A -> B) (g : B -> C) l, vmap g (vmap f l) = vmap (fun x => g (f x)) l.
Proof. intros. unfold vmap. now rewrite map_map. Qed.
Lemma vmap_ext : forall {A B} (f g : A -> B) l, Forall (fun kv => f (snd kv) = g (snd kv)) l -> vmap f l = vmap g l.
Proof. intros A B f g l H. unfold vmap. apply map_ext_Forall. eapply Forall_impl; [|exact H]. intros [k v] E. simpl in *. now rewrite E. Qed.
Lemma vmap_id : forall {A} (l : list (string * A)), vmap (fun x => x) l = l.
Proof. intros. unfold vmap. rewrite <- (map_id l) at 2. apply map_ext. now intros []. Qed.
Lemma map_node : forall {A B} (f : A -> B) l, map_tree f (Node l) = Node (vmap (map_tree f) l).
Proof. intros. simpl. unfold vmap. f_equal. apply map_ext. now intros []. Qed.
Lemma canon_node : forall {A} (l : list (string * tree A)), canon (Node l) = Node (sort (vmap canon l)).
Proof. intros. simpl. unfold vmap. do 2 f_equal. apply map_ext. now intros []. Qed.
Lemma tleaves_node : forall {A} (l : list (string * tree A)), tleaves (Node l) = flat_map (fun kv => tleaves (snd kv)) l.
Proof. intros. simpl. apply flat_map_ext. now intros []. Qed.
Lemma every_node : forall {A} (P : A -> Prop) l, every P (Node l) <-> Forall (fun kv => every P (snd kv)) l.
Proof.
  intros A P l. simpl. induction l as [|[k s] r IH]; [split; auto; constructor|].
  split; intro H.
  - destruct H. constructor; [auto|]. now apply IH.
  - inversion H; subst. split; [auto|]. now apply IH.
Qed.
Lemma kd_node : forall {A} (l : list (string * tree A)),
  keys_distinct (Node l) <-> NoDup (map fst l) /\ Forall (fun kv => keys_distinct (snd kv)) l.
Proof.
  intros A l. simpl. assert (E : (fix all (l : list (string * tree A)) : Prop :=
         match l with [] => True | (k, s) :: r => keys_distinct s /\ all r end) l <-> Forall (fun kv => keys_distinct (snd kv)) l).
  { induction l as [|[k s] r IH]; [split; auto; constructor|]. split; intro H.
    - destruct H. constructor; [auto|]. now apply IH.
    - inversion H; subst. split; [auto|]. now apply IH. }
  now rewrite E.
Qed.
Lemma sorted_node : forall {A} (l : list (string * tree A)),
  sorted (Node l) <-> ssorted (map fst l) /\ Forall (fun kv => sorted (snd kv)) l.
Proof.
  intros A l. simpl. assert (E : (fix all (l : list (string * tree A)) : Prop :=
         match l with [] => True | (k, s) :: r => sorted s /\ all r end) l <-> Forall (fun kv => sorted (snd kv)) l).
  { induction l as [|[k s] r IH]; [split; auto; constructor|]. split; intro H.
    - destruct H. constructor; [auto|]. now apply IH.
    - inversion H; subst. split; [auto|]. now apply IH. }
  now rewrite E.
Qed.
Lemma Forall_vmap : forall {A B} (f : A -> B) (P : string * B -> Prop) l,
  Forall P (vmap f l) <-> Forall (fun kv => P (fst kv, f (snd kv))) l.
Proof. intros. unfold vmap. apply Forall_map. Qed.
Lemma Forall_perm : forall {A} (P : A -> Prop) l l', Permutation l l' -> Forall P l -> Forall P l'.
Proof. intros A P l l' H F. rewrite Forall_forall in *. intros x Hx. apply F. eapply Permutation_in; [apply Permutation_sym; exact H|auto]. Qed.

(** ** canonical trees *)
Section Canonical.
  Context {A : Type}.
  Implicit Type t : tree A.
  Lemma canon_sorted : forall t, keys_distinct t -> sorted (canon t).
  Proof.
    induction t as [a|l IH] using tree_ind'; intro K; [exact I|]. rewrite canon_node. apply kd_node in K. destruct K as [N K].
    apply sorted_node. split.
    - apply sort_sorted. now rewrite vmap_keys.
    - eapply Forall_perm; [apply Permutation_sym, sort_perm|]. apply Forall_vmap. rewrite Forall_forall in *.
      intros kv Hkv. cbn [snd]. auto.
  Qed.
  Lemma sorted_canon : forall t, sorted t -> canon t = t.
  Proof.
    induction t as [a|l IH] using tree_ind'; intro S; [reflexivity|]. rewrite canon_node. apply sorted_node in S. destruct S as [S F].
    assert (E : vmap canon l = l).
    { rewrite <- (vmap_id l) at 2. apply vmap_ext. rewrite Forall_forall in *. auto. }
    now rewrite E, sort_id.
  Qed.
  Lemma canon_canon : forall t, keys_distinct t -> canon (canon t) = canon t.
  Proof. intros t K. apply sorted_canon. now apply canon_sorted. Qed.
  Lemma sorted_distinct : forall t, sorted t -> keys_distinct t.
  Proof.
    induction t as [a|l IH] using tree_ind'; intro S; [exact I|]. apply sorted_node in S. destruct S as [S F]. apply kd_node.
    split; [now apply ssorted_nodup|]. rewrite Forall_forall in *. auto.
  Qed.
  Lemma every_canon : forall (P : A -> Prop) t, every P t <-> every P (canon t).
  Proof.
    intros P t. induction t as [a|l IH] using tree_ind'; [reflexivity|]. rewrite canon_node, !every_node.
    assert (E : Forall (fun kv => every P (snd kv)) (vmap canon l) <-> Forall (fun kv => every P (snd kv)) l).
    { rewrite Forall_vmap. cbn [snd]. rewrite !Forall_forall in *. split; intros H kv Hkv; apply IH; auto. }
    rewrite <- E. split; apply Forall_perm; [apply Permutation_sym|]; apply sort_perm.
  Qed.
  Lemma every_leaves : forall (P : A -> Prop) t, every P t <-> Forall P (tleaves t).
  Proof.
    intros P t. induction t as [a|l IH] using tree_ind'.
    - simpl. split; [auto|]. intro H. now inversion H.
    - rewrite every_node, tleaves_node. induction l as [|[k s] r IHr]; [simpl; split; constructor|].
      inversion IH; subst. cbn [snd] in *. simpl. rewrite Forall_app. split; intro H.
      + inversion H; subst. cbn [snd] in *. split; [now apply H1|now apply IHr].
      + destruct H as [Ha Hb]. constructor; [now apply H1|now apply IHr].
  Qed.
End Canonical.
Lemma canon_map : forall {A B} (f : A -> B) t, canon (map_tree f t) = map_tree f (canon t).
Proof.
  intros A B f t. induction t as [a|l IH] using tree_ind'; [reflexivity|].
  rewrite map_node, !canon_node, map_node. f_equal. rewrite vmap_vmap.
  rewrite (vmap_ext _ (fun s => map_tree f (canon s))) by exact IH.
  rewrite <- vmap_vmap. unfold vmap at 1. rewrite sort_map. reflexivity.
Qed.
Lemma tleaves_map : forall {A B} (f : A -> B) t, tleaves (map_tree f t) = map f (tleaves t).
Proof.
  intros A B f t. induction t as [a|l IH] using tree_ind'; [reflexivity|].
  rewrite map_node, !tleaves_node. unfold vmap. induction l as [|[k s] r IHr]; [reflexivity|].
  inversion IH; subst. simpl. rewrite map_app, IHr by auto. cbn [snd] in *. now rewrite H1.
Qed.
Lemma map_map_tree : forall {A B C} (f : A -> B) (g : B -> C) t, map_tree g (map_tree f t) = map_tree (fun x => g (f x)) t.
Proof.
  intros A B C f g t. induction t as [a|l IH] using tree_ind'; [reflexivity|].
  rewrite !map_node, vmap_vmap. f_equal. apply vmap_ext. exact IH.
Qed.
Lemma map_tree_ext : forall {A B} (f g : A -> B) t, every (fun a => f a = g a) t -> map_tree f t = map_tree g t.
Proof.
  intros A B f g t. induction t as [a|l IH] using tree_ind'; intro H; [simpl in *; now rewrite H|].
  apply every_node in H. rewrite !map_node. f_equal. apply vmap_ext. rewrite Forall_forall in *. auto.
Qed.
Lemma every_all : forall {A} (P : A -> Prop) t, (forall a, P a) -> every P t.
Proof. intros A P t H. apply every_leaves. apply Forall_forall. auto. Qed.
Lemma map_tree_id : forall {A} (t : tree A), map_tree (fun x => x) t = t.
Proof.
  intros A t. induction t as [a|l IH] using tree_ind'; [reflexivity|].
  rewrite map_node. f_equal. rewrite <- (vmap_id l) at 2. now apply vmap_ext.
Qed.
Lemma sorted_map : forall {A B} (f : A -> B) t, sorted t -> sorted (map_tree f t).
Proof.
  intros A B f t. induction t as [a|l IH] using tree_ind'; intro S; [exact I|].
  rewrite map_node. apply sorted_node in S. destruct S as [S F]. apply sorted_node. rewrite vmap_keys. split; auto.
  apply Forall_vmap. cbn [snd]. rewrite Forall_forall in *. auto.
Qed.
Lemma every_map : forall {A B} (f : A -> B) (P : B -> Prop) t, every P (map_tree f t) <-> every (fun a => P (f a)) t.
Proof. intros. rewrite !every_leaves, tleaves_map. apply Forall_map. Qed.
Lemma kd_map : forall {A B} (f : A -> B) t, keys_distinct (map_tree f t) <-> keys_distinct t.
Proof.
  intros A B f t. induction t as [a|l IH] using tree_ind'; [reflexivity|].
  rewrite map_node, !kd_node, vmap_keys, Forall_vmap. cbn [snd].
  assert (E : Forall (fun kv : string * tree A => keys_distinct (map_tree f (snd kv))) l <-> Forall (fun kv => keys_distinct (snd kv)) l).
  { rewrite !Forall_forall in *. split; intros H kv Hkv; apply IH; auto. }
  now rewrite E.
Qed.
Lemma somes_map : forall {A B} (f : A -> B) l, somes (map (option_map f) l) = map f (somes l).
Proof. intros A B f l. induction l as [|[a|] r IH]; simpl; auto. unfold somes in *. simpl. now rewrite IH. Qed.
Lemma somes_app : forall {A} (l m : list (option A)), somes (l ++ m) = (somes l ++ somes m)%list.
Proof. intros. unfold somes. apply flat_map_app. Qed.

(** ** fill *)
Section Fill.
  Context {A B C : Type} (mk : A -> B -> result C).
  Lemma fill_node : forall l vs, fill mk (Node l) vs =
    bind ((fix go (l : list (string * tree (option A))) (vs : list B) :=
         match l with
         | [] => Ok ([], vs)
         | (k, s) :: r =>
             bind (fill mk s vs) (fun q =>
             bind (go r (snd q)) (fun q' => Ok ((k, fst q) :: fst q', snd q')))
         end) l vs) (fun q => Ok (Node (fst q), snd q)).
  Proof. reflexivity. Qed.
  (** filling a tree of triples with its own second components *)
  Lemma fill_triples : forall (t : tree (option (A * B * C))) rest,
    every (fun o => match o with Some (a, b, c) => mk a b = Ok c | None => True end) t ->
    fill mk (map_tree (option_map (fun x => fst (fst x))) t) (map (fun x => snd (fst x)) (somes (tleaves t)) ++ rest)%list
      = Ok (map_tree (option_map snd) t, rest).
  Proof.
    induction t as [[[[a b] c]|]|l IH] using tree_ind'; intros rest H.
    - simpl in *. now rewrite H.
    - reflexivity.
    - rewrite !map_node, fill_node, tleaves_node. apply every_node in H.
      assert (G : forall rest, (fix go (l : list (string * tree (option A))) (vs : list B) :=
         match l with
         | [] => Ok ([], vs)
         | (k, s) :: r =>
             bind (fill mk s vs) (fun q =>
             bind (go r (snd q)) (fun q' => Ok ((k, fst q) :: fst q', snd q')))
         end) (vmap (map_tree (option_map (fun x => fst (fst x)))) l)
           (map (fun x => snd (fst x)) (somes (flat_map (fun kv => tleaves (snd kv)) l)) ++ rest)%list
         = Ok (vmap (map_tree (option_map snd)) l, rest)).
      { clear rest. induction l as [|[k s] r IHr]; intro rest; [reflexivity|].
        inversion IH as [|x y J1 J2]; subst. inversion H as [|x y K1 K2]; subst. cbn [snd] in *.
        simpl. rewrite somes_app, map_app, <- app_assoc, J1 by auto. simpl. rewrite IHr by auto. reflexivity. }
      rewrite G. reflexivity.
  Qed.
  Lemma fill_inv : forall (d : tree (option A)) vs t rest, fill mk d vs = Ok (t, rest) ->
    exists u : tree (option (A * B * C)),
      d = map_tree (option_map (fun x => fst (fst x))) u /\ t = map_tree (option_map snd) u /\
      vs = (map (fun x => snd (fst x)) (somes (tleaves u)) ++ rest)%list /\
      every (fun o => match o with Some (a, b, c) => mk a b = Ok c | None => True end) u.
  Proof.
    induction d as [[a|]|l IH] using tree_ind'; intros vs t rest H.
    - simpl in H. destruct vs as [|v r]; [discriminate|]. destruct (mk a v) as [c|e] eqn:E; [|discriminate].
      simpl in H. inversion H; subst. exists (Leaf (Some (a, v, c))). simpl. auto.
    - simpl in H. inversion H; subst. exists (Leaf None). simpl. auto.
    - rewrite fill_node in H.
      set (go := (fix go (l : list (string * tree (option A))) (vs : list B) :=
         match l with
         | [] => Ok ([], vs)
         | (k, s) :: r =>
             bind (fill mk s vs) (fun q =>
             bind (go r (snd q)) (fun q' => Ok ((k, fst q) :: fst q', snd q')))
         end)) in H.
      assert (G : forall vs ts rest, go l vs = Ok (ts, rest) -> exists u : list (string * tree (option (A * B * C))),
        l = vmap (map_tree (option_map (fun x => fst (fst x)))) u /\ ts = vmap (map_tree (option_map snd)) u /\
        vs = (map (fun x => snd (fst x)) (somes (flat_map (fun kv => tleaves (snd kv)) u)) ++ rest)%list /\
        Forall (fun kv => every (fun o => match o with Some (a, b, c) => mk a b = Ok c | None => True end) (snd kv)) u).
      { clear H vs t rest. induction l as [|[k s] r IHr]; intros vs ts rest H.
        - inversion H; subst. exists []. simpl. auto.
        - inversion IH as [|x y J1 J2]; subst. cbn [snd] in J1. simpl in H.
          destruct (fill mk s vs) as [[t1 r1]|e] eqn:E1; [|discriminate]. simpl in H.
          destruct (go r r1) as [[t2 r2]|e] eqn:E2; [|discriminate]. simpl in H. inversion H; subst.
          destruct (J1 _ _ _ E1) as [u1 [U1 [U2 [U3 U4]]]]. destruct (IHr J2 _ _ _ E2) as [u2 [W1 [W2 [W3 W4]]]].
          exists ((k, u1) :: u2). simpl. rewrite <- U1, <- U2, <- W1, <- W2. repeat split; auto.
          rewrite somes_app, map_app, <- app_assoc, <- W3. exact U3. }
      destruct (go l vs) as [[ts r]|e] eqn:E; [|discriminate]. simpl in H. inversion H; subst.
      destruct (G _ _ _ E) as [u [U1 [U2 [U3 U4]]]]. exists (Node u). rewrite !map_node, tleaves_node, every_node.
      rewrite <- U1, <- U2. auto.
  Qed.
End Fill.
(** pairing a tree with a list of as many values *)
Lemma tree_zip : forall {A B} (d : tree (option A)) (vs : list B), length vs = length (somes (tleaves d)) ->
  exists u : tree (option (A * B)), map_tree (option_map fst) u = d /\ map snd (somes (tleaves u)) = vs.
Proof.
  intros A B d vs H.
  destruct (fill (fun (a : A) (b : B) => Ok (a, b)) d vs) as [[t rest]|e] eqn:E.
  - destruct (fill_inv _ _ _ _ _ E) as [u [U1 [U2 [U3 U4]]]]. exists (map_tree (option_map fst) u).
    rewrite map_map_tree, tleaves_map, somes_map, map_map.
    assert (L : rest = []).
    { assert (length rest = 0); [|now destruct rest]. subst d vs. rewrite app_length, map_length in H.
      rewrite tleaves_map, somes_map, map_length in H. lia. }
    subst rest. rewrite app_nil_r in U3. split; [|now rewrite U3].
    subst d. apply map_tree_ext. apply every_all. now intros [[[]]|].
  - exfalso. assert (G : forall (d : tree (option A)) (vs : list B), length (somes (tleaves d)) <= length vs ->
      exists q, fill (fun (a : A) (b : B) => Ok (a, b)) d vs = Ok q /\ length (snd q) + length (somes (tleaves d)) = length vs).
    { clear. induction d as [[a|]|l IH] using tree_ind'; intros vs L.
      - simpl in L. destruct vs as [|v r]; [simpl in L; lia|]. eexists. split; [reflexivity|]. simpl. lia.
      - eexists. split; [reflexivity|]. simpl. lia.
      - rewrite fill_node, tleaves_node in *.
        set (go := (fix go (l : list (string * tree (option A))) (vs : list B) :=
         match l with
         | [] => Ok ([], vs)
         | (k, s) :: r =>
             bind (fill (fun (a : A) (b : B) => Ok (a, b)) s vs) (fun q =>
             bind (go r (snd q)) (fun q' => Ok ((k, fst q) :: fst q', snd q')))
         end)).
        assert (G : exists q, go l vs = Ok q /\ length (snd q) + length (somes (flat_map (fun kv => tleaves (snd kv)) l)) = length vs).
        { revert vs L. induction l as [|[k s] r IHr]; intros vs L; [eexists; split; [reflexivity|simpl; lia]|].
          inversion IH as [|x y J1 J2]; subst. cbn [snd] in J1. simpl in L. rewrite somes_app, app_length in L.
          destruct (J1 vs) as [q [Q1 Q2]]; [lia|]. destruct (IHr J2 (snd q)) as [q' [Q1' Q2']]; [lia|].
          simpl. rewrite Q1. simpl. rewrite Q1'. eexists. split; [reflexivity|]. simpl. rewrite somes_app, app_length. lia. }
        destruct G as [q [G1 G2]]. rewrite G1. eexists. split; [reflexivity|]. exact G2. }
    destruct (G d vs) as [q [Q _]]; [lia|]. rewrite Q in E. discriminate.
Qed.
