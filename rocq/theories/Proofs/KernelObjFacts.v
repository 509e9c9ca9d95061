(** Kernel objects and their parameters. *)
From Coq Require Import List String Reals Lra ZArith.
From Verif Require Import Base.Sums Base.Mat Model.Arrays Model.Kernels Spec.KernelSpec Model.PyDict Model.Bijectors Spec.BijectorSpec
  Model.Params Model.State Model.Optim Spec.StateSpec Spec.RandomSpec Spec.OptimSpec Model.KernelObj Spec.KernelObjSpec
  Proofs.TreeFacts Proofs.StateFacts Proofs.UpdateFacts.
Import ListNotations.
Open Scope string_scope.

(** ** paths *)
Lemma sub_app : forall {A} q r (T : tree A), sub (q ++ r)%list T = match sub q T with Some t => sub r t | None => None end.
Proof.
  intros A q. induction q as [|k q IH]; intros r T; [reflexivity|]. cbn [app sub]. destruct T as [a|l]; [reflexivity|].
  destruct (get k l); auto.
Qed.
Lemma lookup_sub : forall {A} path (T : tree A), lookup path T = match sub path T with Some (Leaf a) => Some a | _ => None end.
Proof.
  intros A path. induction path as [|k q IH]; intros T; [destruct T; reflexivity|]. cbn [lookup sub]. destruct T as [a|l]; [reflexivity|].
  destruct (get k l); auto.
Qed.
Lemma sub_item : forall q (T : ptree) t n, sub q T = Some t ->
  sub (q ++ [n])%list T = match item n t with Ok s => Some s | Err _ => None end.
Proof. intros q T t n H. rewrite sub_app, H. destruct t as [a|l]; [reflexivity|]. cbn. destruct (get n l); reflexivity. Qed.
Lemma value_at : forall q (T : ptree) t n v, sub q T = Some t ->
  (bind (item n t) value_of = Ok v <-> exists p, lookup (q ++ [n])%list T = Some (Some p) /\ p_value p = v).
Proof.
  intros q T t n v H. rewrite lookup_sub, (sub_item q T t n H). destruct (item n t) as [s|e]; cbn.
  - destruct s as [[p|]|l]; cbn; (split; [intro J; try discriminate|intros [p' [J1 J2]]; try discriminate]).
    + exists p. inversion J. auto.
    + inversion J1; subst. reflexivity.
  - split; [discriminate|]. intros [p [J _]]. discriminate.
Qed.
Lemma value_ok : forall q (T : ptree) t n, sub q T = Some t ->
  ((exists v, bind (item n t) value_of = Ok v) <-> exists p, lookup (q ++ [n])%list T = Some (Some p)).
Proof.
  intros q T t n H. split.
  - intros [v J]. apply (value_at q T t n v H) in J. destruct J as [p [J _]]. eauto.
  - intros [p J]. exists (p_value p). apply (value_at q T t n _ H). eauto.
Qed.

(** ** values *)
Lemma scalar_of_iff : forall a r, scalar_of a = Some r <-> a_shape a = [] /\ a_data a = [Some r].
Proof.
  intros [sh d da] r. unfold scalar_of. cbn. destruct sh; [|split; [discriminate|intros [E _]; discriminate]].
  destruct da as [|[y|] [|z w]]; split; intro H; try discriminate; try (destruct H as [_ H]; discriminate).
  - inversion H. auto.
  - destruct H as [_ H]. inversion H. reflexivity.
Qed.
Lemma number_iff : forall q (T : ptree) t n r, sub q T = Some t ->
  (number_at (q ++ [n])%list T r <-> exists v, bind (item n t) value_of = Ok v /\ scalar_of v = Some r).
Proof.
  intros q T t n r H. unfold number_at. split.
  - intros [p [L E]]. exists (p_value p). split; [apply (value_at q T t n _ H); eauto|now apply scalar_of_iff].
  - intros [v [L E]]. apply (value_at q T t n _ H) in L. destruct L as [p [L <-]]. exists p. split; auto. now apply scalar_of_iff.
Qed.
Lemma nat_of_iff : forall r n, nat_of r = Some n <-> r = INR n.
Proof.
  intros r n. unfold nat_of. cbv zeta. split.
  - destruct (Req_EM_T r (INR (Z.to_nat (Int_part r)))) as [E|E]; [|discriminate]. intro H. inversion H; subst. exact E.
  - intros ->. rewrite Int_part_INR, Nat2Z.id. destruct (Req_EM_T (INR n) (INR n)); [reflexivity|congruence].
Qed.
Lemma nat_of_INR : forall n, nat_of (INR n) = Some n.
Proof. intro. now apply nat_of_iff. Qed.

(** ** reading *)
Ltac val n E := lazymatch goal with |- context [bind (item n ?t) value_of] => destruct (bind (item n t) value_of) eqn:E end.
Lemma atom_reads_iff : forall q c (T : ptree) t a, sub q T = Some t ->
  (atom_reads q c T a <-> exists vs, values c t = Ok vs /\ atom_of c vs = Some a).
Proof.
  intros q c T t a H. split.
  - intro J. destruct c as [| |[|]| | | | |], a; try contradiction; cbn [atom_reads] in J;
      try (destruct J as [J1 J2]; apply (number_iff q T t _ _ H) in J1; apply (number_iff q T t _ _ H) in J2;
           destruct J1 as [v1 [A1 B1]], J2 as [v2 [A2 B2]]; exists [v1; v2]; unfold values; cbn [names mapM]; rewrite A1; cbn [bind];
           rewrite A2; cbn [bind]; split; [reflexivity|]; unfold atom_of; cbn [map]; rewrite B1, B2; rewrite ?nat_of_INR; reflexivity);
      try (apply (number_iff q T t _ _ H) in J; destruct J as [v1 [A1 B1]]; exists [v1]; unfold values; cbn [names mapM]; rewrite A1;
           cbn [bind]; split; [reflexivity|]; unfold atom_of; cbn [map]; rewrite B1; reflexivity).
    exists []. split; reflexivity.
  - intros [vs [V E]]. unfold values in V.
    destruct c as [| |ni| | | | |]; cbn [names mapM] in V;
      repeat match type of V with context [bind (item ?n t) value_of] =>
        let E := fresh "E" in destruct (bind (item n t) value_of) eqn:E; cbn [bind] in V; [|discriminate] end;
      inversion V; subst vs; clear V; unfold atom_of in E; cbn [map] in E;
      repeat match type of E with context [scalar_of ?v] =>
        let E := fresh "S" in destruct (scalar_of v) eqn:E; [|try discriminate; try (destruct ni; discriminate)] end;
      try (destruct (nat_of r) as [n|] eqn:N; [|discriminate]; apply nat_of_iff in N; subst r; destruct ni);
      inversion E; subst; cbn [atom_reads]; auto;
      try split; apply (number_iff q T t _ _ H); eauto.
Qed.
Lemma item_sub : forall q (T : ptree) t n s, sub q T = Some t -> item n t = Ok s -> sub (q ++ [n])%list T = Some s.
Proof. intros q T t n s H I. rewrite (sub_item q T t n H), I. reflexivity. Qed.
Lemma present_node : forall q o1 o2 T, (forall path, In path ((q ++ ["kernel1"]) :: (q ++ ["kernel2"]) ::
    dicts (q ++ ["kernel1"]) o1 ++ dicts (q ++ ["kernel2"]) o2)%list -> sub path T <> None) <->
  sub (q ++ ["kernel1"])%list T <> None /\ sub (q ++ ["kernel2"])%list T <> None /\
  present (q ++ ["kernel1"])%list o1 T /\ present (q ++ ["kernel2"])%list o2 T.
Proof.
  intros. split.
  - intro H. split; [apply H; left; reflexivity|]. split; [apply H; right; left; reflexivity|].
    split; intros path I; apply H; right; right; apply in_or_app; auto.
  - intros [A [B [C D]]] path [<-|[<-|I]]; auto. apply in_app_or in I. destruct I; auto.
Qed.
Lemma call_reads : forall nf X1 X2 o q (T : ptree) t M, sub q T = Some t ->
  (call_k nf o X1 X2 t = Ok (Some M) <-> (exists k, reads q o T k /\ M = kk nf k X1 X2) /\ present q o T).
Proof.
  intros nf X1 X2 o. induction o as [c ad|o1 IH1 o2 IH2|o1 IH1 o2 IH2]; intros q T t M H; cbn [call_k].
  - split.
    + intro J. destruct (values c t) as [vs|e] eqn:V; [|discriminate]. cbn [bind] in J.
      destruct (atom_of c vs) as [a|] eqn:E; [|discriminate]. cbn in J. inversion J; subst M.
      split; [|intros p []]. exists (KAtom ad a). cbn [reads kk]. split; [split; [reflexivity|]|reflexivity].
      apply (atom_reads_iff q c T t a H). eauto.
    + intros [[k [J ->]] _]. destruct k as [ad' a| |]; cbn [reads] in J; try contradiction. destruct J as [-> J].
      apply (atom_reads_iff q c T t a H) in J. destruct J as [vs [-> E]]. cbn [bind]. rewrite E. reflexivity.
  - unfold present. cbn [dicts]. rewrite present_node. rewrite !(sub_item q T t _ H). split.
    + intro J. destruct (item "kernel1" t) as [t1|] eqn:I1; [|discriminate]. destruct (item "kernel2" t) as [t2|] eqn:I2; [|discriminate]. cbn [bind] in J.
      destruct (call_k nf o1 X1 X2 t1) as [[m1|]|] eqn:C1; try discriminate; cbn [bind] in J;
      destruct (call_k nf o2 X1 X2 t2) as [[m2|]|] eqn:C2; try discriminate. cbn in J. inversion J; subst M.
      apply (IH1 _ T t1 _ (item_sub q T t _ _ H I1)) in C1. apply (IH2 _ T t2 _ (item_sub q T t _ _ H I2)) in C2.
      destruct C1 as [[k1 [R1 ->]] P1], C2 as [[k2 [R2 ->]] P2]. split; [exists (KSum k1 k2); repeat split; auto|]. repeat split; auto; discriminate.
    + intros [[k [J ->]] [D1 [D2 [P1 P2]]]]. destruct k as [|k1 k2|]; cbn [reads] in J; try contradiction. destruct J as [R1 R2].
      destruct (item "kernel1" t) as [t1|] eqn:I1; [|congruence]. destruct (item "kernel2" t) as [t2|] eqn:I2; [|congruence]. cbn [bind].
      rewrite (proj2 (IH1 _ T t1 (kk nf k1 X1 X2) (item_sub q T t _ _ H I1))) by eauto.
      rewrite (proj2 (IH2 _ T t2 (kk nf k2 X1 X2) (item_sub q T t _ _ H I2))) by eauto. reflexivity.
  - unfold present. cbn [dicts]. rewrite present_node. rewrite !(sub_item q T t _ H). split.
    + intro J. destruct (item "kernel1" t) as [t1|] eqn:I1; [|discriminate]. destruct (item "kernel2" t) as [t2|] eqn:I2; [|discriminate]. cbn [bind] in J.
      destruct (call_k nf o1 X1 X2 t1) as [[m1|]|] eqn:C1; try discriminate; cbn [bind] in J;
      destruct (call_k nf o2 X1 X2 t2) as [[m2|]|] eqn:C2; try discriminate. cbn in J. inversion J; subst M.
      apply (IH1 _ T t1 _ (item_sub q T t _ _ H I1)) in C1. apply (IH2 _ T t2 _ (item_sub q T t _ _ H I2)) in C2.
      destruct C1 as [[k1 [R1 ->]] P1], C2 as [[k2 [R2 ->]] P2]. split; [exists (KProd k1 k2); repeat split; auto|]. repeat split; auto; discriminate.
    + intros [[k [J ->]] [D1 [D2 [P1 P2]]]]. destruct k as [| |k1 k2]; cbn [reads] in J; try contradiction. destruct J as [R1 R2].
      destruct (item "kernel1" t) as [t1|] eqn:I1; [|congruence]. destruct (item "kernel2" t) as [t2|] eqn:I2; [|congruence]. cbn [bind].
      rewrite (proj2 (IH1 _ T t1 (kk nf k1 X1 X2) (item_sub q T t _ _ H I1))) by eauto.
      rewrite (proj2 (IH2 _ T t2 (kk nf k2 X1 X2) (item_sub q T t _ _ H I2))) by eauto. reflexivity.
Qed.
Lemma call_at : forall nf o q X1 X2 (T : ptree) t M, sub q T = Some t ->
  (call_k nf o X1 X2 t = Ok (Some M) <-> (exists k, reads q o T k /\ M = kk nf k X1 X2) /\ present q o T).
Proof. intros. now apply call_reads. Qed.
Lemma number_unique : forall path T r r', number_at path T r -> number_at path T r' -> r = r'.
Proof. intros path T r r' [p [A [_ B]]] [p' [A' [_ B']]]. rewrite A in A'. inversion A'; subst. rewrite B in B'. now inversion B'. Qed.
Lemma reads_unique : forall o q T k k', reads q o T k -> reads q o T k' -> k = k'.
Proof.
  induction o as [c ad|o1 IH1 o2 IH2|o1 IH1 o2 IH2]; intros q T [ad1 a1|? ?|? ?] [ad2 a2|? ?|? ?]; cbn [reads]; try tauto.
  - intros [-> A] [-> B]. f_equal. destruct c as [| |[|]| | | | |], a1, a2; cbn [atom_reads] in A, B; try contradiction; try reflexivity;
      try (f_equal; eapply number_unique; eassumption);
      destruct A as [A1 A2], B as [B1 B2]; f_equal; try (apply INR_eq); eapply number_unique; eassumption.
  - intros [A1 A2] [B1 B2]. f_equal; eauto.
  - intros [A1 A2] [B1 B2]. f_equal; eauto.
Qed.

(** ** errors *)
Lemma values_ok : forall c q (T : ptree) t ad, sub q T = Some t ->
  ((exists vs, values c t = Ok vs) <-> forall path, In path (leaves q (OAtom c ad)) -> exists p, lookup path T = Some (Some p)).
Proof.
  intros c q T t ad H.
  assert (G : forall l, (exists vs, mapM (fun n => bind (item n t) value_of) l = Ok vs) <->
    forall path, In path (map (fun n => q ++ [n])%list l) -> exists p, lookup path T = Some (Some p)).
  { induction l as [|n l IH]; cbn [mapM map]; [split; [intros _ ? []|eauto]|]. split.
    - intros [vs V]. destruct (bind (item n t) value_of) as [v|] eqn:E; [|discriminate]. cbn [bind] in V.
      destruct (mapM (fun n => bind (item n t) value_of) l) as [ws|] eqn:W; [|discriminate].
      intros path [<-|I]; [apply (value_ok q T t n H); eauto|apply IH; eauto].
    - intro J. destruct (proj2 (value_ok q T t n H)) as [v ->]; [apply J; left; reflexivity|]. cbn [bind].
      destruct (proj2 IH) as [ws ->]; [intros path I; apply J; right; exact I|]. cbn [bind]. eauto. }
  unfold values. rewrite (G (names c)). destruct c as [| |ni| | | | |]; reflexivity.
Qed.
Lemma call_ok_iff : forall nf X1 X2 o q (T : ptree) t, sub q T = Some t ->
  ((exists m, call_k nf o X1 X2 t = Ok m) <->
   present q o T /\ forall path, In path (leaves q o) -> exists p, lookup path T = Some (Some p)).
Proof.
  intros nf X1 X2 o. induction o as [c ad|o1 IH1 o2 IH2|o1 IH1 o2 IH2]; intros q T t H; cbn [call_k].
  - rewrite <- (values_ok c q T t ad H). split.
    + intros [m J]. destruct (values c t) as [vs|]; [|discriminate]. split; [intros p []|eauto].
    + intros [_ [vs ->]]. cbn [bind]. eauto.
  - unfold present. cbn [dicts leaves]. rewrite present_node, !(sub_item q T t _ H). split.
    + intros [m J]. destruct (item "kernel1" t) as [t1|] eqn:I1; [|discriminate]. destruct (item "kernel2" t) as [t2|] eqn:I2; [|discriminate]. cbn [bind] in J.
      destruct (call_k nf o1 X1 X2 t1) as [m1|] eqn:C1; [|discriminate]; cbn [bind] in J.
      destruct (call_k nf o2 X1 X2 t2) as [m2|] eqn:C2; [|discriminate].
      destruct (proj1 (IH1 _ T t1 (item_sub q T t _ _ H I1)) (ex_intro _ _ C1)) as [P1 L1].
      destruct (proj1 (IH2 _ T t2 (item_sub q T t _ _ H I2)) (ex_intro _ _ C2)) as [P2 L2].
      split; [repeat split; auto; discriminate|]. intros path I. apply in_app_or in I. destruct I; auto.
    + intros [[D1 [D2 [P1 P2]]] L]. destruct (item "kernel1" t) as [t1|] eqn:I1; [|congruence]. destruct (item "kernel2" t) as [t2|] eqn:I2; [|congruence]. cbn [bind].
      destruct (proj2 (IH1 _ T t1 (item_sub q T t _ _ H I1))) as [m1 ->]; [split; [exact P1|intros; apply L, in_or_app; auto]|]. cbn [bind].
      destruct (proj2 (IH2 _ T t2 (item_sub q T t _ _ H I2))) as [m2 ->]; [split; [exact P2|intros; apply L, in_or_app; auto]|]. cbn [bind]. eauto.
  - unfold present. cbn [dicts leaves]. rewrite present_node, !(sub_item q T t _ H). split.
    + intros [m J]. destruct (item "kernel1" t) as [t1|] eqn:I1; [|discriminate]. destruct (item "kernel2" t) as [t2|] eqn:I2; [|discriminate]. cbn [bind] in J.
      destruct (call_k nf o1 X1 X2 t1) as [m1|] eqn:C1; [|discriminate]; cbn [bind] in J.
      destruct (call_k nf o2 X1 X2 t2) as [m2|] eqn:C2; [|discriminate].
      destruct (proj1 (IH1 _ T t1 (item_sub q T t _ _ H I1)) (ex_intro _ _ C1)) as [P1 L1].
      destruct (proj1 (IH2 _ T t2 (item_sub q T t _ _ H I2)) (ex_intro _ _ C2)) as [P2 L2].
      split; [repeat split; auto; discriminate|]. intros path I. apply in_app_or in I. destruct I; auto.
    + intros [[D1 [D2 [P1 P2]]] L]. destruct (item "kernel1" t) as [t1|] eqn:I1; [|congruence]. destruct (item "kernel2" t) as [t2|] eqn:I2; [|congruence]. cbn [bind].
      destruct (proj2 (IH1 _ T t1 (item_sub q T t _ _ H I1))) as [m1 ->]; [split; [exact P1|intros; apply L, in_or_app; auto]|]. cbn [bind].
      destruct (proj2 (IH2 _ T t2 (item_sub q T t _ _ H I2))) as [m2 ->]; [split; [exact P2|intros; apply L, in_or_app; auto]|]. cbn [bind]. eauto.
Qed.
Lemma item_err : forall q (T : ptree) t n e, sub q T = Some t -> item n t = Err e -> sub (q ++ [n])%list T = None.
Proof. intros q T t n e H I. rewrite (sub_item q T t n H), I. reflexivity. Qed.
Lemma call_key_error : forall nf X1 X2 o q (T : ptree) t, sub q T = Some t -> call_k nf o X1 X2 t = Err KeyError ->
  exists path, In path (dicts q o ++ leaves q o)%list /\ sub path T = None.
Proof.
  assert (G : forall q (T : ptree) t l, sub q T = Some t -> mapM (fun n => bind (item n t) value_of) l = Err KeyError ->
    exists path, In path (map (fun n => q ++ [n])%list l) /\ sub path T = None).
  { intros q T t l H. induction l as [|n l IH]; cbn [mapM map]; [discriminate|]. intro J.
    destruct (item n t) as [s|e] eqn:I; [|exists (q ++ [n])%list; split; [left; reflexivity|eapply item_err; eauto]].
    cbn [bind] in J. destruct (value_of s) as [v|e] eqn:E; cbn [bind] in J.
    - destruct (mapM (fun n => bind (item n t) value_of) l) eqn:W; [discriminate|]. cbn [bind] in J. destruct (IH J) as [p [I1 I2]]. exists p. split; [right|]; auto.
    - destruct s as [[p|]|]; cbn in E; try discriminate; inversion E; subst; discriminate. }
  intros nf X1 X2 o. induction o as [c ad|o1 IH1 o2 IH2|o1 IH1 o2 IH2]; intros q T t H J; cbn [call_k] in J.
  - destruct (values c t) as [vs|e] eqn:V; [discriminate|]. cbn [bind] in J. inversion J; subst e. destruct (G q T t (names c) H V) as [p [I N]].
    exists p. split; auto. apply in_or_app. right. destruct c as [| |ni| | | | |]; exact I.
  - destruct (item "kernel1" t) as [t1|e] eqn:I1; [|exists (q ++ ["kernel1"])%list; split; [left; reflexivity|eapply item_err; eauto]].
    destruct (item "kernel2" t) as [t2|e] eqn:I2; [|exists (q ++ ["kernel2"])%list; split; [right; left; reflexivity|eapply item_err; eauto]].
    cbn [bind] in J. destruct (call_k nf o1 X1 X2 t1) as [m1|e] eqn:C1.
    + destruct (call_k nf o2 X1 X2 t2) as [m2|e] eqn:C2; [discriminate|]. cbn [bind] in J. inversion J; subst e.
      destruct (IH2 _ T t2 (item_sub q T t _ _ H I2) C2) as [p [I N]]. exists p. split; auto. cbn [dicts leaves].
      apply in_app_or in I. apply in_or_app. destruct I; [left; right; right|right]; apply in_or_app; auto.
    + cbn [bind] in J. inversion J; subst e.
      destruct (IH1 _ T t1 (item_sub q T t _ _ H I1) C1) as [p [I N]]. exists p. split; auto. cbn [dicts leaves].
      apply in_app_or in I. apply in_or_app. destruct I; [left; right; right|right]; apply in_or_app; auto.
  - destruct (item "kernel1" t) as [t1|e] eqn:I1; [|exists (q ++ ["kernel1"])%list; split; [left; reflexivity|eapply item_err; eauto]].
    destruct (item "kernel2" t) as [t2|e] eqn:I2; [|exists (q ++ ["kernel2"])%list; split; [right; left; reflexivity|eapply item_err; eauto]].
    cbn [bind] in J. destruct (call_k nf o1 X1 X2 t1) as [m1|e] eqn:C1.
    + destruct (call_k nf o2 X1 X2 t2) as [m2|e] eqn:C2; [discriminate|]. cbn [bind] in J. inversion J; subst e.
      destruct (IH2 _ T t2 (item_sub q T t _ _ H I2) C2) as [p [I N]]. exists p. split; auto. cbn [dicts leaves].
      apply in_app_or in I. apply in_or_app. destruct I; [left; right; right|right]; apply in_or_app; auto.
    + cbn [bind] in J. inversion J; subst e.
      destruct (IH1 _ T t1 (item_sub q T t _ _ H I1) C1) as [p [I N]]. exists p. split; auto. cbn [dicts leaves].
      apply in_app_or in I. apply in_or_app. destruct I; [left; right; right|right]; apply in_or_app; auto.
Qed.
