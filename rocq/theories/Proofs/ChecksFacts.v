From Coq Require Import String List Bool.
From Verif Require Import Model.PyDict Model.Checks Spec.StateSpec Spec.ChecksSpec Proofs.DictFacts Proofs.TreeFacts Proofs.StateFacts Proofs.UpdateFacts.
Import ListNotations.
Open Scope string_scope.

Lemma find_map : forall {A B} (f : A -> B) (P : B -> bool) l, find P (map f l) = option_map f (find (fun a => P (f a)) l).
Proof. intros A B f P l. induction l as [|a l IH]; simpl; auto. destruct (P (f a)); auto. Qed.
Lemma find_app : forall {A} (P : A -> bool) l m, find P (l ++ m)%list = match find P l with Some x => Some x | None => find P m end.
Proof. intros A P l m. induction l as [|a l IH]; simpl; auto. destruct (P a); auto. Qed.
Lemma check_value_spec : forall {A} (ok : A -> bool) t k,
  check_value ok k t = option_map (fun q => (last (fst q) k, snd q)) (find (fun q => negb (ok (snd q))) (paths t)).
Proof.
  intros A ok t. induction t as [a|l IH] using tree_ind'; intro k.
  - simpl. destruct (ok a); reflexivity.
  - simpl. induction l as [|[k' s] r IHr]; [reflexivity|]. inversion IH as [|? ? J1 J2]; subst. cbn [snd] in J1. rewrite J1, find_app, find_map. cbn [fst snd].
    destruct (find (fun q => negb (ok (snd q))) (paths s)) as [[p a]|] eqn:E; cbn [option_map fst snd].
    + do 2 f_equal. destruct p as [|p0 p]; [reflexivity|]. cbn [last]. 
      assert (G : forall (d d' : string) l, l <> [] -> last l d = last l d').
      { clear. intros d d' l. induction l as [|x l IH]; intro N; [congruence|]. destruct l; [reflexivity|]. cbn [last] in *. apply IH. discriminate. }
      apply (G k' k (p0 :: p)). discriminate.
    + apply IHr, J2.
Qed.
Lemma check_spec : forall {A} (ok : A -> bool) d,
  check_recursive_dict_type ok d = option_map (fun q => (last (fst q) "", snd q)) (find (fun q => negb (ok (snd q))) (paths (Node d))).
Proof. intros. apply check_value_spec. Qed.
Lemma paths_lookup : forall {A} (t : tree A) p a, keys_distinct t -> (In (p, a) (paths t) <-> lookup p t = Some a).
Proof.
  intros A t. induction t as [b|l IH] using tree_ind'; intros p a K.
  - simpl. destruct p; split.
    + intros [H|[]]. injection H as ->. reflexivity.
    + intro H. injection H as ->. auto.
    + intros [H|[]]. discriminate.
    + discriminate.
  - apply kd_node in K. destruct K as [N K]. destruct p as [|k p].
    + simpl. split; [|discriminate]. intro H. exfalso. clear -H. induction l as [|[k s] r IHr]; [exact H|]. apply in_app_or in H. destruct H as [H|H]; auto.
      apply in_map_iff in H. destruct H as [[? ?] [H _]]. discriminate.
    + cbn [lookup]. assert (G : In (k :: p, a) (paths (Node l)) <-> exists s, In (k, s) l /\ In (p, a) (paths s)).
      { clear. simpl. induction l as [|[k' s'] r IHr]; [split; [intros []|intros [? [[] _]]]|]. rewrite in_app_iff, IHr. split.
        - intros [H|[s [H1 H2]]]; [|exists s; split; [right|]; auto]. apply in_map_iff in H. destruct H as [[q b] [E H]]. cbn in E. injection E as -> -> ->. exists s'. split; [left|]; auto.
        - intros [s [[E|H1] H2]]; [|right; eauto]. injection E as -> ->. left. apply in_map_iff. exists (p, a). auto. }
      rewrite G. split.
      * intros [s [H1 H2]]. assert (E : get k l = Some s) by (apply get_in_nodup; auto). rewrite E. rewrite Forall_forall in IH, K. apply (IH _ H1); auto; exact (K _ H1).
      * intro H. destruct (get k l) as [s|] eqn:E; [|discriminate]. apply get_in_nodup in E; auto. exists s. split; auto. rewrite Forall_forall in IH, K. apply (IH _ E); auto; exact (K _ E).
Qed.
Lemma check_passes : forall {A} (ok : A -> bool) d, check_recursive_dict_type ok d = None <-> every (fun a => ok a = true) (Node d).
Proof.
  intros A ok d. rewrite check_spec.
  assert (G : forall t : tree A, find (fun q => negb (ok (snd q))) (paths t) = None <-> every (fun a => ok a = true) t).
  { intro t. induction t as [a|l IH] using tree_ind'.
    - simpl. destruct (ok a); simpl; split; congruence.
    - rewrite every_node. simpl. induction l as [|[k s] r IHr]; [split; auto|]. inversion IH as [|? ? J1 J2]; subst. cbn [snd] in J1. specialize (IHr J2).
      rewrite find_app, find_map. cbn [snd]. destruct (find (fun q => negb (ok (snd q))) (paths s)) as [q|]; cbn [option_map].
      + split; [discriminate|]. intro H. inversion H; subst. apply J1 in H2. discriminate.
      + rewrite IHr. split; intro H; [constructor; auto; now apply J1|inversion H; auto]. }
  rewrite <- G. destruct (find _ _); simpl; split; congruence.
Qed.
