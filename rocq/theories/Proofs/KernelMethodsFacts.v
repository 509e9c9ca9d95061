(** Facts on the closures of Model/KernelMethods.v. *)
From Coq Require Import List String Reals.
From Verif Require Import Base.Sums Base.Mat Model.Arrays Model.Kernels Model.PyDict Model.Params Model.KernelObj Model.KernelMethods
  Spec.KernelObjSpec Spec.KernelMethodsSpec Proofs.KernelObjFacts Proofs.KernelObjSafe.
Import ListNotations.
Open Scope string_scope.

Lemma build_k : forall o nf X1 X2 t, o_k (build o) nf X1 X2 t = call_k nf o X1 X2 t.
Proof.
  induction o as [c ad|a IHa b IHb|a IHa b IHb]; intros nf X1 X2 t; [reflexivity| |]; cbn [build call_k sum_methods prod_methods o_k];
    unfold sum_kernels, prod_kernels, halves, addo, mulo, binop;
    destruct (item "kernel1" t); cbn [bind]; [|reflexivity| |reflexivity]; destruct (item "kernel2" t); cbn [bind]; try reflexivity; now rewrite IHa, IHb.
Qed.
Lemma reading_ok : forall q c (T : ptree) t a f, sub q T = Some t -> atom_reads q c T a -> reading c t f = Ok (Some (f a)).
Proof. intros q c T t a f H R. apply (atom_reads_iff q c T t a H) in R. destruct R as [vs [V E]]. unfold reading. rewrite V. cbn [bind]. now rewrite E. Qed.
Lemma reading_deriv_ok : forall q c (T : ptree) t a f, sub q T = Some t -> atom_reads q c T a ->
  (forall v, f (AConst v) = zeros) -> reading_deriv c t f = Ok (Some (f a)).
Proof.
  intros q c T t a f H R Z. destruct c; try exact (reading_ok q _ T t a f H R).
  destruct a; cbn [atom_reads] in R; try contradiction. cbn [reading_deriv]. now rewrite Z.
Qed.
Lemma build_computes : forall o q (T : ptree) t k, sub q T = Some t -> reads q o T k -> present q o T -> computes (build o) t k.
Proof.
  induction o as [c ad|o1 IH1 o2 IH2|o1 IH1 o2 IH2]; intros q T t k H R P; destruct k as [ad' a|k1 k2|k1 k2]; cbn [reads] in R; try contradiction.
  - destruct R as [-> R]. cbn [build]. constructor; intros; cbn [atom_methods o_k o_d0k o_d1k o_d01k o_d0kj o_d1kj o_d01kj o_d0kjc o_d01kjc];
      first [refine (reading_ok q c T t a _ H R)|refine (reading_deriv_ok q c T t a _ H R _); reflexivity].
  - unfold present in P. cbn [dicts] in P. rewrite present_node in P. rewrite !(sub_item q T t _ H) in P. destruct P as [D1 [D2 [P1 P2]]], R as [R1 R2].
    destruct (item "kernel1" t) as [t1|] eqn:I1; [|congruence]. destruct (item "kernel2" t) as [t2|] eqn:I2; [|congruence].
    destruct (IH1 _ T t1 k1 (item_sub q T t _ _ H I1) R1 P1) as [A1 A2 A3 A4 A5 A6 A7 A8 A9].
    destruct (IH2 _ T t2 k2 (item_sub q T t _ _ H I2) R2 P2) as [B1 B2 B3 B4 B5 B6 B7 B8 B9].
    cbn [build]. constructor; intros; cbn [sum_methods o_k o_d0k o_d1k o_d01k o_d0kj o_d1kj o_d01kj o_d0kjc o_d01kjc];
      unfold sum_kernels, sum_kernels_jac, sum_kernels_jac2, sum_kernels_coef, sum_kernels_coefjac, halves;
      rewrite I1; cbn [bind]; rewrite I2; cbn [bind]; first [rewrite A1, B1|rewrite A2, B2|rewrite A3, B3|rewrite A4, B4|rewrite A5, B5|rewrite A6, B6|rewrite A7, B7|rewrite A8, B8|rewrite A9, B9]; reflexivity.
  - unfold present in P. cbn [dicts] in P. rewrite present_node in P. rewrite !(sub_item q T t _ H) in P. destruct P as [D1 [D2 [P1 P2]]], R as [R1 R2].
    destruct (item "kernel1" t) as [t1|] eqn:I1; [|congruence]. destruct (item "kernel2" t) as [t2|] eqn:I2; [|congruence].
    destruct (IH1 _ T t1 k1 (item_sub q T t _ _ H I1) R1 P1) as [A1 A2 A3 A4 A5 A6 A7 A8 A9].
    destruct (IH2 _ T t2 k2 (item_sub q T t _ _ H I2) R2 P2) as [B1 B2 B3 B4 B5 B6 B7 B8 B9].
    cbn [build]. constructor; intros; cbn [prod_methods o_k o_d0k o_d1k o_d01k o_d0kj o_d1kj o_d01kj o_d0kjc o_d01kjc];
      unfold prod_kernels, prod_kernels_deriv, prod_kernels_deriv01, prod_kernels_deriv_jac, prod_kernels_deriv0_jaccoef, prod_kernels_deriv01_jac, prod_kernels_deriv01_jaccoef, halves;
      rewrite I1; cbn [bind]; rewrite I2; cbn [bind];
      rewrite ?A1, ?B1, ?A2, ?B2, ?A3, ?B3, ?A4, ?B4, ?A5, ?B5, ?A6, ?B6, ?A7, ?B7, ?A8, ?B8, ?A9, ?B9; reflexivity.
Qed.

(** ** no method needs more of the dictionary than k *)
Lemma ok_binop : forall f a b, ok a -> ok b -> ok (binop f a b).
Proof. intros f a b [x ->] [y ->]. eexists. reflexivity. Qed.
Lemma ok_repo : forall f a, ok a -> ok (repo f a).
Proof. intros f a [x ->]. eexists. reflexivity. Qed.
Lemma ok_bind : forall {A B} (a : result A) (f : A -> result B), ok (bind a f) -> exists x, a = Ok x /\ ok (f x).
Proof. intros A B [x|e] f [y H]; [exists x; split; [reflexivity|eexists; exact H]|discriminate]. Qed.
Lemma ok_binop_inv : forall f a b, ok (binop f a b) -> ok a /\ ok b.
Proof. intros f a b H. apply ok_bind in H. destruct H as [x [-> H]]. apply ok_bind in H. destruct H as [y [-> _]]. split; eexists; reflexivity. Qed.
Lemma build_succeeds : forall o nf X1 X2 t, ok (o_k (build o) nf X1 X2 t) -> succeeds (build o) t.
Proof.
  induction o as [c ad|o1 IH1 o2 IH2|o1 IH1 o2 IH2]; intros nf X1 X2 t H.
  - cbn [build atom_methods o_k] in H. apply ok_bind in H. destruct H as [vs [V _]].
    assert (A : forall f, ok (reading c t f)) by (intro f; unfold reading; rewrite V; eexists; reflexivity).
    assert (B : forall f, ok (reading_deriv c t f)) by (intro f; destruct c; try apply A; eexists; reflexivity).
    constructor; intros; first [apply A|apply B].
  - cbn [build sum_methods o_k] in H. unfold sum_kernels, halves in H.
    apply ok_bind in H. destruct H as [t1 [I1 H]]. apply ok_bind in H. destruct H as [t2 [I2 H]]. apply ok_binop_inv in H. destruct H as [H1 H2].
    destruct (IH1 nf X1 X2 t1 H1) as [A1 A2 A3 A4 A5 A6 A7 A8 A9], (IH2 nf X1 X2 t2 H2) as [B1 B2 B3 B4 B5 B6 B7 B8 B9].
    cbn [build]. constructor; intros; cbn [sum_methods o_k o_d0k o_d1k o_d01k o_d0kj o_d1kj o_d01kj o_d0kjc o_d01kjc];
      unfold sum_kernels, sum_kernels_jac, sum_kernels_jac2, sum_kernels_coef, sum_kernels_coefjac, halves, addo;
      rewrite I1; cbn [bind]; rewrite I2; cbn [bind]; apply ok_binop; auto.
  - cbn [build prod_methods o_k] in H. unfold prod_kernels, halves in H.
    apply ok_bind in H. destruct H as [t1 [I1 H]]. apply ok_bind in H. destruct H as [t2 [I2 H]]. apply ok_binop_inv in H. destruct H as [H1 H2].
    destruct (IH1 nf X1 X2 t1 H1) as [A1 A2 A3 A4 A5 A6 A7 A8 A9], (IH2 nf X1 X2 t2 H2) as [B1 B2 B3 B4 B5 B6 B7 B8 B9].
    cbn [build]. constructor; intros; cbn [prod_methods o_k o_d0k o_d1k o_d01k o_d0kj o_d1kj o_d01kj o_d0kjc o_d01kjc];
      unfold prod_kernels, prod_kernels_deriv, prod_kernels_deriv01, prod_kernels_deriv_jac, prod_kernels_deriv0_jaccoef, prod_kernels_deriv01_jac, prod_kernels_deriv01_jaccoef, halves, addo, mulo;
      rewrite I1; cbn [bind]; rewrite I2; cbn [bind]; repeat (apply ok_binop || apply ok_repo); auto.
Qed.
Lemma default_computes : forall o, exists t, default_params o = Ok t /\ computes (build o) t (default_kernel o).
Proof.
  intro o. destruct (default_spec 1 o (fun _ _ => 0%R) (fun _ _ => 0%R)) as [t [D [_ [R C]]]]. exists t. split; [exact D|].
  apply (build_computes o [] t t); [reflexivity|exact R|]. apply (call_at 1 o [] _ _ t t _ eq_refl) in C. apply C.
Qed.
