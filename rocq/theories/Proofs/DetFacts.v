(** Facts on determinants, from mathcomp. *)
From Coq Require Import Reals Lia Lra.
From mathcomp Require Import all_ssreflect all_algebra all_fingroup.
From Verif Require Import Base.Sums Base.Mat Base.PSD Spec.Det.
Set Implicit Arguments.
Unset Strict Implicit.
Import GRing.Theory.

Lemma sum_big n (f : nat -> R) : sum n f = (\sum_(i < n) f i)%R.
Proof.
elim: n f => [|n IH] f; first by rewrite big_ord0.
by rewrite big_ord_recr /= IH.
Qed.
Lemma mx_ext n m (A B : Mat) : meq n m A B -> mx_of n m A = mx_of n m B.
Proof. by move=> H; apply/matrixP => i j; rewrite !mxE; apply: H; apply/ltP. Qed.
Lemma det_ext n (A B : Mat) : meq n n A B -> det n A = det n B.
Proof. by move=> H; rewrite /det (mx_ext H). Qed.
Lemma mx_mm n p m (A B : Mat) : mx_of n m (mm p A B) = (mx_of n p A *m mx_of p m B)%R.
Proof.
apply/matrixP => i j; rewrite !mxE /mm sum_big; apply: eq_bigr => k _; by rewrite !mxE.
Qed.
Lemma det_mm n (A B : Mat) : det n (mm n A B) = Rmult (det n A) (det n B).
Proof. by rewrite /det mx_mm det_mulmx. Qed.
Lemma det_tr' n (A : Mat) : det n (tr A) = det n A.
Proof. by rewrite /det -[in RHS]det_tr; congr (\det _)%R; apply/matrixP => i j; rewrite !mxE. Qed.

Fixpoint prodR (n : nat) (f : nat -> R) : R :=
  match n with O => R1 | S n' => Rmult (prodR n' f) (f n') end.
Lemma prod_big n (f : nat -> R) : prodR n f = (\prod_(i < n) f i)%R.
Proof. by elim: n => [|n IH]; [rewrite big_ord0|rewrite big_ord_recr /= IH]. Qed.
Lemma det_lower n (L : Mat) : (forall i j, (j < n)%coq_nat -> (i < j)%coq_nat -> L i j = R0) ->
  det n L = prodR n (fun i => L i i).
Proof.
move=> H; rewrite /det det_trig; last first.
  by apply/is_trig_mxP => i j ij; rewrite !mxE; apply: H; apply/ltP.
by rewrite prod_big; apply: eq_bigr => i _; rewrite !mxE.
Qed.
Lemma det_eye n : det n eye = R1.
Proof.
rewrite /det; have -> : mx_of n n eye = (1%:M)%R; last by rewrite det1.
apply/matrixP => i j; rewrite !mxE /eye /delta.
case: (Nat.eqb_spec i j) => [e|ne].
  by rewrite (_ : i == j) //; apply/eqP/val_inj.
by rewrite (_ : (i == j) = false) //; apply/eqP => e; apply: ne; rewrite e.
Qed.

(** re-ordering rows and columns by the same permutation *)
Section Perm.
Variables (n : nat) (p : nat -> nat).
Hypothesis p_lt : forall i, (i < n)%coq_nat -> (p i < n)%coq_nat.
Hypothesis p_inj : forall i j, (i < n)%coq_nat -> (j < n)%coq_nat -> p i = p j -> i = j.
Lemma p_ltb (i : 'I_n) : (p i < n)%N.
Proof. by apply/ltP/p_lt/ltP. Qed.
Definition pord (i : 'I_n) : 'I_n := Ordinal (p_ltb i).
Lemma pord_inj : injective pord.
Proof.
move=> i j H; have e := congr1 val H; apply: val_inj; apply: (p_inj (i:=i) (j:=j) _ _ e); exact/ltP.
Qed.
Lemma det_reindex (A : Mat) : det n (fun i j => A (p i) (p j)) = det n A.
Proof.
rewrite /det.
have -> : mx_of n n (fun i j => A (p i) (p j)) = (row_perm (perm pord_inj) (col_perm (perm pord_inj) (mx_of n n A)))%R.
  by apply/matrixP => i j; rewrite !mxE !permE.
rewrite row_permE col_permE !det_mulmx !det_perm odd_permV mulrC -mulrA -expr2 sqrr_sign mulr1 //.
Qed.
Lemma sum_reindex_perm (f : nat -> R) : sum n (fun i => f (p i)) = sum n f.
Proof.
rewrite !sum_big [RHS](reindex_inj (perm_inj (s:=perm pord_inj))).
by apply: eq_bigr => i _; rewrite permE.
Qed.
End Perm.

Open Scope R_scope.
Lemma prod_pos : forall n f, (forall i, (i < n)%coq_nat -> 0 < f i) -> 0 < prodR n f.
Proof.
elim=> [|n IH] f H /=; first by lra.
apply: Rmult_lt_0_compat; [apply: IH => i Hi; apply: H; lia|apply: H; lia].
Qed.
Lemma ln_prod : forall n f, (forall i, (i < n)%coq_nat -> 0 < f i) -> ln (prodR n f) = sum n (fun i => ln (f i)).
Proof.
elim=> [|n IH] f H /=; first by rewrite ln_1.
rewrite ln_mult.
- by rewrite IH // => i Hi; apply: H; lia.
- by apply: prod_pos => i Hi; apply: H; lia.
- apply: H; lia.
Qed.
Lemma det_chol n (A L : Mat) : is_chol n A L ->
  det n A = prodR n (fun i => L i i) * prodR n (fun i => L i i) /\ 0 < det n A /\ ln (det n A) = 2 * sum n (fun i => ln (L i i)).
Proof.
move=> [Hl [Hd HA]].
have E : det n A = prodR n (fun i => L i i) * prodR n (fun i => L i i).
  rewrite -(det_lower (n:=n) (L:=L)); last by move=> i j Hj ij; apply: Hl; lia.
  rewrite -{2}(det_tr' n L) -det_mm; apply: det_ext => i j Hi Hj; by rewrite HA.
have P : 0 < prodR n (fun i => L i i) by apply: prod_pos.
split=> //; split; first by rewrite E; apply: Rmult_lt_0_compat.
by rewrite E ln_mult // ln_prod //; ring.
Qed.
