(** rowfun_to_matvec is multiplication by the assembled matrix. *)
From Coq Require Import Reals Arith Lia Lra List.
From Verif Require Import Base.Sums Base.Mat Model.Arrays Model.Operations Proofs.Loops.
Import ListNotations.
Open Scope R_scope.

Lemma scan_S : forall {X Y} (g : nat -> X -> Y) xs c d e s, (s < length xs)%nat ->
  nth s (snd (scan (fun c x => (S c, g c x)) c xs)) e = g (c + s)%nat (nth s xs d).
Proof.
  intros X Y g xs. induction xs as [|x r IH]; intros c d e s Hs; simpl in *; [lia|].
  destruct s as [|s]; [now rewrite Nat.add_0_r|].
  rewrite (IH (S c) d e s) by lia. f_equal. lia.
Qed.
Lemma scan_const : forall {C X Y} (g : X -> Y) xs (c : C) d e s, (s < length xs)%nat ->
  nth s (snd (scan (fun c x => (c, g x)) c xs)) e = g (nth s xs d).
Proof.
  intros C X Y g xs. induction xs as [|x r IH]; intros c d e s Hs; simpl in *; [lia|].
  destruct s as [|s]; auto. apply IH. lia.
Qed.

(** the diagonal update adds v at columns start, ..., start+h-1 where start is clamped to N-h *)
Lemma urd_entry : forall h N row index v a c, (a < h)%nat -> (h <= N)%nat -> (c < N)%nat ->
  update_row_diagonal h N row index v a c = row a c + v * delta (Nat.min (h * index) (N - h) + a) c.
Proof.
  intros h N row index v a c Ha HN Hc. unfold update_row_diagonal, dus, dslice.
  rewrite Nat.sub_diag, Nat.min_0_l. set (st := Nat.min (h * index) (N - h)).
  rewrite (proj2 (Nat.leb_le 0 a)), (proj2 (Nat.ltb_lt a (0 + h))) by lia. simpl.
  assert (st + h <= N)%nat by (unfold st; lia).
  destruct (Nat.leb_spec st c), (Nat.ltb_spec c (st + h)); simpl.
  - rewrite Nat.sub_0_r. replace (st + (c - st))%nat with c by lia. f_equal. f_equal.
    unfold eye. destruct (Nat.eq_dec a (c - st)) as [E|E].
    + rewrite <- E. replace c with (st + a)%nat by lia. now rewrite !delta_same.
    + rewrite !delta_diff by lia. reflexivity.
  - rewrite delta_diff by lia. ring.
  - rewrite delta_diff by lia. ring.
  - rewrite delta_diff by lia. ring.
Qed.

Lemma matvec_entry : forall {X} h N (rowf : X -> Mat) xs upd v z d s a j,
  (s < length xs)%nat -> (a < h)%nat -> (h <= N)%nat \/ upd = false ->
  rowfun_to_matvec h N rowf xs upd v z (s * h + a)%nat j
  = sum N (fun c => (rowf (nth s xs d) a c
      + (if upd then v * delta (Nat.min (h * s) (N - h) + a) c else 0)) * z c j).
Proof.
  intros X h N rowf xs upd v z d s a j Hs Ha HN. unfold rowfun_to_matvec.
  destruct upd; unfold concat0; rewrite blk_div, blk_mod by auto.
  - rewrite (scan_S (fun carry x => mm N (update_row_diagonal h N (rowf x) carry v) z) xs O d) by auto.
    simpl. unfold mm. apply sum_ext. intros c Hc. f_equal. destruct HN as [HN|HN]; [|discriminate].
    now apply urd_entry.
  - rewrite (scan_const (fun x => mm N (rowf x) z) xs O d) by auto.
    unfold mm. apply sum_ext. intros. ring.
Qed.

Theorem matvec_assembled : forall {X} h N (rowf : X -> Mat) xs upd v z d (A : Mat),
  (upd = true -> (h * length xs <= N)%nat) ->
  (forall s a c, (s < length xs)%nat -> (a < h)%nat -> (c < N)%nat ->
     A (s * h + a)%nat c = rowf (nth s xs d) a c) ->
  forall r j, (r < length xs * h)%nat ->
  rowfun_to_matvec h N rowf xs upd v z r j = mm N (if upd then add_diag v A else A) z r j.
Proof.
  intros X h N rowf xs upd v z d A HN HA r j Hr.
  destruct (blk_eq (length xs) h r Hr) as [s [a [Hs [Ha ->]]]].
  rewrite (matvec_entry h N rowf xs upd v z d s a j Hs Ha).
  - unfold mm. apply sum_ext. intros c Hc. rewrite <- (HA s a c) by auto. destruct upd; [|ring].
    unfold add_diag. rewrite Nat.min_l.
    + replace (h * s + a)%nat with (s * h + a)%nat by lia. reflexivity.
    + specialize (HN eq_refl). nia.
  - destruct upd; [left|now right]. specialize (HN eq_refl). nia.
Qed.
