(** Functions of two real parameters with continuous mixed derivative. *)
From Coq Require Import Reals Arith Lia Lra List FunctionalExtensionality.
From Coquelicot Require Import Coquelicot.
From Verif Require Import Base.Sums Base.Mat Proofs.Deriv.
Open Scope R_scope.

Definition cont2 (F : R -> R -> R) : Prop :=
  forall p : R * R, continuous (fun q : R * R => F (fst q) (snd q)) p.

Record jet2 (F F0 F1 F01 : R -> R -> R) : Prop := {
  j_c : cont2 F; j_c0 : cont2 F0; j_c1 : cont2 F1; j_c01 : cont2 F01;
  j_0 : forall s t, is_derive (fun s => F s t) s (F0 s t);
  j_1 : forall s t, is_derive (fun t => F s t) t (F1 s t);
  j_01 : forall s t, is_derive (fun t => F0 s t) t (F01 s t) }.

Lemma cont2_const : forall c, cont2 (fun _ _ => c).
Proof. intros c p. apply continuous_const. Qed.
Lemma cont2_plus : forall F G, cont2 F -> cont2 G -> cont2 (fun s t => F s t + G s t).
Proof. intros F G H1 H2 p. exact (continuous_plus _ _ p (H1 p) (H2 p)). Qed.
Lemma cont2_mult : forall F G, cont2 F -> cont2 G -> cont2 (fun s t => F s t * G s t).
Proof. intros F G H1 H2 p. exact (continuous_mult _ _ p (H1 p) (H2 p)). Qed.
Lemma cont2_comp : forall (g : R -> R) F, cont2 F -> (forall s t, continuous g (F s t)) ->
  cont2 (fun s t => g (F s t)).
Proof. intros g F H1 H2 [s t]. apply (continuous_comp (fun q : R * R => F (fst q) (snd q)) g); [apply H1|apply H2]. Qed.
Lemma cont2_fst : forall g : R -> R, (forall s, continuous g s) -> cont2 (fun s t => g s).
Proof. intros g H [s t]. apply (continuous_comp (@fst R R) g); [apply continuous_fst|apply H]. Qed.
Lemma cont2_snd : forall g : R -> R, (forall s, continuous g s) -> cont2 (fun s t => g t).
Proof. intros g H [s t]. apply (continuous_comp (@snd R R) g); [apply continuous_snd|apply H]. Qed.
Lemma cont2_ext : forall F G, (forall s t, F s t = G s t) -> cont2 F -> cont2 G.
Proof. intros F G E H p. apply (continuous_ext (fun q : R * R => F (fst q) (snd q))); auto. Qed.
Lemma cont2_sum : forall n (F : nat -> R -> R -> R), (forall a, (a < n)%nat -> cont2 (F a)) ->
  cont2 (fun s t => sum n (fun a => F a s t)).
Proof.
  induction n; intros F H; simpl.
  - apply cont2_const.
  - apply (cont2_plus (fun s t => sum n (fun a => F a s t)) (F n)); [apply IHn; intros; apply H; lia|apply H; lia].
Qed.

Lemma jet2_ext : forall F G F0 G0 F1 G1 F01 G01,
  (forall s t, F s t = G s t) -> (forall s t, F0 s t = G0 s t) -> (forall s t, F1 s t = G1 s t) ->
  (forall s t, F01 s t = G01 s t) -> jet2 F F0 F1 F01 -> jet2 G G0 G1 G01.
Proof.
  intros F G F0 G0 F1 G1 F01 G01 E E0 E1 E01.
  assert (F = G) by (extensionality s; extensionality t; auto).
  assert (F0 = G0) by (extensionality s; extensionality t; auto).
  assert (F1 = G1) by (extensionality s; extensionality t; auto).
  assert (F01 = G01) by (extensionality s; extensionality t; auto). now subst.
Qed.
Lemma jet2_const : forall c, jet2 (fun _ _ => c) (fun _ _ => 0) (fun _ _ => 0) (fun _ _ => 0).
Proof. intro c. constructor; try apply cont2_const; intros; apply @is_derive_const. Qed.
Lemma jet2_plus : forall F F0 F1 F01 G G0 G1 G01, jet2 F F0 F1 F01 -> jet2 G G0 G1 G01 ->
  jet2 (fun s t => F s t + G s t) (fun s t => F0 s t + G0 s t) (fun s t => F1 s t + G1 s t)
    (fun s t => F01 s t + G01 s t).
Proof.
  intros F F0 F1 F01 G G0 G1 G01 [] []. constructor; try (apply cont2_plus; assumption);
  intros; apply @is_derive_plus; auto.
Qed.
Lemma jet2_mult : forall F F0 F1 F01 G G0 G1 G01, jet2 F F0 F1 F01 -> jet2 G G0 G1 G01 ->
  jet2 (fun s t => F s t * G s t) (fun s t => F s t * G0 s t + F0 s t * G s t)
    (fun s t => F s t * G1 s t + F1 s t * G s t)
    (fun s t => F s t * G01 s t + F0 s t * G1 s t + F1 s t * G0 s t + F01 s t * G s t).
Proof.
  intros F F0 F1 F01 G G0 G1 G01 [] [].
  constructor; repeat apply cont2_plus; try (apply cont2_mult; assumption); intros s t.
  - eapply is_derive_eq; [apply (is_derive_mult (fun s => F s t) (fun s => G s t)); eauto using Rmult_comm|].
    unfold plus, mult; simpl; ring.
  - eapply is_derive_eq; [apply (is_derive_mult (fun t => F s t) (fun t => G s t)); eauto using Rmult_comm|].
    unfold plus, mult; simpl; ring.
  - eapply is_derive_eq.
    + apply (is_derive_plus (fun t => F s t * G0 s t) (fun t => F0 s t * G s t)).
      * apply (is_derive_mult (fun t => F s t) (fun t => G0 s t)); eauto using Rmult_comm.
      * apply (is_derive_mult (fun t => F0 s t) (fun t => G s t)); eauto using Rmult_comm.
    + unfold plus, mult; simpl; ring.
Qed.
Lemma jet2_sum : forall n (F F0 F1 F01 : nat -> R -> R -> R),
  (forall a, (a < n)%nat -> jet2 (F a) (F0 a) (F1 a) (F01 a)) ->
  jet2 (fun s t => sum n (fun a => F a s t)) (fun s t => sum n (fun a => F0 a s t))
    (fun s t => sum n (fun a => F1 a s t)) (fun s t => sum n (fun a => F01 a s t)).
Proof.
  induction n; intros F F0 F1 F01 H; simpl.
  - apply jet2_const.
  - apply (jet2_plus (fun s t => sum n (fun a => F a s t)) (fun s t => sum n (fun a => F0 a s t))
      (fun s t => sum n (fun a => F1 a s t)) (fun s t => sum n (fun a => F01 a s t))); auto.
Qed.
Lemma jet2_comp : forall (g g' g'' : R -> R) (P : R -> Prop) F F0 F1 F01,
  (forall u, P u -> is_derive g u (g' u)) -> (forall u, P u -> is_derive g' u (g'' u)) ->
  (forall u, P u -> continuous g'' u) -> (forall s t, P (F s t)) -> jet2 F F0 F1 F01 ->
  jet2 (fun s t => g (F s t)) (fun s t => g' (F s t) * F0 s t) (fun s t => g' (F s t) * F1 s t)
    (fun s t => g'' (F s t) * F1 s t * F0 s t + g' (F s t) * F01 s t).
Proof.
  intros g g' g'' P F F0 F1 F01 D D' C HP [].
  assert (C0 : cont2 (fun s t => g (F s t))).
  { apply cont2_comp; auto. intros s t. apply @ex_derive_continuous. eexists. apply D, HP. }
  assert (C1 : cont2 (fun s t => g' (F s t))).
  { apply cont2_comp; auto. intros s t. apply @ex_derive_continuous. eexists. apply D', HP. }
  assert (C2 : cont2 (fun s t => g'' (F s t))).
  { apply cont2_comp; auto. }
  constructor; auto using cont2_mult, cont2_plus; intros s t.
  - eapply is_derive_eq; [apply (is_derive_comp g (fun s => F s t)); eauto|].
    unfold scal; simpl; unfold mult; simpl; ring.
  - eapply is_derive_eq; [apply (is_derive_comp g (fun t => F s t)); eauto|].
    unfold scal; simpl; unfold mult; simpl; ring.
  - eapply is_derive_eq.
    + apply (is_derive_mult (fun t => g' (F s t)) (fun t => F0 s t)); eauto using Rmult_comm.
      apply (is_derive_comp g' (fun t => F s t)); eauto.
    + unfold plus, mult, scal; simpl; unfold mult; simpl; ring.
Qed.

(** the second mixed difference quotient tends to the mixed derivative *)
Definition hseq (n : nat) : R := / (INR n + 1).
Lemma hseq_pos : forall n, 0 < hseq n.
Proof. intro n. apply Rinv_0_lt_compat. pose proof (pos_INR n). lra. Qed.
Lemma hseq_lim : is_lim_seq hseq 0.
Proof.
  unfold hseq. replace (Finite 0) with (Rbar_inv p_infty) by reflexivity.
  apply is_lim_seq_inv; [|discriminate].
  apply (is_lim_seq_ext (fun n => INR (S n))); [intro n; now rewrite S_INR|].
  apply -> is_lim_seq_incr_1. apply is_lim_seq_INR.
Qed.

Lemma mvt0 : forall (f f' : R -> R) h, 0 < h -> (forall s, is_derive f s (f' s)) ->
  exists x, 0 <= x <= h /\ f h - f 0 = f' x * h.
Proof.
  intros f f' h Hh D. destruct (MVT_gen f 0 h f') as [c [Hc E]].
  - intros x _. apply D.
  - intros x _. apply derivable_continuous_pt. exists (f' x). apply is_derive_Reals, D.
  - rewrite Rmin_left, Rmax_right in Hc by lra. exists c. split; auto. rewrite E. ring.
Qed.
Lemma mixed_mvt : forall F F0 F1 F01 h, jet2 F F0 F1 F01 -> 0 < h ->
  exists x y, 0 <= x <= h /\ 0 <= y <= h /\ F h h - F h 0 - F 0 h + F 0 0 = F01 x y * h * h.
Proof.
  intros F F0 F1 F01 h [] Hh.
  destruct (mvt0 (fun s => F s h - F s 0) (fun s => F0 s h - F0 s 0) h Hh) as [x [Hx E]].
  { intro s. apply @is_derive_minus; auto. }
  destruct (mvt0 (fun t => F0 x t) (fun t => F01 x t) h Hh) as [y [Hy E']]; [intro t; auto|].
  exists x, y. split; [auto|split; [auto|]]. rewrite <- E', <- E. ring.
Qed.
Lemma mixed_lim : forall F F0 F1 F01, jet2 F F0 F1 F01 ->
  is_lim_seq (fun n => (F (hseq n) (hseq n) - F (hseq n) 0 - F 0 (hseq n) + F 0 0) / (hseq n * hseq n))
    (F01 0 0).
Proof.
  intros F F0 F1 F01 J. apply is_lim_seq_spec. intros eps.
  pose proof (j_c01 _ _ _ _ J (0, 0) (ball (F01 0 0) eps)) as C.
  destruct C as [d Hd]. { exists eps. intros z Hz. exact Hz. }
  pose proof hseq_lim as L. apply is_lim_seq_spec in L. destruct (L d) as [N HN].
  exists N. intros n Hn. specialize (HN n Hn). pose proof (hseq_pos n) as Hp.
  rewrite Rminus_0_r, Rabs_pos_eq in HN by lra.
  destruct (mixed_mvt F F0 F1 F01 (hseq n) J Hp) as [x [y [Hx [Hy ->]]]].
  replace (F01 x y * hseq n * hseq n / (hseq n * hseq n)) with (F01 x y) by (field; lra).
  apply (Hd (x, y)). split; simpl; change (Rabs (x - 0) < d) || change (Rabs (y - 0) < d);
  rewrite Rminus_0_r, Rabs_pos_eq; lra.
Qed.
Lemma diff_lim : forall f d, is_derive f 0 d ->
  is_lim_seq (fun n => (f (hseq n) - f 0) / hseq n) d.
Proof.
  intros f d D. apply is_derive_Reals in D. apply is_lim_seq_spec. intros eps.
  destruct (D eps (cond_pos eps)) as [del Hdel].
  pose proof hseq_lim as L. apply is_lim_seq_spec in L. destruct (L del) as [N HN].
  exists N. intros n Hn. specialize (HN n Hn). pose proof (hseq_pos n) as Hp.
  rewrite Rminus_0_r in HN.
  specialize (Hdel (hseq n)). rewrite Rplus_0_l in Hdel. apply Hdel; auto. lra.
Qed.
Lemma lim_sum : forall n (F : nat -> nat -> R) (l : nat -> R),
  (forall a, (a < n)%nat -> is_lim_seq (fun i => F i a) (l a)) ->
  is_lim_seq (fun i => sum n (F i)) (sum n l).
Proof.
  induction n; intros F l H; simpl.
  - apply is_lim_seq_const.
  - apply (is_lim_seq_plus' (fun i => sum n (F i)) (fun i => F i n)); auto.
Qed.
