(** One lengthscale per feature. *)
From Coq Require Import Reals Lra Lia Arith List FunctionalExtensionality.
From Coquelicot Require Import Coquelicot.
From Verif Require Import Base.Sums Base.Mat Base.PSD Model.Arrays Model.Distances Model.Kernelizers Model.Kernels Model.PyDict
  Model.MaternJvp Model.Lengthscales Spec.Partial Spec.KernelSpec Spec.JvpSpec Spec.LengthscaleSpec.
From Verif Require Import Proofs.Loops Proofs.Deriv Proofs.Contraction Proofs.KernelDerivs Proofs.KernelSym Proofs.KernelPSD Proofs.KernelMisc
  Proofs.KernelPropLemmas Proofs.GPRFacts.
Open Scope R_scope.

Lemma sqd_ext : forall na A A' B B' s t, (forall a, (a < na)%nat -> A s a = A' s a) -> (forall a, (a < na)%nat -> B t a = B' t a) ->
  squared_distances na A B s t = squared_distances na A' B' s t.
Proof.
  intros na A A' B B' s t HA HB. unfold squared_distances. f_equal. f_equal; [f_equal; [|f_equal]|]; apply sum_ext; intros a Ha;
    now rewrite ?HA, ?HB.
Qed.
Lemma vd2_unit : forall l ds X1 X2 X1' X2' s t, rescaled l ds X1 X1' -> rescaled l ds X2 X2' ->
  vd2 l ds X1 X2 s t = squared_distances (length ds) (scaled 1 (gatherM ds X1')) (scaled 1 (gatherM ds X2')) s t.
Proof.
  intros l ds X1 X2 X1' X2' s t H1 H2. apply sqd_ext; intros a Ha; unfold vscaled, scaled, gatherM, gather.
  - rewrite (H1 s a Ha). unfold Rdiv. now rewrite Rinv_1, Rmult_1_r.
  - rewrite (H2 t a Ha). unfold Rdiv. now rewrite Rinv_1, Rmult_1_r.
Qed.
Lemma vk_unit : forall nf c l ds X1 X2 X1' X2' s t, rescaled l ds X1 X1' -> rescaled l ds X2 X2' ->
  vk c l ds X1 X2 s t = kk nf (KAtom (Some ds) (unit_atom c)) X1' X2' s t.
Proof.
  intros nf c l ds X1 X2 X1' X2' s t H1 H2. unfold vk. rewrite (vd2_unit l ds X1 X2 X1' X2' s t H1 H2).
  destruct c; reflexivity.
Qed.
Lemma vk_flat : forall c l ds X1 X2 s t,
  vk c l ds X1 X2 s t = kk (length ds) (KAtom None (unit_atom c)) (vscaled l (gatherM ds X1)) (vscaled l (gatherM ds X2)) s t.
Proof.
  intros. unfold vk.
  replace (vd2 l ds X1 X2 s t) with (squared_distances (length (seq 0 (length ds))) (scaled 1 (gatherM (seq 0 (length ds)) (vscaled l (gatherM ds X1))))
    (scaled 1 (gatherM (seq 0 (length ds)) (vscaled l (gatherM ds X2)))) s t).
  - destruct c; reflexivity.
  - rewrite seq_length. apply sqd_ext; intros a Ha; unfold scaled, gatherM, gather; rewrite seq_nth by auto; simpl; field.
Qed.
Lemma vk_gram : forall c l ds n X, sym n (vk c l ds X X) /\ psd n (vk c l ds X X).
Proof.
  intros c l ds n X. split.
  - intros i j _ _. rewrite !vk_flat. apply kk_sym.
  - intro v. pose proof (gram_psd_kk (length ds) n (vscaled l (gatherM ds X)) (KAtom None (unit_atom c))) as G.
    assert (P : all_atoms (fun _ a => psd_atom a) (KAtom None (unit_atom c))) by (destruct c; exact I).
    specialize (G P v). unfold qf, bf.
    replace (sum n (fun i => sum n (fun j => v i * vk c l ds X X i j * v j))) with
      (sum n (fun i => sum n (fun j => v i * kk (length ds) (KAtom None (unit_atom c)) (vscaled l (gatherM ds X)) (vscaled l (gatherM ds X)) i j * v j))).
    + exact G.
    + apply sum_ext; intros i _. apply sum_ext; intros j _. now rewrite vk_flat.
Qed.
Lemma vk_equal : forall nf c l0 l ds X1 X2 s t, (forall a, (a < length ds)%nat -> l a = l0) ->
  vk c l ds X1 X2 s t = kk nf (KAtom (Some ds) (scalar_atom c l0)) X1 X2 s t.
Proof.
  intros nf c l0 l ds X1 X2 s t H. unfold vk.
  replace (vd2 l ds X1 X2 s t) with (squared_distances (length ds) (scaled l0 (gatherM ds X1)) (scaled l0 (gatherM ds X2)) s t).
  - destruct c; reflexivity.
  - apply sqd_ext; intros a Ha; unfold vscaled, scaled; now rewrite (H a Ha).
Qed.

(** ** the rescaled samples *)
Definition resc (l : Vec) (ds : list nat) (x : Vec) : Vec :=
  fun f => match find_ix f ds with Some a => x f / l a | None => x f end.
Lemma find_nth : forall ds a, NoDup ds -> (a < length ds)%nat -> find_ix (nth a ds O) ds = Some a.
Proof.
  intros ds a N Ha. destruct (find_ix (nth a ds O) ds) as [b|] eqn:E.
  - destruct (find_ix_spec _ _ _ E) as [Hb Eb]. f_equal. now apply (proj1 (NoDup_nth ds O) N).
  - exfalso. now apply (find_ix_none _ _ E a Ha).
Qed.
Lemma resc_nth : forall l ds x a, NoDup ds -> (a < length ds)%nat -> resc l ds x (nth a ds O) = x (nth a ds O) / l a.
Proof. intros. unfold resc. now rewrite find_nth. Qed.
Lemma resc_ok : forall l ds X, NoDup ds -> rescaled l ds X (fun s => resc l ds (X s)).
Proof. intros l ds X N s a Ha. now apply resc_nth. Qed.
Lemma resc_upd : forall l ds x a t, NoDup ds -> (a < length ds)%nat ->
  resc l ds (upd x (nth a ds O) t) = upd (resc l ds x) (nth a ds O) (t / l a).
Proof.
  intros l ds x a t N Ha. extensionality f. unfold resc, upd at 1. destruct (Nat.eqb f (nth a ds O)) eqn:E.
  - apply Nat.eqb_eq in E. subst f. rewrite find_nth by auto. unfold upd. rewrite Nat.eqb_refl. reflexivity.
  - unfold upd. rewrite E. reflexivity.
Qed.
Lemma vk_at_unit : forall nf c l ds x y, NoDup ds ->
  vk_at c l ds x y = kernel_at nf (KAtom (Some ds) (unit_atom c)) (resc l ds x) (resc l ds y).
Proof.
  intros nf c l ds x y N. unfold vk_at, kernel_at. apply vk_unit.
  - exact (resc_ok l ds (fun _ => x) N).
  - exact (resc_ok l ds (fun _ => y) N).
Qed.
Lemma vk_vk_at : forall c l ds X1 X2 s t, vk c l ds X1 X2 s t = vk_at c l ds (X1 s) (X2 t).
Proof. reflexivity. Qed.

Lemma derive_scale : forall (g : R -> R) (r x D : R), r <> 0 -> is_derive g (x / r) D -> is_derive (fun t => g (t / r)) x (D / r).
Proof.
  intros g r x D Hr H.
  assert (E : is_derive (fun t => t / r) x (1 / r)) by (auto_derive; [auto|field; auto]).
  pose proof (is_derive_comp g (fun t => t / r) x D (1 / r) H E) as C.
  replace (D / r) with (scal (1 / r) D); [exact C|]. unfold scal; simpl; unfold mult; simpl. field. auto.
Qed.
Lemma vpartial0 : forall nf c l ds x y a D, NoDup ds -> (a < length ds)%nat -> l a <> 0 ->
  partial0 (kernel_at nf (KAtom (Some ds) (unit_atom c))) (resc l ds x) (resc l ds y) (nth a ds O) D ->
  partial0 (vk_at c l ds) x y (nth a ds O) (D / l a).
Proof.
  intros nf c l ds x y a D N Ha Hl H. unfold partial0 in *. rewrite resc_nth in H by auto.
  eapply is_derive_ext; [|exact (derive_scale _ (l a) (x (nth a ds O)) D Hl H)].
  intro t. cbv beta. rewrite (vk_at_unit nf) by auto. now rewrite resc_upd.
Qed.
Lemma vpartial1 : forall nf c l ds x y a D, NoDup ds -> (a < length ds)%nat -> l a <> 0 ->
  partial1 (kernel_at nf (KAtom (Some ds) (unit_atom c))) (resc l ds x) (resc l ds y) (nth a ds O) D ->
  partial1 (vk_at c l ds) x y (nth a ds O) (D / l a).
Proof.
  intros nf c l ds x y a D N Ha Hl H. unfold partial1 in *. rewrite resc_nth in H by auto.
  eapply is_derive_ext; [|exact (derive_scale _ (l a) (y (nth a ds O)) D Hl H)].
  intro t. cbv beta. rewrite (vk_at_unit nf) by auto. now rewrite resc_upd.
Qed.
Lemma vpartial01 : forall nf c l ds x y a b D, NoDup ds -> (a < length ds)%nat -> (b < length ds)%nat -> l a <> 0 -> l b <> 0 ->
  partial01 (kernel_at nf (KAtom (Some ds) (unit_atom c))) (resc l ds x) (resc l ds y) (nth a ds O) (nth b ds O) D ->
  partial01 (vk_at c l ds) x y (nth a ds O) (nth b ds O) (D / (l a * l b)).
Proof.
  intros nf c l ds x y a b D N Ha Hb La Lb [g [G1 G2]]. rewrite resc_nth in G1, G2 by auto.
  exists (fun t => g (t / l b) / l a). split.
  - assert (C : continuous (fun t => t / l b) (y (nth b ds O))).
    { apply (ex_derive_continuous (fun t => t / l b)). auto_derive. auto. }
    pose proof (C _ G1) as F. revert F. unfold filtermap. apply filter_imp. intros t Ht.
    apply (vpartial0 nf); auto. rewrite resc_upd by auto. exact Ht.
  - pose proof (derive_scale g (l b) (y (nth b ds O)) D Lb G2) as E.
    pose proof (is_derive_scal _ _ (/ l a) _ E) as E2.
    replace (D / (l a * l b)) with (/ l a * (D / l b)) by (field; auto).
    eapply is_derive_ext; [|exact E2]. intro t. simpl. unfold Rdiv. ring.
Qed.

(** ** entries *)
Lemma times_row_use : forall ds ns2 t q w A, (t < ns2)%nat -> meets ds ns2 t q ->
  exists A', times_row (length ds) ns2 w A = Ok (ns2, A') /\ forall s, A' s t = w q * A s t.
Proof.
  intros ds ns2 t q w A Ht M. unfold times_row. destruct (Nat.eqb_spec (length ds) ns2) as [E|E].
  - eexists. split; [reflexivity|]. intro s. destruct M as [[_ ->]|[E1 ->]]; [reflexivity|]. replace t with O by lia. reflexivity.
  - destruct M as [[E1 _]|[E1 ->]]; [contradiction|]. rewrite E1, Nat.eqb_refl. eexists. split; [reflexivity|]. reflexivity.
Qed.
Lemma meets_lt : forall ds ns2 t q, (t < ns2)%nat -> meets ds ns2 t q -> (q < length ds)%nat.
Proof. intros ds ns2 t q H [[E ->]|[E ->]]; lia. Qed.
Lemma times_row_bad : forall (na ns2 : nat) w A, na <> 1%nat -> na <> ns2 ->
  (exists e, times_row na ns2 w A = Err e) \/ (exists A', times_row na ns2 w A = Ok (na, A')).
Proof.
  intros na ns2 w A H1 H2. unfold times_row. apply Nat.eqb_neq in H1, H2. rewrite H1, H2.
  destruct (Nat.eqb ns2 1); [right|left]; eexists; reflexivity.
Qed.
Lemma delta_nth : forall (ds : list nat) a b, NoDup ds -> (a < length ds)%nat -> (b < length ds)%nat ->
  delta (nth a ds O) (nth b ds O) = delta a b.
Proof.
  intros ds a b N Ha Hb. unfold delta. destruct (Nat.eqb_spec a b) as [->|E]; [now rewrite Nat.eqb_refl|].
  destruct (Nat.eqb_spec (nth a ds O) (nth b ds O)) as [F|F]; auto. exfalso. apply E. now apply (proj1 (NoDup_nth ds O) N).
Qed.
Lemma diag_sum : forall (ds : list nat) a b r, NoDup ds -> (a < length ds)%nat -> (b < length ds)%nat ->
  sum (length ds) (fun c => delta (nth c ds O) (nth a ds O) * delta (nth c ds O) (nth b ds O) * r) = delta a b * r.
Proof.
  intros ds a b r N Ha Hb. rewrite (sum_ext _ _ (fun c => delta c a * (delta c b * r))).
  - now rewrite (sum_delta_l' _ a (fun c => delta c b * r)).
  - intros c Hc. rewrite !delta_nth by auto. ring.
Qed.
Lemma zdiff_resc : forall l ds X1 X2 s t a, NoDup ds -> (a < length ds)%nat ->
  zdiff 1 ds (fun s => resc l ds (X1 s)) (fun s => resc l ds (X2 s)) s t a = vdiff l ds X1 X2 s t a.
Proof. intros l ds X1 X2 s t a N Ha. unfold zdiff, vdiff, gatherM, gather. rewrite !resc_nth by auto. unfold Rdiv. rewrite Rinv_1. ring. Qed.
Lemma vd2_resc : forall l ds X1 X2 s t, NoDup ds ->
  squared_distances (length ds) (scaled 1 (gatherM ds (fun s => resc l ds (X1 s)))) (scaled 1 (gatherM ds (fun s => resc l ds (X2 s)))) s t = vd2 l ds X1 X2 s t.
Proof. intros. symmetry. apply vd2_unit; now apply resc_ok. Qed.
Lemma ds_ok_ad : forall nf ds, ds_ok nf ds -> ad_ok nf (Some ds).
Proof. intros nf ds H. exact H. Qed.
Lemma ds_ok_nth : forall nf ds a, ds_ok nf ds -> (a < length ds)%nat -> (nth a ds O < nf)%nat.
Proof. intros nf ds a [_ H] Ha. apply H. now apply nth_In. Qed.

Lemma v_se_second : forall nf ns2 ds l X1 X2 s t q a b, ds_ok nf ds -> ls_nz ds l -> (t < ns2)%nat -> meets ds ns2 t q ->
  (a < length ds)%nat -> (b < length ds)%nat ->
  exists M D, v_se_d01k l ds nf ns2 X1 X2 = Ok M /\
    partial01 (vk_at VSE l ds) (X1 s) (X2 t) (nth a ds O) (nth b ds O) D /\
    M (s * nf + nth a ds O)%nat (t * nf + nth b ds O)%nat = D + delta a b * vk VSE l ds X1 X2 s t * (2 / l q ^ 2 - 2 / l a ^ 2).
Proof.
  intros nf ns2 ds l X1 X2 s t q a b K Z Ht Mt Ha Hb. pose proof (proj1 K) as N.
  pose proof (ds_ok_nth nf ds a K Ha) as Fa. pose proof (ds_ok_nth nf ds b K Hb) as Fb.
  pose proof (meets_lt _ _ _ _ Ht Mt) as Hq.
  destruct (times_row_use ds ns2 t q (fun a => 2 / l a ^ 2) (fun s t => exp (- vd2 l ds X1 X2 s t)) Ht Mt) as [A' [E1 E2]].
  unfold v_se_d01k. rewrite E1. cbn [bind fst snd]. rewrite Nat.eqb_refl. eexists. eexists. split; [reflexivity|]. split.
  - apply (vpartial01 nf); auto. apply (d01k_se nf (Some ds) 1 (fun s => resc l ds (X1 s)) (fun s => resc l ds (X2 s)) s (nth a ds 0%nat) t (nth b ds 0%nat)); auto; exact R1_neq_R0.
  - unfold rs_4. rewrite !blk_div, !blk_mod by auto. rewrite !scat_nth by auto. rewrite diag_sum by auto. rewrite E2.
    cbn [d01k atom_d01k dims unit_atom]. unfold se_d01k, rs_4. rewrite !blk_div, !blk_mod by auto. rewrite !scat_nth by auto.
    rewrite diag_sum by auto. unfold se_ed2, se_fast. rewrite vd2_resc by auto. rewrite !zdiff_resc by auto. unfold vk.
    pose proof (Z a Ha) as La. pose proof (Z b Hb) as Lb. pose proof (Z q Hq) as Lq.
    unfold delta. destruct (Nat.eqb_spec a b) as [->|E]; field; auto.
Qed.
Lemma v_m52_first : forall nf ns2 ds l X1 X2 s t q a, ds_ok nf ds -> ls_nz ds l -> (t < ns2)%nat -> meets ds ns2 t q ->
  (a < length ds)%nat ->
  exists M D, v_m52_d0k l ds nf ns2 X1 X2 = Ok M /\
    partial0 (vk_at VM52 l ds) (X1 s) (X2 t) (nth a ds O) D /\ M (s * nf + nth a ds O)%nat t = D * (l a / l q) /\
    (vdiff l ds X1 X2 s t a <> 0 -> D <> 0).
Proof.
  intros nf ns2 ds l X1 X2 s t q a K Z Ht Mt Ha. pose proof (proj1 K) as N.
  pose proof (ds_ok_nth nf ds a K Ha) as Fa. pose proof (meets_lt _ _ _ _ Ht Mt) as Hq.
  destruct (times_row_use ds ns2 t q (fun a => - (sqrt 5 / (3 * l a))) (fun s t => 1 + vd l ds X1 X2 s t) Ht Mt) as [A' [E1 E2]].
  unfold v_m52_d0k. rewrite E1. cbn [bind fst snd]. rewrite Nat.eqb_refl. eexists. eexists. split; [reflexivity|]. split; [|split].
  - apply (vpartial0 nf); auto. apply (d0k_partial nf (KAtom (Some ds) (AM52 1)) (fun s => resc l ds (X1 s)) (fun s => resc l ds (X2 s)) s (nth a ds 0%nat) t); auto; cbn; auto; exact R1_neq_R0.
  - unfold rs_row. rewrite !blk_div, !blk_mod by auto. rewrite !scat_nth by auto. rewrite E2.
    cbn [d0k atom_d0k dims unit_atom]. unfold m52_d0k, rs_row. rewrite !blk_div, !blk_mod by auto. rewrite !scat_nth by auto.
    unfold m52_d, vd. rewrite vd2_resc by auto. rewrite !zdiff_resc by auto.
    pose proof (Z a Ha) as La. pose proof (Z q Hq) as Lq. field; auto.
  - intro V. cbn [d0k atom_d0k dims unit_atom]. unfold m52_d0k, rs_row. rewrite !blk_div, !blk_mod by auto. rewrite !scat_nth by auto.
    rewrite !zdiff_resc by auto. pose proof (Z a Ha) as La.
    assert (S5 : sqrt 5 <> 0) by (apply Rgt_not_eq; apply sqrt_lt_R0; lra).
    assert (P : 1 + m52_d 1 ds (fun s => resc l ds (X1 s)) (fun s => resc l ds (X2 s)) s t <> 0).
    { apply Rgt_not_eq. unfold m52_d. pose proof (sqrt_pos 5) as Q1. pose proof (sqrt_pos (Rmax (squared_distances (length ds)
        (scaled 1 (gatherM ds (fun s => resc l ds (X1 s)))) (scaled 1 (gatherM ds (fun s => resc l ds (X2 s)))) s t) tiny36)) as Q2.
      pose proof (Rmult_le_pos _ _ Q1 Q2). lra. }
    assert (E : exp (- m52_d 1 ds (fun s => resc l ds (X1 s)) (fun s => resc l ds (X2 s)) s t) <> 0) by (apply Rgt_not_eq, exp_pos).
    unfold Rdiv. apply Rmult_integral_contrapositive_currified; [|now apply Rinv_neq_0_compat].
    apply Rmult_integral_contrapositive_currified; [|now apply Rmult_integral_contrapositive_currified].
    apply Rmult_integral_contrapositive_currified; [|exact E]. apply Rmult_integral_contrapositive_currified; [|exact P].
    apply Ropp_neq_0_compat, Rmult_integral_contrapositive_currified; [exact S5|]. apply Rinv_neq_0_compat. lra.
Qed.
Lemma v_m52_first1 : forall nf ds l X1 X2 s t a, ds_ok nf ds -> ls_nz ds l -> (a < length ds)%nat ->
  partial1 (vk_at VM52 l ds) (X1 s) (X2 t) (nth a ds O) (v_m52_d1k l ds nf X1 X2 s (t * nf + nth a ds O)%nat).
Proof.
  intros nf ds l X1 X2 s t a K Z Ha. pose proof (proj1 K) as N. pose proof (ds_ok_nth nf ds a K Ha) as Fa. pose proof (Z a Ha) as La.
  assert (E : v_m52_d1k l ds nf X1 X2 s (t * nf + nth a ds 0)%nat
    = d1k nf (KAtom (Some ds) (AM52 1)) (fun s => resc l ds (X1 s)) (fun s => resc l ds (X2 s)) s (t * nf + nth a ds 0)%nat / l a).
  { cbn [d1k atom_d1k dims]. unfold m52_d1k, v_m52_d1k, rs_col. rewrite !blk_div, !blk_mod by auto. rewrite !scat_nth by auto.
    unfold m52_d, vd. rewrite vd2_resc by auto. rewrite !zdiff_resc by auto. field; auto. }
  rewrite E. apply (vpartial1 nf); auto.
  apply (d1k_partial nf (KAtom (Some ds) (AM52 1)) (fun s => resc l ds (X1 s)) (fun s => resc l ds (X2 s)) s (nth a ds 0%nat) t); auto; cbn; auto; exact R1_neq_R0.
Qed.
Lemma v_m52_second : forall nf ns2 ds l X1 X2 s t q a b, ds_ok nf ds -> ls_nz ds l -> (t < ns2)%nat -> meets ds ns2 t q ->
  (a < length ds)%nat -> (b < length ds)%nat ->
  exists M D, v_m52_d01k l ds nf ns2 X1 X2 = Ok M /\
    partial01 (vk_at VM52 l ds) (X1 s) (X2 t) (nth a ds O) (nth b ds O) D /\
    M (s * nf + nth a ds O)%nat (t * nf + nth b ds O)%nat = D * (l a * l b / l q ^ 2).
Proof.
  intros nf ns2 ds l X1 X2 s t q a b K Z Ht Mt Ha Hb. pose proof (proj1 K) as N.
  pose proof (ds_ok_nth nf ds a K Ha) as Fa. pose proof (ds_ok_nth nf ds b K Hb) as Fb.
  pose proof (meets_lt _ _ _ _ Ht Mt) as Hq.
  destruct (times_row_use ds ns2 t q (fun a => 5 / (3 * l a ^ 2)) (fun s t => exp (- vd l ds X1 X2 s t)) Ht Mt) as [A' [E1 E2]].
  unfold v_m52_d01k. rewrite E1. cbn [bind fst snd]. rewrite Nat.eqb_refl. eexists. eexists. split; [reflexivity|]. split.
  - apply (vpartial01 nf); auto. apply (d01k_partial nf (KAtom (Some ds) (AM52 1)) (fun s => resc l ds (X1 s)) (fun s => resc l ds (X2 s)) s (nth a ds 0%nat) t (nth b ds 0%nat)); auto; cbn; auto; exact R1_neq_R0.
  - unfold rs_4. rewrite !blk_div, !blk_mod by auto. rewrite !scat_nth by auto. rewrite diag_sum by auto. rewrite E2.
    cbn [d01k atom_d01k dims unit_atom]. unfold m52_d01k, rs_4. rewrite !blk_div, !blk_mod by auto. rewrite !scat_nth by auto.
    rewrite diag_sum by auto. unfold m52_d, vd. rewrite vd2_resc by auto. rewrite !zdiff_resc by auto.
    pose proof (Z a Ha) as La. pose proof (Z b Hb) as Lb. pose proof (Z q Hq) as Lq. field; auto.
Qed.

(** ** shapes that do not fit *)
Lemma v_raises : forall nf nv1 nv2 ns2 ds l X1 X2 J1 J2, length ds <> 1%nat -> length ds <> ns2 ->
  (exists e, v_se_d01k l ds nf ns2 X1 X2 = Err e) /\ (exists e, v_se_d01kj l ds nv1 nv2 ns2 X1 X2 J1 J2 = Err e) /\
  (exists e, v_m52_d0k l ds nf ns2 X1 X2 = Err e) /\ (exists e, v_m52_d01k l ds nf ns2 X1 X2 = Err e) /\
  (exists e, v_m52_d01kj l ds nv1 nv2 ns2 X1 X2 J1 J2 = Err e).
Proof.
  intros nf nv1 nv2 ns2 ds l X1 X2 J1 J2 H1 H2. pose proof (proj2 (Nat.eqb_neq _ _) H2) as B.
  unfold v_se_d01k, v_se_d01kj, v_m52_d0k, v_m52_d01k, v_m52_d01kj.
  repeat match goal with |- _ /\ _ => split end;
    (match goal with |- context [times_row (length ds) ns2 ?w ?A] => destruct (times_row_bad (length ds) ns2 w A H1 H2) as [[e E]|[A' E]] end; rewrite E; cbn [bind fst]; [eexists; reflexivity|rewrite B; eexists; reflexivity]).
Qed.

(** ** contraction with jacobians *)
Lemma sum_sq : forall n (p q : nat -> R) (c : R), c * sum n p * sum n q = sum n (fun a => sum n (fun b => c * p a * q b)).
Proof.
  intros n p q c. rewrite Rmult_assoc, sum_mult, <- sum_scal_l. apply sum_ext; intros a _. rewrite <- sum_scal_l. apply sum_ext; intros b _. ring.
Qed.
Lemma contracted : forall (ds : list nat) (c r : R) (p j1 j2 : nat -> R),
  c * sum (length ds) (fun a => p a * j1 a) * sum (length ds) (fun a => p a * j2 a) + sum (length ds) (fun a => j1 a * r * j2 a)
  = sum (length ds) (fun a => sum (length ds) (fun b => j1 a * (c * p a * p b + delta a b * r) * j2 b)).
Proof.
  intros ds c r p j1 j2. rewrite sum_sq.
  rewrite <- sum_plus. apply sum_ext; intros a Ha.
  rewrite <- (sum_delta_l (length ds) a (fun b => j1 a * r * j2 b) Ha). rewrite <- sum_plus. apply sum_ext; intros b Hb. ring.
Qed.
Lemma v_se_contracted : forall nf nv1 nv2 ns2 ds l X1 X2 J1 J2 M, ds_ok nf ds -> v_se_d01k l ds nf ns2 X1 X2 = Ok M ->
  exists M', v_se_d01kj l ds nv1 nv2 ns2 X1 X2 J1 J2 = Ok M' /\ forall s v t u, (v < nv1)%nat -> (u < nv2)%nat ->
    M' (s * nv1 + v)%nat (t * nv2 + u)%nat = sum (length ds) (fun a => sum (length ds) (fun b =>
      J1 s (nth a ds O) v * M (s * nf + nth a ds O)%nat (t * nf + nth b ds O)%nat * J2 t (nth b ds O) u)).
Proof.
  intros nf nv1 nv2 ns2 ds l X1 X2 J1 J2 M K H. pose proof (proj1 K) as N. unfold v_se_d01k in H. unfold v_se_d01kj.
  destruct (times_row (length ds) ns2 _ _) as [wd|e] eqn:E; cbn [bind] in *; [|discriminate].
  destruct (Nat.eqb (fst wd) ns2) eqn:F; [|discriminate]. injection H as <-. eexists. split; [reflexivity|].
  intros s v t u Hv Hu. unfold rs_4. rewrite !blk_div, !blk_mod by auto. rewrite contracted.
  apply sum_ext; intros a Ha. apply sum_ext; intros b Hb. pose proof (ds_ok_nth nf ds a K Ha). pose proof (ds_ok_nth nf ds b K Hb).
  rewrite !blk_div, !blk_mod by auto. rewrite !scat_nth by auto. rewrite diag_sum by auto. reflexivity.
Qed.
Lemma v_m52_contracted : forall nf nv1 nv2 ns2 ds l X1 X2 J1 J2 M, ds_ok nf ds -> v_m52_d01k l ds nf ns2 X1 X2 = Ok M ->
  exists M', v_m52_d01kj l ds nv1 nv2 ns2 X1 X2 J1 J2 = Ok M' /\ forall s v t u, (v < nv1)%nat -> (u < nv2)%nat ->
    M' (s * nv1 + v)%nat (t * nv2 + u)%nat = sum (length ds) (fun a => sum (length ds) (fun b =>
      J1 s (nth a ds O) v * M (s * nf + nth a ds O)%nat (t * nf + nth b ds O)%nat * J2 t (nth b ds O) u)).
Proof.
  intros nf nv1 nv2 ns2 ds l X1 X2 J1 J2 M K H. pose proof (proj1 K) as N. unfold v_m52_d01k in H. unfold v_m52_d01kj.
  destruct (times_row (length ds) ns2 _ _) as [wd|e] eqn:E; cbn [bind] in *; [|discriminate].
  destruct (Nat.eqb (fst wd) ns2) eqn:F; [|discriminate]. injection H as <-. eexists. split; [reflexivity|].
  intros s v t u Hv Hu. unfold rs_4. rewrite !blk_div, !blk_mod by auto. rewrite contracted.
  apply sum_ext; intros a Ha. apply sum_ext; intros b Hb. pose proof (ds_ok_nth nf ds a K Ha). pose proof (ds_ok_nth nf ds b K Hb).
  rewrite !blk_div, !blk_mod by auto. rewrite !scat_nth by auto. rewrite diag_sum by auto. reflexivity.
Qed.

(** ** the rules for the tangents of the samples *)
Lemma v_m32_rule : forall l na x1 x2 dx1 dx2, (forall a, (a < na)%nat -> l a <> 0) ->
  / 10 ^ 36 < 3 * sum na (fun a => (x1 a / l a - x2 a / l a) ^ 2) ->
  is_derive (fun t => m32_base_vec l na (fun a => x1 a + t * dx1 a) (fun a => x2 a + t * dx2 a)) 0
    (sum na (fun a => v_m32_t0 l na x1 x2 a * dx1 a) + sum na (fun a => - v_m32_t0 l na x1 x2 a * dx2 a)).
Proof.
  intros l na x1 x2 dx1 dx2 Z P.
  assert (P1 : / 10 ^ 36 < 3 * sqdist na 1 (fun a => x1 a / l a) (fun a => x2 a / l a)).
  { eapply Rlt_le_trans; [exact P|]. apply Req_le. f_equal. apply sum_ext; intros a _. unfold Rdiv. rewrite Rinv_1. ring. }
  pose proof (jvp32 na (fun a => x1 a / l a) (fun a => x2 a / l a) (fun a => dx1 a / l a) (fun a => dx2 a / l a) 1 0 R1_neq_R0 P1) as D.
  unfold directional in D.
  assert (DD : forall a, m32_t0 1 na (fun b => x1 b / l b) (fun b => x2 b / l b) a / l a = v_m32_t0 l na x1 x2 a).
  { intro a. unfold m32_t0, v_m32_t0. rewrite (sum_ext na (fun b => (sqrt 3 * (x1 b / l b / 1 - x2 b / l b / 1)) ^ 2) (fun b => (sqrt 3 * (x1 b / l b - x2 b / l b)) ^ 2))
      by (intros; unfold Rdiv; rewrite Rinv_1; ring). unfold Rdiv. rewrite Rinv_1. ring. }
  replace (sum na (fun a => v_m32_t0 l na x1 x2 a * dx1 a) + sum na (fun a => - v_m32_t0 l na x1 x2 a * dx2 a))
    with (m32_jvp 1 na (fun a => x1 a / l a) (fun a => x2 a / l a) 0 (fun a => dx1 a / l a) (fun a => dx2 a / l a)).
  - eapply is_derive_ext; [|exact D]. intro t. unfold m32_base, m32_base_vec. cbv beta.
    replace (sum na (fun a => ((x1 a / l a + t * (dx1 a / l a)) / (1 + t * 0) - (x2 a / l a + t * (dx2 a / l a)) / (1 + t * 0)) ^ 2))
      with (sum na (fun a => ((x1 a + t * dx1 a) / l a - (x2 a + t * dx2 a) / l a) ^ 2)); [reflexivity|].
    apply sum_ext; intros a Ha. pose proof (Z a Ha). field. assumption.
  - unfold m32_jvp. rewrite Rmult_0_r, Rplus_0_r. f_equal; apply sum_ext; intros a _; rewrite <- DD; unfold m32_t1, Rdiv; ring.
Qed.
Lemma v_m52_rule : forall l na x1 x2 dx1 dx2, (forall a, (a < na)%nat -> l a <> 0) ->
  / 10 ^ 36 < 5 * sum na (fun a => (x1 a / l a - x2 a / l a) ^ 2) ->
  is_derive (fun t => m52_base_vec l na (fun a => x1 a + t * dx1 a) (fun a => x2 a + t * dx2 a)) 0
    (sum na (fun a => v_m52_t0 l na x1 x2 a * dx1 a) + sum na (fun a => - v_m52_t0 l na x1 x2 a * dx2 a)).
Proof.
  intros l na x1 x2 dx1 dx2 Z P.
  assert (P1 : / 10 ^ 36 < 5 * sqdist na 1 (fun a => x1 a / l a) (fun a => x2 a / l a)).
  { eapply Rlt_le_trans; [exact P|]. apply Req_le. f_equal. apply sum_ext; intros a _. unfold Rdiv. rewrite Rinv_1. ring. }
  pose proof (jvp52 na (fun a => x1 a / l a) (fun a => x2 a / l a) (fun a => dx1 a / l a) (fun a => dx2 a / l a) 1 0 R1_neq_R0 P1) as D.
  unfold directional in D.
  assert (DD : forall a, (a < na)%nat -> m52_t0 1 na (fun b => x1 b / l b) (fun b => x2 b / l b) a / l a = v_m52_t0 l na x1 x2 a).
  { intros a Ha. unfold m52_t0, v_m52_t0. rewrite (sum_ext na (fun b => (sqrt 5 * (x1 b / l b / 1 - x2 b / l b / 1)) ^ 2) (fun b => (sqrt 5 * (x1 b / l b - x2 b / l b)) ^ 2))
      by (intros; unfold Rdiv; rewrite Rinv_1; ring). pose proof (Z a Ha). field. assumption. }
  replace (sum na (fun a => v_m52_t0 l na x1 x2 a * dx1 a) + sum na (fun a => - v_m52_t0 l na x1 x2 a * dx2 a))
    with (m52_jvp 1 na (fun a => x1 a / l a) (fun a => x2 a / l a) 0 (fun a => dx1 a / l a) (fun a => dx2 a / l a)).
  - eapply is_derive_ext; [|exact D]. intro t. unfold m52_base, m52_base_vec. cbv beta.
    replace (sum na (fun a => ((x1 a / l a + t * (dx1 a / l a)) / (1 + t * 0) - (x2 a / l a + t * (dx2 a / l a)) / (1 + t * 0)) ^ 2))
      with (sum na (fun a => ((x1 a + t * dx1 a) / l a - (x2 a + t * dx2 a) / l a) ^ 2)); [reflexivity|].
    apply sum_ext; intros a Ha. pose proof (Z a Ha). field. assumption.
  - unfold m52_jvp. rewrite Rmult_0_r, Rplus_0_r. f_equal; apply sum_ext; intros a Ha; rewrite <- DD by auto; unfold m52_t1, Rdiv; ring.
Qed.

(** ** two features, two samples, lengthscales 1 and 2 *)
Definition ex_l : Vec := fun a => INR (S a).
Lemma ex_l_nz : forall ds, ls_nz ds ex_l.
Proof. intros ds a _. unfold ex_l. apply not_0_INR. lia. Qed.
Lemma ex_ds : ds_ok 2 (seq 0 2).
Proof. split; [apply seq_NoDup|]. intros d H. apply in_seq in H. lia. Qed.
Definition ex_x : Mat := fun i _ => INR i.
Lemma v_se_wrong : exists M D, v_se_d01k ex_l (seq 0 2) 2 2 ex_x ex_x = Ok M /\
  partial01 (vk_at VSE ex_l (seq 0 2)) (ex_x 0%nat) (ex_x 1%nat) 0 0 D /\ M (0 * 2 + 0)%nat (1 * 2 + 0)%nat <> D.
Proof.
  destruct (v_se_second 2 2 (seq 0 2) ex_l ex_x ex_x 0 1 1 0 0 ex_ds (ex_l_nz _)) as [M [D [E [P Q]]]]; try (simpl; lia); [left; split; reflexivity|].
  exists M, D. split; [exact E|]. split; [exact P|]. change (nth 0 (seq 0 2) 0%nat) with 0%nat in Q. rewrite Q.
  pose proof (exp_pos (- vd2 ex_l (seq 0 2) ex_x ex_x 0%nat 1%nat)) as X. unfold vk. unfold delta. cbn [Nat.eqb].
  assert (E0 : ex_l 0%nat = 1) by reflexivity. assert (E1 : ex_l 1%nat = 2) by (unfold ex_l; simpl; lra). rewrite E0, E1. lra.
Qed.
Lemma v_m52_wrong : exists M D, v_m52_d0k ex_l (seq 0 2) 2 2 ex_x ex_x = Ok M /\
  partial0 (vk_at VM52 ex_l (seq 0 2)) (ex_x 0%nat) (ex_x 1%nat) 0 D /\ M (0 * 2 + 0)%nat 1%nat <> D.
Proof.
  destruct (v_m52_first 2 2 (seq 0 2) ex_l ex_x ex_x 0 1 1 0 ex_ds (ex_l_nz _)) as [M [D [E [P [Q V]]]]]; try (simpl; lia); [left; split; reflexivity|].
  exists M, D. split; [exact E|]. split; [exact P|]. change (nth 0 (seq 0 2) 0%nat) with 0%nat in Q. rewrite Q.
  assert (D <> 0).
  { apply V. unfold vdiff, gatherM, gather, ex_x, ex_l. simpl. lra. }
  unfold ex_l. simpl INR. intro F. apply H. lra.
Qed.
