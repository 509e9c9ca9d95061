(** Invariants of the randomly pivoted Cholesky loop. *)
From Coq Require Import Reals Arith Lia Lra List FunctionalExtensionality.
From Verif Require Import Base.Sums Base.Mat Base.PSD Model.Arrays Model.Kernels Model.LinAlg Model.Operations
  Model.RPCholesky Model.GPR Spec.KernelSpec Proofs.LinAlgFacts Proofs.Loops Proofs.KernelDerivs Proofs.KernelSym
  Proofs.KernelPropLemmas Proofs.JetPSD Proofs.GPRFacts.
Open Scope R_scope.

Lemma jit6_pos : 0 < jit6.
Proof. unfold jit6. apply Rinv_0_lt_compat. apply pow_lt. lra. Qed.

Section RP.
  Variables (jit : R) (n np : nat) (K : Mat) (row : nat -> Vec) (diag0 : Vec) (choose : nat -> Vec -> nat).
  Hypothesis Hj : 0 <= jit.
  Hypothesis HS : sym n K.
  Hypothesis HP : psd n K.
  Hypothesis Hrow : forall s j, (s < n)%nat -> (j < n)%nat -> row s j = K s j.
  Hypothesis Hd : forall j, (j < n)%nat -> diag0 j = K j j.
  Hypothesis Hc : forall i p, (choose i p < n)%nat.
  Definition st (i : nat) : rp_state := rp_loop jit n np diag0 row choose i.
  Definition res (i : nat) : Mat := fun a b => K a b - gram np (rp_fmat (st i)) a b.
  Definition piv_at (i : nat) : nat := choose i (fun j => rp_diag (st i) j / sum n (rp_diag (st i))).
  Definition fcol (i : nat) : Vec := fun j => (row (piv_at i) j - gram np (rp_fmat (st i)) j (piv_at i))
     / (sqrt (row (piv_at i) (piv_at i) - gram np (rp_fmat (st i)) (piv_at i) (piv_at i)) + jit).

  Lemma st_S : forall i, st (S i) = rp_step jit n np row choose i (st i).
  Proof. reflexivity. Qed.
  Lemma st_piv : forall i, rp_piv (st (S i)) i = piv_at i.
  Proof. intros. rewrite st_S. simpl. now rewrite Nat.eqb_refl. Qed.
  Lemma st_piv_old : forall i j, (j < i)%nat -> rp_piv (st i) j = piv_at j.
  Proof.
    induction i; intros j H; [lia|]. destruct (Nat.eq_dec j i) as [->|N]; [apply st_piv|].
    rewrite st_S. simpl. rewrite (proj2 (Nat.eqb_neq j i) N). apply IHi. lia.
  Qed.
  Lemma st_F : forall i j l, rp_fmat (st (S i)) j l = if Nat.eqb l i then fcol i j else rp_fmat (st i) j l.
  Proof. reflexivity. Qed.
  Lemma F_zero : forall i j l, (i <= l)%nat -> rp_fmat (st i) j l = 0.
  Proof.
    induction i; intros j l H; [reflexivity|]. rewrite st_F. rewrite (proj2 (Nat.eqb_neq l i)) by lia. apply IHi; lia.
  Qed.
  Lemma F_col : forall i l j, (l < i)%nat -> rp_fmat (st i) j l = fcol l j.
  Proof.
    induction i; intros l j H; [lia|]. rewrite st_F. destruct (Nat.eqb_spec l i) as [->|N]; [reflexivity|]. apply IHi; lia.
  Qed.
  Lemma gram_S : forall i a b, (i < np)%nat ->
    gram np (rp_fmat (st (S i))) a b = gram np (rp_fmat (st i)) a b + fcol i a * fcol i b.
  Proof.
    intros i a b Hi. unfold gram.
    rewrite (sum_ext np _ (fun l => rp_fmat (st i) a l * rp_fmat (st i) b l + delta i l * (fcol i a * fcol i b))).
    - rewrite sum_plus. f_equal. exact (sum_delta_l np i (fun _ => fcol i a * fcol i b) Hi).
    - intros l Hl. rewrite !st_F. unfold delta. destruct (Nat.eqb_spec l i) as [->|N].
      + rewrite Nat.eqb_refl, !F_zero by lia. ring.
      + rewrite (proj2 (Nat.eqb_neq i l)) by auto. ring.
  Qed.
  Lemma res_S : forall i a b, (i < np)%nat -> res (S i) a b = res i a b - fcol i a * fcol i b.
  Proof. intros. unfold res. rewrite gram_S by auto. ring. Qed.
  Lemma piv_lt : forall i, (piv_at i < n)%nat.
  Proof. intro. apply Hc. Qed.
  Lemma gram_sym' : forall F a b, gram np F a b = gram np F b a.
  Proof. intros. unfold gram. apply sum_ext. intros. ring. Qed.
  Lemma fcol_res : forall i a, (a < n)%nat ->
    fcol i a = res i a (piv_at i) / (sqrt (res i (piv_at i) (piv_at i)) + jit).
  Proof.
    intros i a Ha. unfold fcol, res. rewrite !Hrow by (auto using piv_lt).
    rewrite (HS (piv_at i) a) by (auto using piv_lt). reflexivity.
  Qed.
  Lemma res_sym : forall i, sym n (res i).
  Proof. intros i a b Ha Hb. unfold res. rewrite (HS a b) by auto. now rewrite gram_sym'. Qed.
  Lemma res_diag : forall i j, (i <= np)%nat -> (j < n)%nat -> rp_diag (st i) j = res i j j.
  Proof.
    induction i; intros j Hi Hjn.
    - simpl. rewrite Hd by auto. unfold res. simpl. unfold gram.
      rewrite (sum_zero_ext np) by (intros; ring). ring.
    - rewrite st_S. simpl. rewrite res_S by lia. rewrite IHi by (auto; lia).
      rewrite Nat.eqb_refl. change (fun l => rp_fmat (st i) j l * rp_fmat (st i) (piv_at i) l) with
        (fun l => rp_fmat (st i) j l * rp_fmat (st i) (piv_at i) l).
      fold (piv_at i). unfold fcol, gram. simpl. ring.
  Qed.
  (** the residual stays positive semidefinite *)
  Lemma step_psd : forall i, (i < np)%nat -> psd n (res i) -> (jit = 0 -> 0 < res i (piv_at i) (piv_at i)) ->
    psd n (res (S i)).
  Proof.
    intros i Hi P Hnz. pose proof (piv_lt i) as Hp. set (s := piv_at i) in *.
    pose proof (psd_diag n (res i) P s Hp) as D.
    destruct (Req_dec (res i s s) 0) as [E|E].
    - assert (J : jit <> 0) by (intro J; specialize (Hnz J); lra).
      apply (psd_ext n (res i)); [|exact P]. intros a b Ha Hb. rewrite res_S by auto.
      rewrite (fcol_res i a Ha). fold s. rewrite (psd_zero_diag n (res i) s a (res_sym i) P Hp Ha E). unfold Rdiv. ring.
    - assert (G : 0 < res i s s) by lra. assert (Q := sqrt_lt_R0 _ G).
      assert (QQ : sqrt (res i s s) * sqrt (res i s s) = res i s s) by (apply sqrt_sqrt; lra).
      set (q := sqrt (res i s s)) in *.
      apply (psd_ext n (schur (res i s s / (q + jit) ^ 2) s (res i))).
      + intros a b Ha Hb. rewrite res_S by auto. rewrite (fcol_res i a Ha), (fcol_res i b Hb). fold s. fold q.
        unfold schur. field. split; lra.
      + apply schur_psd; auto using res_sym. apply (Rmult_le_reg_r ((q + jit) ^ 2)); [apply pow_lt; lra|].
        unfold Rdiv. rewrite Rmult_assoc, Rinv_l by (apply pow_nonzero; lra). rewrite <- QQ. nra.
  Qed.
  Lemma res_psd : forall i, (i <= np)%nat ->
    (jit = 0 -> forall l, (l < i)%nat -> 0 < res l (piv_at l) (piv_at l)) -> psd n (res i).
  Proof.
    induction i; intros Hi Hnz.
    - apply (psd_ext n K); [|exact HP]. intros a b _ _. unfold res. simpl. unfold gram.
      rewrite (sum_zero_ext np) by (intros; ring). ring.
    - apply step_psd; [lia| |intro J; apply Hnz; auto; lia].
      apply IHi; [lia|]. intros J l Hl. apply Hnz; auto.
  Qed.
  Lemma res_le : forall i j, (i < np)%nat -> (j < n)%nat -> res (S i) j j <= res i j j.
  Proof. intros. rewrite res_S by auto. pose proof (Rle_0_sqr (fcol i j)) as Q. unfold Rsqr in Q. lra. Qed.
  Lemma res_le' : forall i l j, (l <= i)%nat -> (i <= np)%nat -> (j < n)%nat -> res i j j <= res l j j.
  Proof.
    induction i; intros l j Hl Hi Hjn; [assert (l = O) by lia; subst; lra|].
    destruct (Nat.eq_dec l (S i)) as [->|N]; [lra|].
    eapply Rle_trans; [apply res_le; auto; lia|]. apply IHi; lia.
  Qed.
  Lemma res_0 : forall a b, res 0 a b = K a b.
  Proof. intros. unfold res. simpl. unfold gram. rewrite (sum_zero_ext np) by (intros; ring). ring. Qed.

  (** a pivot is nearly interpolated as soon as it is chosen *)
  Lemma pivot_small : forall i, (i < np)%nat -> 0 < jit -> psd n (res i) ->
    res (S i) (piv_at i) (piv_at i) <= 2 * jit * sqrt (res i (piv_at i) (piv_at i)).
  Proof.
    intros i Hi J P. pose proof (piv_lt i) as Hp. rewrite res_S by auto. rewrite fcol_res by auto. set (s := piv_at i) in *.
    pose proof (psd_diag n (res i) P s Hp) as D. pose proof (sqrt_pos (res i s s)) as Q.
    assert (QQ : sqrt (res i s s) * sqrt (res i s s) = res i s s) by (apply sqrt_sqrt; lra).
    set (q := sqrt (res i s s)) in *. rewrite <- QQ.
    replace (q * q - q * q / (q + jit) * (q * q / (q + jit))) with (q * q * jit * (2 * q + jit) / ((q + jit) * (q + jit)))
      by (field; lra).
    assert (Z : 0 < (q + jit) * (q + jit)) by nra.
    apply (Rmult_le_reg_r ((q + jit) * (q + jit)) _ _ Z). unfold Rdiv. rewrite Rmult_assoc, Rinv_l by lra.
    assert (0 <= q * jit) by nra. assert (0 <= q * jit * jit) by nra.
    assert (0 <= q * q * jit) by nra. assert (0 <= q * jit * (jit * jit)) by (apply Rmult_le_pos; nra).
    assert (0 <= q * q * jit * jit) by nra.
    nra.
  Qed.
  Lemma pivot_bound : forall i l, (l < i)%nat -> (i <= np)%nat -> 0 < jit ->
    res i (piv_at l) (piv_at l) <= 2 * jit * sqrt (K (piv_at l) (piv_at l)).
  Proof.
    intros i l Hl Hi J. pose proof (piv_lt l) as Hp.
    eapply Rle_trans; [apply (res_le' i (S l)); auto|].
    assert (P : psd n (res l)) by (apply res_psd; [lia|intro; lra]).
    eapply Rle_trans; [apply pivot_small; auto; lia|].
    apply Rmult_le_compat_l; [lra|]. apply sqrt_le_1_alt. rewrite <- (res_0 (piv_at l)). apply res_le'; auto; lia.
  Qed.
  Lemma pivot_row_bound : forall i l j, (l < i)%nat -> (i <= np)%nat -> (j < n)%nat -> 0 < jit ->
    (K (piv_at l) j - gram np (rp_fmat (st i)) (piv_at l) j) ^ 2
    <= 2 * jit * sqrt (K (piv_at l) (piv_at l)) * K j j.
  Proof.
    intros i l j Hl Hi Hjn J. pose proof (piv_lt l) as Hp.
    assert (P : psd n (res i)) by (apply res_psd; [lia|intro; lra]).
    pose proof (psd_entry n (res i) (piv_at l) j (res_sym i) P Hp Hjn) as Q.
    pose proof (pivot_bound i l Hl Hi J) as B. pose proof (psd_diag n (res i) P _ Hp). pose proof (psd_diag n (res i) P j Hjn).
    pose proof (res_le' i 0 j (Nat.le_0_l i) Hi Hjn) as B'. rewrite res_0 in B'.
    change (res i (piv_at l) j ^ 2 <= 2 * jit * sqrt (K (piv_at l) (piv_at l)) * K j j).
    simpl. rewrite Rmult_1_r. eapply Rle_trans; [exact Q|]. apply Rmult_le_compat; auto.
  Qed.

  (** without jitter: interpolation at the pivots and the Nystrom form *)
  Section NoJit.
    Hypothesis J0 : jit = 0.
    Variable N : nat.
    Hypothesis HN : (N <= np)%nat.
    Hypothesis Hpos : forall l, (l < N)%nat -> 0 < res l (piv_at l) (piv_at l).
    Lemma pivot_zero : forall i l j, (l < i)%nat -> (i <= N)%nat -> (j < n)%nat -> res i (piv_at l) j = 0.
    Proof.
      induction i; intros l j Hl Hi Hjn; [lia|].
      assert (P : psd n (res i)) by (apply res_psd; [lia|intros _ l' Hl'; apply Hpos; lia]).
      assert (Hp := piv_lt l). assert (Hp' := piv_lt i).
      rewrite res_S, !fcol_res by (auto; lia).
      specialize (Hpos i Hi). assert (Q := sqrt_lt_R0 _ Hpos).
      assert (QQ := sqrt_sqrt _ (Rlt_le _ _ Hpos)).
      rewrite J0, Rplus_0_r. destruct (Nat.eq_dec l i) as [->|Ne].
      - set (s := piv_at i) in *. rewrite (res_sym i s j) by auto.
        replace (res i s s / sqrt (res i s s)) with (sqrt (res i s s)).
        + field. lra.
        + rewrite <- QQ at 2. field. lra.
      - rewrite (IHi l j) by (auto; lia). rewrite (IHi l (piv_at i)) by (auto; lia). unfold Rdiv. ring.
    Qed.
    (** every column of F is a combination of the pivot columns of K *)
    Lemma fcol_comb : forall i, (i < N)%nat -> exists w : Vec, forall a, (a < n)%nat ->
      fcol i a = sum (S i) (fun l => K a (piv_at l) * w l).
    Proof.
      intro i. induction i as [i IH] using lt_wf_ind. intro Hi.
      assert (C : forall m, (m <= i)%nat -> exists w : Vec, forall a, (a < n)%nat ->
         sum m (fun l => fcol l a * fcol l (piv_at i)) = sum m (fun l => K a (piv_at l) * w l)).
      { induction m; intros Hm.
        - exists (fun _ => 0). intros; reflexivity.
        - destruct IHm as [w1 H1]; [lia|]. destruct (IH m) as [w2 H2]; [lia|lia|].
          exists (fun l => (if Nat.ltb l m then w1 l else 0) + w2 l * fcol m (piv_at i)).
          intros a Ha. simpl. rewrite H1 by auto. rewrite H2 by auto. simpl.
          rewrite Nat.ltb_irrefl.
          rewrite (sum_ext m (fun l => K a (piv_at l) * ((if Nat.ltb l m then w1 l else 0) + w2 l * fcol m (piv_at i)))
             (fun l => K a (piv_at l) * w1 l + K a (piv_at l) * w2 l * fcol m (piv_at i))).
          + rewrite sum_plus, sum_scal_r. ring.
          + intros l Hl. rewrite (proj2 (Nat.ltb_lt l m) Hl). ring. }
      destruct (C i (le_n i)) as [w Hw].
      set (d := sqrt (res i (piv_at i) (piv_at i)) + jit).
      exists (fun l => if Nat.ltb l i then - w l / d else / d). intros a Ha.
      rewrite fcol_res by auto. fold d. unfold res.
      assert (G : gram np (rp_fmat (st i)) a (piv_at i) = sum i (fun l => fcol l a * fcol l (piv_at i))).
      { unfold gram. replace np with (i + (np - i))%nat at 1 by lia. rewrite sum_app.
        rewrite (sum_zero_ext (np - i)) by (intros; rewrite !F_zero by lia; ring). rewrite Rplus_0_r.
        apply sum_ext. intros l Hl. now rewrite !F_col. }
      rewrite G, Hw by auto. simpl. rewrite Nat.ltb_irrefl.
      rewrite (sum_ext i (fun l => K a (piv_at l) * (if Nat.ltb l i then - w l / d else / d)) (fun l => K a (piv_at l) * w l * (- / d))).
      - rewrite sum_scal_r. unfold Rdiv. ring.
      - intros l Hl. rewrite (proj2 (Nat.ltb_lt l i) Hl). unfold Rdiv. ring.
    Qed.
    Lemma gram_comb : forall i b, (i <= N)%nat -> exists w : Vec, forall a, (a < n)%nat ->
      gram np (rp_fmat (st i)) a b = sum i (fun l => K a (piv_at l) * w l).
    Proof.
      induction i; intros b Hi.
      - exists (fun _ => 0). intros a _. unfold gram. simpl. rewrite (sum_zero_ext np); [reflexivity|]. intros; simpl; ring.
      - destruct (IHi b) as [w1 H1]; [lia|]. destruct (fcol_comb i Hi) as [w2 H2].
        exists (fun l => (if Nat.ltb l i then w1 l else 0) + w2 l * fcol i b). intros a Ha.
        rewrite gram_S by lia. rewrite H1, H2 by auto. simpl. rewrite Nat.ltb_irrefl.
        rewrite (sum_ext i (fun l => K a (piv_at l) * ((if Nat.ltb l i then w1 l else 0) + w2 l * fcol i b))
           (fun l => K a (piv_at l) * w1 l + K a (piv_at l) * w2 l * fcol i b)).
        + rewrite sum_plus, sum_scal_r. ring.
        + intros l Hl. rewrite (proj2 (Nat.ltb_lt l i) Hl). ring.
    Qed.
    (** F F^T = K[:,S] M for every M with K[S,S] M = K[S,:] *)
    Lemma nystrom : forall (M : Mat),
      (forall l b, (l < N)%nat -> (b < n)%nat -> sum N (fun l' => K (piv_at l) (piv_at l') * M l' b) = K (piv_at l) b) ->
      forall a b, (a < n)%nat -> (b < n)%nat ->
      gram np (rp_fmat (st N)) a b = sum N (fun l => K a (piv_at l) * M l b).
    Proof.
      intros M HM a b Ha Hb.
      assert (Z : forall l b, (l < N)%nat -> (b < n)%nat -> gram np (rp_fmat (st N)) (piv_at l) b = K (piv_at l) b).
      { intros l c Hl Hcn. pose proof (pivot_zero N l c Hl (le_n N) Hcn) as Q. unfold res in Q. lra. }
      destruct (gram_comb N a (le_n N)) as [w Hw].
      (* K(a,S) = (K(S,S) w)^T *)
      assert (Ka : forall l, (l < N)%nat -> K a (piv_at l) = sum N (fun l' => K (piv_at l) (piv_at l') * w l')).
      { intros l Hl. pose proof (piv_lt l). rewrite <- Hw by auto. rewrite Z by auto. apply HS; auto. }
      rewrite gram_sym'. rewrite Hw by auto.
      rewrite (sum_ext N (fun l => K a (piv_at l) * M l b) (fun l => sum N (fun l' => w l' * (K (piv_at l') (piv_at l) * M l b)))).
      - rewrite sum_swap. apply sum_ext. intros l' Hl'. rewrite sum_scal_l, HM by auto.
        rewrite (HS b (piv_at l')) by (auto using piv_lt). ring.
      - intros l Hl. rewrite Ka by auto. rewrite <- sum_scal_r. apply sum_ext. intros l' Hl'.
        rewrite (HS (piv_at l) (piv_at l')) by (auto using piv_lt). ring.
    Qed.
  End NoJit.
End RP.

(** ** Packaged facts about the loop *)
Section Pack.
  Variables (n np : nat) (K : Mat) (row : nat -> Vec) (diag0 : Vec) (choose : nat -> Vec -> nat).
  Hypothesis HS : sym n K.
  Hypothesis HP : psd n K.
  Hypothesis Hrow : forall s j, (s < n)%nat -> (j < n)%nat -> row s j = K s j.
  Hypothesis Hd : forall j, (j < n)%nat -> diag0 j = K j j.
  Hypothesis Hc : forall i p, (choose i p < n)%nat.
  Lemma loop_invariant : forall i, (i <= np)%nat ->
    let s := rp_loop jit6 n np diag0 row choose i in
    psd n (fun a b => K a b - gram np (rp_fmat s) a b) /\
    (forall j, (j < n)%nat -> rp_diag s j = K j j - gram np (rp_fmat s) j j) /\
    (forall j, (j < n)%nat -> 0 <= rp_diag s j).
  Proof.
    intros i Hi s. pose proof jit6_pos as J.
    assert (P : psd n (res jit6 n np K row diag0 choose i))
      by (apply res_psd; auto; try lra).
    assert (D : forall j, (j < n)%nat -> rp_diag s j = K j j - gram np (rp_fmat s) j j)
      by (intros j Hj; apply (res_diag jit6 n np K row diag0 choose Hd); auto).
    repeat split; auto.
    intros j Hj. rewrite D by auto. exact (psd_diag n _ P j Hj).
  Qed.
  Lemma loop_decreasing : forall i j, (i < np)%nat -> (j < n)%nat ->
    rp_diag (rp_loop jit6 n np diag0 row choose (S i)) j <= rp_diag (rp_loop jit6 n np diag0 row choose i) j.
  Proof.
    intros i j Hi Hj. pose proof jit6_pos as J.
    change (rp_diag (st jit6 n np row diag0 choose (S i)) j <= rp_diag (st jit6 n np row diag0 choose i) j).
    rewrite !(res_diag jit6 n np K row diag0 choose Hd) by (auto; lia). apply res_le; auto.
  Qed.
  Lemma loop_pivots : forall i l j, (l < i)%nat -> (i <= np)%nat -> (j < n)%nat ->
    let s := rp_loop jit6 n np diag0 row choose i in
    (rp_piv s l < n)%nat /\
    (K (rp_piv s l) j - gram np (rp_fmat s) (rp_piv s l) j) ^ 2
    <= 2 * / 10 ^ 6 * sqrt (K (rp_piv s l) (rp_piv s l)) * K j j.
  Proof.
    intros i l j Hl Hi Hj s. pose proof jit6_pos as J.
    assert (E : rp_piv s l = piv_at jit6 n np row diag0 choose l) by (apply st_piv_old; auto).
    rewrite !E. split; [now apply piv_lt|].
    apply (pivot_row_bound jit6 n np K row diag0 choose); auto; lra.
  Qed.
  (** with the jitter removed *)
  Lemma loop_nystrom : forall i, (i <= np)%nat ->
    (forall l, (l < i)%nat -> let s := rp_loop 0 n np diag0 row choose l in
       0 < rp_diag s (choose l (fun j => rp_diag s j / sum n (rp_diag s)))) ->
    let s := rp_loop 0 n np diag0 row choose i in
    (forall l j, (l < i)%nat -> (j < n)%nat -> gram np (rp_fmat s) (rp_piv s l) j = K (rp_piv s l) j) /\
    (forall M, (forall l b, (l < i)%nat -> (b < n)%nat ->
         sum i (fun l' => K (rp_piv s l) (rp_piv s l') * M l' b) = K (rp_piv s l) b) ->
       forall a b, (a < n)%nat -> (b < n)%nat -> gram np (rp_fmat s) a b = sum i (fun l => K a (rp_piv s l) * M l b)).
  Proof.
    intros i Hi Hpos s.
    assert (Hpos' : forall l, (l < i)%nat -> 0 < res 0 n np K row diag0 choose l (piv_at 0 n np row diag0 choose l) (piv_at 0 n np row diag0 choose l)).
    { intros l Hl. specialize (Hpos l Hl). cbv zeta in Hpos.
      rewrite <- (res_diag 0 n np K row diag0 choose Hd) by (auto; try lia; now apply piv_lt). exact Hpos. }
    assert (E : forall l, (l < i)%nat -> rp_piv s l = piv_at 0 n np row diag0 choose l) by (intros; apply st_piv_old; auto).
    split.
    - intros l j Hl Hj. rewrite !E by auto.
      pose proof (pivot_zero 0 n np K row diag0 choose (Rle_refl 0) HS HP Hrow Hc eq_refl i Hi Hpos' i l j Hl (le_n i) Hj) as Q.
      unfold res in Q. change (st 0 n np row diag0 choose i) with s in Q. lra.
    - intros M HM a b Ha Hb.
      eapply eq_trans; [apply (nystrom 0 n np K row diag0 choose (Rle_refl 0) HS HP Hrow Hc eq_refl i Hi Hpos' M); auto|].
      2:{ apply sum_ext. intros l Hl. now rewrite E. }
      intros l c Hl Hcn. rewrite <- (E l Hl), <- HM by auto. apply sum_ext. intros l' Hl'. now rewrite (E l' Hl').
  Qed.
End Pack.

(** ** the two entry points *)
Lemma rpc_row : forall nf k x s j, kk nf k (fun _ => x s) x O j = kk nf k x x s j.
Proof. intros. now rewrite !kk_at. Qed.
Lemma rpc_diag : forall nf k x s, kk nf k (fun _ => x s) (fun _ => x s) O O = kk nf k x x s s.
Proof. intros. now rewrite !kk_at. Qed.
Lemma rpcholesky_ok : forall choose n nf x np k, all_atoms (fun _ a => psd_atom a) k ->
  (forall i p, (choose i p < n)%nat) ->
  let F := fst (rpcholesky choose n nf x np k) in
  let piv := snd (rpcholesky choose n nf x np k) in
  psd n (fun a b => kk nf k x x a b - gram np F a b) /\
  (forall l j, (l < np)%nat -> (j < n)%nat -> (piv l < n)%nat /\
     (kk nf k x x (piv l) j - gram np F (piv l) j) ^ 2
     <= 2 * / 10 ^ 6 * sqrt (kk nf k x x (piv l) (piv l)) * kk nf k x x j j).
Proof.
  intros choose n nf x np k HP Hc F piv.
  assert (HS : sym n (kk nf k x x)) by (intros a b _ _; apply kk_sym).
  assert (PK := kk_psd nf k n x HP). split.
  - apply (loop_invariant n np (kk nf k x x) _ _ choose HS PK); auto; intros; [apply rpc_row|apply rpc_diag].
  - intros l j Hl Hj. apply (loop_pivots n np (kk nf k x x) _ _ choose HS PK); auto; intros; apply rpc_row.
Qed.
Lemma rpcholesky_derivs_ok : forall choose n nf nv x jac np k, all_atoms (fun _ a => psd_atom a) k ->
  wf nf k -> ls_nonzero k -> dgram_ok k -> (forall i p, (choose i p < n * nv)%nat) ->
  let F := fst (rpcholesky_derivs choose n nf nv x jac np k) in
  let piv := snd (rpcholesky_derivs choose n nf nv x jac np k) in
  let K := d01kj n n nf nv nv k x x jac jac in
  psd (n * nv) (fun a b => K a b - gram np F a b) /\
  (forall l j, (l < np)%nat -> (j < n * nv)%nat -> (piv l < n * nv)%nat /\
     (K (piv l) j - gram np F (piv l) j) ^ 2 <= 2 * / 10 ^ 6 * sqrt (K (piv l) (piv l)) * K j j).
Proof.
  intros choose n nf nv x jac np k HP W L HD Hc F piv K.
  assert (HS : sym (n * nv) K).
  { intros a b Ha Hb. apply d01kj_trans; auto. intros s t _ _. now apply dgram_regular. }
  assert (PK : psd (n * nv) K) by now apply dgram_psd.
  assert (RW : forall s j, (s < n * nv)%nat -> (j < n * nv)%nat ->
    d01kj 1 n nf nv nv k (fun _ => x (s / nv)%nat) x (fun _ => jac (s / nv)%nat) jac (s mod nv)%nat j = K s j).
  { intros s j Hs Hj. destruct (blk_eq n nv s Hs) as [a [u [Ha [Hu ->]]]]. destruct (blk_eq n nv j Hj) as [b [v [Hb [Hv ->]]]].
    rewrite blk_div, blk_mod by auto. unfold K. rewrite d01kj_E01 by auto.
    replace u with (0 * nv + u)%nat at 1 by lia. rewrite d01kj_E01 by (auto; lia). reflexivity. }
  assert (DG : forall j, (j < n * nv)%nat ->
    d01kj 1 1 nf nv nv k (fun _ => x (j / nv)%nat) (fun _ => x (j / nv)%nat) (fun _ => jac (j / nv)%nat) (fun _ => jac (j / nv)%nat)
      (j mod nv)%nat (j mod nv)%nat = K j j).
  { intros j Hj. destruct (blk_eq n nv j Hj) as [b [v [Hb [Hv ->]]]]. rewrite blk_div, blk_mod by auto. unfold K.
    rewrite d01kj_E01 by auto. replace v with (0 * nv + v)%nat at 1 2 by lia. rewrite d01kj_E01 by (auto; lia). reflexivity. }
  split.
  - apply (loop_invariant (n * nv) np K _ _ choose HS PK); auto.
  - intros l j Hl Hj. apply (loop_pivots (n * nv) np K _ _ choose HS PK); auto.
Qed.
