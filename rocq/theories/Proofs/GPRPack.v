(** The statements of Props/GPRProps.v assembled from the lemmas. *)
From Coq Require Import Reals Arith Lia Lra List FunctionalExtensionality.
From Coquelicot Require Import Coquelicot.
From Verif Require Import Base.Sums Base.Mat Base.PSD Model.Arrays Model.Kernels Model.LinAlg Model.Operations
  Model.RPCholesky Model.GPR Spec.KernelSpec Spec.Det Spec.MVN Spec.GPSpec
  Proofs.Loops Proofs.KernelDerivs Proofs.LinAlgFacts Proofs.Matvec Proofs.KernelMethods Proofs.JetPSD Proofs.GPRFacts Proofs.GPRCov Proofs.CurveDeriv Proofs.GPRLml
  Proofs.RPChol Proofs.KernelPropLemmas.
Open Scope R_scope.

Lemma matvec_sum : forall (X : Type) h N (rowf : X -> Mat) xs (upd : bool) v z d (A : Mat),
  (upd = true -> (h * length xs <= N)%nat) ->
  (forall s a c, (s < length xs)%nat -> (a < h)%nat -> (c < N)%nat ->
     A (s * h + a)%nat c = rowf (nth s xs d) a c) ->
  forall r j, (r < length xs * h)%nat ->
  rowfun_to_matvec h N rowf xs upd v z r j
  = sum N (fun c => (A r c + (if upd then v * (if Nat.eqb r c then 1 else 0) else 0)) * z c j).
Proof.
  intros X h N rowf xs upd v z d A HN HA r j Hr. rewrite (matvec_assembled h N rowf xs upd v z d A) by auto.
  unfold mm. apply sum_ext. intros c Hc. destruct upd; [reflexivity|]. f_equal. ring.
Qed.
Lemma ex_C37 : forall s a c : nat, (s < 2)%nat -> (a < 3)%nat -> (c < 6)%nat ->
  (fun i j => INR (i + j)) (s * 3 + a)%nat c
  = (fun (x : nat) (a c : nat) => INR (x * 3 + a + c)) (nth s (0 :: 1 :: nil)%nat O) a c.
Proof. intros s a c Hs Ha Hc. destruct s as [|[|s]]; [reflexivity|reflexivity|lia]. Qed.
Lemma predict_dense_at : forall m nf k sigma xt x c mu t j,
  predict_dense m nf k sigma xt x c mu t j = mu + sum m (fun s => kernel_at nf k (x t) (xt s) * c s j).
Proof.
  intros. rewrite predict_dense_mm. f_equal. unfold mm. apply sum_ext. intros s Hs. now rewrite kk_at.
Qed.
Lemma predict_y_derivs_curve : forall nf k, wf nf k -> ls_nonzero k -> exact k ->
  forall m n nv nd sigma xt jt (G : R -> Mat) jac c mu t u t0, (t < n)%nat -> (u < nd)%nat ->
  (forall f, (f < nf)%nat -> is_derive (fun z => G z t f) t0 (jac t f u)) ->
  is_derive (fun z => predict_y_derivs_dense m n nf nv k xt jt (G z) c mu t O) t0
    (predict_derivs_dense m n nf nv nd k sigma xt jt (G t0) jac c 0 t u).
Proof.
  intros nf k W L E m n nv nd sigma xt jt G jac c mu t u t0 Ht Hu M.
  rewrite <- (Rmult_1_l (predict_derivs_dense _ _ _ _ _ _ _ _ _ _ _ _ _ _ _)).
  apply predict_y_derivs_curve_gen; auto.
  intros x g t1 u' w Hm. rewrite Rmult_1_l. now apply E0_curve.
Qed.
Lemma predict_ol_curve : forall nf k, wf nf k -> ls_nonzero k -> exact k ->
  forall m n nd sigma xt (G : R -> Mat) jac c mu t u t0, (t < n)%nat -> (u < nd)%nat ->
  (forall f, (f < nf)%nat -> is_derive (fun z => G z t f) t0 (jac t f u)) ->
  is_derive (fun z => predict_ol_y m nf k sigma xt (G z) c mu t O) t0
    (predict_ol_yd m n nf nd k xt (G t0) jac c (t * nd + u)%nat O).
Proof.
  intros nf k W L E m n nd sigma xt G jac c mu t u t0 Ht Hu M.
  rewrite <- (Rmult_1_l (predict_ol_yd _ _ _ _ _ _ _ _ _ _ _)).
  apply predict_ol_curve_gen; auto.
  intros x g t1 u' Hm. rewrite Rmult_1_l. now apply kernel_curve.
Qed.
Lemma predict_se_curve : forall nf ad l, ad_ok nf ad -> l <> 0 ->
  let k := KAtom ad (ASE l) in
  forall m n nv nd sigma xt jt (G : R -> Mat) jac c mu t u t0, (t < n)%nat -> (u < nd)%nat ->
  (forall f, (f < nf)%nat -> is_derive (fun z => G z t f) t0 (jac t f u)) ->
  is_derive (fun z => predict_y_derivs_dense m n nf nv k xt jt (G z) c mu t O) t0
    (exp (/ 10 ^ 12) * predict_derivs_dense m n nf nv nd k sigma xt jt (G t0) jac c 0 t u) /\
  forall c' : Mat, is_derive (fun z => predict_ol_y m nf k sigma xt (G z) c' mu t O) t0
    (exp (- / 10 ^ 12) * predict_ol_yd m n nf nd k xt (G t0) jac c' (t * nd + u)%nat O).
Proof.
  intros nf ad l Had Hl k m n nv nd sigma xt jt G jac c mu t u t0 Ht Hu M. split; [|intro c'].
  - apply (predict_y_derivs_curve_gen nf k Had (exp (/ 10 ^ 12))); auto.
    intros x g t1 u' w Hm. now apply (se_E0_curve nf ad l).
  - apply (predict_ol_curve_gen nf k Had (exp (- / 10 ^ 12))); auto.
    intros x g t1 u' Hm. now apply (se_kernel_curve nf ad l).
Qed.
Lemma predict_cov_order : forall la, linalg_ok la -> forall nf k sigma, all_atoms (fun _ a => psd_atom a) k ->
  forall m n xt x,
  sym n (predict_cov la m nf k sigma xt x) /\ psd n (predict_cov la m nf k sigma xt x) /\
  psd n (fun i j => kk nf k x x i j - predict_cov la m nf k sigma xt x i j).
Proof.
  intros la ok nf k sigma HP m n xt x. split; [|split].
  - now apply predict_cov_sym.
  - now apply predict_cov_psd.
  - now apply predict_cov_prior.
Qed.
Lemma predict_derivs_cov_order : forall la, linalg_ok la -> forall nf k sigma, all_atoms (fun _ a => psd_atom a) k ->
  wf nf k -> ls_nonzero k -> dgram_ok k -> forall m n nv nd xt jt x jac,
  let cov := predict_derivs_cov la m n nf nv nd k sigma xt jt x jac in
  (forall B, meq (m * nv) (n * nd) (mm (m * nv) (noisy sigma (d01kj m m nf nv nv k xt xt jt jt)) B)
      (d01kj m n nf nv nd k xt x jt jac) ->
    meq (n * nd) (n * nd) cov
      (fun i j => d01kj n n nf nd nd k x x jac jac i j - mm (m * nv) (tr (d01kj m n nf nv nd k xt x jt jac)) B i j)) /\
  sym (n * nd) cov /\ psd (n * nd) cov /\ psd (n * nd) (fun i j => d01kj n n nf nd nd k x x jac jac i j - cov i j).
Proof.
  intros la ok nf k sigma HP W L D m n nv nd xt jt x jac cov. split; [|split; [|split]].
  - intro B. now apply predict_derivs_cov_formula.
  - now apply predict_derivs_cov_sym.
  - now apply predict_derivs_cov_psd.
  - now apply predict_derivs_cov_prior.
Qed.
Lemma predict_y_derivs_cov_order : forall la, linalg_ok la -> forall nf k sigma, all_atoms (fun _ a => psd_atom a) k ->
  wf nf k -> ls_nonzero k -> exact k -> sigma <> 0 -> forall m n nv xt jt x,
  let cov := predict_y_derivs_cov la m n nf nv k sigma xt jt x in
  (forall B, meq (m * nv) n (mm (m * nv) (add_diag (sigma ^ 2) (d01kj m m nf nv nv k xt xt jt jt)) B)
      (d0kj m n nf nv k xt x jt) ->
    meq n n cov (fun i j => kk nf k x x i j - mm (m * nv) (tr (d0kj m n nf nv k xt x jt)) B i j)) /\
  sym n cov /\ psd n cov /\ psd n (fun i j => kk nf k x x i j - cov i j).
Proof.
  intros la ok nf k sigma HP W L D Hs m n nv xt jt x cov. split; [|split; [|split]].
  - intro B. now apply predict_y_derivs_cov_formula.
  - now apply predict_y_derivs_cov_sym.
  - now apply predict_y_derivs_cov_psd.
  - now apply predict_y_derivs_cov_prior.
Qed.
Lemma lml_dense_perm_mf : forall la, linalg_ok la -> forall m o nf k sigma x y mf p, (0 < m)%nat ->
  all_atoms (fun _ a => psd_atom a) k -> mf = zero_mean \/ mf = data_mean ->
  (forall i, (i < m)%nat -> (p i < m)%nat) -> (forall i j, (i < m)%nat -> (j < m)%nat -> p i = p j -> i = j) ->
  lml_dense la m o nf k sigma (fun i => x (p i)) (fun i => y (p i)) mf = lml_dense la m o nf k sigma x y mf.
Proof.
  intros la ok m o nf k sigma x y mf p Hm HP [-> | ->] Hp Hi; apply lml_dense_perm; auto.
  - exact zero_mean_perm.
  - exact data_mean_perm.
Qed.
Lemma precond_inverse : forall la, linalg_ok la -> forall m p sigma F, sigma <> 0 -> forall o z,
  let P := precond_matvec la m p sigma F in
  let B := fun i j => gram p F i j + sigma ^ 2 * delta i j in
  meq m o (P (mm m B z)) z /\ meq m o (mm m B (P z)) z.
Proof.
  intros la ok m p sigma F Hs o z P B. split.
  - now apply (precond_left la ok m p sigma F Hs).
  - now apply (precond_right la ok m p sigma F Hs).
Qed.
Lemma precond_spd : forall la, linalg_ok la -> forall m p sigma F, sigma <> 0 ->
  exists M, sym m M /\ pd m M /\ forall z i j, (i < m)%nat -> precond_matvec la m p sigma F z i j = mm m M z i j.
Proof.
  intros la ok m p sigma F Hs. exists (pcm la m p sigma F). split; [|split].
  - now apply pcm_sym.
  - now apply pcm_pd.
  - intros. now apply precond_pcm.
Qed.
Lemma loop_decreasing' : forall n np K row diag0 choose, sym n K -> psd n K ->
  (forall s j, (s < n)%nat -> (j < n)%nat -> row s j = K s j) -> (forall j, (j < n)%nat -> diag0 j = K j j) ->
  (forall i p, (choose i p < n)%nat) -> forall i j, (i < np)%nat -> (j < n)%nat ->
  rp_diag (rp_loop jit6 n np diag0 row choose (S i)) j <= rp_diag (rp_loop jit6 n np diag0 row choose i) j.
Proof. intros. apply (loop_decreasing n np K); auto. Qed.
Lemma joint_psd : forall nf k, all_atoms (fun _ a => psd_atom a) k -> wf nf k -> ls_nonzero k -> exact k ->
  forall m n nv xt jt x, psd (m * nv + n) (fun i j =>
    match Nat.ltb i (m * nv), Nat.ltb j (m * nv) with
    | true, true => d01kj m m nf nv nv k xt xt jt jt i j
    | true, false => d0kj m n nf nv k xt x jt i (j - m * nv)%nat
    | false, true => d1kj n m nf nv k x xt jt (i - m * nv)%nat j
    | false, false => kk nf k x x (i - m * nv)%nat (j - m * nv)%nat
    end).
Proof.
  intros nf k HP W L E m n nv xt jt x.
  pose proof (jgram_psd nf k (m * nv + n) (vstack (m * nv) (fun i => xt (i / nv)%nat) x)
    (fun i => jcol jt (i / nv)%nat (i mod nv)%nat) (fun i => Nat.ltb i (m * nv)) HP W L E) as Q.
  intro c. rewrite (qf_ext _ _ (jgram nf k (vstack (m * nv) (fun i => xt (i / nv)%nat) x)
    (fun i => jcol jt (i / nv)%nat (i mod nv)%nat) (fun i => Nat.ltb i (m * nv))) c c); [apply Q| |intros ? ?; reflexivity].
  intros i j Hi Hj. unfold jgram, vstack.
  destruct (Nat.ltb i (m * nv)) eqn:Ei, (Nat.ltb j (m * nv)) eqn:Ej.
  - apply Nat.ltb_lt in Ei, Ej.
    destruct (blk_eq m nv i Ei) as [s [a [Hs' [Ha ->]]]]. destruct (blk_eq m nv j Ej) as [t [b [Ht [Hb ->]]]].
    now rewrite !blk_div, !blk_mod, d01kj_E01 by auto.
  - apply Nat.ltb_lt in Ei. apply Nat.ltb_ge in Ej.
    destruct (blk_eq m nv i Ei) as [s [a [Hs' [Ha ->]]]].
    rewrite !blk_div, !blk_mod, d0kj_E0 by (auto; lia). reflexivity.
  - apply Nat.ltb_lt in Ej. apply Nat.ltb_ge in Ei.
    destruct (blk_eq m nv j Ej) as [s [a [Hs' [Ha ->]]]].
    rewrite !blk_div, !blk_mod, d1kj_E0 by (auto; lia). reflexivity.
  - apply kk_at.
Qed.
