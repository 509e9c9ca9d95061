(** The matrix of Model/GPRTD.v, entry by entry, and its matrix-free product. *)
From Coq Require Import Reals Arith Lia Lra List Bool FunctionalExtensionality.
From Coquelicot Require Import Coquelicot.
From Verif Require Import Base.Sums Base.Mat Base.PSD Model.Arrays Model.Kernels Model.LinAlg Model.Operations
  Model.RPCholesky Model.GPR Model.GPRTD Spec.KernelSpec Spec.TDSpec Proofs.Loops Proofs.Contraction Proofs.KernelDerivs Proofs.KernelSym
  Proofs.KernelPropLemmas Proofs.LinAlgFacts Proofs.Matvec Proofs.Local Proofs.Jet2 Proofs.JetPSD Proofs.GPRFacts.
Import ListNotations.
Open Scope R_scope.

(** the formulas the code uses for obs_cov *)
Definition ocov (nf : nat) (k : kexp) (o1 o2 : obs) : R :=
  match o1, o2 with
  | (x, None), (y, None) => kernel_at nf k x y
  | (x, Some u), (y, None) => E0 nf k x y u
  | (x, None), (y, Some w) => E0 nf k y x w
  | (x, Some u), (y, Some w) => E01 nf k x y u w
  end.

(** ** rows *)
Inductive zone (a : td_in) : nat -> obs -> Prop :=
| zone_y : forall r, (r < td_n a)%nat -> zone a r (td_x a r, None)
| zone_1 : forall s v, (s < td_n a)%nat -> (v < td_v1 a)%nat ->
    zone a (td_n a + (s * td_v1 a + v))%nat (td_x a s, Some (jcol (td_j1 a) s v))
| zone_2 : forall v2 J s v, td_2 a = Some (v2, J) -> (s < td_n a)%nat -> (v < v2)%nat ->
    zone a (td_n a + (td_n a * td_v1 a + (s * v2 + v)))%nat (td_x a s, Some (jcol J s v)).
Lemma obs_y : forall n x v1 J1 v2 J2 r, (r < n)%nat -> obs_row n x v1 J1 v2 J2 r = (x r, None).
Proof. intros. unfold obs_row. now rewrite (proj2 (Nat.ltb_lt r n)). Qed.
Lemma obs_1 : forall n x v1 J1 v2 J2 s v, (s < n)%nat -> (v < v1)%nat ->
  obs_row n x v1 J1 v2 J2 (n + (s * v1 + v))%nat = (x s, Some (jcol J1 s v)).
Proof.
  intros n x v1 J1 v2 J2 s v Hs Hv. pose proof (blk_lt n s v1 v Hs Hv). unfold obs_row.
  rewrite (proj2 (Nat.ltb_ge (n + (s * v1 + v)) n)), (proj2 (Nat.ltb_lt (n + (s * v1 + v)) (n + n * v1))) by lia.
  replace (n + (s * v1 + v) - n)%nat with (s * v1 + v)%nat by lia. now rewrite blk_div, blk_mod.
Qed.
Lemma obs_2 : forall n x v1 J1 v2 J2 s v, (s < n)%nat -> (v < v2)%nat ->
  obs_row n x v1 J1 v2 J2 (n + (n * v1 + (s * v2 + v)))%nat = (x s, Some (jcol J2 s v)).
Proof.
  intros n x v1 J1 v2 J2 s v Hs Hv. unfold obs_row.
  rewrite (proj2 (Nat.ltb_ge _ n)), (proj2 (Nat.ltb_ge _ (n + n * v1))) by lia.
  replace (n + (n * v1 + (s * v2 + v)) - n - n * v1)%nat with (s * v2 + v)%nat by lia. now rewrite blk_div, blk_mod.
Qed.
Lemma zone_obs : forall a r o, zone a r o -> td_obs a r = o /\ (r < td_rows a)%nat.
Proof.
  intros a r o Z. destruct Z as [r H|s v H H0|v2 J s v H H0 H1]; unfold td_obs, td_rows.
  - split; [now apply obs_y|lia].
  - split; [now apply obs_1|]. pose proof (blk_lt _ _ _ _ H H0). lia.
  - unfold td_v2, j2_of. rewrite H. split; [now apply obs_2|]. pose proof (blk_lt _ _ _ _ H0 H1). lia.
Qed.
Lemma zone_of : forall a r, (r < td_rows a)%nat -> zone a r (td_obs a r).
Proof.
  intros a r H. unfold td_rows in H.
  destruct (Nat.lt_ge_cases r (td_n a)) as [H1|H1].
  { pose proof (zone_y a r H1) as Z. now rewrite (proj1 (zone_obs _ _ _ Z)). }
  destruct (Nat.lt_ge_cases r (td_n a + td_n a * td_v1 a)) as [H2|H2].
  { destruct (blk_eq (td_n a) (td_v1 a) (r - td_n a)) as [s [v [Hs [Hv E]]]]; [lia|].
    pose proof (zone_1 a s v Hs Hv) as Z. rewrite <- E in Z. replace (td_n a + (r - td_n a))%nat with r in Z by lia.
    now rewrite (proj1 (zone_obs _ _ _ Z)). }
  unfold td_v2 in H. destruct (td_2 a) as [[v2 J]|] eqn:E2; [|lia].
  destruct (blk_eq (td_n a) v2 (r - td_n a - td_n a * td_v1 a)) as [s [v [Hs [Hv E]]]]; [lia|].
  pose proof (zone_2 a v2 J s v E2 Hs Hv) as Z. rewrite <- E in Z.
  replace (td_n a + (td_n a * td_v1 a + (r - td_n a - td_n a * td_v1 a)))%nat with r in Z by lia.
  now rewrite (proj1 (zone_obs _ _ _ Z)).
Qed.
Lemma vcat_top : forall n A B i j, (i < n)%nat -> vcat n A B i j = A i j.
Proof. intros. unfold vcat. now rewrite (proj2 (Nat.ltb_lt i n)). Qed.
Lemma vcat_bot : forall n A B i j, vcat n A B (n + i)%nat j = B i j.
Proof. intros. unfold vcat. rewrite (proj2 (Nat.ltb_ge (n + i) n)) by lia. f_equal. lia. Qed.
Lemma hcat_l : forall n A B i j, (j < n)%nat -> hcat n A B i j = A i j.
Proof. intros. unfold hcat. now rewrite (proj2 (Nat.ltb_lt j n)). Qed.
Lemma hcat_r : forall n A B i j, hcat n A B i (n + j)%nat = B i j.
Proof. intros. unfold hcat. rewrite (proj2 (Nat.ltb_ge (n + j) n)) by lia. f_equal. lia. Qed.
Lemma delta_shift : forall n i j, delta (n + i) (n + j) = delta i j.
Proof.
  intros n i j. unfold delta. destruct (Nat.eqb_spec i j) as [->|N]; [now rewrite Nat.eqb_refl|].
  rewrite (proj2 (Nat.eqb_neq _ _)); [reflexivity|lia].
Qed.
Lemma noise_y : forall n v1 st s1 s2 r, (r < n)%nat -> obs_noise n v1 st s1 s2 r = st ^ 2 + jit10.
Proof. intros. unfold obs_noise. now rewrite (proj2 (Nat.ltb_lt r n)). Qed.
Lemma noise_1 : forall n v1 st s1 s2 r, (r < n * v1)%nat -> obs_noise n v1 st s1 s2 (n + r)%nat = s1 ^ 2 + jit10.
Proof.
  intros. unfold obs_noise. now rewrite (proj2 (Nat.ltb_ge (n + r) n)), (proj2 (Nat.ltb_lt (n + r) (n + n * v1))) by lia.
Qed.
Lemma noise_2 : forall n v1 st s1 s2 r, obs_noise n v1 st s1 s2 (n + (n * v1 + r))%nat = s2 ^ 2 + jit10.
Proof.
  intros. unfold obs_noise. now rewrite (proj2 (Nat.ltb_ge _ n)), (proj2 (Nat.ltb_ge _ (n + n * v1))) by lia.
Qed.

(** ** the dense matrix *)
(** the second derivatives that the columns are given for are used only if the rows have some *)
Definition td_cols (a b : td_in) : nat :=
  (td_n b + td_n b * td_v1 b + match td_2 a with Some _ => td_n b * td_v2 b | None => O end)%nat.
Lemma td_cols_same : forall a b, (td_2 a = None <-> td_2 b = None) -> td_cols a b = td_rows b.
Proof.
  intros a b H. unfold td_cols, td_rows, td_v2. destruct (td_2 a) as [[? ?]|], (td_2 b) as [[? ?]|]; try lia;
  exfalso; destruct H as [H H']; (discriminate (H eq_refl) || discriminate (H' eq_refl)).
Qed.
Lemma td_A_none : forall nf k sg a b noise, td_A_lhs nf k sg a b noise = None <-> td_2 a <> None /\ td_2 b = None.
Proof.
  intros. unfold td_A_lhs. destruct (td_2 a) as [[? ?]|], (td_2 b) as [[? ?]|]; split; intro H; try discriminate; auto.
  - destruct H as [_ H]. discriminate H.
  - split; [discriminate|reflexivity].
  - destruct H as [H _]. now elim H.
  - destruct H as [H _]. now elim H.
Qed.
Ltac kind := first
  [ rewrite vcat_top by (try apply blk_lt; auto)
  | rewrite vcat_bot
  | rewrite hcat_l by (try apply blk_lt; auto)
  | rewrite hcat_r ].
Lemma td_A_entry : forall nf k sg a b noise A r q, wf nf k -> (noise = true -> a = b) ->
  td_A_lhs nf k sg a b noise = Some A -> (r < td_rows a)%nat -> (q < td_cols a b)%nat ->
  A r q = ocov nf k (td_obs a r) (td_obs b q) + (if noise then td_noise sg a r * delta r q else 0).
Proof.
  intros nf k sg a b noise A r q W Hn HA Hr Hq.
  assert (Zr := zone_of a r Hr).
  assert (Hq' : (q < td_rows b)%nat).
  { unfold td_cols, td_rows in *. destruct (td_2 a); lia. }
  assert (Zq := zone_of b q Hq').
  assert (HB : td_2 a = None -> (q < td_n b + td_n b * td_v1 b)%nat).
  { intro E. unfold td_cols in Hq. rewrite E in Hq. lia. }
  revert HA HB. unfold td_A_lhs. destruct (td_2 a) as [[v2 j12]|] eqn:E2.
  - destruct (td_2 b) as [[w2 j22]|] eqn:F2; [|discriminate]. intros HA _. injection HA as <-.
    destruct Zr as [r0 H|s v H H0|v2' J s v H H0 H1]; rewrite ?E2 in *;
    destruct Zq as [q0 G|t u G G0|w2' J' t u G G0 G1]; rewrite ?F2 in *;
    repeat match goal with E : Some _ = Some _ |- _ => injection E as <- <- end; repeat kind; cbn [ocov].
    + destruct noise; [|rewrite kk_at; ring]. unfold td_noise. rewrite noise_y by auto. now rewrite kk_at.
    + rewrite d1kj_E0 by auto. destruct noise; [|ring]. rewrite delta_diff; [ring|]. specialize (Hn eq_refl). subst b. lia.
    + rewrite d1kj_E0 by auto. destruct noise; [|ring]. rewrite delta_diff; [ring|]. specialize (Hn eq_refl). subst b. lia.
    + rewrite d0kj_E0 by auto. destruct noise; [|ring]. rewrite delta_diff; [ring|]. specialize (Hn eq_refl). subst b. lia.
    + destruct noise; rewrite d01kj_E01 by auto; [|ring]. unfold td_noise. rewrite noise_1 by now apply blk_lt.
      specialize (Hn eq_refl). subst b. rewrite delta_shift. reflexivity.
    + rewrite d01kj_E01 by auto. destruct noise; [|ring]. rewrite delta_diff; [ring|]. specialize (Hn eq_refl). subst b.
      pose proof (blk_lt _ _ _ _ H H0). lia.
    + rewrite d0kj_E0 by auto. destruct noise; [|ring]. rewrite delta_diff; [ring|]. specialize (Hn eq_refl). subst b. lia.
    + rewrite d01kj_E01 by auto. destruct noise; [|ring]. rewrite delta_diff; [ring|]. specialize (Hn eq_refl). subst b.
      pose proof (blk_lt _ _ _ _ G G0). lia.
    + destruct noise; rewrite d01kj_E01 by auto; [|ring]. unfold td_noise. rewrite noise_2.
      specialize (Hn eq_refl). subst b. rewrite E2 in F2. injection F2 as <- <-. rewrite !delta_shift. reflexivity.
  - intros HA HB. injection HA as <-. specialize (HB eq_refl).
    destruct Zr as [r0 H|s v H H0|v2' J s v H H0 H1]; [| |congruence];
    (destruct Zq as [q0 G|t u G G0|w2' J' t u G G0 G1]; [| |exfalso; lia]); repeat kind; cbn [ocov].
    + destruct noise; [|rewrite kk_at; ring]. unfold td_noise. rewrite noise_y by auto. now rewrite kk_at.
    + rewrite d1kj_E0 by auto. destruct noise; [|ring]. rewrite delta_diff; [ring|]. specialize (Hn eq_refl). subst b. lia.
    + rewrite d0kj_E0 by auto. destruct noise; [|ring]. rewrite delta_diff; [ring|]. specialize (Hn eq_refl). subst b. lia.
    + destruct noise; rewrite d01kj_E01 by auto; [|ring]. unfold td_noise. rewrite noise_1 by now apply blk_lt.
      specialize (Hn eq_refl). subst b. rewrite delta_shift. reflexivity.
Qed.

(** ** the row indices of the matrix-free product *)
Definition where_from (off : nat) (mask : list bool) : list nat :=
  map fst (filter snd (combine (seq off (length mask)) mask)).
Lemma where_app : forall m1 m2 off, where_from off (m1 ++ m2) = where_from off m1 ++ where_from (off + length m1) m2.
Proof.
  induction m1 as [|x r IH]; intros m2 off; simpl; [now rewrite Nat.add_0_r|].
  unfold where_from in *. simpl. specialize (IH m2 (S off)). rewrite Nat.add_succ_r.
  destruct x; simpl; rewrite IH; reflexivity.
Qed.
Lemma where_false : forall n off, where_from off (repeat false n) = [].
Proof. induction n; intro off; [reflexivity|]. exact (IHn (S off)). Qed.
Lemma where_all : forall n off, where_from off (repeat true n) = seq off n.
Proof. induction n; intro off; [reflexivity|]. unfold where_from in *. simpl. f_equal. exact (IHn (S off)). Qed.
Definition pattern (p q r : nat) : list bool := repeat false p ++ repeat true q ++ repeat false r.
Lemma pattern_len : forall p q r, length (pattern p q r) = (p + q + r)%nat.
Proof. intros. unfold pattern. rewrite !app_length, !repeat_length. lia. Qed.
Lemma where_pattern : forall p q r off, where_from off (pattern p q r) = seq (off + p) q.
Proof.
  intros. unfold pattern. rewrite !where_app, !where_false, where_all, !repeat_length, app_nil_r. reflexivity.
Qed.
(** the concatenation of ns intervals of length q *)
Lemma nth_where_tile : forall p q r ns off s v, (s < ns)%nat -> (v < q)%nat ->
  nth (s * q + v) (where_from off (tile ns (pattern p q r))) O = (off + s * (p + q + r) + p + v)%nat.
Proof.
  intros p q r. induction ns; intros off s v Hs Hv; [lia|].
  change (tile (S ns) (pattern p q r)) with (pattern p q r ++ tile ns (pattern p q r)).
  rewrite where_app, where_pattern, pattern_len.
  destruct s as [|s].
  - simpl. rewrite app_nth1 by now rewrite seq_length. rewrite seq_nth by auto. lia.
  - rewrite app_nth2 by (rewrite seq_length; simpl; lia). rewrite seq_length.
    replace (S s * q + v - q)%nat with (s * q + v)%nat by (simpl; lia).
    rewrite IHns by (auto; lia). simpl. lia.
Qed.
Lemma pat1 : forall v1 v2, [true] ++ repeat false v1 ++ repeat false v2 = pattern 0 1 (v1 + v2).
Proof. intros. unfold pattern. now rewrite repeat_app. Qed.
Lemma pat2 : forall v1 v2, [false] ++ repeat true v1 ++ repeat false v2 = pattern 1 v1 v2.
Proof. reflexivity. Qed.
Lemma pat3 : forall v1 v2, [false] ++ repeat false v1 ++ repeat true v2 = pattern (1 + v1) v2 0.
Proof. intros. unfold pattern. simpl. rewrite app_nil_r. reflexivity. Qed.
Lemma arange_eq : forall ns w, arange (ns + ns * w) (w + 1) = map (fun i => (i * (w + 1))%nat) (seq 0 ns).
Proof.
  intros. unfold arange. do 2 f_equal. replace (ns + ns * w + (w + 1) - 1)%nat with (ns * (w + 1) + w)%nat by lia.
  rewrite Nat.div_add_l by lia. rewrite Nat.div_small by lia. lia.
Qed.
Lemma nth_arange : forall ns w s, (s < ns)%nat -> nth s (arange (ns + ns * w) (w + 1)) O = (s * (w + 1))%nat.
Proof.
  intros ns w s H. rewrite arange_eq.
  rewrite (nth_indep _ O ((fun i => (i * (w + 1))%nat) O)) by now rewrite map_length, seq_length.
  rewrite (map_nth (fun i => (i * (w + 1))%nat)), seq_nth by auto. reflexivity.
Qed.
Lemma seq_cons : forall o w, seq o (w + 1) = o :: seq (S o) w.
Proof. intros. now rewrite Nat.add_comm. Qed.
Lemma delete_arange : forall ns w off n, (off + n <= ns)%nat ->
  filter (fun i => negb (existsb (Nat.eqb i) (arange (ns + ns * w) (w + 1)))) (seq (off * (w + 1)) (n * (w + 1)))
  = where_from (off * (w + 1)) (tile n (pattern 1 w 0)).
Proof.
  intros ns w off n. revert off. induction n; intros off H; [reflexivity|].
  change (tile (S n) (pattern 1 w 0)) with (pattern 1 w 0 ++ tile n (pattern 1 w 0)). rewrite where_app, where_pattern, pattern_len.
  replace (S n * (w + 1))%nat with (w + 1 + n * (w + 1))%nat by lia. rewrite seq_app, filter_app.
  replace (off * (w + 1) + (w + 1))%nat with (S off * (w + 1))%nat by lia.
  rewrite IHn by lia. replace (off * (w + 1) + (1 + w + 0))%nat with (S off * (w + 1))%nat by lia. f_equal.
  rewrite seq_cons. cbn [filter].
  assert (I : forall i, existsb (Nat.eqb i) (arange (ns + ns * w) (w + 1)) = true
              <-> exists j, (j < ns)%nat /\ i = (j * (w + 1))%nat).
  { intro i. rewrite existsb_exists, arange_eq. split.
    - intros [z [Hz E]]. apply Nat.eqb_eq in E. subst z. apply in_map_iff in Hz. destruct Hz as [j [<- Hj]].
      apply in_seq in Hj. exists j. split; [lia|reflexivity].
    - intros [j [Hj ->]]. exists (j * (w + 1))%nat. split; [|apply Nat.eqb_refl].
      apply (in_map (fun i => (i * (w + 1))%nat)). apply in_seq. lia. }
  rewrite (proj2 (I (off * (w + 1))%nat)) by (exists off; split; [lia|reflexivity]). cbn [negb].
  replace (off * (w + 1) + 1)%nat with (S (off * (w + 1))) by lia.
  assert (F : forall l, (forall i, In i l -> existsb (Nat.eqb i) (arange (ns + ns * w) (w + 1)) = false) ->
     filter (fun i => negb (existsb (Nat.eqb i) (arange (ns + ns * w) (w + 1)))) l = l).
  { induction l as [|i l IHl]; intro Hl; [reflexivity|]. cbn [filter]. rewrite Hl by now left. cbn [negb]. f_equal.
    apply IHl. intros. apply Hl. now right. }
  apply F. intros i Hi. apply in_seq in Hi.
  destruct (existsb (Nat.eqb i) (arange (ns + ns * w) (w + 1))) eqn:E; [|reflexivity].
  apply I in E. destruct E as [j [Hj ->]]. exfalso.
  assert (off < j)%nat by nia. assert (j < S off)%nat by nia. lia.
Qed.
Lemma nth_delete : forall ns w s v, (s < ns)%nat -> (v < w)%nat ->
  nth (s * w + v) (delete_idx (ns + ns * w) (arange (ns + ns * w) (w + 1))) O = (s * (1 + w) + (1 + v))%nat.
Proof.
  intros ns w s v Hs Hv. unfold delete_idx.
  pose proof (delete_arange ns w 0 ns (le_n _)) as E. simpl Nat.mul in E.
  assert (N : (ns + ns * w = ns * (w + 1))%nat) by lia. rewrite N in *. rewrite E.
  rewrite nth_where_tile by auto. lia.
Qed.

(** ** the stripe of one sample *)
Lemma urd_s : forall n h row s v a c, (s < n)%nat -> (a < h)%nat -> (c < n * h)%nat ->
  update_row_diagonal h (n * h) row s v a c = row a c + v * delta (s * h + a) c.
Proof.
  intros n h row s v a c Hs Ha Hc. rewrite urd_entry; auto; [|nia].
  rewrite Nat.min_l by nia. now replace (h * s)%nat with (s * h)%nat by lia.
Qed.
(** the row index inside the stripe, and the observation it belongs to *)
Inductive lzone (a : td_in) (s : nat) : nat -> nat -> obs -> Prop :=
| lz_y : lzone a s 0 s (td_x a s, None)
| lz_1 : forall v, (v < td_v1 a)%nat ->
    lzone a s (1 + v) (td_n a + (s * td_v1 a + v)) (td_x a s, Some (jcol (td_j1 a) s v))
| lz_2 : forall v2 J v, td_2 a = Some (v2, J) -> (v < v2)%nat ->
    lzone a s (1 + (td_v1 a + v)) (td_n a + (td_n a * td_v1 a + (s * v2 + v))) (td_x a s, Some (jcol J s v)).
Definition two_of (a : td_in) (s : nat) : option (nat * Mat) :=
  match td_2 a with Some (v2, j) => Some (v2, j s) | None => None end.
Definition entry (nf : nat) (k : kexp) (sg : td_sigma) (a b : td_in) (noise : bool) (r q : nat) : R :=
  ocov nf k (td_obs a r) (td_obs b q) + (if noise then td_noise sg a r * delta r q else 0).
Lemma split3 : forall b (f : nat -> R), sum (td_rows b) f
  = sum (td_n b) f + sum (td_n b * td_v1 b) (fun i => f (td_n b + i)%nat)
    + sum (td_n b * td_v2 b) (fun i => f (td_n b + (td_n b * td_v1 b + i))%nat).
Proof.
  intros. unfold td_rows. rewrite !sum_app. f_equal. apply sum_ext. intros. f_equal. lia.
Qed.
Lemma mm_eq : forall n (A z : Mat) i j (f : nat -> R), (forall q, (q < n)%nat -> A i q * z q j = f q) -> mm n A z i j = sum n f.
Proof. intros. unfold mm. now apply sum_ext. Qed.
Lemma d0_one : forall n nf nv k x X2 (Js : Mat) v t, wf nf k -> (v < nv)%nat -> (t < n)%nat ->
  d0kj 1 n nf nv k (one_row x) X2 (one_jac Js) v t = E0 nf k x (X2 t) (fun f => Js f v).
Proof. intros. exact (d0kj_E0 1 n nf nv k (one_row x) X2 (one_jac Js) 0 v t H Nat.lt_0_1 H0 H1). Qed.
Lemma d1_one : forall n nf nv k x X2 J v t, wf nf k -> (t < n)%nat -> (v < nv)%nat ->
  d1kj 1 n nf nv k (one_row x) X2 J O (t * nv + v)%nat = E0 nf k (X2 t) x (jcol J t v).
Proof. intros. exact (d1kj_E0 1 n nf nv k (one_row x) X2 J 0 v t H Nat.lt_0_1 H1 H0). Qed.
Lemma d01_one : forall n nf nv1 nv2 k x X2 (Js : Mat) J v t u, wf nf k -> (v < nv1)%nat -> (t < n)%nat -> (u < nv2)%nat ->
  d01kj 1 n nf nv1 nv2 k (one_row x) X2 (one_jac Js) J v (t * nv2 + u)%nat
  = E01 nf k x (X2 t) (fun f => Js f v) (jcol J t u).
Proof. intros. exact (d01kj_E01 1 n nf nv1 nv2 k (one_row x) X2 (one_jac Js) J 0 v t u H Nat.lt_0_1 H0 H1 H2). Qed.
Lemma obsb_y : forall b q, (q < td_n b)%nat -> td_obs b q = (td_x b q, None).
Proof. intros. now apply obs_y. Qed.
Lemma obsb_1 : forall b t u, (t < td_n b)%nat -> (u < td_v1 b)%nat ->
  td_obs b (td_n b + (t * td_v1 b + u))%nat = (td_x b t, Some (jcol (td_j1 b) t u)).
Proof. intros. now apply obs_1. Qed.
Lemma obsb_2 : forall b w2 J t u, td_2 b = Some (w2, J) -> (t < td_n b)%nat -> (u < w2)%nat ->
  td_obs b (td_n b + (td_n b * td_v1 b + (t * w2 + u)))%nat = (td_x b t, Some (jcol J t u)).
Proof. intros. unfold td_obs, td_v2, j2_of. rewrite H. now apply obs_2. Qed.

Section Stripe.
  Variables (nf : nat) (k : kexp) (sg : td_sigma) (a b : td_in) (noise : bool) (z : Mat) (s : nat).
  Hypothesis W : wf nf k.
  Hypothesis Hn : noise = true -> a = b.
  Hypothesis Hs : (s < td_n a)%nat.
  Definition rv (o : obs) (r q : nat) : R :=
    (ocov nf k o (td_obs b q) + (if noise then td_noise sg a r * delta r q else 0)).

  Lemma blk11 : forall j,
    mm (td_n b) (if noise then update_row_diagonal 1 (td_n b) (kk nf k (one_row (td_x a s)) (td_x b)) s (sg_t sg ^ 2 + jit10)
                 else kk nf k (one_row (td_x a s)) (td_x b)) z O j
    = sum (td_n b) (fun q => rv (td_x a s, None) s q * z q j).
  Proof.
    intro j. apply mm_eq. intros q Hq. f_equal. unfold rv. rewrite obsb_y by auto. cbn [ocov]. destruct noise.
    - specialize (Hn eq_refl). rewrite Hn in *. replace (td_n b) with (td_n b * 1)%nat at 1 by lia. rewrite urd_s; auto; [|lia].
      unfold td_noise. rewrite noise_y by auto. rewrite kk_at. replace (s * 1 + 0)%nat with s by lia. reflexivity.
    - rewrite kk_at. unfold one_row. ring.
  Qed.
  Lemma blk12 : forall j,
    mm (td_n b * td_v1 b) (d1kj 1 (td_n b) nf (td_v1 b) k (one_row (td_x a s)) (td_x b) (td_j1 b)) (drop_rows (td_n b) z) O j
    = sum (td_n b * td_v1 b) (fun q => rv (td_x a s, None) s (td_n b + q) * z (td_n b + q)%nat j).
  Proof.
    intro j. apply mm_eq. intros q Hq. unfold drop_rows. f_equal. destruct (blk_eq _ _ _ Hq) as [t [u [Ht [Hu ->]]]].
    unfold rv. rewrite obsb_1 by auto. cbn [ocov]. rewrite d1_one by auto. destruct noise; [|ring].
    rewrite delta_diff; [ring|]. specialize (Hn eq_refl). rewrite Hn in *. lia.
  Qed.
  Lemma blk13 : forall j w2 J, td_2 b = Some (w2, J) ->
    mm (td_n b * w2) (d1kj 1 (td_n b) nf w2 k (one_row (td_x a s)) (td_x b) J) (drop_rows (td_rows b - td_n b * w2) z) O j
    = sum (td_n b * td_v2 b) (fun q => rv (td_x a s, None) s (td_n b + (td_n b * td_v1 b + q))
        * z (td_n b + (td_n b * td_v1 b + q))%nat j).
  Proof.
    intros j w2 J E. assert (V : td_v2 b = w2) by (unfold td_v2; now rewrite E). rewrite V.
    apply mm_eq. intros q Hq. unfold drop_rows, td_rows. rewrite V.
    replace (td_n b + td_n b * td_v1 b + td_n b * w2 - td_n b * w2 + q)%nat with (td_n b + (td_n b * td_v1 b + q))%nat by lia.
    f_equal. destruct (blk_eq _ _ _ Hq) as [t [u [Ht [Hu ->]]]].
    unfold rv. rewrite (obsb_2 b w2 J) by auto. cbn [ocov]. rewrite d1_one by auto. destruct noise; [|ring].
    rewrite delta_diff; [ring|]. specialize (Hn eq_refl). rewrite Hn in *. lia.
  Qed.
  (** rows that are derivatives; r is the row of the whole matrix, it lies in block [lo, lo + n * v) *)
  Lemma blkd1 : forall j v (Js : Mat) l r, (l < v)%nat -> (td_n a <= r)%nat ->
    mm (td_n b) (d0kj 1 (td_n b) nf v k (one_row (td_x a s)) (td_x b) (one_jac Js)) z l j
    = sum (td_n b) (fun q => rv (td_x a s, Some (fun f => Js f l)) r q * z q j).
  Proof.
    intros j v Js l r Hl Hr. apply mm_eq. intros q Hq. f_equal. unfold rv. rewrite obsb_y by auto. cbn [ocov].
    rewrite d0_one by auto. destruct noise; [|ring].
    rewrite delta_diff; [ring|]. specialize (Hn eq_refl). rewrite Hn in *. lia.
  Qed.
  Lemma blk22 : forall j l, (l < td_v1 a)%nat ->
    mm (td_n b * td_v1 b)
      (if noise then update_row_diagonal (td_v1 a) (td_n b * td_v1 b)
           (d01kj 1 (td_n b) nf (td_v1 a) (td_v1 b) k (one_row (td_x a s)) (td_x b) (one_jac (td_j1 a s)) (td_j1 b)) s (sg_1 sg ^ 2 + jit10)
       else d01kj 1 (td_n b) nf (td_v1 a) (td_v1 b) k (one_row (td_x a s)) (td_x b) (one_jac (td_j1 a s)) (td_j1 b))
      (drop_rows (td_n b) z) l j
    = sum (td_n b * td_v1 b) (fun q => rv (td_x a s, Some (jcol (td_j1 a) s l)) (td_n a + (s * td_v1 a + l)) (td_n b + q) * z (td_n b + q)%nat j).
  Proof.
    intros j l Hl. apply mm_eq. intros q Hq. unfold drop_rows. f_equal. 
    unfold rv. destruct noise.
    - specialize (Hn eq_refl). rewrite Hn in *. rewrite urd_s by auto. unfold td_noise. rewrite noise_1 by now apply blk_lt.
      rewrite delta_shift. f_equal. destruct (blk_eq _ _ _ Hq) as [t [u [Ht [Hu ->]]]].
      rewrite obsb_1 by auto. cbn [ocov]. now rewrite d01_one by auto.
    - destruct (blk_eq _ _ _ Hq) as [t [u [Ht [Hu ->]]]].
      rewrite obsb_1 by auto. cbn [ocov]. rewrite d01_one by auto. unfold jcol. ring.
  Qed.
  Lemma blk23 : forall j w2 J l, td_2 b = Some (w2, J) -> (l < td_v1 a)%nat ->
    mm (td_n b * w2) (d01kj 1 (td_n b) nf (td_v1 a) w2 k (one_row (td_x a s)) (td_x b) (one_jac (td_j1 a s)) J)
      (drop_rows (td_rows b - td_n b * w2) z) l j
    = sum (td_n b * td_v2 b) (fun q => rv (td_x a s, Some (jcol (td_j1 a) s l)) (td_n a + (s * td_v1 a + l)) (td_n b + (td_n b * td_v1 b + q))
        * z (td_n b + (td_n b * td_v1 b + q))%nat j).
  Proof.
    intros j w2 J l E Hl. assert (V : td_v2 b = w2) by (unfold td_v2; now rewrite E). rewrite V.
    apply mm_eq. intros q Hq. unfold drop_rows, td_rows. rewrite V.
    replace (td_n b + td_n b * td_v1 b + td_n b * w2 - td_n b * w2 + q)%nat with (td_n b + (td_n b * td_v1 b + q))%nat by lia.
    f_equal. destruct (blk_eq _ _ _ Hq) as [t [u [Ht [Hu ->]]]].
    unfold rv. rewrite (obsb_2 b w2 J) by auto. cbn [ocov]. rewrite d01_one by auto. unfold jcol at 2. destruct noise; [|unfold jcol; ring].
    rewrite delta_diff; [unfold jcol; ring|]. specialize (Hn eq_refl). rewrite Hn in *. pose proof (blk_lt _ _ _ _ Hs Hl). lia.
  Qed.
  Lemma blk32 : forall j v2 J l, td_2 a = Some (v2, J) -> (l < v2)%nat ->
    mm (td_n b * td_v1 b) (d01kj 1 (td_n b) nf v2 (td_v1 b) k (one_row (td_x a s)) (td_x b) (one_jac (J s)) (td_j1 b))
      (drop_rows (td_n b) z) l j
    = sum (td_n b * td_v1 b) (fun q => rv (td_x a s, Some (jcol J s l)) (td_n a + (td_n a * td_v1 a + (s * v2 + l))) (td_n b + q)
        * z (td_n b + q)%nat j).
  Proof.
    intros j v2 J l E Hl. apply mm_eq. intros q Hq. unfold drop_rows.
    f_equal. destruct (blk_eq _ _ _ Hq) as [t [u [Ht [Hu ->]]]].
    unfold rv. rewrite obsb_1 by auto. cbn [ocov]. rewrite d01_one by auto. destruct noise; [|unfold jcol; ring].
    rewrite delta_diff; [unfold jcol; ring|]. specialize (Hn eq_refl). rewrite Hn in *. pose proof (blk_lt _ _ _ _ Ht Hu). lia.
  Qed.
  Lemma blk33 : forall j v2 J w2 J' l, td_2 a = Some (v2, J) -> td_2 b = Some (w2, J') -> (l < v2)%nat ->
    mm (td_n b * w2)
      (if noise then update_row_diagonal v2 (td_n b * w2)
           (d01kj 1 (td_n b) nf v2 w2 k (one_row (td_x a s)) (td_x b) (one_jac (J s)) J') s (sg_2 sg ^ 2 + jit10)
       else d01kj 1 (td_n b) nf v2 w2 k (one_row (td_x a s)) (td_x b) (one_jac (J s)) J')
      (drop_rows (td_rows b - td_n b * w2) z) l j
    = sum (td_n b * td_v2 b) (fun q => rv (td_x a s, Some (jcol J s l)) (td_n a + (td_n a * td_v1 a + (s * v2 + l))) (td_n b + (td_n b * td_v1 b + q))
        * z (td_n b + (td_n b * td_v1 b + q))%nat j).
  Proof.
    intros j v2 J w2 J' l E E' Hl. assert (V : td_v2 b = w2) by (unfold td_v2; now rewrite E'). rewrite V.
    apply mm_eq. intros q Hq. unfold drop_rows, td_rows. rewrite V.
    replace (td_n b + td_n b * td_v1 b + td_n b * w2 - td_n b * w2 + q)%nat with (td_n b + (td_n b * td_v1 b + q))%nat by lia.
    f_equal. unfold rv. destruct noise.
    - specialize (Hn eq_refl). rewrite Hn in *. rewrite E in E'. injection E' as <- <-.
      rewrite urd_s by auto. unfold td_noise. rewrite noise_2. rewrite !delta_shift. f_equal.
      destruct (blk_eq _ _ _ Hq) as [t [u [Ht [Hu ->]]]].
      rewrite (obsb_2 b v2 J) by auto. cbn [ocov]. now rewrite d01_one by auto.
    - destruct (blk_eq _ _ _ Hq) as [t [u [Ht [Hu ->]]]].
      rewrite (obsb_2 b w2 J') by auto. cbn [ocov]. rewrite d01_one by auto. unfold jcol. ring.
  Qed.
End Stripe.

Lemma td_row_entry : forall nf k sg a b noise z s, wf nf k -> (noise = true -> a = b) -> (s < td_n a)%nat ->
  (td_2 b = None -> td_2 a = None) ->
  exists M, td_row nf k sg (td_v1 a) b noise z s (td_x a s) (td_j1 a s) (two_of a s) = Some M /\
  forall l r o, lzone a s l r o -> forall j,
  M l j = sum (td_rows b) (fun q => rv nf k sg a b noise o r q * z q j).
Proof.
  intros nf k sg a b noise z s W Hn Hs Hab.
  destruct (td_2 b) as [[w2 J']|] eqn:Eb.
  - destruct (td_2 a) as [[v2 J]|] eqn:Ea.
    + unfold td_row, two_of. rewrite Eb, Ea. eexists. split; [reflexivity|].
      intros l r o Z j. rewrite split3.
      destruct Z as [|v Hv|v2' J0 v E Hv].
      * rewrite vcat_top by lia. now rewrite blk11, (blk12 nf k sg a b noise z s W Hn Hs), (blk13 nf k sg a b noise z s W Hn Hs j w2 J' Eb) by auto.
      * rewrite vcat_bot, vcat_top by auto.
        rewrite (blkd1 nf k sg a b noise z s W Hn Hs j _ (td_j1 a s) v (td_n a + (s * td_v1 a + v))), blk22, (blk23 nf k sg a b noise z s W Hn Hs j w2 J') by (auto; lia). reflexivity.
      * rewrite Ea in E. injection E as <- <-. rewrite !vcat_bot.
        rewrite (blkd1 nf k sg a b noise z s W Hn Hs j _ (J s) v (td_n a + (td_n a * td_v1 a + (s * v2 + v)))) by (auto; lia).
        rewrite (blk32 nf k sg a b noise z s W Hn Hs j v2 J) by auto.
        rewrite (blk33 nf k sg a b noise z s W Hn Hs j v2 J w2 J') by auto. reflexivity.
    + unfold td_row, two_of. rewrite Eb, Ea. eexists. split; [reflexivity|].
      intros l r o Z j. rewrite split3.
      destruct Z as [|v Hv|v2' J0 v E Hv]; [| |congruence].
      * rewrite vcat_top by lia. now rewrite blk11, (blk12 nf k sg a b noise z s W Hn Hs), (blk13 nf k sg a b noise z s W Hn Hs j w2 J' Eb) by auto.
      * rewrite vcat_bot.
        rewrite (blkd1 nf k sg a b noise z s W Hn Hs j _ (td_j1 a s) v (td_n a + (s * td_v1 a + v))), blk22, (blk23 nf k sg a b noise z s W Hn Hs j w2 J') by (auto; lia). reflexivity.
  - specialize (Hab eq_refl). rename Hab into Ea.
    unfold td_row, two_of. rewrite Eb, Ea. eexists. split; [reflexivity|].
    intros l r o Z j. rewrite split3. unfold td_v2. rewrite Eb, Nat.mul_0_r. cbn [sum]. rewrite Rplus_0_r.
    destruct Z as [|v Hv|v2' J0 v E Hv]; [| |congruence].
    + rewrite vcat_top by lia. now rewrite blk11, (blk12 nf k sg a b noise z s W Hn Hs) by auto.
    + rewrite vcat_bot.
      rewrite (blkd1 nf k sg a b noise z s W Hn Hs j _ (td_j1 a s) v (td_n a + (s * td_v1 a + v))), blk22 by (auto; lia). reflexivity.
Qed.

(** ** the product *)
Lemma td_scan_ok : forall step n off carry, (forall i, (i < n)%nat -> exists M, step (carry + i)%nat (off + i)%nat = Some M) ->
  exists l, td_scan step (seq off n) carry = Some l /\ length l = n /\
  forall i, (i < n)%nat -> step (carry + i)%nat (off + i)%nat = Some (nth i l (fun _ _ => 0)).
Proof.
  intros step n. induction n; intros off carry H.
  - exists []. split; [reflexivity|]. split; [reflexivity|]. intros; lia.
  - destruct (H O) as [M HM]; [lia|]. rewrite !Nat.add_0_r in HM.
    destruct (IHn (S off) (S carry)) as [l [E [El Hl]]].
    { intros i Hi. destruct (H (S i)) as [M' HM']; [lia|]. exists M'. rewrite <- HM'. f_equal; lia. }
    exists (M :: l). split; [|split].
    + cbn [seq td_scan]. now rewrite HM, E.
    + simpl. now rewrite El.
    + intros [|i] Hi; [rewrite !Nat.add_0_r; exact HM|]. simpl nth. rewrite <- Hl by lia. f_equal; lia.
Qed.
Theorem td_Ax_mm : forall nf k sg a b noise z, wf nf k -> (noise = true -> a = b) ->
  (td_2 b = None -> td_2 a = None) ->
  exists M, td_Ax_lhs_fun nf k sg a b noise z = Some M /\
  forall r j, (r < td_rows a)%nat -> M r j = sum (td_rows b) (fun q => rv nf k sg a b noise (td_obs a r) r q * z q j).
Proof.
  intros nf k sg a b noise z W Hn Hab. unfold td_Ax_lhs_fun. cbv zeta beta.
  set (step := fun carry s : nat => td_row nf k sg (td_v1 a) b noise z carry (td_x a s) (td_j1 a s)
    match td_2 a with Some (v2, j) => Some (v2, j s) | None => None end).
  destruct (td_scan_ok step (td_n a) 0 0) as [rows [E [El Hrows]]].
  { intros i Hi. destruct (td_row_entry nf k sg a b noise z i W Hn Hi Hab) as [M [HM _]]. exists M. exact HM. }
  change (td_scan (fun carry s => _) (seq 0 (td_n a)) 0%nat) with (td_scan step (seq 0 (td_n a)) 0%nat).
  rewrite E. simpl Nat.add in Hrows.
  assert (HR : forall s l r o, (s < td_n a)%nat -> lzone a s l r o -> forall j,
     nth s rows (fun _ _ => 0) l j = sum (td_rows b) (fun q => rv nf k sg a b noise o r q * z q j)).
  { intros s l r o Hs Z j. destruct (td_row_entry nf k sg a b noise z s W Hn Hs Hab) as [M [HM HZ]].
    specialize (Hrows s Hs). unfold step in Hrows. fold (two_of a s) in Hrows. rewrite HM in Hrows. injection Hrows as <-.
    now apply HZ. }
  destruct (td_2 a) as [[v2 J]|] eqn:Ea.
  - eexists. split; [reflexivity|]. intros r j Hr. pose proof (zone_of a r Hr) as Z.
    assert (C : forall s l, (l < 1 + td_v1 a + v2)%nat ->
       concat0 (1 + td_v1 a + v2) rows (s * (1 + td_v1 a + v2) + l)%nat j = nth s rows (fun _ _ => 0) l j).
    { intros s l Hl. unfold concat0. now rewrite blk_div, blk_mod. }
    rewrite pat1, pat2, pat3. unfold take_rows.
    destruct Z as [r0 H|s v H H0|v2' J0 s v H H0 H1].
    + rewrite vcat_top by auto. unfold where_true. 
      pose proof (nth_where_tile 0 1 (td_v1 a + v2) (td_n a) 0 r0 0 H Nat.lt_0_1) as Q. unfold where_from in Q.
      replace (r0 * 1 + 0)%nat with r0 in Q by lia. rewrite Q.
      replace (0 + r0 * (0 + 1 + (td_v1 a + v2)) + 0 + 0)%nat with (r0 * (1 + td_v1 a + v2) + 0)%nat by lia.
      rewrite C by lia. apply (HR r0 0%nat r0); [auto|constructor].
    + rewrite vcat_bot, vcat_top by now apply blk_lt. unfold where_true.
      pose proof (nth_where_tile 1 (td_v1 a) v2 (td_n a) 0 s v H H0) as Q. unfold where_from in Q. rewrite Q.
      replace (0 + s * (1 + td_v1 a + v2) + 1 + v)%nat with (s * (1 + td_v1 a + v2) + (1 + v))%nat by lia.
      rewrite C by lia. apply (HR s (1 + v)%nat); [auto|now constructor].
    + rewrite Ea in H. injection H as <- <-. rewrite !vcat_bot. unfold where_true.
      pose proof (nth_where_tile (1 + td_v1 a) v2 0 (td_n a) 0 s v H0 H1) as Q. unfold where_from in Q. rewrite Q.
      replace (0 + s * (1 + td_v1 a + v2 + 0) + (1 + td_v1 a) + v)%nat with (s * (1 + td_v1 a + v2) + (1 + (td_v1 a + v)))%nat by lia.
      rewrite C by lia. apply (HR s (1 + (td_v1 a + v))%nat); [auto|now apply lz_2].
  - eexists. split; [reflexivity|]. intros r j Hr. pose proof (zone_of a r Hr) as Z.
    assert (C : forall s l, (l < 1 + td_v1 a)%nat ->
       concat0 (1 + td_v1 a) rows (s * (1 + td_v1 a) + l)%nat j = nth s rows (fun _ _ => 0) l j).
    { intros s l Hl. unfold concat0. now rewrite blk_div, blk_mod. }
    unfold take_rows.
    destruct Z as [r0 H|s v H H0|v2' J0 s v H H0 H1]; [| |congruence].
    + rewrite vcat_top by auto. rewrite nth_arange by auto.
      replace (r0 * (td_v1 a + 1))%nat with (r0 * (1 + td_v1 a) + 0)%nat by lia. rewrite C by lia.
      apply (HR r0 0%nat r0); [auto|constructor].
    + rewrite vcat_bot. rewrite nth_delete by auto. rewrite C by lia. apply (HR s (1 + v)%nat); [auto|now constructor].
Qed.
Lemma td_Ax_none : forall nf k sg a b noise z, (0 < td_n a)%nat -> td_2 a <> None -> td_2 b = None ->
  td_Ax_lhs_fun nf k sg a b noise z = None.
Proof.
  intros nf k sg a b noise z Hn Ha Hb. unfold td_Ax_lhs_fun. destruct (td_n a) as [|n]; [lia|].
  cbn [seq td_scan]. unfold td_row at 1. rewrite Hb. destruct (td_2 a) as [[v2 J]|]; [reflexivity|now elim Ha].
Qed.
