(** Names and contents of checkpoint files. *)
From Coq Require Import Ascii String List Bool Arith Reals Lia.
From Verif Require Import Model.PyDict Model.Bijectors Model.Params Model.State Model.Optim Spec.StateSpec Spec.OptimSpec
  Spec.NameSpec Proofs.StateFacts Proofs.UpdateFacts Proofs.OptimFacts Proofs.OptimRun.
Import ListNotations.
Open Scope string_scope.
Open Scope nat_scope.

Fixpoint dots (s : string) : nat := match s with EmptyString => 0 | String c r => (if Ascii.eqb c "." then 1 else 0) + dots r end.
Lemma digit_nat : forall n, n < 10 -> nat_of_ascii (digit n) = 48 + n.
Proof. intros n H. unfold digit. rewrite nat_ascii_embedding; [reflexivity|]. apply (Nat.lt_le_trans _ 58); [lia|]. apply Nat.leb_le. vm_compute. reflexivity. Qed.
Lemma value_app : forall a b acc, value (a ++ b) acc = value b (value a acc).
Proof. intro a. induction a; intros b acc; simpl; auto. Qed.
Lemma str_app_assoc : forall a b c : string, (a ++ b) ++ c = a ++ (b ++ c).
Proof. intro a. induction a; intros; simpl; congruence. Qed.
Lemma str_app_nil : forall a : string, a ++ "" = a.
Proof. intro a. induction a; simpl; congruence. Qed.
Lemma digits_aux_spec : forall fuel n acc, n < fuel -> exists d, digits_aux fuel n acc = d ++ acc /\ chars is_digit d /\ d <> "" /\ value d 0 = n.
Proof.
  intro fuel. induction fuel as [|f IH]; intros n acc L; [lia|]. cbn [digits_aux]. cbv zeta.
  assert (M : n mod 10 < 10) by (apply Nat.mod_upper_bound; lia). assert (DM := Nat.div_mod n 10 ltac:(lia)).
  assert (D : chars is_digit (String (digit (n mod 10)) "")). { split; [|exact I]. unfold is_digit. rewrite digit_nat by auto. lia. }
  destruct (Nat.eqb_spec (n / 10) 0) as [E|E].
  - exists (String (digit (n mod 10)) ""). split; [reflexivity|]. split; auto. split; [discriminate|]. cbn [value]. rewrite digit_nat by auto. clear -DM E. lia.
  - assert (L' : n / 10 < f). { assert (n / 10 < n) by (apply Nat.div_lt; lia). lia. }
    destruct (IH (n / 10) (String (digit (n mod 10)) acc) L') as [d [H1 [H2 [H3 H4]]]]. exists (d ++ String (digit (n mod 10)) ""). split; [rewrite H1, str_app_assoc; reflexivity|].
    split; [|split].
    + clear -H2 D. induction d; [exact D|]. destruct H2. split; auto.
    + destruct d; discriminate.
    + rewrite value_app, H4. cbn [value]. rewrite digit_nat by auto. clear -DM. lia.
Qed.
Lemma digits_spec : forall n, chars is_digit (digits n) /\ digits n <> "" /\ value (digits n) 0 = n.
Proof. intro n. unfold digits. destruct (digits_aux_spec (S n) n "" ltac:(lia)) as [d [-> H]]. now rewrite str_app_nil. Qed.
Lemma chars_app : forall P a b, chars P (a ++ b) <-> chars P a /\ chars P b.
Proof. intros P a b. induction a; simpl; tauto. Qed.
Lemma pad3_spec : forall n, chars is_digit (pad3 n) /\ pad3 n <> "" /\ value (pad3 n) 0 = n.
Proof.
  intro n. destruct (digits_spec n) as [H1 [H2 H3]]. unfold pad3.
  assert (Z : forall m, chars is_digit (zeros m) /\ value (zeros m) 0 = 0).
  { intro m. induction m as [|m [I1 I2]]; [split; [exact I|reflexivity]|]. split; [split; [unfold is_digit; cbn; lia|exact I1]|exact I2]. }
  destruct (Z (3 - String.length (digits n))) as [Z1 Z2]. split; [now apply chars_app|]. split; [destruct (zeros _); simpl; [exact H2|discriminate]|].
  now rewrite value_app, Z2.
Qed.
Lemma pad3_inj : forall i j, pad3 i = pad3 j -> i = j.
Proof. intros i j H. rewrite <- (proj2 (proj2 (pad3_spec i))), <- (proj2 (proj2 (pad3_spec j))). now rewrite H. Qed.
Lemma pad3_length : forall n, 3 <= String.length (pad3 n).
Proof.
  intro n. unfold pad3. assert (L : forall a b, String.length (a ++ b) = String.length a + String.length b) by (induction a; simpl; auto).
  assert (Z : forall m, String.length (zeros m) = m) by (induction m; simpl; auto). rewrite L, Z. lia.
Qed.
Lemma app_inj_l : forall a b c : string, a ++ b = a ++ c -> b = c.
Proof. intro a. induction a; intros b c H; simpl in H; auto. injection H as H. auto. Qed.
Lemma app_inj_r : forall a b c : string, a ++ c = b ++ c -> a = b.
Proof.
  assert (L : forall a b, String.length (a ++ b) = String.length a + String.length b) by (induction a; simpl; auto).
  intro a. induction a as [|x a IH]; intros [|y b] c H; auto.
  - apply (f_equal String.length) in H. rewrite !L in H. simpl in H. lia.
  - apply (f_equal String.length) in H. rewrite !L in H. simpl in H. lia.
  - injection H as -> H. f_equal. eauto.
Qed.
Lemma dots_app : forall a b, dots (a ++ b) = dots a + dots b.
Proof. intro a. induction a; intro b; simpl; auto. rewrite IHa. lia. Qed.
Lemma dots_digits : forall s, chars is_digit s -> dots s = 0.
Proof.
  intro s. induction s as [|c s IH]; intro H; [reflexivity|]. destruct H as [H1 H2]. simpl. rewrite IH by auto.
  destruct (Ascii.eqb_spec c "."); [|reflexivity]. subst. unfold is_digit in H1. cbn in H1. lia.
Qed.
Lemma checkpoint_names : forall f i j, npz_name (checkpoint_name f i) = npz_name (checkpoint_name f j) -> i = j.
Proof.
  intros f i j H. unfold checkpoint_name in H. destruct (splitext f) as [name ext]. unfold npz_name in H.
  assert (D : forall k, dots (name ++ "." ++ pad3 k ++ ext) = dots name + 1 + dots ext).
  { intro k. rewrite !dots_app. rewrite (dots_digits (pad3 k)) by apply pad3_spec. simpl. lia. }
  assert (E : forall k, dots ((name ++ "." ++ pad3 k ++ ext) ++ ".npz") = dots name + 2 + dots ext) by (intro k; rewrite dots_app, D; simpl; lia).
  assert (S : name ++ "." ++ pad3 i ++ ext = name ++ "." ++ pad3 j ++ ext).
  { destruct (ends_with ".npz" (name ++ "." ++ pad3 i ++ ext)), (ends_with ".npz" (name ++ "." ++ pad3 j ++ ext)).
    - exact H.
    - apply (f_equal dots) in H. rewrite D, E in H. lia.
    - apply (f_equal dots) in H. rewrite D, E in H. lia.
    - now apply app_inj_r in H. }
  apply app_inj_l in S. apply app_inj_l in S. apply app_inj_r in S. now apply pad3_inj.
Qed.
(** ** splitext *)
Lemma rev_string_app : forall s acc, rev_string s acc = rev_string s "" ++ acc.
Proof. intro s. induction s as [|c s IH]; intro acc; simpl; auto. rewrite IH, (IH (String c "")), str_app_assoc. reflexivity. Qed.
Lemma rev_rev : forall s acc, rev_string (rev_string s acc) "" = rev_string acc "" ++ s.
Proof. intro s. induction s as [|c s IH]; intro acc; simpl; [now rewrite str_app_nil|]. rewrite IH. simpl. rewrite (rev_string_app acc (String c "")), str_app_assoc. reflexivity. Qed.
Lemma split_rev_spec : forall r ext r' e, split_rev r ext = Some (r', e) -> chars plain ext ->
  exists e', e = String "." e' /\ chars plain e' /\ rev_string r "" ++ ext = rev_string r' "" ++ e.
Proof.
  intro r. induction r as [|c r IH]; intros ext r' e H P; simpl in H; [discriminate|]. destruct (Ascii.eqb_spec c "/"); [discriminate|].
  destruct (Ascii.eqb_spec c ".") as [->|N].
  - destruct (has_name r); [|discriminate]. injection H as <- <-. exists ext. split; auto. split; auto. simpl. rewrite (rev_string_app r (String "." "")), str_app_assoc. reflexivity.
  - apply IH in H; [|split; [split|]; auto]. destruct H as [e' [-> [H1 H2]]]. exists e'. split; auto. split; auto. rewrite <- H2. simpl. rewrite (rev_string_app r (String c "")), str_app_assoc. reflexivity.
Qed.
Lemma splitext_spec : forall f, fst (splitext f) ++ snd (splitext f) = f /\
  (snd (splitext f) = "" \/ exists e, snd (splitext f) = String "." e /\ chars plain e).
Proof.
  intro f. unfold splitext. destruct (split_rev (rev_string f "") "") as [[r e]|] eqn:E; cbn [fst snd].
  - apply split_rev_spec in E; [|exact I]. destruct E as [e' [-> [H1 H2]]]. rewrite <- H2. rewrite rev_rev, str_app_nil. split; auto. right. now exists e'.
  - rewrite str_app_nil. auto.
Qed.
(** ** runs *)
Lemma run_files : forall s f xs n fs r n' fs', state_ok s -> checkpoint_run s f xs (n, fs) = (r, (n', fs')) ->
  n <= n' <= n + length xs /\ (r = Ok tt <-> n' = n + length xs) /\
  (forall k x, n <= k < n' -> nth_error xs (k - n) = Some x -> exists p d, unravel_forward (s_params s) x = Ok p /\
     save_dict (State (s_kernel s) (s_mean s) p (s_register s)) = Ok d /\
     fs' (npz_name (checkpoint_name f k)) = Some (map (fun kv => (fst kv, dump (snd kv))) d)) /\
  (forall g, (forall k, n <= k < n' -> g <> npz_name (checkpoint_name f k)) -> fs' g = fs g).
Proof.
  intros s f xs. induction xs as [|x xs IH]; intros n fs r n' fs' S H; cbn [checkpoint_run] in H.
  - injection H as <- <- <-. simpl. split; [lia|]. split; [split; auto; lia|]. split; [intros; lia|auto].
  - unfold checkpoint in H. cbn [fst snd] in H.
    destruct (bind (unravel_forward (s_params s) x) (with_params s)) as [u|e] eqn:B.
    2:{ injection H as <- <- <-. simpl. split; [lia|]. split; [split; [discriminate|lia]|]. split; [intros; lia|auto]. }
    apply bind_ok in B. destruct B as [p [Hp W]]. destruct (reached (s_params s) s x p u) as [-> _]; auto; try apply S.
    unfold save in H. destruct (save_dict (State (s_kernel s) (s_mean s) p (s_register s))) as [d|e] eqn:SD.
    2:{ injection H as <- <- <-. simpl. split; [lia|]. split; [split; [discriminate|lia]|]. split; [intros; lia|auto]. }
    destruct (IH _ _ _ _ _ S H) as [H1 [H2 [H3 H4]]]. simpl length. split; [lia|]. split; [rewrite H2; split; lia|]. split.
    + intros k y Hk Hy. destruct (Nat.eq_dec k n) as [->|N].
      * rewrite Nat.sub_diag in Hy. injection Hy as <-. exists p, d. split; auto. split; auto. rewrite H4.
        -- now rewrite String.eqb_refl.
        -- intros k Hk' E. apply checkpoint_names in E. lia.
      * apply (H3 k y); [lia|]. replace (k - n) with (Datatypes.S (k - Datatypes.S n)) in Hy by lia. exact Hy.
    + intros g Hg. rewrite H4; [|intros k Hk; apply Hg; lia].
      assert (NE : g <> npz_name (checkpoint_name f n)) by (apply Hg; lia). apply String.eqb_neq in NE. now rewrite NE.
Qed.
