(** Restarts, particle swarms, checkpoints. *)
From Coq Require Import Ascii String List Bool Arith Reals Permutation Lia Lra.
From Verif Require Import Model.PyDict Model.Bijectors Model.Priors Model.Params Model.State Model.Optim Spec.DictSpec Spec.StateSpec Spec.BijectorSpec
  Spec.RandomSpec Spec.OptimSpec Spec.SearchSpec Proofs.BijectorLemmas Proofs.DictFacts Proofs.TreeFacts Proofs.StateFacts Proofs.UpdateFacts Proofs.SaveLoad
  Proofs.RandomFacts Proofs.StatePropLemmas Proofs.OptimFacts Proofs.OptimRun.
Import ListNotations.
Open Scope string_scope.
Open Scope nat_scope.

(** ** restarts *)
Definition min_at (l : list num) (j : nat) (m : R) : Prop := nth_error l j = Some (Some m) /\
  forall k y, nth_error l k = Some (Some y) -> (m <= y)%R /\ (k < j -> (m < y)%R).
Lemma min_at_snoc : forall l j m x, min_at l j m -> lt_num x (Some m) = false -> min_at (l ++ [x]) j m.
Proof.
  intros l j m x [H1 H2] L. assert (J : j < length l) by (apply nth_error_Some; congruence). split; [now rewrite nth_error_app1|].
  intros k y Hk. destruct (Nat.lt_ge_cases k (length l)) as [K|K]; [rewrite nth_error_app1 in Hk by auto; eauto|].
  rewrite nth_error_app2 in Hk by auto. destruct (k - length l) as [|[|]]; try discriminate. injection Hk as ->. simpl in L. destruct (Rlt_dec y m); [discriminate|].
  split; [lra|lia].
Qed.
Lemma min_at_new : forall l j m x, min_at l j m -> (x < m)%R -> min_at (l ++ [Some x]) (length l) x.
Proof.
  intros l j m x [H1 H2] L. split; [now rewrite nth_error_app2, Nat.sub_diag by auto|].
  intros k y Hk. destruct (Nat.lt_ge_cases k (length l)) as [K|K].
  - rewrite nth_error_app1 in Hk by auto. destruct (H2 k y Hk). split; intros; lra.
  - rewrite nth_error_app2 in Hk by auto. destruct (k - length l) as [|[|]]; try discriminate. injection Hk as ->. split; [lra|lia].
Qed.
Lemma min_from_spec : forall r pre j m, min_at pre j m -> exists j' m', min_from (length pre) (j, Some m) r = (j', Some m') /\ min_at (pre ++ r) j' m'.
Proof.
  intro r. induction r as [|x r IH]; intros pre j m H.
  - exists j, m. now rewrite app_nil_r.
  - cbn [min_from]. cbn [snd]. change (x :: r) with ([x] ++ r)%list. rewrite app_assoc.
    replace (S (length pre)) with (length (pre ++ [x])%list) by (rewrite app_length; simpl; lia).
    destruct (lt_num x (Some m)) eqn:L.
    + destruct x as [x|]; [|discriminate]. simpl in L. destruct (Rlt_dec x m); [|discriminate]. apply (IH (pre ++ [Some x])%list (length pre) x). eapply min_at_new; eauto.
    + apply (IH (pre ++ [x])%list j m). now apply min_at_snoc.
Qed.
Lemma min_from_nan : forall r i j, min_from i (j, None) r = (j, None).
Proof. intro r. induction r as [|x r IH]; intros i j; [reflexivity|]. cbn [min_from snd]. destruct x; simpl; apply IH. Qed.
Lemma index_from_spec : forall l i j m, i <= j -> (forall k y, nth_error l k = Some (Some y) -> i + k < j -> (m < y)%R) -> j < i + length l ->
  index_from i j (Some m) l = j.
Proof.
  intro l. induction l as [|x l IH]; intros i j m L H J; simpl in *; [lia|]. destruct (Nat.eqb_spec i j) as [->|N]; simpl; [reflexivity|].
  assert (E : eq_num x (Some m) = false).
  { destruct x as [x|]; [|reflexivity]. simpl. destruct (Req_EM_T x m); [|reflexivity]. subst. specialize (H 0 m eq_refl). assert (m < m)%R by (apply H; lia). lra. }
  rewrite E. apply IH; try lia. intros k y Hk Kj. apply (H (S k) y); auto. lia.
Qed.
Lemma best_index_number : forall x r, first_min (Some x :: r) (best_index (Some x :: r)).
Proof.
  intros x r. assert (M : min_at [Some x] 0 x) by (split; [reflexivity|]; intros [|[|k]] y Hk; inversion Hk; split; [lra|lia]).
  destruct (min_from_spec r [Some x] 0 x M) as [j [m [E H]]]. unfold best_index. cbv zeta. cbn [length] in E. unfold num in *. rewrite E. cbn [fst snd].
  change ([Some x] ++ r)%list with (Some x :: r) in H. destruct H as [H1 H2].
  rewrite index_from_spec; [exists m; split; auto|lia| |apply nth_error_Some; intro Z; setoid_rewrite Z in H1; discriminate].
  intros k y Hk K. apply H2 in Hk. apply Hk. lia.
Qed.
Lemma best_index_nan : forall r, best_index (None :: r) = 0.
Proof. intro r. unfold best_index. cbv zeta. rewrite min_from_nan. reflexivity. Qed.
Lemma restarts_spec : forall {I} sample (minimize : state -> result (state * I)) loss n k s r,
  restarts sample minimize loss n k s = Ok r ->
  length r = n /\ Forall (fun e => loss (fst (fst e)) = Ok (snd (fst e))) r /\
  forall j e, nth_error r j = Some e -> exists a s0, nth_error (s :: map (fun e => fst (fst e)) r) j = Some a /\
    randomize sample a (right (S j) k) [] = Ok s0 /\ minimize s0 = Ok (fst (fst e), snd e).
Proof.
  intros I sample minimize loss n. induction n as [|n IH]; intros k s r H.
  - inversion H; subst. split; auto. split; auto. intros [|] e E; discriminate.
  - cbn [restarts] in H. cbv zeta in H. apply bind_ok in H. destruct H as [s0 [H0 H]]. apply bind_ok in H. destruct H as [[s1 inf] [H1 H]]. apply bind_ok in H. destruct H as [l [Hl H]].
    apply bind_ok in H. destruct H as [r' [Hr H]]. injection H as <-. cbn [fst snd] in *. destruct (IH _ _ _ Hr) as [A [B C]]. split; [simpl; auto|]. split; [constructor; auto|].
    intros [|j] e E.
    + injection E as <-. exists s, s0. repeat split; auto.
    + simpl in E. destruct (C j e E) as [a [s0' [C1 [C2 C3]]]]. exists a, s0'. repeat split; auto. rewrite right_shift in C2. exact C2.
Qed.
Lemma restarts_run : forall {I} sample (minimize : state -> result (state * I)) loss k n s s' inf states losses,
  randomized_minimization sample minimize loss k n s = Ok (s', inf, states, losses) ->
  length states = S n /\ length losses = S n /\ Forall2 (fun u l => loss u = Ok l) states losses /\
  (exists inf0 s0, minimize s = Ok (s0, inf0) /\ nth_error states 0 = Some s0) /\
  (forall r, r < n -> exists a b s0 inf0 k0, k = Some k0 /\ nth_error states r = Some a /\ nth_error states (S r) = Some b /\
     randomize sample a (right (S r) k0) [] = Ok s0 /\ minimize s0 = Ok (b, inf0)) /\
  exists j, nth_error states j = Some s' /\
    match nth_error losses 0 with Some (Some _) => first_min losses j | _ => j = 0 end.
Proof.
  intros I sample minimize loss k n s s' inf states losses H. unfold randomized_minimization in H.
  apply bind_ok in H. destruct H as [[] [HC H]]. apply bind_ok in H. destruct H as [[s1 i1] [H1 H]]. apply bind_ok in H. destruct H as [l [Hl H]].
  apply bind_ok in H. destruct H as [r [Hr H]]. cbv zeta in H. cbn [fst snd] in *.
  destruct (nth_error ((s1, l, i1) :: r) (best_index (map (fun e => snd (fst e)) ((s1, l, i1) :: r)))) as [e|] eqn:E; [|discriminate].
  injection H as <- <- <- <-.
  assert (R : length r = n /\ Forall (fun e => loss (fst (fst e)) = Ok (snd (fst e))) r /\ forall j e, nth_error r j = Some e -> exists a s0 k0, k = Some k0 /\
    nth_error (s1 :: map (fun e => fst (fst e)) r) j = Some a /\ randomize sample a (right (S j) k0) [] = Ok s0 /\ minimize s0 = Ok (fst (fst e), snd e)).
  { destruct k as [k|].
    - destruct (restarts_spec _ _ _ _ _ _ _ Hr) as [A [B C]]. repeat split; auto. intros j e0 He. destruct (C j e0 He) as [a [s0 C']]. exists a, s0, k. tauto.
    - injection Hr as <-. destruct n; [|discriminate]. repeat split; auto. intros [|] e0 He; discriminate. }
  destruct R as [RL [RF RC]]. cbn [map fst snd].
  split; [simpl; now rewrite map_length, RL|]. split; [simpl; now rewrite map_length, RL|].
  split. { constructor; auto. clear -RF. induction RF; simpl; constructor; auto. }
  split; [exists i1, s1; auto|]. split.
  - intros j J. destruct (nth_error r j) as [e0|] eqn:He; [|apply nth_error_None in He; lia]. destruct (RC j e0 He) as [a [s0 [k0 [C1 [C2 [C3 C4]]]]]].
    exists a, (fst (fst e0)), s0, (snd e0), k0. repeat split; auto. simpl. now rewrite (map_nth_error (fun e => fst (fst e)) j r He).
  - exists (best_index (map (fun e => snd (fst e)) ((s1, l, i1) :: r))). split.
    + change (s1 :: map (fun e0 => fst (fst e0)) r) with (map (fun e0 : state * num * I => fst (fst e0)) ((s1, l, i1) :: r)). exact (map_nth_error (fun e0 : state * num * I => fst (fst e0)) _ _ E).
    + cbn [map fst snd nth_error]. destruct l as [l|]; [apply best_index_number|apply best_index_nan].
Qed.
Lemma restarts_need_key : forall {I} sample (minimize : state -> result (state * I)) loss n s,
  randomized_minimization sample minimize loss None (S n) s = Err ValueError.
Proof. reflexivity. Qed.
(** the keys of two successive restarts overlap *)
Lemma restart_keys : forall a a' k r j, length (trainables (s_params a)) = length (trainables (s_params a')) -> S j < length (trainables (s_params a)) ->
  nth_error (randomize_keys a (right r k)) (S j) = Some (right (S (S j) + r) k) /\
  nth_error (randomize_keys a' (right (S r) k)) j = Some (right (S (S j) + r) k).
Proof.
  intros a a' k r j L J. rewrite !keys_list, <- L.
  assert (P : forall n m k, right n (right m k) = right (n + m) k) by (intro n; induction n; intros; simpl; congruence).
  split.
  - erewrite map_nth_error; [|rewrite nth_error_nth' with (d := 0) by (rewrite seq_length; lia); rewrite seq_nth by lia; reflexivity]. now rewrite P.
  - erewrite map_nth_error; [|rewrite nth_error_nth' with (d := 0) by (rewrite seq_length; lia); rewrite seq_nth by lia; reflexivity]. rewrite P. do 2 f_equal. lia.
Qed.
Lemma restart_draws : forall sample a a' b b' k r j p p', state_ok a -> state_ok a' -> sampler_ok sample -> float_params (s_params a) -> float_params (s_params a') ->
  map p_meta (trainables (s_params a)) = map p_meta (trainables (s_params a')) ->
  randomize sample a (right r k) [] = Ok b -> randomize sample a' (right (S r) k) [] = Ok b' ->
  nth_error (trainables (s_params a)) j = Some p -> nth_error (trainables (s_params a)) (S j) = Some p' ->
  m_bijector (p_meta p) = m_bijector (p_meta p') -> m_prior (p_meta p) = m_prior (p_meta p') ->
  exists q q', nth_error (trainables (s_params b)) (S j) = Some q /\ nth_error (trainables (s_params b')) j = Some q' /\ p_value q = p_value q'.
Proof.
  intros sample a a' b b' k r j p p' S S' SO F F' M R R' P P' B PR.
  assert (OK : dict_ok []) by (split; constructor).
  pose proof (randomize_draws sample a _ _ b S SO F OK eq_refl R) as D. pose proof (randomize_draws sample a' _ _ b' S' SO F' OK eq_refl R') as D'.
  assert (LL : length (trainables (s_params a)) = length (trainables (s_params a'))) by (rewrite <- (map_length p_meta), M, map_length; reflexivity).
  assert (J : Datatypes.S j < length (trainables (s_params a))) by (apply nth_error_Some; congruence).
  destruct (restart_keys a a' k r j LL J) as [K K'].
  assert (Q : exists q, nth_error (trainables (s_params a')) j = Some q /\ p_meta q = p_meta p).
  { destruct (nth_error (trainables (s_params a')) j) as [q|] eqn:E; [|apply nth_error_None in E; lia]. exists q. split; auto.
    apply (map_nth_error p_meta) in E. apply (map_nth_error p_meta) in P. congruence. }
  destruct Q as [q0 [Q1 Q2]].
  assert (E1 : nth_error (map p_value (trainables (s_params b))) (Datatypes.S j) = Some (forward_arr (m_bijector (p_meta p')) (sample (right (Datatypes.S (Datatypes.S j) + r) k) (m_prior (p_meta p'))))).
  { rewrite D. erewrite map_nth_error; [|rewrite nth_zip, P', K; reflexivity]. reflexivity. }
  assert (E2 : nth_error (map p_value (trainables (s_params b'))) j = Some (forward_arr (m_bijector (p_meta p')) (sample (right (Datatypes.S (Datatypes.S j) + r) k) (m_prior (p_meta p'))))).
  { rewrite D'. erewrite map_nth_error; [|rewrite nth_zip, Q1, K'; reflexivity]. cbn [fst snd]. now rewrite Q2, B, PR. }
  rewrite nth_error_map in E1, E2. destruct (nth_error (trainables (s_params b)) (Datatypes.S j)) as [q|]; [|discriminate].
  destruct (nth_error (trainables (s_params b')) j) as [q'|]; [|discriminate]. exists q, q'. simpl in *. repeat split; congruence.
Qed.
