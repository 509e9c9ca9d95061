(** Lemmas in the form in which Props/OptimProps.v states them. *)
From Coq Require Import Ascii String List Bool Arith Reals Lia Lra.
From Verif Require Import Model.PyDict Model.Bijectors Model.Params Model.State Model.Optim Spec.StateSpec Spec.BijectorSpec
  Spec.RandomSpec Spec.OptimSpec Spec.NameSpec Spec.SearchSpec Proofs.BijectorLemmas Proofs.TreeFacts Proofs.StateFacts Proofs.UpdateFacts Proofs.SaveLoad Proofs.RandomFacts
  Proofs.StatePropLemmas Proofs.StateExamples Proofs.OptimFacts Proofs.OptimRun
  Proofs.OptimSearch Proofs.OptimPso Proofs.OptaxFacts Proofs.CheckpointFacts Proofs.OptimExamples.
Import ListNotations.
Open Scope string_scope.
Open Scope nat_scope.

Lemma unravel_spec : forall t x t', ptree_ok t -> sorted t -> unravel_forward t x = Ok t' ->
  ptree_ok t' /\ sorted t' /\ only_trainables t t' /\
  (float_tree t -> entries t' = map (fun q => omap (forward (fst q)) (snd q)) (zip (coords t) (a_data x))).
Proof.
  intros t x t' T S H. destruct (unravel_inv t x t' T S H) as [xs [_ [T' [S' [_ [O _]]]]]]. repeat (split; [assumption|]). intro F. now apply entries_unravel.
Qed.
Lemma unravel_ravel_spec : forall t, ptree_ok t -> sorted t -> float_tree t -> full_tree t ->
  exists t', unravel_forward t (ravel_backward t) = Ok t' /\ only_trainables t t' /\
  forall i b y, nth_error (coords t) i = Some b -> nth_error (entries t) i = Some (Some y) -> bij_ok b -> backward_dom b y ->
    exists y', nth_error (entries t') i = Some (Some y') /\ (Rabs (y' - y) <= / 10 ^ 300)%R.
Proof.
  intros t T S F FU. destruct (unravel_ravel_ok t T S F FU) as [t' H]. exists t'. split; auto. split; [now apply (unravel_spec t (ravel_backward t) t')|].
  now apply unravel_ravel.
Qed.
Lemma scipy_states : forall A (loss : array -> state -> result A) minimize s, state_ok s ->
  forall u, fst (scipy_minimize loss minimize s) = Ok u \/ In u (snd (scipy_minimize loss minimize s)) ->
  state_ok u /\ only_trainables_state s u /\ (bijs_ok (s_params s) -> in_ranges (s_params u)).
Proof.
  intros A loss minimize s S u H. destruct (scipy_visits loss minimize s S) as [V1 V2]. destruct H as [H|H]; [now apply V2|]. rewrite Forall_forall in V1. now apply V1.
Qed.
Lemma scipy_all_legal : forall A (loss : array -> state -> result A) minimize s, state_ok s -> bijs_ok (s_params s) ->
  float_tree (s_params s) -> proposes_reals (minimize (ravel_backward (s_params s))) ->
  forall u, fst (scipy_minimize loss minimize s) = Ok u \/ In u (snd (scipy_minimize loss minimize s)) -> all_legal u.
Proof.
  intros A loss minimize s S B F R u H. destruct (scipy_legal loss minimize s S B F R) as [V1 V2]. destruct H as [H|H]; [now apply V2|]. rewrite Forall_forall in V1. now apply V1.
Qed.
Lemma objective_spec : forall {A} t s (loss : array -> state -> result A) x u a, ptree_ok t -> sorted t -> state_ok s ->
  objective t s loss x = Ok (u, a) ->
  exists p, unravel_forward t x = Ok p /\ u = State (s_kernel s) (s_mean s) p (s_register s) /\ loss x u = Ok a.
Proof.
  intros A t s loss x u a T St S H. destruct (objective_inv t s loss x u a T St S H) as [p [H1 [H2 _]]]. exists p. repeat split; auto.
  unfold objective in H. apply bind_ok in H. destruct H as [p' [_ H]]. apply bind_ok in H. destruct H as [u' [_ H]]. apply bind_ok in H. destruct H as [a' [L H]].
  injection H as <- <-. exact L.
Qed.
Lemma restarts_succeed : forall {I} sample (minimize : state -> result (state * I)) loss k n s,
  (forall u, exists q, minimize u = Ok q) -> (forall u, exists l, loss u = Ok l) ->
  (forall u k', exists u', randomize sample u k' [] = Ok u') -> k <> None \/ n = 0 ->
  exists q, randomized_minimization sample minimize loss k n s = Ok q.
Proof.
  intros I sample minimize loss k n s HM HL HR K. unfold randomized_minimization.
  assert (C : check_random_key k n = Ok tt) by (destruct k, n; try reflexivity; destruct K; congruence). rewrite C. cbn [bind].
  destruct (HM s) as [[s1 i1] E1]. rewrite E1. cbn [bind fst snd]. destruct (HL s1) as [l El]. rewrite El. cbn [bind].
  assert (R : forall n k s, exists r, restarts sample minimize loss n k s = Ok r).
  { clear -HM HL HR. intro n. induction n as [|n IH]; intros k s; cbn [restarts]; [eauto|]. cbv zeta. destruct (HR s (SplitR k)) as [s0 E0]. rewrite E0. cbn [bind].
    destruct (HM s0) as [[s1 i1] E1]. rewrite E1. cbn [bind fst snd]. destruct (HL s1) as [l El]. rewrite El. cbn [bind]. destruct (IH (SplitR k) s1) as [r Er]. rewrite Er. cbn [bind]. eauto. }
  assert (R' : exists r, match k with Some k => restarts sample minimize loss n k s1 | None => Ok [] end = Ok r) by (destruct k; eauto).
  destruct R' as [r Er]. rewrite Er. cbn [bind]. cbv zeta.
  set (all := (s1, l, i1) :: r). set (j := best_index (map (fun e => snd (fst e)) all)).
  assert (J : j < length all).
  { subst j all. cbn [map fst snd]. destruct l as [x|].
    - destruct (best_index_number x (map (fun e => snd (fst e)) r)) as [m [H _]]. assert (best_index (Some x :: map (fun e => snd (fst e)) r) < length (Some x :: map (fun e => snd (fst e)) r)).
      { apply nth_error_Some. intro Z. setoid_rewrite Z in H. discriminate. } simpl length in *. now rewrite map_length in *.
    - rewrite best_index_nan. simpl. lia. }
  destruct (nth_error all j) as [e|] eqn:E; [eauto|]. apply nth_error_None in E. lia.
Qed.
Lemma ex_same_frozen : same_frozen (ex_params 1 2 3) (ex_params 7 2 8).
Proof.
  split; [reflexivity|]. intros [|a path]; [reflexivity|]. cbn [lookup ex_params get].
  destruct (String.eqb a "kernel_params").
  - destruct path as [|b path]; [reflexivity|]. cbn [lookup get]. destruct (String.eqb b "lengthscale").
    + destruct path; cbn [lookup]; [split; [reflexivity|discriminate]|reflexivity].
    + destruct (String.eqb b "variance"); [|reflexivity]. destruct path; cbn [lookup]; [split; reflexivity|reflexivity].
  - destruct (String.eqb a "sigma"); [|reflexivity]. destruct path; cbn [lookup]; [split; [reflexivity|discriminate]|reflexivity].
Qed.
Lemma there_and_back : forall b a i y, bij_ok b -> nth_error (a_data a) i = Some (Some y) -> backward_dom b y ->
  exists y', nth_error (a_data (forward_arr b (backward_arr b a))) i = Some (Some y') /\ (Rabs (y' - y) <= / 10 ^ 300)%R.
Proof.
  intros b a i y B H D. destruct (forward_backward b y B D) as [r [R1 R2]]. exists (forward b r). split; [|exact R2]. unfold forward_arr, backward_arr. cbn [a_data].
  rewrite map_map. rewrite (map_nth_error _ _ _ H). simpl obind. now rewrite R1.
Qed.
Lemma run_from_zero : forall s f xs fs r n' fs', state_ok s -> checkpoint_run s f xs (0, fs) = (r, (n', fs')) ->
  n' <= length xs /\ (r = Ok tt <-> n' = length xs) /\
  (forall k x, k < n' -> nth_error xs k = Some x -> exists p d, unravel_forward (s_params s) x = Ok p /\
     save_dict (State (s_kernel s) (s_mean s) p (s_register s)) = Ok d /\
     fs' (npz_name (checkpoint_name f k)) = Some (map (fun kv => (fst kv, dump (snd kv))) d)) /\
  (forall g, (forall k, k < n' -> g <> npz_name (checkpoint_name f k)) -> fs' g = fs g).
Proof.
  intros s f xs fs r n' fs' S H. destruct (run_files s f xs 0 fs r n' fs' S H) as [H1 [H2 [H3 H4]]]. split; [lia|]. split; [exact H2|]. split.
  - intros k x Hk Hx. apply H3; [lia|]. now rewrite Nat.sub_0_r.
  - intros g Hg. apply H4. intros k Hk. apply Hg. lia.
Qed.
Lemma run_app : forall s f xs ys c, checkpoint_run s f (xs ++ ys) c =
  match checkpoint_run s f xs c with (Ok _, c') => checkpoint_run s f ys c' | q => q end.
Proof.
  intros s f xs. induction xs as [|x xs IH]; intros ys c; [reflexivity|]. cbn [app checkpoint_run]. destruct (checkpoint s f x c) as [[u|e] c']; [apply IH|reflexivity].
Qed.
Lemma run_prefix : forall s f xs ys fs r n' fs' fs'' r' n'', state_ok s ->
  checkpoint_run s f xs (0, fs) = (r, (n', fs')) -> checkpoint_run s f (xs ++ ys) (0, fs) = (r', (n'', fs'')) ->
  n' <= n'' /\ forall k, k < n' -> fs'' (npz_name (checkpoint_name f k)) = fs' (npz_name (checkpoint_name f k)).
Proof.
  intros s f xs ys fs r n' fs' fs'' r' n'' S H H'. rewrite run_app, H in H'. destruct r as [u|e].
  - destruct (run_files s f ys n' fs' r' n'' fs'' S H') as [H1 [_ [_ H4]]]. split; [lia|]. intros k Hk. apply H4. intros k' Hk' E. apply checkpoint_names in E. lia.
  - injection H' as _ <- <-. split; auto.
Qed.
Lemma checkpoint_name_spec : forall f k, exists name ext, f = name ++ ext /\ checkpoint_name f k = name ++ "." ++ pad3 k ++ ext /\
  (ext = "" \/ exists e, ext = String "."%char e /\ chars plain e) /\
  chars is_digit (pad3 k) /\ 3 <= String.length (pad3 k) /\ value (pad3 k) 0 = k.
Proof.
  intros f k. destruct (splitext_spec f) as [H1 H2]. unfold checkpoint_name. destruct (splitext f) as [name ext]. cbn [fst snd] in *. exists name, ext.
  destruct (pad3_spec k) as [P1 [_ P3]]. repeat split; auto using pad3_length.
Qed.
Lemma ex_checkpoints : checkpoint_name "out/test.npz" 7 = "out/test.007.npz" /\ checkpoint_name ".run" 1234 = ".run.1234" /\
  npz_name (checkpoint_name "chk" 0) = "chk.000.npz" /\
  exists n fs, checkpoint_run (ex_state 1 2 3) "a.npz" [vec [0%R; 1%R]; vec [1%R; 1%R]] (0, fun _ => None) = (Ok tt, (n, fs)).
Proof.
  split; [reflexivity|]. split; [reflexivity|]. split; [reflexivity|].
  assert (ST : forall a b c, exists fs', checkpoint (ex_state 1 2 3) "a.npz" (vec [a; b]) c = (Ok tt, (Datatypes.S (fst c), fs'))).
  { intros a b c. unfold checkpoint. cbn [ex_state s_params].
    replace (unravel_forward (ex_params 1 2 3) (vec [a; b])) with (Ok (ex_params (forward Softplus a) 2 (forward Softplus b))) by reflexivity. cbn [bind].
    destruct (ex_params_ok (forward Softplus a) 2 (forward Softplus b)). rewrite with_params_ok by (auto; apply ex_state_ok). cbn [s_kernel s_mean s_register].
    eexists. reflexivity. }
  destruct (ST 0%R 1%R (0, fun _ => None)) as [fs1 E1]. destruct (ST 1%R 1%R (1, fs1)) as [fs2 E2]. exists 2, fs2. cbn [checkpoint_run]. rewrite E1. cbn [fst]. rewrite E2. reflexivity.
Qed.
(** C14: an update of 1 whatever the gradient *)
Lemma decay_moves_frozen : exists updates u, (forall g hist, length (updates (g :: hist)) = length g) /\
  fst (optax_minimize ex_grad updates 1 (ex_state 1 2 3)) = Ok u /\
  exists v, lookup ["kernel_params"; "variance"] (s_params u) = Some (Some (Param (scalar v) (gamma_meta false))) /\ (2 + 1 < v)%R.
Proof.
  assert (X : (exp (-1) <= / 2)%R). { replace (-1)%R with (- (1))%R by ring. rewrite exp_Ropp. apply Rinv_le_contravar; [lra|]. pose proof (exp_ineq1_le 1). lra. }
  assert (X0 : (0 < exp (-1))%R) by apply exp_pos.
  assert (X2 : (exp (-1) < 1 - exp (-2))%R). { replace (-2)%R with (-1 + -1)%R by ring. rewrite exp_plus. nra. }
  assert (B : exists r, backward Softplus 2 = Some r /\ (1 < r)%R).
  { exists (2 + ln (- expm1 (- 2)))%R. simpl. unfold inverse_softplus, jlog, expm1 in *. change (- (2))%R with (Ropp 2) in *. replace (Ropp 2) with (-2)%R by reflexivity. destruct (Rlt_dec 0 (- (exp (-2) - 1))) as [L|L]; [|lra].
    split; [reflexivity|]. assert (ln (exp (-1)) < ln (- (exp (-2) - 1)))%R by (apply ln_increasing; lra). rewrite ln_exp in H. lra. }
  destruct B as [r [B Br]].
  set (updates := fun hist : list (list array) => match hist with [] => [] | g :: _ => map (fun _ => scalar 10) g end).
  destruct (optax_succeeds ex_grad updates 1 (ex_state 1 2 3)) as [u Hu].
  - apply ex_state_ok.
  - cbn. unfold floating. cbn. tauto.
  - intro s0. apply map_length.
  - intros. apply map_length.
  - exists updates, u. split; [intros; apply map_length|]. split; [exact Hu|]. exists (forward Softplus (r + 10)). split.
    + change (fst (optax_minimize ex_grad updates 1 (ex_state 1 2 3))) with
        (Ok (State (OCall 1) (OCall 2) (Node [("kernel_params", Node [
          ("lengthscale", Leaf (Some (Param (Arr [] F64 [omap (forward Softplus) (add_num (backward Softplus 1) (Some 10%R))]) (gamma_meta true))));
          ("variance", Leaf (Some (Param (Arr [] F64 [omap (forward Softplus) (add_num (backward Softplus 2) (Some 10%R))]) (gamma_meta false))))]);
          ("sigma", Leaf (Some (Param (Arr [] F64 [omap (forward Softplus) (add_num (backward Softplus 3) (Some 10%R))]) (gamma_meta true))))]) ex_register)) in Hu.
      match type of Hu with Ok ?a = Ok _ => assert (HE : u = a) by (now inversion Hu) end. rewrite HE, B. reflexivity.
    + simpl. unfold softplus, logaddexp, eps300. assert (0 < / 10 ^ 300)%R by (apply Rinv_0_lt_compat, pow_lt; lra).
      assert (ln (exp (r + 10)) < ln (exp (r + 10) + exp 0))%R by (apply ln_increasing; [apply exp_pos|pose proof (exp_pos 0); lra]). rewrite ln_exp in H0. lra.
Qed.
