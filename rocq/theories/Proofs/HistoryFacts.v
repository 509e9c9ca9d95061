(** Facts on the attributes that fits set on a model object. *)
From Coq Require Import List String Bool Arith Reals Lra Lia.
From Verif Require Import Model.PyDict Model.Bijectors Model.Params Model.State Model.Optim Model.Calls Model.Lifecycle Model.History
  Spec.HistorySpec Spec.StateSpec Spec.RandomSpec Spec.SearchSpec Spec.LifecycleSpec Proofs.DictFacts Proofs.OptimSearch Proofs.StateExamples Proofs.OptimExamples Proofs.DispatchFacts.
Import ListNotations.
Open Scope string_scope.
Open Scope nat_scope.

Lemma bind_ok' : forall {A B} (r : result A) (f : A -> result B) b, bind r f = Ok b -> exists a, r = Ok a /\ f a = Ok b.
Proof. intros A B [a|e] f b H; [exists a; auto|discriminate]. Qed.

(** ** the result that goes with the state that is kept *)
Lemma kept_run : forall {I} sample (minimize : state -> result (state * I)) loss k n s s' inf states losses,
  randomized_minimization sample minimize loss k n s = Ok (s', inf, states, losses) ->
  exists s0, minimize s0 = Ok (s', inf) /\ training_runs sample loss k n s s0 s' states losses.
Proof.
  intros I sample minimize loss k n s s' inf states losses H. destruct (restarts_run _ _ _ _ _ _ _ _ _ _ H) as [L1 [_ [F _]]].
  unfold randomized_minimization in H.
  apply bind_ok' in H. destruct H as [[] [HC H]]. apply bind_ok' in H. destruct H as [[s1 i1] [H1 H]]. apply bind_ok' in H. destruct H as [l [Hl H]].
  apply bind_ok' in H. destruct H as [r [Hr H]]. cbv zeta in H. cbn [fst snd] in *.
  set (j := best_index (map (fun e => snd (fst e)) ((s1, l, i1) :: r))) in *.
  destruct (nth_error ((s1, l, i1) :: r) j) as [e|] eqn:E; [|discriminate].
  injection H as <- <- <- <-.
  assert (M : nth_error (s1 :: map (fun e0 : state * num * I => fst (fst e0)) r) j = Some (fst (fst e))).
  { change (s1 :: map (fun e0 => fst (fst e0)) r) with (map (fun e0 : state * num * I => fst (fst e0)) ((s1, l, i1) :: r)).
    exact (map_nth_error (fun e0 : state * num * I => fst (fst e0)) _ _ E). }
  assert (FM : match nth_error (l :: map (fun e0 : state * num * I => snd (fst e0)) r) 0 with Some (Some _) => first_min (l :: map (fun e0 => snd (fst e0)) r) j | _ => j = 0 end).
  { cbn [nth_error]. unfold j. cbn [map fst snd]. destruct l as [l|]; [apply best_index_number|apply best_index_nan]. }
  clearbody j. destruct j as [|q].
  - injection E as <-. exists s. split; [exact H1|]. split; [exact L1|]. split; [exact F|]. exists 0. split; [exact M|]. split; [exact FM|reflexivity].
  - cbn [nth_error] in E. destruct k as [k|].
    + destruct (restarts_spec _ _ _ _ _ _ _ Hr) as [_ [_ C]]. destruct (C q e E) as [b [s0 [C1 [C2 C3]]]]. exists s0. split; [rewrite C3; now destruct e as [[? ?] ?]|].
      split; [exact L1|]. split; [exact F|]. exists (S q). split; [exact M|]. split; [exact FM|]. exists b, k. split; [reflexivity|]. split; [exact C1|exact C2].
    + injection Hr as <-. destruct q; discriminate.
Qed.
(** forgetting the results *)
Lemma restarts_map : forall {I J} sample (m : state -> result (state * I)) (m' : state -> result (state * J)) (g : I -> J) loss,
  (forall u, m' u = bind (m u) (fun q => Ok (fst q, g (snd q)))) -> forall n k s,
  restarts sample m' loss n k s = bind (restarts sample m loss n k s) (fun r => Ok (map (fun e => (fst e, g (snd e))) r)).
Proof.
  intros I J sample m m' g loss H n. induction n as [|n IH]; intros k s; [reflexivity|]. cbn [restarts]. cbv zeta.
  destruct (randomize sample s (SplitR k) []) as [u|e]; [|reflexivity]. cbn [bind]. rewrite H. destruct (m u) as [[v i]|e]; [|reflexivity]. cbn [bind fst snd].
  destruct (loss v) as [l|e]; [|reflexivity]. cbn [bind]. rewrite IH. destruct (restarts sample m loss n (SplitR k) v); reflexivity.
Qed.
Lemma runs_map : forall {I J} sample (m : state -> result (state * I)) (m' : state -> result (state * J)) (g : I -> J) loss,
  (forall u, m' u = bind (m u) (fun q => Ok (fst q, g (snd q)))) -> forall k n s,
  randomized_minimization sample m' loss k n s = bind (randomized_minimization sample m loss k n s) (fun r => Ok (fst (fst (fst r)), g (snd (fst (fst r))), snd (fst r), snd r)).
Proof.
  intros I J sample m m' g loss H k n s. unfold randomized_minimization. destruct (check_random_key k n); [|reflexivity]. cbn [bind]. rewrite H.
  destruct (m s) as [[v i]|e]; [|reflexivity]. cbn [bind fst snd]. destruct (loss v) as [l|e]; [|reflexivity]. cbn [bind].
  assert (R : match k with Some k => restarts sample m' loss n k v | None => Ok [] end =
    bind (match k with Some k => restarts sample m loss n k v | None => Ok [] end) (fun r => Ok (map (fun e => (fst e, g (snd e))) r))).
  { destruct k as [k|]; [apply restarts_map; exact H|reflexivity]. }
  rewrite R. destruct (match k with Some k => restarts sample m loss n k v | None => Ok [] end) as [r|e]; [|reflexivity]. cbn [bind]. cbv zeta.
  set (G := fun e : state * num * I => (fst e, g (snd e))).
  assert (E1 : ((v, l, g i) :: map G r) = map G ((v, l, i) :: r)) by reflexivity. rewrite E1.
  assert (E2 : map (fun e : state * num * J => snd (fst e)) (map G ((v, l, i) :: r)) = map (fun e => snd (fst e)) ((v, l, i) :: r)) by (rewrite map_map; reflexivity).
  assert (E3 : map (fun e : state * num * J => fst (fst e)) (map G ((v, l, i) :: r)) = map (fun e => fst (fst e)) ((v, l, i) :: r)) by (rewrite map_map; reflexivity).
  rewrite E2, E3, nth_error_map. destruct (nth_error ((v, l, i) :: r) _); reflexivity.
Qed.

Section O.
  Context (lossfn : obj -> option (sig * (data -> dict obj -> state -> result (num * array)))) (sample : key -> prior_obj -> array) (key_precond : obj).
  Notation ofit := (object_fit lossfn sample key_precond).
  Notation onlopt := (object_fit_nlopt lossfn sample).

  (** ** the state of the object is that of Model/Lifecycle.v *)
  Lemma scipy_forget : forall (loss : array -> state -> result (num * array)) strat u,
    bind (fst (scipy_minimize loss strat u)) (fun u' => Ok (u', tt)) = bind (scipy_with_result loss strat u) (fun q => Ok (fst q, tt)).
  Proof.
    intros. unfold scipy_minimize, scipy_with_result. cbv zeta. cbn [fst]. destruct (fst (play _ _)) as [x|e]; [|reflexivity]. cbn [bind].
    destruct (unravel_forward (s_params u) x) as [p|e]; [|reflexivity]. cbn [bind]. destruct (with_params u p); reflexivity.
  Qed.
  Lemma nlopt_forget : forall w (loss : array -> state -> result (num * array)) strat u,
    bind (fst (nlopt_optimize w loss strat u)) (fun u' => Ok (u', tt)) = bind (nlopt_with_result w loss strat u) (fun q => Ok (fst q, tt)).
  Proof. intros. unfold nlopt_with_result. destruct (fst (nlopt_optimize w loss strat u)); reflexivity. Qed.
  Definition shown (s : state) (m : option (state * opt_results * list state * list num)) : state * bool :=
    match m with Some (s1, _, _, _) => (s1, true) | None => (s, false) end.
  Lemma minimisation_shown : forall a (mi : (array -> state -> result (num * array)) -> (array -> strategy (num * array) array) -> state -> result state * list state) mi' d kw s,
    (forall loss strat u, bind (fst (mi loss strat u)) (fun u' => Ok (u', tt)) = bind (mi' loss strat u) (fun q => Ok (fst q, tt))) ->
    minimisation lossfn sample a mi d kw s = bind (object_minimisation lossfn sample a mi' d kw s) (fun m => Ok (shown s m)).
  Proof.
    intros a mi mi' d kw s H. unfold minimisation, object_minimisation. destruct (attr s "loss_fn") as [lf|e]; [|reflexivity]. cbn [bind].
    destruct (lossfn lf) as [f|]; [|reflexivity]. destruct (a_minimize a) as [strat|]; [|reflexivity].
    rewrite (runs_map sample (mi' (loss_positional f d kw) strat) _ (fun _ => tt)) by (intro u; apply H).
    destruct (randomized_minimization sample (mi' (loss_positional f d kw) strat) (loss_keywords f d kw) (a_key a) (a_restarts a) s) as [[[[s1 r] sts] ls]|e]; reflexivity.
  Qed.
  Lemma finish_shown : forall a o found fit, let r := object_finish a o found fit in
    (fst r, g_state (snd r)) = finish a (g_state o) (bind found (fun m => Ok (shown (g_state o) m))) fit.
  Proof.
    intros a o [[[[[s1 x] sts] ls]|]|e] fit; cbn [bind shown object_finish finish g_state]; [| |reflexivity].
    - destruct (fit s1) as [s2|e]; [|reflexivity]. destruct (a_history a); reflexivity.
    - destruct (fit (g_state o)) as [s2|e]; [|reflexivity]. destruct (a_history a); reflexivity.
  Qed.
  Lemma fit_shown : forall C d a o, let r := ofit C d a o in (fst r, g_state (snd r)) = base_fit lossfn sample key_precond C d a (g_state o).
  Proof.
    intros C d a o. unfold object_fit, base_fit. cbv zeta. rewrite finish_shown.
    destruct d, (a_minimize a); rewrite ?(minimisation_shown a scipy_minimize scipy_with_result) by apply scipy_forget; reflexivity.
  Qed.
  Lemma nlopt_shown : forall C x y w a o, let r := onlopt C x y w a o in (fst r, g_state (snd r)) = base_fit_nlopt lossfn sample C x y w a (g_state o).
  Proof.
    intros C x y w a o. unfold object_fit_nlopt, base_fit_nlopt. cbv zeta. rewrite finish_shown, (minimisation_shown a _ (nlopt_with_result w)) by apply nlopt_forget. reflexivity.
  Qed.

  (** ** what a training leaves *)
  Lemma finish_trained : forall a o found fit o' strat, a_minimize a = Some strat -> object_finish a o found fit = (Ok tt, o') ->
    (forall m, found = Ok m -> m <> None) ->
    exists s1 r sts ls, found = Ok (Some (s1, r, sts, ls)) /\ fit s1 = Ok (g_state o') /\ g_results o' = Some r /\
    (if a_history a then g_states o' = Some sts /\ g_losses o' = Some ls else g_states o' = g_states o /\ g_losses o' = g_losses o).
  Proof.
    intros a o found fit o' strat HM H HN. destruct found as [[[[[s1 r] sts] ls]|]|e]; [|now specialize (HN None eq_refl)|discriminate].
    exists s1, r, sts, ls. split; [reflexivity|]. cbn [object_finish g_state] in H. destruct (fit s1) as [s2|e]; [|discriminate].
    destruct (a_history a); injection H as <-; cbn; auto.
  Qed.
  Lemma minimisation_trained : forall a mi d kw s m strat, a_minimize a = Some strat -> object_minimisation lossfn sample a mi d kw s = Ok m ->
    exists lf f s0 s1 r sts ls, get "loss_fn" (s_register s) = Some lf /\ lossfn lf = Some f /\ m = Some (s1, r, sts, ls) /\
    mi (loss_positional f d kw) strat s0 = Ok (s1, r) /\ training_runs sample (loss_keywords f d kw) (a_key a) (a_restarts a) s s0 s1 sts ls.
  Proof.
    intros a mi d kw s m strat HM H. unfold object_minimisation in H. apply bind_ok' in H. destruct H as [lf [HL H]]. destruct (lossfn lf) as [f|] eqn:HF; [|discriminate].
    rewrite HM in H. apply bind_ok' in H. destruct H as [[[[s1 r] sts] ls] [HR H]]. injection H as <-. destruct (kept_run _ _ _ _ _ _ _ _ _ _ HR) as [s0 [K1 K2]].
    exists lf, f, s0, s1, r, sts, ls. split; [unfold attr in HL; destruct (get "loss_fn" (s_register s)); [now injection HL as ->|discriminate]|].
    split; [exact HF|]. split; [reflexivity|]. split; [exact K1|exact K2].
  Qed.
  Lemma call_attr_ok : forall {B A} (f : option (sig * B)) n kw (run : B -> result A) v, call_attr f n kw run = Ok v -> exists g b, f = Some (g, b) /\ run b = Ok v.
  Proof. intros B A [[g b]|] n kw run v H; [|discriminate]. cbn in H. unfold call in H. destruct (accepts g n kw); [|discriminate]. exists g, b. auto. Qed.
  Lemma fit_trained : forall C d a o o' strat, a_minimize a = Some strat -> ofit C d a o = (Ok tt, o') ->
    exists lf f s0 s1 x p states losses g body, get "loss_fn" (s_register (g_state o)) = Some lf /\ lossfn lf = Some f /\
    training_runs sample (loss_keywords f d (match d with Both _ _ _ _ => [] | _ => fit_loss_kwargs key_precond a end)) (a_key a) (a_restarts a) (g_state o) s0 s1 states losses /\
    g_results o' = Some (ScipyResult x) /\ unravel_forward (s_params s0) x = Ok p /\ with_params s0 p = Ok s1 /\
    k_fit C (task_of d) = Some (g, body) /\ body d (a_options a) s1 = Ok (g_state o') /\
    (if a_history a then g_states o' = Some states /\ g_losses o' = Some losses else g_states o' = g_states o /\ g_losses o' = g_losses o).
  Proof.
    intros C d a o o' strat HM H. unfold object_fit in H.
    set (kw := match d with Both _ _ _ _ => [] | _ => fit_loss_kwargs key_precond a end).
    assert (E : match d, a_minimize a with
       | Both _ _ _ _, None => Ok None
       | Both _ _ _ _, Some _ => object_minimisation lossfn sample a scipy_with_result d [] (g_state o)
       | _, _ => object_minimisation lossfn sample a scipy_with_result d (fit_loss_kwargs key_precond a) (g_state o)
       end = object_minimisation lossfn sample a scipy_with_result d kw (g_state o)) by (unfold kw; rewrite HM; destruct d; reflexivity).
    rewrite E in H. clear E. clearbody kw.
    apply (finish_trained _ _ _ _ _ _ HM) in H.
    - destruct H as [s1 [r [sts [ls [HF [HB [HR HH]]]]]]]. destruct (minimisation_trained _ _ _ _ _ _ _ HM HF) as [lf [f [s0 [s1' [r' [sts' [ls' [A1 [A2 [A3 [A4 A5]]]]]]]]]]].
      injection A3 as <- <- <- <-. unfold scipy_with_result in A4. apply bind_ok' in A4. destruct A4 as [x [X1 A4]]. apply bind_ok' in A4. destruct A4 as [p [X2 A4]].
      apply bind_ok' in A4. destruct A4 as [u [X3 A4]]. injection A4 as -> <-. apply call_attr_ok in HB. destruct HB as [g [b [B1 B2]]].
      exists lf, f, s0, s1, x, p, sts, ls, g, b. auto 12.
    - intros m Hm ->. destruct (minimisation_trained _ _ _ _ _ _ _ HM Hm) as [lf [f [s0 [s1' [r' [sts' [ls' [A1 [A2 [A3 _]]]]]]]]]]. discriminate.
  Qed.
  Lemma nlopt_trained : forall C x y w a o o' strat, a_minimize a = Some strat -> onlopt C x y w a o = (Ok tt, o') ->
    exists lf f s0 s1 states losses g body, get "loss_fn" (s_register (g_state o)) = Some lf /\ lossfn lf = Some f /\
    training_runs sample (loss_keywords f (Targets x y) (nlopt_loss_kwargs a)) (a_key a) (a_restarts a) (g_state o) s0 s1 states losses /\
    g_results o' = Some NloptResult /\
    k_fit C TTargets = Some (g, body) /\ body (Targets x y) (Options (o_iterative (a_options a)) ONone) s1 = Ok (g_state o') /\
    (if a_history a then g_states o' = Some states /\ g_losses o' = Some losses else g_states o' = g_states o /\ g_losses o' = g_losses o).
  Proof.
    intros C x y w a o o' strat HM H. unfold object_fit_nlopt in H. apply (finish_trained _ _ _ _ _ _ HM) in H.
    - destruct H as [s1 [r [sts [ls [HF [HB [HR HH]]]]]]]. destruct (minimisation_trained _ _ _ _ _ _ _ HM HF) as [lf [f [s0 [s1' [r' [sts' [ls' [A1 [A2 [A3 [A4 A5]]]]]]]]]]].
      injection A3 as <- <- <- <-. unfold nlopt_with_result in A4. apply bind_ok' in A4. destruct A4 as [u [X1 A4]]. injection A4 as -> <-.
      apply call_attr_ok in HB. destruct HB as [g [b [B1 B2]]]. exists lf, f, s0, s1, sts, ls, g, b. auto 12.
    - intros m Hm ->. destruct (minimisation_trained _ _ _ _ _ _ _ HM Hm) as [lf [f [s0 [s1' [r' [sts' [ls' [A1 [A2 [A3 _]]]]]]]]]]. discriminate.
  Qed.

  (** ** what stays *)
  Lemma finish_kept : forall a o found fit r o', object_finish a o found fit = (r, o') -> a_history a = false \/ r <> Ok tt ->
    g_states o' = g_states o /\ g_losses o' = g_losses o.
  Proof.
    intros a o found fit r o' H HA. destruct found as [[[[[s1 x] sts] ls]|]|e]; cbn [object_finish g_state] in H.
    - destruct (fit s1) as [s2|e]; [|injection H as <- <-; auto]. destruct (a_history a); [|injection H as <- <-; auto]. injection H as <- <-. destruct HA as [HA|HA]; [discriminate|now elim HA].
    - destruct (fit (g_state o)) as [s2|e]; [|injection H as <- <-; auto]. destruct (a_history a); injection H as <- <-; auto.
    - injection H as <- <-. auto.
  Qed.
  Lemma finish_results : forall a o found fit r o', object_finish a o found fit = (r, o') -> found = Ok None \/ (exists e, found = Err e) -> g_results o' = g_results o.
  Proof.
    intros a o found fit r o' H [-> | [e ->]]; cbn [object_finish] in H; [|injection H as <- <-; reflexivity].
    destruct (fit (g_state o)) as [s2|e]; [|injection H as <- <-; auto]. destruct (a_history a); injection H as <- <-; reflexivity.
  Qed.
  Lemma minimisation_none : forall a mi d kw s, a_minimize a = None ->
    object_minimisation lossfn sample a mi d kw s = Ok None \/ exists e, object_minimisation lossfn sample a mi d kw s = Err e.
  Proof.
    intros a mi d kw s H. unfold object_minimisation. destruct (attr s "loss_fn"); [|right; eexists; reflexivity]. cbn [bind].
    destruct (lossfn a0); [|right; eexists; reflexivity]. rewrite H. left. reflexivity.
  Qed.
  Lemma step_kept : forall C o p r o', object_step lossfn sample key_precond C o p = (r, o') ->
    (r = Ok tt -> with_history p = false /\ is_randomize p = false) -> g_states o' = g_states o /\ g_losses o' = g_losses o.
  Proof.
    intros C o p r o' H HP.
    assert (D : r = Ok tt \/ r <> Ok tt) by (destruct r as [[]|]; [left; reflexivity|right; discriminate]).
    destruct p as [d a|x y w a|k b|l]; cbn [object_step with_history is_randomize] in *.
    - unfold object_fit in H. eapply finish_kept; [exact H|]. destruct D as [D|D]; [left; apply HP; exact D|right; exact D].
    - unfold object_fit_nlopt in H. eapply finish_kept; [exact H|]. destruct D as [D|D]; [left; apply HP; exact D|right; exact D].
    - destruct (base_randomize sample C k b (g_state o)); injection H as <- <-; [|auto]. destruct (HP eq_refl) as [_ X]. discriminate.
    - destruct l; injection H as <- <-; auto.
  Qed.
  Lemma step_results : forall C o d a r o', a_minimize a = None -> ofit C d a o = (r, o') -> g_results o' = g_results o /\ g_states o' = g_states o /\ g_losses o' = g_losses o.
  Proof.
    intros C o d a r o' HM H. unfold object_fit in H. rewrite HM in H.
    set (found := match d with Both _ _ _ _ => Ok None | _ => object_minimisation lossfn sample a scipy_with_result d (fit_loss_kwargs key_precond a) (g_state o) end).
    assert (X : found = Ok None \/ exists e, found = Err e) by (unfold found; destruct d; [apply minimisation_none; exact HM..|left; reflexivity]).
    assert (H' : object_finish a o found (fun u => call_attr (k_fit C (task_of d)) 1 (fit_names (task_of d)) (fun b => b d (a_options a) u)) = (r, o')) by (unfold found; destruct d; exact H).
    clearbody found. split; [eapply finish_results; [exact H'|exact X]|]. eapply finish_kept; [exact H'|].
    destruct X as [-> | [e ->]]; cbn [object_finish] in H'; [|right; injection H' as <- _; discriminate].
    destruct (call_attr _ _ _ _); [|right; injection H' as <- _; discriminate]. destruct (a_history a); [|left; reflexivity]. right. injection H' as <- _. discriminate.
  Qed.
  Lemma run_kept : forall C ps o, Forall (fun p => with_history p = false /\ is_randomize p = false) ps ->
    g_states (object_run lossfn sample key_precond C ps o) = g_states o /\ g_losses (object_run lossfn sample key_precond C ps o) = g_losses o.
  Proof.
    intros C ps. induction ps as [|p ps IH]; intros o H; [auto|]. inversion H as [|? ? H1 H2]; subst. unfold object_run. cbn [fold_left].
    destruct (object_step lossfn sample key_precond C o p) as [r o1] eqn:E. cbn [snd]. destruct (step_kept _ _ _ _ _ E (fun _ => H1)) as [K1 K2].
    destruct (IH o1 H2) as [I1 I2]. rewrite <- K1, <- K2. auto.
  Qed.
  Lemma step_raised : forall C o p e o', object_step lossfn sample key_precond C o p = (Err e, o') -> g_states o' = g_states o /\ g_losses o' = g_losses o.
  Proof. intros C o p e o' H. eapply step_kept; [exact H|]. intro X. discriminate. Qed.
  Lemma run_last : forall C ps p ps' o o' r, let o1 := object_run lossfn sample key_precond C ps o in
    object_step lossfn sample key_precond C o1 p = (r, o') -> Forall (fun p => with_history p = false /\ is_randomize p = false) ps' ->
    let e := object_run lossfn sample key_precond C (ps ++ p :: ps') o in g_states e = g_states o' /\ g_losses e = g_losses o'.
  Proof.
    intros C ps p ps' o o' r o1 H HF e. subst e o1. unfold object_run in *. rewrite fold_left_app. cbn [fold_left]. rewrite H. cbn [snd]. exact (run_kept C ps' o' HF).
  Qed.
  Lemma none_kept : forall C ps, Forall (fun p => with_history p = false) ps -> forall o, g_states o = None /\ g_losses o = None ->
    let e := object_run lossfn sample key_precond C ps o in g_states e = None /\ g_losses e = None.
  Proof.
    intros C ps H. induction H as [|p ps H1 H2 IH]; intros o O; [exact O|]. unfold object_run. cbn [fold_left]. apply IH.
    destruct (is_randomize p) eqn:R.
    - destruct p; try discriminate. cbn [object_step]. destruct (base_randomize sample C k reset (g_state o)); cbn [snd]; [split; reflexivity|exact O].
    - destruct (object_step lossfn sample key_precond C o p) as [r o1] eqn:E. cbn [snd]. destruct (step_kept _ _ _ _ _ E (fun _ => conj H1 R)) as [-> ->]. exact O.
  Qed.
  Lemma run_none : forall C ps s, Forall (fun p => with_history p = false) ps ->
    let e := object_run lossfn sample key_precond C ps (from_state s) in g_states e = None /\ g_losses e = None.
  Proof. intros C ps s H. apply none_kept; [exact H|split; reflexivity]. Qed.
  Lemma run_randomized : forall C ps k reset ps' o o', object_step lossfn sample key_precond C (object_run lossfn sample key_precond C ps o) (ORandomize k reset) = (Ok tt, o') ->
    g_results o' = None /\ (Forall (fun p => with_history p = false) ps' ->
    let e := object_run lossfn sample key_precond C (ps ++ ORandomize k reset :: ps') o in g_states e = None /\ g_losses e = None).
  Proof.
    intros C ps k reset ps' o o' H.
    assert (X : g_results o' = None /\ g_states o' = None /\ g_losses o' = None).
    { cbn [object_step] in H. destruct (base_randomize sample C k reset _); [|discriminate]. injection H as <-. auto. }
    split; [apply X|]. intros HF e. subst e. unfold object_run in *. rewrite fold_left_app. cbn [fold_left]. rewrite H. cbn [snd].
    exact (none_kept C ps' HF o' (proj2 X)).
  Qed.
End O.

(** ** a training with history, then one without *)
Definition hist_fit (x : R) (h : bool) : object_op := OFit ex_data (ex_args (ex_min x x) h).
Definition hist_obj : gp_object := from_state (ex_s0 1).
Notation fw x := (forward Softplus x).
Lemma hist_first : exists o, object_step ex_lossfn ex_sampler ONone (GPR ex_num) hist_obj (hist_fit 1 true) = (Ok tt, o) /\
  s_params (g_state o) = ex_params (fw 1) 1 (fw 1) /\ g_results o = Some (ScipyResult (vec [1; 1]%R)) /\ g_losses o = Some [Some 0%R] /\
  exists u, g_states o = Some [u] /\ s_params u = ex_params (fw 1) 1 (fw 1).
Proof. eexists. split; [reflexivity|]. split; [reflexivity|]. split; [reflexivity|]. split; [reflexivity|]. eexists. split; reflexivity. Qed.
Lemma hist_second : exists o u, object_run ex_lossfn ex_sampler ONone (GPR ex_num) [hist_fit 1 true; hist_fit 2 false] hist_obj = o /\
  fst (object_step ex_lossfn ex_sampler ONone (GPR ex_num) (object_run ex_lossfn ex_sampler ONone (GPR ex_num) [hist_fit 1 true] hist_obj) (hist_fit 2 false)) = Ok tt /\
  s_params (g_state o) = ex_params (fw 2) 1 (fw 2) /\ g_states o = Some [u] /\ s_params u = ex_params (fw 1) 1 (fw 1).
Proof. do 2 eexists. split; [reflexivity|]. split; [reflexivity|]. split; [reflexivity|]. split; reflexivity. Qed.
Lemma fw_lt : (fw 1 < fw 2)%R.
Proof.
  simpl. unfold softplus, logaddexp. assert (ln (exp 1 + exp 0) < ln (exp 2 + exp 0))%R; [|lra].
  apply ln_increasing; [pose proof (exp_pos 1); pose proof (exp_pos 0); lra|]. assert (exp 1 < exp 2)%R by (apply exp_increasing; lra). lra.
Qed.
Lemma hist_stale : exists lossfn sample key_precond N o0 p q o1 o2 states, state_ok (g_state o0) /\
  object_step lossfn sample key_precond (GPR N) o0 p = (Ok tt, o1) /\ object_step lossfn sample key_precond (GPR N) o1 q = (Ok tt, o2) /\
  (exists d a strat, q = OFit d a /\ a_minimize a = Some strat) /\
  g_states o2 = Some states /\ forall u, In u states -> s_params u <> s_params (g_state o2).
Proof.
  destruct hist_second as [o2 [u [H1 [H2 [H3 [H4 H5]]]]]]. destruct hist_first as [o1 [F _]].
  unfold object_run in H1, H2. cbn [fold_left] in H1, H2. rewrite F in H1, H2. cbn [snd] in H1, H2.
  exists ex_lossfn, ex_sampler, ONone, ex_num, hist_obj, (hist_fit 1 true), (hist_fit 2 false), o1, o2, [u].
  split; [apply ex_s0_ok|]. split; [exact F|]. split; [rewrite <- H1, <- H2; apply surjective_pairing|]. split; [do 3 eexists; split; reflexivity|]. split; [exact H4|].
  intros v [<-|[]]. rewrite H3, H5. intro X. injection X as X _. pose proof fw_lt as Y. cbn in Y. lra.
Qed.
Lemma hist_randomized : exists o, object_run ex_lossfn ex_sampler ONone (GPR ex_num) [hist_fit 1 true; ORandomize (Key 0) false; hist_fit 2 false] hist_obj = o /\
  (exists o', object_step ex_lossfn ex_sampler ONone (GPR ex_num) (object_run ex_lossfn ex_sampler ONone (GPR ex_num) [hist_fit 1 true] hist_obj) (ORandomize (Key 0) false) = (Ok tt, o')) /\
  g_results o = Some (ScipyResult (vec [2; 2]%R)) /\ g_states o = None.
Proof. eexists. split; [reflexivity|]. split; [eexists; reflexivity|]. split; reflexivity. Qed.
