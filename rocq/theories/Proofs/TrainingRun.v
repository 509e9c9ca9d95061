(** A minimisation with restarts succeeds when the loss is a number at every state that can be reached, and keeps the best. *)
From Coq Require Import List String Bool Arith Reals ZArith Lia Lra.
From Verif Require Import Model.PyDict Model.Bijectors Model.Params Model.State Model.Optim Model.Calls Model.Lifecycle Model.KernelObj
  Spec.BijectorSpec Spec.StateSpec Spec.RandomSpec Spec.OptimSpec Spec.SearchSpec Spec.LifecycleSpec Spec.KernelObjSpec Spec.ConcreteSpec Spec.TrainingSpec
  Proofs.DictFacts Proofs.TreeFacts Proofs.StateFacts Proofs.UpdateFacts Proofs.RandomFacts Proofs.StatePropLemmas Proofs.OptimFacts Proofs.OptimRun
  Proofs.BijectorLemmas Proofs.OptimSearch Proofs.OptimPropLemmas Proofs.OptimPso Proofs.SaveLoad Proofs.KernelObjRun Proofs.LifecycleFacts Proofs.LifecyclePropLemmas Proofs.LifecycleParams.
Import ListNotations.
Open Scope string_scope.
Open Scope nat_scope.

Lemma proposes_real : forall {A} x0 (st : strategy A array), proposes x0 st -> proposes_reals st.
Proof. intros A x0 st H. induction H as [x [H _]|x k [H _] _ IH]; constructor; auto. Qed.
Lemma Forall2_nth : forall {A B} (P : A -> B -> Prop) l l' i a, Forall2 P l l' -> nth_error l i = Some a -> exists b, nth_error l' i = Some b /\ P a b.
Proof.
  intros A B P l l' i a H. revert i. induction H as [|x y l l' H _ IH]; intros [|i] E; try discriminate; cbn [nth_error] in *; [|auto].
  injection E as <-. eauto.
Qed.

Lemma startable_full : forall t, startable t -> full_tree t.
Proof.
  intros t H. unfold startable, full_tree, on_trainable in *. rewrite every_leaves in *. eapply Forall_impl; [|exact H]. intros [p|] X; [|exact I]. intro Tr. apply (X Tr).
Qed.
Lemma J_startable : forall s0 u, J s0 u -> startable (s_params s0) -> startable (s_params u).
Proof.
  intros s0 u [RU [E|[O [F L]]]] H; [now rewrite E|]. destruct RU as [SU _]. unfold startable, on_trainable. apply every_lookup; [apply SU|].
  intros path [p'|] HL; [|exact I]. intro Tr. split; [exact (on_trainable_lookup _ _ _ _ F HL Tr)|]. split; [exact (on_trainable_lookup _ _ _ _ L HL Tr)|].
  destruct O as [_ O]. specialize (O path). destruct (lookup path (s_params s0)) as [[p|]|] eqn:A; [|congruence|congruence]. destruct O as [v [O1 _]].
  rewrite O1 in HL. injection HL as <-. exact (proj2 (proj2 (on_trainable_lookup _ _ _ _ H A Tr))).
Qed.
Lemma startable_real : forall t, bijs_ok t -> startable t -> all_real (ravel_backward t).
Proof.
  intros t B H. unfold all_real, ravel_backward, ravel_list. cbn [a_data]. rewrite unbound_eq. unfold bijs_ok, startable in *. rewrite on_trainable_list in *.
  apply Forall_forall. intros z Hz. apply in_flat_map in Hz. destruct Hz as [a [Ha Hz]]. apply in_map_iff in Ha. destruct Ha as [p [<- Hp]].
  rewrite Forall_forall in B, H. specialize (B p Hp). destruct (H p Hp) as [_ [L NM]]. unfold backward_arr in Hz. cbn [a_data] in Hz. apply in_map_iff in Hz. destruct Hz as [w [<- Hw]].
  unfold legal in L. rewrite Forall_forall in L. destruct (L w Hw) as [r [-> IR]]. cbn [obind].
  destruct (forward_backward (m_bijector (p_meta p)) r B) as [q [E _]].
  - split; [exact IR|]. destruct (m_bijector (p_meta p)); auto. contradiction.
  - rewrite E. discriminate.
Qed.

Section Run.
  Context (s0 : state) (R0 : ready s0) (FT : full_tree (s_params s0)) (sample : key -> prior_obj -> array) (SA : sampler_ok sample) (SF : sampler_full sample).
  Context (s : state) (Js : J s0 s).
  Definition inv (u : state) : Prop := J s0 u /\ alike s u.
  Lemma inv_start : inv s.
  Proof. split; [exact Js|]. apply alike_refl. apply Js. Qed.
  Lemma J_full : forall u, J s0 u -> full_tree (s_params u).
  Proof. intros u [_ [E|[_ [F _]]]]; [now rewrite E|exact F]. Qed.
  Lemma reach : forall v x, inv v -> like_start (ravel_backward (s_params v)) x ->
    exists p, unravel_forward (s_params v) x = Ok p /\ with_params v p = Ok (State (s_kernel v) (s_mean v) p (s_register v)) /\
      inv (State (s_kernel v) (s_mean v) p (s_register v)).
  Proof.
    intros v x [Jv Av] [RX [DX LX]]. assert (RV : ready v) by apply Jv. destruct RV as [SV [BV FV]].
    destruct (unravel_succeeds (s_params v) x) as [p Hp]; auto; try apply SV.
    { rewrite LX. apply ravel_length. now apply J_full. }
    exists p. split; [exact Hp|]. destruct (unravel_inv (s_params v) x p) as [xs [_ [T' [S' [_ [O _]]]]]]; auto; try apply SV.
    pose proof (with_params_ok v p SV T' S') as W. split; [exact W|]. split.
    - apply (J_scipy s0 sample SA SF unit (fun _ _ => Ok tt) (fun _ => Done x) v); [intros _; now constructor|exact Jv|].
      unfold scipy_minimize. cbv zeta. cbn [play fst bind]. rewrite Hp. cbn [bind]. exact W.
    - eapply alike_trans; [exact Av|]. apply (forward_alike v v x); auto. rewrite Hp. exact W.
  Qed.
  Lemma again : forall v k, inv v -> exists u, randomize sample v k [] = Ok u /\ inv u.
  Proof.
    intros v k [Jv Av]. assert (RV : ready v) by apply Jv. destruct RV as [SV [BV FV]].
    destruct (randomize_legal sample v k [] SV SA (float_metas _ FV) BV) as [u [E _]]; [split; constructor|reflexivity|].
    exists u. split; [exact E|]. split.
    - eapply J_moved; [exact Jv|]. eapply randomize_moved; [exact SA|exact SF|apply Jv| | |exact E]; [split; constructor|reflexivity].
    - eapply alike_trans; [exact Av|]. eapply randomize_alike; [exact SV|exact SA| |exact E]. now apply float_metas.
  Qed.

  Section Loss.
    Context {A : Type} (loss : array -> state -> result A)
      (HL : forall x u, inv u -> exists a, loss x u = Ok a).
    (** every question of the optimiser is answered *)
    Lemma play_answers : forall v, inv v -> forall st : strategy A array, proposes (ravel_backward (s_params v)) st ->
      exists x l, play (objective (s_params v) v loss) st = (Ok x, l) /\ like_start (ravel_backward (s_params v)) x /\ Forall inv l.
    Proof.
      intros v Iv st H. induction H as [x H|x k H HK IH].
      - exists x, []. repeat split; auto; apply H.
      - destruct (reach v x Iv H) as [p [E1 [E2 Iu]]]. destruct (HL x _ Iu) as [a E3].
        destruct (IH a) as [x' [l [E4 [L F]]]]. exists x'. eexists. cbn [play]. unfold objective at 1. rewrite E1. cbn [bind]. rewrite E2. cbn [bind]. rewrite E3. cbn [bind].
        cbv zeta. rewrite E4. cbn [fst snd]. split; [reflexivity|]. split; [exact L|]. now constructor.
    Qed.
    Lemma scipy_runs : forall v strat, inv v -> proposes (ravel_backward (s_params v)) (strat (ravel_backward (s_params v))) ->
      exists v', fst (scipy_minimize loss strat v) = Ok v' /\ inv v'.
    Proof.
      intros v strat Iv H. unfold scipy_minimize. cbv zeta. destruct (play_answers v Iv _ H) as [x [l [E [L _]]]]. rewrite E. cbn [fst snd bind].
      destruct (reach v x Iv L) as [p [E1 [E2 Iu]]]. rewrite E1. cbn [bind]. eauto.
    Qed.
  End Loss.

  (** restarts *)
  Context (minimize : state -> result (state * unit)) (loss : state -> result num) (score : state -> R -> Prop).
  Context (HM : forall v, inv v -> exists v', minimize v = Ok (v', tt) /\ inv v').
  Context (HL : forall v, inv v -> exists r, loss v = Ok (Some (- r)%R) /\ score v r).
  Lemma restarts_all : forall n k v, inv v -> exists r, restarts sample minimize loss n k v = Ok r.
  Proof.
    intro n. induction n as [|n IH]; intros k v Iv; cbn [restarts]; [eauto|]. cbv zeta.
    destruct (again v (SplitR k) Iv) as [u [E0 Iu]]. rewrite E0. cbn [bind]. destruct (HM u Iu) as [w [E1 Iw]]. rewrite E1. cbn [bind fst snd].
    destruct (HL w Iw) as [r [El _]]. rewrite El. cbn [bind]. destruct (IH (SplitR k) w Iw) as [l Er]. rewrite Er. cbn [bind]. eauto.
  Qed.
  Lemma search_runs : forall k n, k <> None \/ n = 0 -> exists u states losses, randomized_minimization sample minimize loss k n s = Ok (u, tt, states, losses).
  Proof.
    intros k n K. unfold randomized_minimization.
    assert (C : check_random_key k n = Ok tt) by (destruct k, n; try reflexivity; destruct K; congruence). rewrite C. cbn [bind].
    destruct (HM s inv_start) as [s1 [E1 I1]]. rewrite E1. cbn [bind fst snd]. destruct (HL s1 I1) as [l [El _]]. rewrite El. cbn [bind].
    assert (R' : exists r, match k with Some k => restarts sample minimize loss n k s1 | None => Ok [] end = Ok r) by (destruct k; eauto using restarts_all).
    destruct R' as [r Er]. rewrite Er. cbn [bind]. cbv zeta.
    set (all := (s1, Some (- l)%R, tt) :: r). set (j := best_index (map (fun e => snd (fst e)) all)).
    assert (HJ : j < List.length all).
    { subst j all. cbn [map fst snd].
      destruct (best_index_number (- l)%R (map (fun e => snd (fst e)) r)) as [m [H _]].
      assert (best_index (Some (- l)%R :: map (fun e => snd (fst e)) r) < List.length (Some (- l)%R :: map (fun e => snd (fst e)) r)).
      { apply nth_error_Some. intro Z. setoid_rewrite Z in H. discriminate. } simpl List.length in *. now rewrite map_length in *. }
    change (exists u states losses, match nth_error all j with Some e => Ok (fst (fst e), snd e, map (fun e => fst (fst e)) all, map (fun e => snd (fst e)) all) | None => Err ValueError end
      = Ok (u, tt, states, losses)).
    destruct (nth_error all j) as [[[u q] []]|] eqn:E; [cbn [fst snd]; eauto|]. apply nth_error_None in E. lia.
  Qed.
  Lemma search_best : forall k n, k <> None \/ n = 0 -> exists u first states vs best losses,
    randomized_minimization sample minimize loss k n s = Ok (u, tt, states, losses) /\ inv u /\ minimize s = Ok (first, tt) /\
    List.length states = S n /\ nth_error states 0 = Some first /\ Forall2 score states vs /\ Forall2 (fun v l => l = Some (- v)%R) vs losses /\ Forall inv states /\
    exists j, nth_error states j = Some u /\ nth_error vs j = Some best /\ forall v, In v vs -> (v <= best)%R.
  Proof.
    intros k n K. destruct (search_runs k n K) as [u [states [losses E]]].
    destruct (restarts_run _ _ _ _ _ _ _ _ _ _ E) as [L1 [L2 [F [[[] [s1 [H0 N0]]] [HR [j [HJ HB]]]]]]].
    assert (X : forall j u, nth_error states j = Some u -> inv u).
    { clear j HJ HB. induction j as [|j IH]; intros w Hw.
      - assert (w = s1) by congruence. subst w. destruct (HM s inv_start) as [w [H1 I1]]. rewrite H1 in H0. injection H0 as <-. exact I1.
      - assert (JL : j < n). { assert (Datatypes.S j < List.length states) by (apply nth_error_Some; congruence). lia. }
        destruct (HR j JL) as [a [b [s2 [i1 [k0 [_ [Ha [Hb [R1 R2]]]]]]]]]. rewrite Hb in Hw. injection Hw as <-. specialize (IH _ Ha).
        destruct (again a (right (Datatypes.S j) k0) IH) as [s2' [R1' I2]]. rewrite R1 in R1'. injection R1' as <-.
        destruct (HM s2 I2) as [w [H1 I1]]. rewrite H1 in R2. injection R2 as <- _. exact I1. }
    assert (Y : Forall inv states). { apply Forall_forall. intros w Hw. apply In_nth_error in Hw. destruct Hw as [i Hi]. eauto. }
    assert (Z : exists vs, Forall2 score states vs /\ Forall2 (fun v l => l = Some (- v)%R) vs losses).
    { clear -F Y HL. induction F as [|a b l l' H F IH]; [exists []; split; constructor|]. inversion Y as [|? ? Ia Il]; subst. destruct (IH Il) as [vs [A1 A2]].
      destruct (HL a Ia) as [r [E1 E2]]. exists (r :: vs). split; constructor; auto. congruence. }
    destruct Z as [vs [F1 F2]]. destruct (Forall2_nth _ _ _ _ _ F1 HJ) as [best [B1 B2]]. destruct (Forall2_nth _ _ _ _ _ F2 B1) as [lb [B3 ->]].
    exists u, s1, states, vs, best, losses. refine (conj E (conj (X _ _ HJ) (conj H0 (conj L1 (conj N0 (conj F1 (conj F2 (conj Y _)))))))). exists j. split; [exact HJ|]. split; [exact B1|]. intros v Hv.
    apply In_nth_error in Hv. destruct Hv as [i Hi]. destruct (Forall2_nth _ _ _ _ _ F2 Hi) as [li [B4 ->]].

    destruct (nth_error losses 0) as [[r|]|] eqn:N.
    - destruct HB as [m [M1 M2]]. assert (EM : Some (Some m) = Some (Some (- best)%R)) by (rewrite <- M1; exact B3). injection EM as ->. destruct (M2 i _ B4) as [M3 _]. lra.
    - exfalso. destruct (Forall2_nth _ _ _ _ _ F1 N0) as [b0 [C1 _]]. destruct (Forall2_nth _ _ _ _ _ F2 C1) as [c0 [C2 C3]]. unfold num in *. congruence.
    - exfalso. apply nth_error_None in N. lia.
  Qed.
End Run.
