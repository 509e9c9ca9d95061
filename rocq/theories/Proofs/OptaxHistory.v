(** The loss history of optax training. *)
From Coq Require Import String List Bool Arith Reals Lia Lra ZArith.
From Verif Require Import Model.PyDict Model.Bijectors Model.Priors Model.Params Model.State Model.Optim Model.Optax Spec.DictSpec Spec.StateSpec Spec.BijectorSpec
  Spec.RandomSpec Spec.OptimSpec Spec.SearchSpec Proofs.BijectorLemmas Proofs.DictFacts Proofs.TreeFacts Proofs.StateFacts Proofs.UpdateFacts Proofs.SaveLoad
  Proofs.RandomFacts Proofs.StatePropLemmas Proofs.OptimFacts Proofs.OptimRun Proofs.OptaxFacts.
Import ListNotations.
Open Scope string_scope.
Open Scope nat_scope.

Lemma f2_len : forall {A B} (P : A -> B -> Prop) l l', Forall2 P l l' -> length l = length l'.
Proof. intros A B P l l' H. induction H; simpl; auto. Qed.
Section History.
  Variable loss : state -> array -> array -> result num.
  Variable grad : array -> array -> state -> list array.

  Lemma epochs_spec : forall updates x y valid e n hist s u tl vl,
    optax_epochs loss grad updates x y valid e hist n s = Ok (u, tl, vl) ->
    fst (optax_loop (grad x y) updates hist n s) = Ok u /\
    Forall2 (fun w l => optax_loss loss w x y = Ok l) (snd (optax_loop (grad x y) updates hist n s)) tl /\
    match valid with
    | None => vl = []
    | Some (xv, yv) => Forall2 (fun w l => optax_loss loss w xv yv = Ok l) (snd (optax_loop (grad x y) updates hist n s)) vl
    end /\ length (snd (optax_loop (grad x y) updates hist n s)) = n.
  Proof.
    intros updates x y valid e n. induction n as [|n IH]; intros hist s u tl vl H; cbn [optax_epochs optax_loop] in *.
    - injection H as <- <- <-. cbn. split; [reflexivity|]. split; [constructor|]. split; [destruct valid as [[? ?]|]; constructor|reflexivity].
    - apply bind_ok in H. destruct H as [l [Hl H]]. apply bind_ok in H. destruct H as [lv [Hv H]]. cbv zeta in *. apply bind_ok in H. destruct H as [s' [Hs H]].
      rewrite Hs. destruct (Nat.eqb e 0); [discriminate|]. apply bind_ok in H. destruct H as [[[u' tl'] vl'] [H E]]. cbn [fst snd] in E. injection E as <- <- <-.
      destruct (IH _ _ _ _ _ H) as [H1 [H2 [H3 H4]]]. cbn [fst snd]. split; [exact H1|]. split; [now constructor|]. split; [|cbn; now rewrite H4].
      destruct valid as [[xv yv]|].
      + apply bind_ok in Hv. destruct Hv as [v [Hv E]]. injection E as <-. cbn. now constructor.
      + injection Hv as <-. exact H3.
  Qed.
  Lemma epochs_free : forall updates x y valid e e' n hist s u tl vl, e' <> 0 ->
    optax_epochs loss grad updates x y valid e hist n s = Ok (u, tl, vl) -> optax_epochs loss grad updates x y None e' hist n s = Ok (u, tl, []).
  Proof.
    intros updates x y valid e e' n. induction n as [|n IH]; intros hist s u tl vl E' H; cbn [optax_epochs] in *.
    - injection H as <- <- <-. reflexivity.
    - apply bind_ok in H. destruct H as [l [Hl H]]. apply bind_ok in H. destruct H as [lv [Hv H]]. cbv zeta in *. apply bind_ok in H. destruct H as [s' [Hs H]].
      rewrite Hl, Hs. cbn [bind]. destruct (Nat.eqb e 0); [discriminate|]. apply bind_ok in H. destruct H as [[[u' tl'] vl'] [H E]]. cbn [fst snd] in E. injection E as <- <- <-.
      rewrite (proj2 (Nat.eqb_neq e' 0) E'). rewrite (IH _ _ _ _ _ E' H). reflexivity.
  Qed.
  Lemma epochs_valid : forall updates x y xv yv e e' n hist s u tl vl, e' <> 0 -> (forall w l, optax_loss loss w x y = Ok l -> exists v, optax_loss loss w xv yv = Ok v) ->
    optax_epochs loss grad updates x y None e hist n s = Ok (u, tl, vl) -> exists vl', optax_epochs loss grad updates x y (Some (xv, yv)) e' hist n s = Ok (u, tl, vl').
  Proof.
    intros updates x y xv yv e e' n. induction n as [|n IH]; intros hist s u tl vl E' A H; cbn [optax_epochs] in *.
    - injection H as <- <- <-. eauto.
    - apply bind_ok in H. destruct H as [l [Hl H]]. cbn [bind] in H. cbv zeta in *. apply bind_ok in H. destruct H as [s' [Hs H]].
      rewrite Hl, Hs. cbn [bind]. destruct (Nat.eqb e 0); [discriminate|]. apply bind_ok in H. destruct H as [[[u' tl'] vl'] [H E]]. cbn [fst snd] in E. injection E as <- <- <-.
      destruct (A _ _ Hl) as [v Hv]. destruct (IH _ _ _ _ _ E' A H) as [w Hw]. rewrite Hv. cbn [bind]. rewrite (proj2 (Nat.eqb_neq e' 0) E'), Hw. cbn. eauto.
  Qed.
  Lemma epochs_every : forall updates x y valid e e' n hist s, e <> 0 -> e' <> 0 ->
    optax_epochs loss grad updates x y valid e hist n s = optax_epochs loss grad updates x y valid e' hist n s.
  Proof.
    intros updates x y valid e e' n. induction n as [|n IH]; intros hist s E E'; cbn [optax_epochs]; [reflexivity|].
    rewrite (proj2 (Nat.eqb_neq e 0) E), (proj2 (Nat.eqb_neq e' 0) E'). destruct (optax_loss loss s x y); [|reflexivity]. cbn [bind].
    destruct (match valid with None => Ok [] | Some (xv, yv) => bind (optax_loss loss s xv yv) (fun v => Ok [v]) end); [|reflexivity]. cbn [bind]. cbv zeta.
    destruct (state_unflatten _ _); [|reflexivity]. cbn [bind]. now rewrite IH.
  Qed.
  Lemma epochs_never : forall updates x y valid n hist s r, optax_epochs loss grad updates x y valid 0 hist (S n) s <> Ok r.
  Proof.
    intros updates x y valid n hist s r H. cbn [optax_epochs] in H. apply bind_ok in H. destruct H as [l [_ H]]. apply bind_ok in H. destruct H as [lv [_ H]].
    cbv zeta in H. apply bind_ok in H. destruct H as [s' [_ H]]. discriminate.
  Qed.
  Lemma epochs_total : forall updates x y valid e n hist s u, e <> 0 -> fst (optax_loop (grad x y) updates hist n s) = Ok u ->
    (forall w, In w (snd (optax_loop (grad x y) updates hist n s)) -> (exists l, optax_loss loss w x y = Ok l) /\
       match valid with Some (xv, yv) => exists l, optax_loss loss w xv yv = Ok l | None => True end) ->
    exists tl vl, optax_epochs loss grad updates x y valid e hist n s = Ok (u, tl, vl).
  Proof.
    intros updates x y valid e n. induction n as [|n IH]; intros hist s u E H A; cbn [optax_epochs optax_loop] in *.
    - injection H as <-. eauto.
    - cbv zeta in *. destruct (state_unflatten _ _) as [s'|]; [|discriminate]. cbn [fst snd] in *.
      destruct (IH _ _ _ E H (fun w I => A w (or_intror I))) as [tl [vl R]]. destruct (A s (or_introl eq_refl)) as [[l Hl] V]. rewrite Hl. cbn [bind].
      rewrite (proj2 (Nat.eqb_neq e 0) E). destruct valid as [[xv yv]|].
      + destruct V as [v Hv]. rewrite Hv. cbn [bind]. rewrite R. cbn. eauto.
      + cbn [bind]. rewrite R. cbn. eauto.
  Qed.

  Lemma run_inv : forall adam s x y opt xv yv n lr e u tl vl, optax_run loss grad adam s x y opt xv yv n lr e = Ok (u, tl, vl) ->
    exists valid b w, (match xv, yv with Some a, Some c => valid = Some (a, c) | None, None => valid = None | _, _ => False end) /\
    transform "backward" s = Ok b /\ optax_epochs loss grad (check_optimizer adam opt lr) x y valid e [] (Z.to_nat n) b = Ok (w, tl, vl) /\
    transform "forward" w = Ok u.
  Proof.
    intros adam s x y opt xv yv n lr e u tl vl H. unfold optax_run in H. cbv zeta in H. apply bind_ok in H. destruct H as [mode [Hm H]]. apply bind_ok in H. destruct H as [b [Hb H]].
    apply bind_ok in H. destruct H as [[[w tl'] vl'] [H E]]. apply bind_ok in E. destruct E as [t [Ht E]]. cbn [fst snd] in *. injection E as -> -> ->.
    destruct xv as [xv|], yv as [yv|]; cbn in Hm; try discriminate; injection Hm as <-; [exists (Some (xv, yv))|exists None]; exists b, w; auto.
  Qed.
  Lemma run_back : forall adam s x y opt xv yv valid n lr e b w u tl vl,
    (match xv, yv with Some a, Some c => valid = Some (a, c) | None, None => valid = None | _, _ => False end) ->
    transform "backward" s = Ok b -> optax_epochs loss grad (check_optimizer adam opt lr) x y valid e [] (Z.to_nat n) b = Ok (w, tl, vl) ->
    transform "forward" w = Ok u -> optax_run loss grad adam s x y opt xv yv n lr e = Ok (u, tl, vl).
  Proof.
    intros adam s x y opt xv yv valid n lr e b w u tl vl V Hb H F. unfold optax_run. cbv zeta.
    destruct xv as [xv|], yv as [yv|]; try (destruct V; fail); subst valid; cbn [given check_validation orb andb negb bind]; rewrite Hb; cbn [bind]; rewrite H; cbn [bind fst snd]; now rewrite F.
  Qed.
  Lemma trail : forall f (ws : list state) x y tl, Forall2 (fun w l => optax_loss f w x y = Ok l) ws tl ->
    exists ts, Forall2 (fun w t => transform "forward" w = Ok t) ws ts /\ Forall2 (fun t l => f t x y = Ok l) ts tl.
  Proof.
    intros f ws x y tl H. induction H as [|w l ws tl H1 H IH]; [exists []; split; constructor|]. destruct IH as [ts [I1 I2]].
    unfold optax_loss in H1. apply bind_ok in H1. destruct H1 as [t [Ht Hl]]. exists (t :: ts). split; constructor; auto.
  Qed.
  Lemma same_trail : forall (ws ts us : list state), Forall2 (fun w t => transform "forward" w = Ok t) ws ts -> Forall2 (fun w t => transform "forward" w = Ok t) ws us -> us = ts.
  Proof.
    intros ws ts us H. revert us. induction H as [|w t ws ts H1 H IH]; intros us U; inversion U; subst; [reflexivity|]. f_equal; [congruence|auto].
  Qed.
  Lemma loop_hd : forall g updates n hist s w, nth_error (snd (optax_loop g updates hist (S n) s)) 0 = Some w -> w = s.
  Proof. intros g updates n hist s w. cbn [optax_loop]. cbv zeta. destruct (state_unflatten _ _); cbn; intro H; now injection H. Qed.
  Lemma run_history : forall adam s x y opt xv yv n lr e u tl vl, state_ok s -> optax_run loss grad adam s x y opt xv yv n lr e = Ok (u, tl, vl) ->
    exists ts, length ts = Z.to_nat n /\ Forall (legal_step s) (ts ++ [u]) /\
    (exists t0, nth_error (ts ++ [u]) 0 = Some t0 /\ bind (transform "backward" s) (transform "forward") = Ok t0) /\
    Forall2 (fun t l => loss t x y = Ok l) ts tl /\
    match xv, yv with Some a, Some c => Forall2 (fun t l => loss t a c = Ok l) ts vl | None, None => vl = [] | _, _ => False end /\
    fst (optax_minimize (grad x y) (check_optimizer adam opt lr) (Z.to_nat n) s) = Ok u.
  Proof.
    intros adam s x y opt xv yv n lr e u tl vl S H. destruct (run_inv _ _ _ _ _ _ _ _ _ _ _ _ _ H) as [valid [b [w [V [Hb [Hr Hu]]]]]].
    destruct (epochs_spec _ _ _ _ _ _ _ _ _ _ _ Hr) as [H1 [H2 [H3 H4]]]. destruct (trail _ _ _ _ _ H2) as [ts [T1 T2]]. exists ts.
    assert (LT : length ts = Z.to_nat n) by (rewrite <- H4; symmetry; exact (f2_len _ _ _ T1)).
    assert (FM : fst (optax_minimize (grad x y) (check_optimizer adam opt lr) (Z.to_nat n) s) = Ok u).
    { unfold optax_minimize. rewrite Hb. cbn [fst]. now rewrite H1. }
    split; [exact LT|]. split; [|split; [|split; [exact T2|split; [|exact FM]]]].
    - apply Forall_app. split.
      + apply Forall_forall. intros t I. apply (optax_visits (grad x y) (check_optimizer adam opt lr) (Z.to_nat n) s S). right. unfold optax_minimize. rewrite Hb. cbn [snd].
        clear -T1 I. induction T1 as [|w0 t0 ws ts E T1 IH]; [destruct I|]. destruct I as [<-|I]; [left; exact E|right; auto].
      + constructor; [|constructor]. apply (optax_visits (grad x y) (check_optimizer adam opt lr) (Z.to_nat n) s S). now left.
    - destruct (Z.to_nat n) as [|k] eqn:EN.
      + destruct ts; [|discriminate]. exists u. cbn in *. injection H1 as <-. rewrite Hb. cbn. auto.
      + destruct (snd (optax_loop (grad x y) (check_optimizer adam opt lr) [] (Datatypes.S k) b)) as [|w0 ws] eqn:EL; [discriminate|].
        inversion T1 as [|? t0 ? ts' E0 T1']; subst. exists t0. split; [reflexivity|]. rewrite Hb. cbn [bind].
        rewrite <- E0. f_equal. symmetry. apply (loop_hd (grad x y) (check_optimizer adam opt lr) k [] b). now rewrite EL.
    - destruct xv as [xv|], yv as [yv|]; try (destruct V; fail); subst valid; [|exact H3].
      destruct (trail _ _ _ _ _ H3) as [us [U1 U2]]. now rewrite <- (same_trail _ _ _ T1 U1).
  Qed.
  Lemma run_validation_free : forall adam s x y opt xv yv n lr e u tl, e <> 0 ->
    (forall vl, optax_run loss grad adam s x y opt (Some xv) (Some yv) n lr e = Ok (u, tl, vl) -> optax_run loss grad adam s x y opt None None n lr e = Ok (u, tl, [])) /\
    ((forall t l, loss t x y = Ok l -> exists v, loss t xv yv = Ok v) -> optax_run loss grad adam s x y opt None None n lr e = Ok (u, tl, []) ->
     exists vl, optax_run loss grad adam s x y opt (Some xv) (Some yv) n lr e = Ok (u, tl, vl)).
  Proof.
    intros adam s x y opt xv yv n lr e u tl E. split.
    - intros vl H. destruct (run_inv _ _ _ _ _ _ _ _ _ _ _ _ _ H) as [valid [b [w [V [Hb [Hr Hu]]]]]].
      eapply (run_back _ _ _ _ _ None None None); [reflexivity|exact Hb| |exact Hu]. eapply epochs_free; eauto.
    - intros A H. destruct (run_inv _ _ _ _ _ _ _ _ _ _ _ _ _ H) as [valid [b [w [V [Hb [Hr Hu]]]]]]. subst valid.
      destruct (epochs_valid (check_optimizer adam opt lr) x y xv yv e e (Z.to_nat n) [] b w tl [] E) as [vl R]; [|exact Hr|].
      + intros v l Hl. unfold optax_loss in *. apply bind_ok in Hl. destruct Hl as [t [Ht Hl]]. rewrite Ht. cbn. eauto.
      + exists vl. eapply (run_back _ _ _ _ _ (Some xv) (Some yv)); [reflexivity|exact Hb|exact R|exact Hu].
  Qed.
  Lemma run_one_sided : forall adam s x y opt v n lr e,
    optax_run loss grad adam s x y opt (Some v) None n lr e = Err ValueError /\ optax_run loss grad adam s x y opt None (Some v) n lr e = Err ValueError.
  Proof. intros. split; reflexivity. Qed.
  Lemma run_every : forall adam s x y opt xv yv n lr e e', e <> 0 -> e' <> 0 ->
    optax_run loss grad adam s x y opt xv yv n lr e = optax_run loss grad adam s x y opt xv yv n lr e'.
  Proof.
    intros adam s x y opt xv yv n lr e e' E E'. unfold optax_run. cbv zeta. destruct (check_validation _ _); [|reflexivity]. cbn [bind].
    destruct (transform "backward" s); [|reflexivity]. cbn [bind]. now rewrite (epochs_every _ _ _ _ e e').
  Qed.
  Lemma run_never : forall adam s x y opt xv yv n lr r, (0 < n)%Z -> optax_run loss grad adam s x y opt xv yv n lr 0 <> Ok r.
  Proof.
    intros adam s x y opt xv yv n lr [[u tl] vl] N H. destruct (run_inv _ _ _ _ _ _ _ _ _ _ _ _ _ H) as [valid [b [w [_ [_ [Hr _]]]]]].
    destruct (Z.to_nat n) as [|k] eqn:EN; [lia|]. exact (epochs_never _ _ _ _ _ _ _ _ Hr).
  Qed.
  Lemma run_rate : forall adam s x y u xv yv n lr lr' e, optax_run loss grad adam s x y (Some u) xv yv n lr e = optax_run loss grad adam s x y (Some u) xv yv n lr' e.
  Proof. reflexivity. Qed.
  Lemma run_succeeds : forall adam s x y opt xv yv n lr e, state_ok s -> on_params (fun p => floating (pr_dtype (m_prior (p_meta p)))) (s_params s) ->
    (forall t, length (grad x y t) = length (params_of (s_params t))) -> (forall g hist, length (check_optimizer adam opt lr (g :: hist)) = length g) ->
    (forall t x y, same_static s t -> exists l, loss t x y = Ok l) -> given xv = given yv -> e <> 0 ->
    exists u tl vl, optax_run loss grad adam s x y opt xv yv n lr e = Ok (u, tl, vl).
  Proof.
    intros adam s x y opt xv yv n lr e S FP GL UL LT V E. destruct (transform_ok "backward" s S FP (or_intror eq_refl)) as [b Hb]. destruct (transform_inv _ _ _ S Hb) as [SB [DB _]].
    destruct (optax_succeeds (grad x y) (check_optimizer adam opt lr) (Z.to_nat n) s S FP GL UL) as [u Hu]. unfold optax_minimize in Hu. rewrite Hb in Hu. cbn [fst] in Hu.
    apply bind_ok in Hu. destruct Hu as [w [Hw Hu]]. destruct (loop_inv (grad x y) (check_optimizer adam opt lr) (Z.to_nat n) [] b SB) as [L1 _].
    rewrite Forall_forall in L1.
    assert (A : forall v, In v (snd (optax_loop (grad x y) (check_optimizer adam opt lr) [] (Z.to_nat n) b)) -> forall x y, exists l, optax_loss loss v x y = Ok l).
    { intros v I x' y'. destruct (L1 v I) as [SV DV]. pose proof (shape_trans _ _ _ DB DV) as D.
      destruct (transform_ok "forward" v SV (on_params_meta (fun m => floating (pr_dtype (m_prior m))) s v S SV (proj2 (proj2 (proj2 D))) FP) (or_introl eq_refl)) as [t Ht].
      destruct (transform_inv _ _ _ SV Ht) as [ST [DT _]]. destruct (LT t x' y') as [l Hl]; [apply shape_static; auto; eapply shape_trans; eauto|].
      exists l. unfold optax_loss. rewrite Ht. exact Hl. }
    set (valid := match xv, yv with Some a, Some c => Some (a, c) | _, _ => None end).
    destruct (epochs_total (check_optimizer adam opt lr) x y valid e (Z.to_nat n) [] b w E Hw) as [tl [vl R]].
    { intros v I. split; [apply A, I|]. destruct valid as [[xv' yv']|]; [apply A, I|exact Logic.I]. }
    exists u, tl, vl. eapply run_back; [|exact Hb|exact R|exact Hu]. unfold valid. destruct xv, yv; try discriminate; reflexivity.
  Qed.
  Lemma run_returns : forall adam s x y opt xv yv n lr e, state_ok s -> on_params (fun p => floating (pr_dtype (m_prior (p_meta p)))) (s_params s) ->
    (forall t, length (grad x y t) = length (params_of (s_params t))) -> (forall g hist, length (check_optimizer adam opt lr (g :: hist)) = length g) ->
    (forall t x y, same_static s t -> exists l, loss t x y = Ok l) -> (match xv, yv with Some _, Some _ | None, None => True | _, _ => False end) -> e <> 0 ->
    exists u tl vl, optax_run loss grad adam s x y opt xv yv n lr e = Ok (u, tl, vl).
  Proof. intros. apply run_succeeds; auto. destruct xv, yv; auto; contradiction. Qed.
  Lemma run_progress : forall adam s x y opt xv yv n lr,
    (forall e e', e <> 0 -> e' <> 0 -> optax_run loss grad adam s x y opt xv yv n lr e = optax_run loss grad adam s x y opt xv yv n lr e') /\
    forall r, (0 < n)%Z -> optax_run loss grad adam s x y opt xv yv n lr 0 <> Ok r.
  Proof. intros. split; intros; [now apply run_every|now apply run_never]. Qed.
End History.
