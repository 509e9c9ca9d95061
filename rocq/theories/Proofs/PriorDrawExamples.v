(** Laws of the raw draws. *)
From Coq Require Import Reals Lra List ClassicalEpsilon.
From Coquelicot Require Import Coquelicot.
From Verif Require Import Model.Bijectors Model.Priors Model.Params Model.State Model.PriorDraw
  Spec.BijectorSpec Spec.PriorSpec Spec.PriorDrawSpec Proofs.PriorDrawFacts.
Import ListNotations.
Open Scope R_scope.

(** a law from its distribution function; events that are not half-lines do not matter *)
Definition law_of (F : R -> R) : law := fun A =>
  match excluded_middle_informative (exists a, forall z, A z <-> z <= a) with
  | left E => F (proj1_sig (constructive_indefinite_description _ E))
  | right _ => 0
  end.
Lemma half_line : forall F (A : R -> Prop) a, (forall z, A z <-> z <= a) -> law_of F A = F a.
Proof.
  intros F A a H. unfold law_of. destruct (excluded_middle_informative _) as [E|E]; [|exfalso; apply E; now exists a].
  destruct (constructive_indefinite_description _ E) as [b Hb]. cbn. f_equal.
  assert (L1 : b <= a) by (apply H, Hb; lra). assert (L2 : a <= b) by (apply Hb, H; lra). lra.
Qed.
Lemma law_of_ok : forall F, law_ok (law_of F).
Proof.
  intros F A B E. destruct (excluded_middle_informative (exists a, forall z, A z <-> z <= a)) as [[a H]|N].
  - rewrite (half_line F A a H). symmetry. apply half_line. intro z. rewrite <- E. apply H.
  - unfold law_of. destruct (excluded_middle_informative _) as [X|_]; [contradiction|].
    destruct (excluded_middle_informative _) as [[a H]|_]; [|reflexivity]. exfalso. apply N. exists a. intro z. rewrite E. apply H.
Qed.
Lemma law_of_density : forall F t d, derivable_pt_lim F t d -> density_at (law_of F) t d.
Proof. intros F t d H. unfold density_at. eapply density_ext; [|exact H]. intro u. symmetry. apply half_line. intro z. reflexivity. Qed.

(** the standard normal distribution, up to a constant *)
Definition normal_law : law := law_of (fun t => RInt (fun x => normal_pdf x 0 1) 0 t).
Lemma normal_law_ok : forall Gam l s, standard_law Gam (NormalPrior l s) normal_law.
Proof.
  intros Gam l s. split; [apply law_of_ok|]. intros t _. apply law_of_density. apply is_derive_Reals. cbn [pdf standard].
  assert (C : forall x, continuous (fun x => normal_pdf x 0 1) x).
  { intro x. apply (@ex_derive_continuous R_AbsRing R_NormedModule). unfold normal_pdf. auto_derive. lra. }
  apply (is_derive_RInt (fun x => normal_pdf x 0 1) _ 0 t); [|apply C]. apply filter_forall. intro u. apply (@RInt_correct R_CompleteNormedModule).
  apply (@ex_RInt_continuous R_CompleteNormedModule). intros z _. apply C.
Qed.
(** the exponential distribution *)
Definition exponential_law : law := law_of (fun t => 1 - exp (- t)).
Lemma exponential_law_ok : forall b, standard_law (fun _ => 1) (GammaPrior 1 b) exponential_law.
Proof.
  intro b. split; [apply law_of_ok|]. intros t [_ [_ T]]. apply law_of_density. cbn [pdf standard]. unfold gamma_pdf.
  replace (1 - 1) with 0 by ring. rewrite Rpower_O by exact T. replace (Rpower 1 1) with 1 by (unfold Rpower; rewrite ln_1, Rmult_0_r, exp_0; reflexivity).
  apply is_derive_Reals. auto_derive; [exact I|]. replace (- (1 * t)) with (- t) by ring. lra.
Qed.
Definition ex_source : source := Source (fun _ s d => Arr s d [Some 0]) (fun _ _ s d => Arr s d [Some 1]).
Lemma ex_source_ok : source_ok ex_source.
Proof. split; intros; (split; [reflexivity|]; split; [reflexivity|]; repeat constructor; discriminate). Qed.
(** a generator of one number *)
Definition one_source (z : R) : source := Source (fun _ s d => Arr s d [Some z]) (fun _ _ s d => Arr s d [Some z]).
Lemma one_source_ok : forall z, source_ok (one_source z).
Proof. split; intros; (split; [reflexivity|]; split; [reflexivity|]; repeat constructor; discriminate). Qed.
Lemma one_source_law : forall Gam k l s, standard_law Gam (NormalPrior l s) (over normal_law (fun z => entry_of (asked (one_source z) k (PriorObj [] F64 (NormalPrior l s))) 0)).
Proof. intros. exact (normal_law_ok Gam l s). Qed.
