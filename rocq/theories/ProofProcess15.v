(** ProofProcess15: programs. *)
From Coq Require Import ZArith List String Bool Lia PeanoNat.
From Verif Require Import Base Num Common Kernels Integrals Registry PyTerms Threads SpecThreads Process SpecProcess ProofThreads2 ProofThreads3 ProofScratch3 ProofPy ProofProcess ProofProcess2 ProofProcess3 ProofProcess4 ProofProcess5 ProofProcess6 ProofProcess7 ProofProcess8 ProofProcess9 ProofProcess10 ProofProcess11 ProofProcess12 ProofProcess13 ProofProcess14.
Import ListNotations.
Local Open Scope string_scope.
Local Open Scope nat_scope.

Section Programs.
Context {N : Num}.
Notation T := (T N).
Notation state := (state N).
Implicit Types (s : state) (o l : nat).
Variables (fuel : nat) (suave1 : (list T -> res T) -> res T) (suave12 : (list T -> res (list T)) -> res (list T)).
Notation step := (step fuel suave1 suave12).
Notation execute := (execute fuel suave1 suave12).

Lemma step_wf s p : wf s -> after (step p s) (fun s' => wf s' /\ temps s' = []).
Proof.
  intros W. assert (A : after (step p s) (fun s' => inv F0 s' /\ keep F0 s s')).
  { apply step_frame; [apply inv0, W|intros x []|]. destruct p; cbn; unfold info_kept, verb_kept, is_class; cbn; try tauto; try apply free0.
    - split; [apply free0|]. intros ob _ sl _ [].
    - intros ob _. repeat split; auto; [intros _; apply free0|intros X; destruct X]. }
  revert A. unfold Process.step. destruct (statement _ _ _ p s); cbn; auto; intros (I & _); split; auto; apply (in_wf _ _ I).
Qed.
Lemma execute_wf ps : forall s s', wf s -> execute ps s = Some s' -> wf s'.
Proof.
  induction ps as [|p ps IH]; cbn; intros s s' W E; [injection E as <-; exact W|]. pose proof (step_wf s p W) as A. destruct (step p s); try discriminate E; eapply IH; [|exact E| |exact E]; apply A.
Qed.
Lemma fresh_wf : wf (fresh_process N).
Proof. constructor; cbn; try tauto; try (intros [|o]; discriminate); intros; discriminate. Qed.
Lemma reached_wf s : reached fuel suave1 suave12 s -> wf s.
Proof. intros (ps & E). eapply execute_wf; [apply fresh_wf|exact E]. Qed.
Lemma reached_step s p : reached fuel suave1 suave12 s -> after (step p s) (reached fuel suave1 suave12).
Proof.
  intros (ps & E). assert (X : forall ps s0, execute ps s0 = Some s -> execute (ps ++ [p]) s0 = match step p s with Fine s _ | Throws _ s => Some s | _ => None end).
  { clear. induction ps as [|q ps IH]; cbn; intros s0 E; [injection E as ->; destruct (step p s); reflexivity|]. destruct (step q s0); try discriminate; apply IH, E. }
  specialize (X _ _ E). destruct (step p s); cbn; auto; exists (ps ++ [p])%list; exact X.
Qed.
Lemma step_Fine p s s' v : statement fuel suave1 suave12 p s = Fine s' v -> step p s = Fine (with_temps s' []) v.
Proof. intros E. unfold Process.step. rewrite E. reflexivity. Qed.

(** ** Forgetting the temporaries *)
Lemma terms_ext s s' o c sl ks : blocks s' = blocks s -> dicts s' = dicts s -> objects s' = objects s -> g_terms s' sl = g_terms s sl -> terms_are s o c sl ks -> terms_are s' o c sl ks.
Proof.
  intros B D O G []. assert (Dx : forall x, dict_of s' x = dict_of s x) by (intros; apply dict_of_ext; assumption).
  assert (El : forall a, elements s' a = elements s a) by (intros; unfold elements, contents; rewrite B; reflexivity).
  assert (Co : forall x y, column_of s' x y = column_of s x y) by (intros x y; unfold column_of; rewrite Dx; destruct (assoc (dict_of s x) y); cbn; rewrite ?El; reflexivity).
  constructor; rewrite ?Dx, ?Co, ?G; auto.
  - unfold class_of. rewrite O. exact t_class.
  - intros x Hx. destruct (t_col x Hx) as (a & E & (F1 & F2) & L). exists a. split; [exact E|]. split; [|exact L]. split; [exact F1|]. rewrite B. exact F2.
Qed.
Lemma lin_ext s s' l K P : blocks s' = blocks s -> dicts s' = dicts s -> objects s' = objects s -> vars s' = vars s -> g_lin s' = g_lin s -> lin_is s l K P -> lin_is s' l K P.
Proof.
  intros B D O V G []. assert (Dx : forall x, dict_of s' x = dict_of s x) by (intros; apply dict_of_ext; assumption).
  assert (El : forall a, elements s' a = elements s a) by (intros; unfold elements, contents; rewrite B; reflexivity).
  assert (Co : forall x y, column_of s' x y = column_of s x y) by (intros x y; unfold column_of; rewrite Dx; destruct (assoc (dict_of s x) y); cbn; rewrite ?El; reflexivity).
  constructor; rewrite ?Dx, ?Co, ?G; auto.
  - unfold at_hand, lin_of. rewrite V, O. exact i_hand.
  - intros a Ha. destruct (i_kptr a Ha) as ((F1 & F2) & L). split; [split; [exact F1|rewrite B; exact F2]|exact L].
  - intros a Ha. destruct (i_pptr a Ha) as ((F1 & F2) & L). split; [split; [exact F1|rewrite B; exact F2]|exact L].
Qed.
Lemma terms_temps s o c sl ks t : terms_are s o c sl ks -> terms_are (with_temps s t) o c sl ks.
Proof. apply terms_ext; reflexivity. Qed.
Lemma lin_temps s l K P t : lin_is s l K P -> lin_is (with_temps s t) l K P.
Proof. apply lin_ext; reflexivity. Qed.
Lemma bound_of s o K P ks : set_up s o K P ks -> exists c sl l, class_of s o = Some c /\ lin_of s o = Some l /\ bound_to s o c sl l K P ks.
Proof. intros ((_ & l & El & L & _) & (_ & c & sl & T0) & A). pose proof (t_class _ _ _ _ _ T0) as C. exists c, sl, l. repeat (split; [assumption|]). constructor; auto. Qed.
Lemma class_obj s o c : class_of s o = Some c -> exists ob, nth_error (objects s) o = Some ob /\ o_class ob = c.
Proof. unfold class_of. destruct (nth_error (objects s) o) as [ob|]; [|discriminate]. intros [= <-]. eauto. Qed.
Lemma slot_ctype c sl : slot_of c = Some sl -> has_ctype c = true.
Proof. destruct c; try discriminate; reflexivity. Qed.

(** ** set_pk_lin *)
Lemma lin_step s o c K P : wf s -> In o (vars s) -> class_of s o = Some c -> has_ctype c = true -> List.length P = List.length K -> printable s K ->
  exists s', step (Set_pk_lin o K P) s = Fine s' [] /\ has_lin s' o K P /\ (forall ks, has_terms s o ks -> set_up s' o K P ks) /\ (forall x, column_of s' o x = column_of s o x) /\ g_conf s' = g_conf s /\ g_verbose s' = g_verbose s /\ vars s' = vars s.
Proof.
  intros W Ho C Ct Ln Pr. destruct (class_obj _ _ _ C) as (ob & Eo & Co). destruct (set_pk_lin_ok s o ob K P W Ho Eo Ln Pr) as (s1 & l & E1 & L1 & Lo1 & Hl & Bl1 & D1 & Nw & G1 & V1 & Cf1 & Vb1 & Cl1).
  pose proof (nth_error_lt _ _ _ Eo) as Lo. exists (with_temps s1 []). split.
  { apply step_Fine. cbn [statement]. apply nothing_ok. rewrite (bind_Fine _ _ _ _ _ (regpt_ok s o ob (reach_var _ _ Ho) Eo ltac:(rewrite Co; exact Ct))). exact E1. }
  assert (Lk : exists lk, assoc (dict_of s1 l) "k" = Some lk) by (pose proof (i_k _ _ _ _ L1) as X; unfold column_of in X; destruct (assoc (dict_of s1 l) "k"); [eauto|discriminate]). destruct Lk as (lk & Elk).
  assert (Dt : distinct_tables s1 o l).
  { intros ob1 ol Eo1 El1 X. assert (Y : dict_of s1 l = dict_of s1 o) by (unfold dict_of; rewrite Eo1, El1, X; reflexivity). rewrite Y in Elk. rewrite (D1 o Lo) in Elk. apply assoc_In in Elk. pose proof (dict_block _ _ _ _ W Elk).
    specialize (Nw "k" lk). rewrite Y, (D1 o Lo) in Nw. specialize (Nw Elk). lia. }
  assert (Col : forall x, column_of s1 o x = column_of s o x).
  { intros x. unfold column_of. rewrite (D1 o Lo). destruct (assoc (dict_of s o) x) as [a|] eqn:Ea; [|reflexivity]. cbn. unfold elements, contents. rewrite Bl1; [reflexivity|]. eapply dict_block; [exact W|apply assoc_In, Ea]. }
  assert (H1 : has_lin (with_temps s1 []) o K P) by (split; [cbn; rewrite V1; exact Ho|]; exists l; split; [exact Lo1|]; split; [apply lin_temps, L1|exact Dt]).
  split; [exact H1|]. split; [|split; [exact Col|auto]]. intros ks (_ & c' & sl & T0). split; [exact H1|]. split; [split; [apply H1|]|].
  - exists c', sl. apply terms_temps. destruct T0. constructor; auto.
    + rewrite Cl1; assumption.
    + rewrite G1. assumption.
    + intros x Hx. destruct (t_col x Hx) as (a & Ea & Fa & La). exists a. rewrite (D1 o Lo), G1. split; [exact Ea|]. split; [|exact La]. unfold faces in *. rewrite Bl1; [exact Fa|]. eapply dict_block; [exact W|apply assoc_In, Ea].
    + rewrite Col. assumption.
    + rewrite (D1 o Lo). assumption.
    + rewrite (D1 o Lo). assumption.
  - intros c1 l1 _ El1. cbn in El1. change (lin_of (with_temps s1 []) o) with (lin_of s1 o) in El1. rewrite Lo1 in El1. injection El1 as <-. intros x y a b Hx Nx Ea Eb _. change (assoc (dict_of s1 o) x = Some a) in Ea. change (assoc (dict_of s1 l) y = Some b) in Eb.
    rewrite (D1 o Lo) in Ea. apply assoc_In in Ea. apply assoc_In in Eb. pose proof (dict_block _ _ _ _ W Ea). specialize (Nw _ _ Eb). lia.
Qed.
(** ** set_terms *)
Lemma terms_step s o c sl ks : wf s -> In o (vars s) -> class_of s o = Some c -> slot_of c = Some sl -> printable s ks ->
  exists s', step (Set_terms o ks) s = Fine s' [] /\ has_terms s' o ks /\ (forall K P, has_lin s o K P -> set_up s' o K P ks) /\ (forall x, In x (fields c) -> column_of s' o x = Some (column_after c ks x)) /\
    terms_are s' o c sl ks /\ g_conf s' = g_conf s /\ g_verbose s' = g_verbose s /\ vars s' = vars s.
Proof.
  intros W Ho C Sl Pr. destruct (class_obj _ _ _ C) as (ob & Eo & Co). rewrite <- Co in Sl. destruct (set_terms_ok s o ob sl ks W (reach_var _ _ Ho) Eo Sl Pr) as (s1 & E1 & T1 & Z1 & Nw & Bl1 & D1 & G1 & O1 & Ld1 & V1 & Tm1 & Li1 & Cf1 & Vb1).
  rewrite Co in *. exists (with_temps s1 []). split.
  { apply step_Fine. cbn [statement]. apply nothing_ok. rewrite (bind_Fine _ _ _ _ _ (regpt_ok s o ob (reach_var _ _ Ho) Eo ltac:(rewrite Co; eapply slot_ctype, Sl))). rewrite Co. exact E1. }
  assert (H1 : has_terms (with_temps s1 []) o ks) by (split; [cbn; rewrite V1; exact Ho|]; exists c, sl; apply terms_temps, T1).
  split; [exact H1|]. split; [|split; [exact Z1|split; [apply terms_temps, T1|auto]]].
  intros K P (_ & l & El & L0 & Dt). pose proof (hand_lt _ _ W (i_hand _ _ _ _ L0)) as Ll. destruct (nth_error (objects s) l) as [ol|] eqn:Eol; [|apply nth_error_None in Eol; lia].
  assert (Dl : dict_of s1 l = dict_of s l) by (apply (D1 l ol Eol); intros X; apply (Dt ob ol Eo Eol); auto).
  assert (Fa : forall x a p, assoc (dict_of s l) x = Some a -> faces s a p -> faces s1 a p) by (intros x a p Ha; unfold faces; rewrite Bl1; [auto|]; eapply dict_block; [exact W|apply assoc_In, Ha]).
  assert (Cl : forall y, column_of s1 l y = column_of s l y) by (intros y; unfold column_of; rewrite Dl; destruct (assoc (dict_of s l) y) as [a|] eqn:Ea; [|reflexivity]; cbn; unfold elements, contents; rewrite Bl1; [reflexivity|]; eapply dict_block; [exact W|apply assoc_In, Ea]).
  assert (L1 : lin_is s1 l K P).
  { destruct L0. constructor; rewrite ?Dl, ?Cl, ?Li1; auto.
    - unfold at_hand, lin_of. rewrite V1, O1. exact i_hand.
    - intros a Ha. destruct (i_kptr a Ha). eauto.
    - intros a Ha. destruct (i_pptr a Ha). eauto. }
  split; [|split; [exact H1|]].
  - split; [apply H1|]. exists l. split; [unfold lin_of; cbn; rewrite O1; exact El|]. split; [apply lin_temps, L1|]. intros ob' ol'. cbn. rewrite O1. apply Dt.
  - intros c1 l1 Ec1 El1. unfold class_of, lin_of in *. cbn in Ec1, El1. rewrite O1 in Ec1, El1. rewrite Eo in Ec1. injection Ec1 as <-. rewrite Co. rewrite Eo in El, El1. rewrite El in El1. injection El1 as <-.
    intros x y a b Hx Nx Ea Eb _. change (assoc (dict_of s1 o) x = Some a) in Ea. change (assoc (dict_of s1 l) y = Some b) in Eb. rewrite Dl in Eb. apply assoc_In in Eb. pose proof (dict_block _ _ _ _ W Eb). specialize (Nw _ _ Hx Ea). lia.
Qed.
End Programs.
