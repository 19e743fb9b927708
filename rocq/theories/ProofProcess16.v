(** ProofProcess16: programs, continued: statements which leave an object alone; the runs. *)
From Coq Require Import ZArith List String Bool Lia PeanoNat.
From Verif Require Import Base Num Common Kernels Integrals Registry PyTerms Threads SpecThreads Process SpecProcess ProofThreads2 ProofThreads3 ProofScratch3 ProofPy ProofProcess ProofProcess2 ProofProcess3 ProofProcess4 ProofProcess5 ProofProcess6 ProofProcess7 ProofProcess8 ProofProcess9 ProofProcess10 ProofProcess11 ProofProcess12 ProofProcess13 ProofProcess14 ProofProcess15.
Import ListNotations.
Local Open Scope string_scope.
Local Open Scope nat_scope.

Section Programs.
Context {N : Num}.
Notation T := (T N).
Notation state := (state N).
Implicit Types (s : state) (o l : nat).
Variables (fuel : nat) (suave1 : (list T -> res T) -> res T) (suave12 : (list T -> res (list T)) -> res (list T)).
Notation step := (step fuel suave1 suave12).
Notation execute := (execute fuel suave1 suave12).

(** ** Statements on other objects *)
Definition guard s o (att : list nat) : frame := around s (o :: opt (lin_of s o)) (fun sl => exists c, class_of s o = Some c /\ slot_of c = Some sl) True att (fun v => v = o) False False.
Lemma free_guard s o att x : ~ same_table s x (o :: opt (lin_of s o)) -> free_dict (guard s o att) s x.
Proof. intros H ob E (o' & ob' & Hi & E' & D). apply H. exists o', ob', ob. auto. Qed.
Lemma spares_allowed s o p att : spares s o p -> (forall x, In x att -> x = o) -> match p with Clear _ | Set_verbosity _ _ => att = [] | _ => True end -> allowed (guard s o att) s p.
Proof.
  intros Sp At Av. destruct p; cbn [spares allowed] in *; unfold info_kept, verb_kept; cbn; auto; try tauto.
  - apply free_guard, Sp.
  - destruct Sp as [Sp1 Sp2]. split; [apply free_guard, Sp1|]. intros ob E sl Sl (c & C & Sc). apply (Sp2 (o_class ob) c); [unfold class_of; rewrite E; reflexivity|exact C|congruence].
  - destruct Sp as [Sp1 Sp2]. intros ob E. specialize (Sp2 (o_class ob)). assert (C : class_of s o0 = Some (o_class ob)) by (unfold class_of; rewrite E; reflexivity). specialize (Sp2 C). repeat split; auto.
    + intros sl Hs. apply (Sp2 sl). destruct (o_class ob); exact Hs.
    + intros R (c & Cc & Sc). refine (proj1 (Sp2 S_1loop _) c Cc Sc). destruct (o_class ob); try discriminate R; cbn; auto.
    + intros _. apply free_guard, Sp1.
    + intros Hi. apply At in Hi. subst o0. apply Sp1. exists o, ob, ob. cbn. auto.
    + intros X. destruct X.
  - apply free_guard, Sp.
  - subst att. repeat split; auto; tauto.
  - subst att. tauto.
  - repeat split.
    + apply (Sp S_B); cbn; auto.
    + intros (c & C & Sc). refine (proj1 (Sp S_1loop _) c C Sc); cbn; auto.
    + apply (Sp S_1loop); cbn; auto.
Qed.
Lemma verb_lin s o p : match p with Clear _ | Set_verbosity _ _ => True | _ => False end -> after (step p s) (fun s' => lin_of s' o = lin_of s o).
Proof.
  assert (X : forall x m s0, lin_of s0 o = lin_of s o -> match @set_verbosity N x m s0 with Fine s' _ | Throws _ s' => lin_of s' o = lin_of s o | _ => True end).
  { intros x m s0 <-. unfold set_verbosity, mbind, set_obj, modify. cbn. destruct (nth_error (objects s0) x) as [ox|] eqn:E; [|reflexivity]. unfold lin_of. cbn. rewrite nth_error_upd. destruct (Nat.eqb_spec x o) as [->|]; [rewrite E|]; reflexivity. }
  intros Hp. unfold Process.step. destruct p; try destruct Hp; cbn [statement]; unfold nothing.
  - unfold mbind at 1 2. unfold regpt. unfold mbind at 1. unfold obj. destruct (mem o0 (reachable s)); [|exact I]. destruct (nth_error (objects s) o0) as [ob|]; [|exact I]. destruct (has_ctype (o_class ob)); [|reflexivity].
    cbn [ret]. unfold mbind at 1. unfold configure. destruct (py_clear 5 (g_conf s)) as [c []]; [|reflexivity|exact I].
    specialize (X o0 "info" (with_conf s c) eq_refl). destruct (set_verbosity o0 "info" (with_conf s c)); auto.
  - unfold mbind at 1 2. unfold regpt. unfold mbind at 1. unfold obj. destruct (mem o0 (reachable s)); [|exact I]. destruct (nth_error (objects s) o0) as [ob|]; [|exact I]. destruct (has_ctype (o_class ob)); [|reflexivity].
    cbn [ret]. specialize (X o0 m s eq_refl). destruct (set_verbosity o0 m s); auto.
Qed.
Lemma left_refl s o : left_alone s s o.
Proof. constructor; auto. Qed.
Lemma left_trans (a b c : state) o : left_alone a b o -> left_alone b c o -> left_alone a c o.
Proof.
  intros A B. constructor; intros; try (apply B, A; assumption).
  - rewrite (la_lin _ _ _ B). apply A.
  - rewrite (la_column _ _ _ B). apply A.
  - rewrite (la_spectrum _ _ _ B) by (rewrite (la_lin _ _ _ A); assumption). apply A; assumption.
Qed.
Lemma left_kept s s' o att : wf s -> o < List.length (objects s) -> keep (guard s o att) s s' -> lin_of s' o = lin_of s o -> left_alone s s' o.
Proof.
  intros W Lo Kp El. set (os := o :: opt (lin_of s o)). assert (Io : In o os) by (left; reflexivity).
  assert (Ll : forall l, lin_of s o = Some l -> In l os /\ l < List.length (objects s)).
  { intros l E. split; [right; rewrite E; left; reflexivity|]. unfold lin_of in E. destruct (nth_error (objects s) o) as [ob|] eqn:Eo; [|discriminate]. eapply (wf_link _ W); eauto. }
  assert (V : In o (vars s) -> In o (vars s')) by (intros H; apply (kp_vars _ _ _ Kp); [reflexivity|exact H]).
  assert (C : class_of s' o = class_of s o) by (eapply kept_class; eauto).
  assert (HL : forall K P, has_lin s o K P -> has_lin s' o K P).
  { intros K P (Hv & l & E & L & D). destruct (Ll l E) as (Il & Ll'). split; [auto|]. exists l. split; [congruence|]. split.
    - eapply kept_lin_is; [exact Kp|exact Il|exact I|right; exists o; split; [auto|congruence]|exact Ll'|exact L].
    - intros ob' ol' Eb El'. destruct (nth_error (objects s) o) as [ob|] eqn:Eo; [|apply nth_error_None in Eo; lia]. destruct (nth_error (objects s) l) as [ol|] eqn:Eol; [|apply nth_error_None in Eol; lia].
      destruct (kp_obj _ _ _ Kp _ _ Eo) as (ob2 & X1 & _ & X2 & _). destruct (kp_obj _ _ _ Kp _ _ Eol) as (ol2 & Y1 & _ & Y2 & _). rewrite X1 in Eb. rewrite Y1 in El'. injection Eb as <-. injection El' as <-. rewrite X2, Y2. apply D; assumption. }
  assert (HT : forall ks, has_terms s o ks -> has_terms s' o ks).
  { intros ks (Hv & c & sl & T0). split; [auto|]. exists c, sl. eapply kept_terms; [exact Kp|exact Io| |exact T0]. exists c. split; [apply (t_class _ _ _ _ _ T0)|apply (t_slot _ _ _ _ _ T0)]. }
  constructor; auto.
  - intros x. eapply kept_column; eauto.
  - intros l x E. destruct (Ll l E). eapply kept_column; eauto.
  - intros K P ks (A & B & D). split; [auto|]. split; [auto|]. intros c l Ec E. rewrite C in Ec. rewrite El in E. destruct (Ll l E). eapply kept_apart; [exact Kp|exact Io|assumption|exact Lo|assumption|auto].
Qed.
Lemma spares_step s o p : wf s -> o < List.length (objects s) -> spares s o p -> after (step p s) (fun s' => left_alone s s' o).
Proof.
  intros W Lo Sp. assert (H : forall att, (forall x, In x att -> x = o) -> match p with Clear _ | Set_verbosity _ _ => att = [] | _ => True end -> after (step p s) (fun s' => keep (guard s o att) s s')).
  { intros att At Av. assert (A : after (step p s) (fun s' => inv (guard s o att) s' /\ keep (guard s o att) s s')).
    - apply step_frame; [apply around_inv, W|intros x Hx; apply At in Hx; subst x; exact Lo|apply spares_allowed; auto].
    - destruct (step p s); cbn in *; tauto. }
  assert (Cases : match p with Clear _ | Set_verbosity _ _ => True | _ => False end \/ match p with Clear _ | Set_verbosity _ _ => False | _ => True end) by (destruct p; auto).
  destruct Cases as [Cp|Cp].
  - specialize (H [] ltac:(intros x []) ltac:(destruct p; auto)). pose proof (verb_lin s o p Cp) as V. destruct (step p s); cbn in *; auto; eapply left_kept; eauto.
  - specialize (H [o] ltac:(intros x [<-|[]]; reflexivity) ltac:(destruct p; auto; destruct Cp)).
    assert (V : forall s', keep (guard s o [o]) s s' -> lin_of s' o = lin_of s o) by (intros s' Kp; eapply kept_lin_of; [exact Kp|left; reflexivity|exact Lo]).
    destruct (step p s); cbn in *; auto; eapply left_kept; eauto.
Qed.
End Programs.
