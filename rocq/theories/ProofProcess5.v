(** ProofProcess5: what a statement of a program leaves unchanged. *)
From Coq Require Import ZArith List String Bool Lia PeanoNat.
From Verif Require Import Base Num Common Kernels Integrals Registry PyTerms Threads SpecThreads Process SpecProcess ProofThreads2 ProofProcess ProofProcess2 ProofProcess3 ProofProcess4.
Import ListNotations.
Local Open Scope string_scope.
Local Open Scope nat_scope.

Section Frames5.
Context {N : Num}.
Notation T := (T N).
Notation state := (state N).
Variables (fuel : nat) (suave1 : (list T -> res T) -> res T) (suave12 : (list T -> res (list T)) -> res (list T)).
Section F.
Variable F : frame.
Notation wp := (ProofProcess.wp (N := N) F).
Notation inv := (ProofProcess.inv (N := N) F).
Notation free_dict := (ProofProcess3.free_dict (N := N) F).
Ltac pb H := eapply wp_bind; [apply wp_pure; [eassumption|H]|].
Definition is_class (s : state) o (P : pyclass -> Prop) : Prop := forall ob, nth_error (objects s) o = Some ob -> P (o_class ob).
Definition verb_kept (s : state) (m : string) : Prop := fe F -> c_set_verbosity (g_verbose s) m = g_verbose s.
(** The frame lets a statement do what it does. *)
Definition allowed (s : state) (p : op N) : Prop :=
  match p with
  | New c => has_ctype c = true -> info_kept F s
  | Drop o => ~ fv F o
  | Get_lin _ | Find_pk_lin _ _ _ | Sigmad2 _ _ _ | C_set_spectra_B _ _ _ _ => True
  | Set_item o _ _ | Pad_k o _ _ _ => free_dict s o
  | Write o x _ _ => forall a, assoc (dict_of s o) x = Some a -> ~ fb F (a_buf a)
  | Slice _ _ _ _ | Copy _ | Deepcopy _ => info_kept F s
  | Set_pk_lin o _ _ | Set_spectrum_lin o _ => ~ fo F o /\ ~ fl F
  | Set_terms o _ => free_dict s o /\ is_class s o (fun c => forall sl, slot_of c = Some sl -> ~ fs F sl)
  | Run_terms o _ _ => is_class s o (fun c => (forall sl, In sl (runs_of c) -> fw F sl) /\ (resets_1loop c = true -> ~ fs F S_1loop) /\ (c = CA1 -> free_dict s o) /\ (c = CB2 -> ~ fo F o /\ info_kept F s))
  | Set_precision _ _ _ _ _ _ | Set_cutoff _ _ _ => ~ fc F
  | Clear o => ~ fc F /\ ~ fo F o /\ info_kept F s
  | Set_verbosity o m => ~ fo F o /\ verb_kept s m
  | C_run_terms_B _ => fw F S_B /\ ~ fs F S_1loop /\ fw F S_1loop
  end.
Lemma wp_nothing s m : wp s m (fun _ _ => True) -> wp s (nothing m) (fun _ _ => True).
Proof. intros H. unfold nothing. eapply wp_bind; [exact H|]. intros [] s1 I1 K1 _. apply wp_ret; auto. Qed.
Lemma wp_set_verbosity s o m : inv s -> ~ fo F o -> verb_kept s m -> wp s (set_verbosity o m) (fun _ _ => True).
Proof.
  intros I O V. unfold set_verbosity. eapply wp_bind; [apply (wp_verbose F s (fun v => c_set_verbosity v m) (fun _ _ => True)); auto|]. intros [] s1 I1 K1 _.
  eapply wp_weaken; [apply wp_set_obj; auto|auto]. intros ob l E H. cbn in H. eapply (wf_link _ (in_wf _ _ I1)); eauto.
Qed.
Lemma wp_configure s f : inv s -> ~ fc F -> wp s (configure f) (fun _ s' => g_verbose s' = g_verbose s).
Proof.
  intros I C. unfold configure, ProofProcess.wp. destruct (f (g_conf s)) as [c []]; auto.
  - split; [|split; [|reflexivity]].
    + apply (inv_static F s); auto; [apply (wf_1loop _ (in_wf _ _ I))|apply (in_write _ _ I)].
    + apply keep_static; auto. tauto.
  - split.
    + apply (inv_static F s); auto; [apply (wf_1loop _ (in_wf _ _ I))|apply (in_write _ _ I)].
    + apply keep_static; auto. tauto.
Qed.
Lemma remove_other o o' l : o' <> o -> In o' l -> In o' (remove_one o l).
Proof. intros H. induction l as [|x t IH]; cbn; [tauto|]. intros [<-|Hi]; destruct (Nat.eqb_spec x o); cbn; auto; tauto. Qed.
Lemma remove_sub o o' l : In o' (remove_one o l) -> In o' l.
Proof. induction l as [|x t IH]; cbn; [tauto|]. destruct (Nat.eqb x o); cbn; tauto. Qed.
Ltac got O := pb ltac:(apply pure_obj); intros ? ? _ _ (-> & O); apply obj_exists in O as (? & ? & _).
Ltac got_c O := pb ltac:(apply pure_regpt); intros ? ? _ _ (-> & O); apply regpt_exists in O as (? & ? & _).
Lemma statement_frame s p : inv s -> old_objects F s -> allowed s p -> wp s (statement fuel suave1 suave12 p) (fun _ _ => True).
Proof.
  intros I O A. destruct p; cbn [statement allowed] in *; try apply wp_nothing.
  - eapply wp_bind; [apply wp_new_object; auto; [intros x a []|constructor]|]. intros o s1 I1 K1 (_ & _ & L & _). apply wp_hold; auto.
  - apply wp_modify; auto.
    + destruct I as [[] W B D]. constructor; auto. constructor; auto. cbn. intros o' Ho'. apply remove_sub in Ho'. auto.
    + constructor; auto using latched_refl; cbn; eauto. intros o' Hf Hi. apply remove_other; auto. intros ->. auto.
  - got E. pb ltac:(apply pure_attribute). intros l s1 _ _ (-> & El). apply wp_hold; auto. unfold attribute in El. destruct (o_lin a) as [l'|] eqn:Ea; [|discriminate]. injection El as <-. eapply (wf_link _ (in_wf _ _ I)); eauto.
  - got E. eapply wp_bind with (P := fun a s' => sound s' a /\ exists_obj s' o /\ free_dict s' o).
    + destruct v as [xs|o' x'].
      * eapply wp_weaken; [apply wp_np_new, I|]. intros b s1 I1 K1 (_ & _ & _ & Sb). split; [exact Sb|]. split; [eapply exists_keep; eauto|eapply free_keep; eauto].
      * got E'. eapply wp_weaken; [apply wp_pure; [exact I|apply pure_getitem]|]. intros b s1 _ _ (-> & Eb). apply getitem_Fine in Eb as (_ & Eb). split; [eapply sound_get; eauto|auto].
    + intros b s1 I1 K1 (Sb & L & Fd). eapply wp_weaken; [apply wp_setitem; auto|auto].
  - got E. pb ltac:(apply pure_getitem). intros b s1 _ _ (-> & Eb). apply getitem_Fine in Eb as (_ & Eb). eapply wp_weaken; [apply wp_np_set; auto|auto].
  - got E. eapply wp_bind; [apply wp_get with (Q := fun a s' => s' = s /\ a = s); auto|]. intros ? ? _ _ (-> & ->). eapply wp_bind; [apply wp_slice; auto|]. intros n s1 I1 K1 L. apply wp_hold; auto.
  - got E. eapply wp_bind; [apply wp_copy; eauto|]. intros n s1 I1 K1 L. apply wp_hold; auto.
  - got E. eapply wp_bind; [apply wp_get with (Q := fun a s' => s' = s /\ a = s); auto|]. intros ? ? _ _ (-> & ->). eapply wp_bind; [apply wp_deepcopy; auto|]. intros n s1 I1 K1 L. apply wp_hold; auto.
  - got_c E. apply wp_set_pk_lin; tauto.
  - got_c E. got E'. apply wp_set_spectrum_lin; tauto.
  - got_c E. destruct A as (Fd & Sl). eapply wp_weaken; [apply wp_set_terms_py; auto; eapply Sl; eauto|auto].
  - got_c E. match goal with H : nth_error (objects s) o = Some ?ob |- _ => destruct (A _ H) as (A1 & A2 & A3 & A4) end. apply wp_py_run_terms; auto.
  - got E. apply wp_pad_k; auto.
  - got_c E. eapply wp_weaken; [apply wp_pure; [exact I|apply pure_find]|auto].
  - got_c E. eapply wp_weaken; [apply wp_pure; [exact I|apply pure_sigmad2]|auto].
  - got_c E. eapply wp_weaken; [apply wp_configure; auto|auto].
  - got_c E. eapply wp_weaken; [apply wp_configure; auto|auto].
  - got_c E. eapply wp_bind; [apply wp_configure; tauto|]. intros [] s1 I1 K1 Ev. destruct A as (_ & Ao & Av). apply wp_set_verbosity; auto. intros Hv. rewrite Ev. apply Av, Hv.
  - got_c E. apply wp_set_verbosity; tauto.
  - got_c E. got E'. pb ltac:(apply pure_size). intros n s2 _ _ (-> & _). pb ltac:(apply pure_getitem). intros ? ? _ _ (-> & _). pb ltac:(apply pure_getitem). intros ? ? _ _ (-> & _).
    pb ltac:(apply pure_pointer). intros ? ? _ _ (-> & _). pb ltac:(apply pure_pointer). intros ? ? _ _ (-> & _). apply wp_set_spectra_B, I.
  - got_c E. apply wp_run_terms_B; tauto.
Qed.
(** The same for a step: temporaries are forgotten *)
Lemma step_frame s p : inv s -> old_objects F s -> allowed s p -> after (step fuel suave1 suave12 p s) (fun s' => inv s' /\ keep F s s').
Proof.
  intros I O A. pose proof (statement_frame s p I O A) as W. unfold ProofProcess.wp in W. unfold step.
  assert (X : forall s', inv s' /\ keep F s s' -> inv (with_temps s' []) /\ keep F s (with_temps s' [])).
  { intros s' (I' & K'). split.
    - apply (inv_static F s'); auto; [apply (wf_1loop _ (in_wf _ _ I'))|apply (in_write _ _ I')].
    - eapply keep_trans; [exact K'|]. apply keep_static; auto using latched_refl. }
  destruct (statement _ _ _ p s); cbn; auto; apply X; tauto.
Qed.
End F.
End Frames5.
