(** ProofProcess2: what the functions of the library and the methods of the objects leave unchanged. *)
From Coq Require Import ZArith List String Bool Lia PeanoNat.
From Verif Require Import Base Num Common Kernels Integrals Registry PyTerms Threads SpecThreads Process SpecProcess ProofThreads2 ProofProcess.
Import ListNotations.
Local Open Scope string_scope.
Local Open Scope nat_scope.

Lemma cells_of_names d ik y i : In (Arr y i) (cells_of d ik) -> In y (tl (c_fields (slot_of_driver d))).
Proof. destruct d; cbn; intros H; repeat (destruct H as [H|H]; [injection H as <- _; cbn; tauto|]); destruct H. Qed.
Lemma column_names x y n i : In (Arr y i) (column x n) -> y = x.
Proof. unfold column. rewrite in_map_iff. intros (j & H & _). congruence. Qed.
Lemma assoc_combine {A} (l : list string) (m : list A) x a : assoc (combine l m) x = Some a -> In x l.
Proof. revert m. induction l as [|y t IH]; intros [|b m]; cbn; try discriminate. destruct (String.eqb_spec x y); [intros _; left; auto|intros H; right; eapply IH, H]. Qed.

Lemma assoc_combine_r {A} (l : list string) (m : list A) x a : assoc (combine l m) x = Some a -> In a m.
Proof. revert m. induction l as [|y t IH]; intros [|b m]; cbn; try discriminate. destruct (x =? y)%string; [intros [= ->]; left; auto|intros H; right; eapply IH, H]. Qed.

Section Frames2.
Context {N : Num}.
Notation T := (T N).
Notation state := (state N).
Variables (fuel : nat) (suave1 : (list T -> res T) -> res T) (suave12 : (list T -> res (list T)) -> res (list T)).
Variable F : frame.
Notation wp := (ProofProcess.wp (N := N) F).
Notation inv := (ProofProcess.inv (N := N) F).

Ltac pb H := eapply wp_bind; [apply wp_pure; [eassumption|H]|].
Lemma wp_store s ct lx : inv s -> (forall y i b o, fst lx = Arr y i -> ct_ptr ct y = Some (b, o) -> ~ fb F b) -> wp s (c_store ct lx) (fun _ _ => True).
Proof. intros I H. unfold c_store. destruct (fst lx) as [x i| |]; try (apply wp_ret; auto). apply wp_write; [exact I|]. intros b o E. eapply H; eauto. Qed.
Lemma wp_stores s sl ls xs : inv s -> fw F sl -> (forall y i, In (Arr y i) ls -> In y (tl (c_fields sl))) -> wp s (do_all (c_store (g_terms s sl)) (combine ls xs)) (fun _ _ => True).
Proof.
  intros I W H. apply wp_do_all; [|exact I]. intros s' [l x] I' Hl. apply wp_store; [exact I'|]. intros y i b o E P. cbn in E. subst l.
  eapply (in_write _ _ I); eauto. eapply H. eapply in_combine_l, Hl.
Qed.
Lemma tl_pk_lin sl : In "pk_lin" (tl (c_fields sl)). Proof. destruct sl; cbn; tauto. Qed.
Lemma tl_sigmad2 sl : In "sigmad2" (tl (c_fields sl)). Proof. destruct sl; cbn; tauto. Qed.
(** The terms struct of the run does not change during it. *)
Lemma pres_stores s ct ls xs : inv s -> fw F ct -> (forall y i, In (Arr y i) ls -> In y (tl (c_fields ct))) ->
  wp s (do_all (c_store (g_terms s ct)) (combine ls xs)) (fun _ s' => g_terms s' = g_terms s /\ g_1loop s' = g_1loop s /\ g_lin s' = g_lin s /\ g_dt s' = g_dt s /\ g_tt s' = g_tt s).
Proof.
  intros I W H. pose (G := g_terms s). change (g_terms s ct) with (G ct).
  eapply wp_weaken; [apply (wp_do_all_with F (fun s' => g_terms s' = G /\ g_1loop s' = g_1loop s /\ g_lin s' = g_lin s /\ g_dt s' = g_dt s /\ g_tt s' = g_tt s)); auto|auto].
  - intros s' [l x] I' (J1 & J2 & J3 & J4 & J5) Hl.
    assert (W' : wp s' (c_store (G ct) (l, x)) (fun _ _ => True)).
    { apply wp_store; [exact I'|]. intros y i b o E P. cbn in E. subst l. rewrite <- J1 in P. eapply (in_write _ _ I'); eauto. eapply H. eapply in_combine_l, Hl. }
    unfold ProofProcess.wp in *. destruct (c_store (G ct) (l, x) s') as [s2 []|e s2| |] eqn:E; auto. destruct W' as (A & B & _). split; [exact A|]. split; [exact B|].
    clear - E J1 J2 J3 J4 J5. unfold c_store in E. cbn in E. destruct l as [y i| |]; try (injection E as <-; auto).
    unfold c_write, mbind in E. destruct (place (ct_ptr (G ct) y) s') as [s3 [b o]| | |] eqn:E1; try discriminate.
    assert (s3 = s') as -> by (pose proof (pure_place (N := N) (ct_ptr (G ct) y) s') as P; rewrite E1 in P; exact P).
    destruct (block b s') as [s3 zs| | |] eqn:E2; try discriminate. apply block_Fine in E2 as (_ & -> & _).
    unfold c_lift in E. destruct (wr _ _ _) as [ws|]; try discriminate. unfold modify in E. injection E as <-. unfold put_block. destruct (nth_error _ _) as [[]|]; auto.
Qed.
Lemma wp_columns s d : inv s -> fw F (slot_of_driver d) -> wp s (c_columns d) (fun _ s' => g_terms s' = g_terms s /\ g_1loop s' = g_1loop s /\ g_lin s' = g_lin s /\ g_dt s' = g_dt s /\ g_tt s' = g_tt s).
Proof.
  intros I W. unfold c_columns. eapply wp_bind; [apply (wp_get F s (fun a s' => a = s /\ s' = s)); auto|]. intros ? s1 I1 K1 (-> & ->).
  pb ltac:(apply pure_overlap). intros [] s1 _ _ (-> & _). pb ltac:(apply pure_table). intros pkl s1 _ _ (-> & _). pb ltac:(apply pure_read_n). intros ks s1 _ _ (-> & _).
  pb ltac:(apply pure_c_lift). intros ps s1 _ _ (-> & _). eapply wp_bind; [apply pres_stores; auto|].
  { intros y i H. apply column_names in H. subst. apply tl_pk_lin. }
  intros [] s1 I2 K2 (E1 & E2 & E3 & E4 & E5). pb ltac:(apply pure_c_lift). intros ss s2 _ _ (-> & _). rewrite <- E1. eapply wp_bind; [apply pres_stores; auto|].
  { intros y i H. apply column_names in H. subst. apply tl_sigmad2. }
  intros [] s2 I3 K3 (E6 & E7 & E8 & E9 & E10). apply wp_ret; auto. repeat split; congruence.
Qed.
Lemma wp_rows s d pkl ks dt ptt : inv s -> fw F (slot_of_driver d) -> wp s (c_rows fuel suave1 suave12 d pkl ks dt ptt) (fun _ s' => g_terms s' = g_terms s /\ g_1loop s' = g_1loop s /\ g_lin s' = g_lin s /\ g_dt s' = g_dt s /\ g_tt s' = g_tt s).
Proof.
  intros I W. unfold c_rows. eapply wp_bind; [apply (wp_get F s (fun a s' => a = s /\ s' = s)); auto|]. intros ? s1 I1 K1 (-> & ->).
  apply (wp_do_all_with F (fun s' => g_terms s' = g_terms s /\ g_1loop s' = g_1loop s /\ g_lin s' = g_lin s /\ g_dt s' = g_dt s /\ g_tt s' = g_tt s)); auto 6. intros s' ik I' (J1 & J2 & J3 & J4 & J5) _.
  pb ltac:(apply pure_c_lift). intros v s2 _ _ (-> & _). rewrite <- J1. eapply wp_weaken; [apply pres_stores; auto|].
  { intros y i H. eapply cells_of_names, H. }
  cbn. intros _ s2 _ _ (E1 & E2 & E3 & E4 & E5). repeat split; congruence.
Qed.
Lemma latch_latched st x r : (x = "gamma3_tree_q" \/ x = "A_2loop_II_III_q") -> nle N (pr_min (s_prec st x)) (nZ N 0) || nle N (pr_max (s_prec st x)) (nZ N 0) = true ->
  latched st (put_prec st x (mkPrec (pr_n (s_prec st x)) (fst r) (snd r) (pr_interpol (s_prec st x)))).
Proof.
  intros Hx A. split; [reflexivity|]. split; [reflexivity|]. unfold put_prec, put. cbn. split; intros y.
  - destruct (String.eqb_spec y x); subst; auto.
  - destruct (String.eqb_spec y x); subst; auto. intros [H|[H1 H2]]; [congruence|destruct Hx; congruence].
Qed.
Lemma wp_latch s x pkl : inv s -> (x = "gamma3_tree_q" \/ x = "A_2loop_II_III_q") -> wp s (c_latch x pkl) (fun _ s' => g_terms s' = g_terms s /\ g_1loop s' = g_1loop s).
Proof.
  intros I Hx. unfold c_latch. eapply wp_bind; [apply (wp_get F s (fun a s' => a = s /\ s' = s)); auto|]. intros ? s1 I1 K1 (-> & ->).
  destruct (_ || _) eqn:A; [|apply wp_ret; auto]. pb ltac:(apply pure_c_lift). intros r s1 _ _ (-> & _).
  apply (wp_conf F s (fun c => put_prec c x (mkPrec (pr_n (s_prec (g_conf s) x)) (fst r) (snd r) (pr_interpol (s_prec (g_conf s) x))))); auto. intros _. apply latch_latched; auto.
Qed.
Lemma wp_run_terms s d : inv s -> fw F (slot_of_driver d) -> wp s (c_run_terms fuel suave1 suave12 d) (fun _ s' => g_terms s' = g_terms s /\ g_1loop s' = g_1loop s).
Proof.
  intros I W. unfold c_run_terms. eapply wp_bind; [apply wp_columns; auto|]. intros [pkl ks] s1 I1 K1 (E1 & E2 & _).
  eapply wp_bind with (P := fun _ s' => g_terms s' = g_terms s1 /\ g_1loop s' = g_1loop s1).
  - destruct d; try (apply wp_ret; auto; fail); apply wp_latch; auto.
  - intros [] s2 I2 K2 (E3 & E4). eapply wp_weaken; [apply wp_rows; auto|]. cbn. intros _ s3 _ _ (E5 & E6 & _). split; congruence.
Qed.
Lemma wp_set_terms s sl n args : inv s -> ~ fs F sl -> (fw F sl -> forall y b i, In y (tl (c_fields sl)) -> assoc (combine (c_fields sl) args) y = Some (Some (b, i)) -> ~ fb F b) ->
  wp s (c_set_terms sl n args) (fun _ s' => g_1loop s' = g_1loop s /\ g_terms s' sl = mkCterms n (fun x => match assoc (combine (c_fields sl) args) x with Some p => p | None => None end)).
Proof.
  intros I S W. unfold c_set_terms. eapply wp_bind; [apply (wp_terms F s sl (mkCterms n (fun x => match assoc (combine (c_fields sl) args) x with Some p => p | None => None end)) (fun _ s' => g_1loop s' = g_1loop s /\
    g_terms s' sl = mkCterms n (fun x => match assoc (combine (c_fields sl) args) x with Some p => p | None => None end))); auto|].
  - intros Hw y b i Hy E. cbn in E. destruct (assoc _ y) as [p|] eqn:A; [|discriminate]. subst p. eapply W; eauto.
  - cbn. rewrite slot_eqb_refl. auto.
  - intros [] s1 I1 K1 (E & E'). eapply wp_weaken; [apply wp_pure; [exact I1|apply pure_when_info, pure_print]|]. cbn. intros _ s2 _ _ (-> & _). auto.
Qed.
Lemma wp_spectrum s p : inv s -> (forall b i, p = Some (b, i) -> ~ fb F b) -> wp s (c_spectrum p) (fun _ _ => True).
Proof.
  intros I H. unfold c_spectrum. eapply wp_bind; [apply (wp_get F s (fun a s' => a = s /\ s' = s)); auto|]. intros ? s1 I1 K1 (-> & ->).
  apply wp_do_all; [|exact I]. intros s' ik I' _. do 6 (pb ltac:(apply pure_read); intros ? ? _ _ (-> & _)). apply wp_write; auto.
Qed.
Lemma wp_callocs nk l : forall s g, inv s -> g_1loop s = g -> wp s (each_ (fun _ : unit => c_calloc nk) l) (fun ps s' => g_1loop s' = g /\ forall p, In p ps -> exists b i, p = Some (b, i) /\ ~ fb F b).
Proof.
  induction l as [|[] l IH]; intros s g I G; cbn [each_].
  - apply wp_ret; auto. split; [auto|]. intros p [].
  - eapply wp_bind; [apply wp_calloc, I|]. intros p s1 I2 K2 (b1 & xs & -> & _ & Nb & _ & _ & E2). eapply wp_bind; [apply (IH s1 g); auto; congruence|].
    intros ps s2 I3 K3 (E3 & Hp). apply wp_ret; auto. split; [auto|]. intros q [<-|Hq]; eauto.
Qed.
Lemma wp_run_spectrum_1loop s a b : inv s -> ~ fs F S_1loop -> fw F S_1loop -> wp s (c_run_spectrum_1loop fuel suave1 suave12 a b) (fun _ _ => True).
Proof.
  intros I S W. unfold c_run_spectrum_1loop. eapply wp_bind; [apply (wp_get F s (fun a s' => a = s /\ s' = s)); auto|]. intros ? s1 I1 K1 (-> & ->).
  eapply wp_bind with (P := fun ps s' => g_1loop s' = g_1loop s /\ forall p, In p ps -> exists b i, p = Some (b, i) /\ ~ fb F b).
  { apply wp_callocs; auto. }
  intros ps s1 I2 K2 (E1 & Hp). eapply wp_bind; [apply wp_set_terms; auto|].
  { intros _ y b1 i Hy A. cbn [c_fields combine] in A. cbn [tl c_fields] in Hy.
    assert (Hin : In (Some (b1, i)) ps).
    { cbn [assoc] in A. destruct (String.eqb_spec y "k") as [->|]; [cbn in Hy; intuition discriminate|]. eapply (assoc_combine_r ["pk_lin"; "sigmad2"; "gamma1a_1loop"; "gamma1b_1loop"; "pk_gamma2_tree_tree"]), A. }
    destruct (Hp _ Hin) as (b2 & i2 & E & Nb). injection E as <- <-. exact Nb. }
  intros [] s2 I3 K3 (E2 & _). eapply wp_bind; [apply wp_run_terms; auto|]. intros [] s3 I4 K4 (_ & E4).
  eapply wp_bind; [apply (wp_get F s3 (fun a s' => a = s3 /\ s' = s3)); auto|]. intros ? s4 I5 K5 (-> & ->).
  eapply wp_bind; [apply wp_spectrum; auto|].
  { intros b1 i E Hb. destruct (wf_1loop _ (in_wf _ _ I5) _ _ E) as (w & xs & H1 & H2). destruct (in_block _ _ I5 _ Hb) as (ys & H3). congruence. }
  intros [] s5 I6 K6 _. eapply wp_bind; [apply (wp_get F s5 (fun a s' => a = s5 /\ s' = s5)); auto|]. intros ? s6 I7 K7 (-> & ->).
  apply wp_do_all; [|exact I6]. intros. apply wp_free; assumption.
Qed.
Lemma wp_run_spectra_B s : inv s -> ~ fs F S_1loop -> fw F S_1loop -> wp s (c_run_spectra_B_1loop fuel suave1 suave12) (fun _ _ => True).
Proof.
  intros I S W. unfold c_run_spectra_B_1loop. eapply wp_bind; [apply (wp_get F s (fun a s' => a = s /\ s' = s)); auto|]. intros ? s1 I1 K1 (-> & ->).
  eapply wp_bind; [apply wp_calloc, I|]. intros p s1 I2 K2 (b & xs & -> & Hb & Nb & _ & _ & _).
  eapply wp_bind; [apply (wp_dt F s1 (fun s => mkCpk (cp_n (g_lin s)) (cp_k (g_lin s)) (Some (b, 0%Z))) (fun _ s' => blocks s' = blocks s1)); auto|]. intros [] s2 I3 K3 E3.
  eapply wp_bind; [apply (wp_1loop F s2 _ _ _ (fun _ _ => True)); auto|].
  { intros b' i [= <- <-]. rewrite E3. eexists _, _. split; [exact Hb|discriminate]. }
  intros [] s3 I4 K4 _. eapply wp_bind; [apply wp_run_spectrum_1loop; auto|]. intros [] s4 I5 K5 _. clear b xs Hb Nb.
  eapply wp_bind; [apply wp_calloc, I5|]. intros p s5 I6 K6 (b & xs & -> & Hb & Nb & _ & _ & _).
  eapply wp_bind; [apply (wp_tt F s5 (fun s => mkCpk (cp_n (g_lin s)) (cp_k (g_lin s)) (Some (b, 0%Z))) (fun _ s' => blocks s' = blocks s5)); auto|]. intros [] s6 I7 K7 E7.
  eapply wp_bind; [apply (wp_1loop F s6 _ _ _ (fun _ _ => True)); auto|].
  { intros b' i [= <- <-]. rewrite E7. eexists _, _. split; [exact Hb|discriminate]. }
  intros [] s7 I8 K8 _. apply wp_run_spectrum_1loop; auto.
Qed.
Lemma wp_run_terms_B s : inv s -> fw F S_B -> ~ fs F S_1loop -> fw F S_1loop -> wp s (c_run_terms_B fuel suave1 suave12) (fun _ _ => True).
Proof.
  intros I W S W1. unfold c_run_terms_B. eapply wp_bind; [apply wp_columns; auto|]. intros [pkl ks] s1 I1 K1 _.
  eapply wp_bind; [apply (wp_get F s1 (fun a s' => a = s1 /\ s' = s1)); auto|]. intros ? s2 I2 K2 (-> & ->).
  eapply wp_bind with (P := fun _ _ => True). { destruct (_ || _); [apply wp_run_spectra_B; auto|apply wp_ret; auto]. }
  intros [] s2 I3 K3 _. eapply wp_bind; [apply (wp_get F s2 (fun a s' => a = s2 /\ s' = s2)); auto|]. intros ? s3 I4 K4 (-> & ->).
  pb ltac:(apply pure_overlap). intros [] s3 _ _ (-> & _). pb ltac:(apply pure_table). intros dt s3 _ _ (-> & _). pb ltac:(apply pure_table). intros ptt s3 _ _ (-> & _).
  eapply wp_bind; [apply wp_rows; auto|]. intros [] s3 I5 K5 _. destruct (_ || _); [|apply wp_ret; auto].
  unfold c_free_spectra_B. eapply wp_bind; [apply (wp_get F s3 (fun a s' => a = s3 /\ s' = s3)); auto|]. intros ? s4 I6 K6 (-> & ->).
  eapply wp_bind; [apply wp_free, I6|]. intros [] s4 I7 K7 _. apply wp_free, I7.
Qed.
Lemma wp_set_spectra_B s a b n k p : inv s -> wp s (c_set_spectra_B a b n k p) (fun _ _ => True).
Proof.
  intros I. unfold c_set_spectra_B. destruct (match set_flag a with DELTA => _ | THETA => _ end) as [first b'].
  eapply wp_bind with (P := fun _ _ => True).
  - destruct first; [apply (wp_dt F s (fun _ => mkCpk n k p)); auto|apply wp_ret; auto].
  - intros [] s1 I1 K1 _. destruct (set_flag a), b'; try (apply wp_ret; auto). apply (wp_tt F s1 (fun _ => mkCpk n k p)); auto.
Qed.
End Frames2.
