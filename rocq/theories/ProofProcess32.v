(** ProofProcess32: examples for the claims about processes, continued. *)
From Coq Require Import ZArith List String Bool Lia Permutation Reals Lra.
From Verif Require Import Base Num BaseFacts Common Kernels Integrals Registry SpecRegistry ProofRegistry Threads SpecThreads SpecScratch SpecTable ProofCommon2
  ProofThreads8 PyTerms Process SpecProcess ProofProcess ProofProcess6 ProofProcess8 ProofProcess9 ProofProcess14 ProofProcess15 ProofProcess16 ProofProcess17 ProofProcess21 ProofProcess22 ProofProcess25 ProofProcess29 ProofProcess30 ProofProcess31.
Import ListNotations.
Local Open Scope string_scope.

Local Notation reached := (reached (N := RNum) 2 suave1_ex suave12_ex).
Local Notation step := (step (N := RNum) 2 suave1_ex suave12_ex).
Local Notation state := (state RNum).
Local Notation computes := (computes (N := RNum) 2).
Local Notation pkl := (mk_table (N := RNum) k_ex p_ex).
Local Notation meanwhile := (meanwhile (N := RNum) 2 suave1_ex suave12_ex).
Local Notation spectra_are := (spectra_are (N := RNum) 2 suave1_ex suave12_ex).
Local Notation set_up := (set_up (N := RNum)).
Local Notation lib_spectrum := (lib_spectrum (N := RNum)).

Lemma execute_app ps qs (s : state) t : execute (N := RNum) 2 suave1_ex suave12_ex ps s = Some t -> execute (N := RNum) 2 suave1_ex suave12_ex (ps ++ qs)%list s = execute (N := RNum) 2 suave1_ex suave12_ex qs t.
Proof. revert s. induction ps as [|p t0 IH]; intros s H; [injection H as <-; reflexivity|]. cbn [execute app] in *. destruct (step p s); try discriminate H; apply IH, H. Qed.
(** ** A state of each class *)
Lemma set_up_conf (s : state) o K P ks st : set_up s o K P ks -> set_up (with_conf s st) o K P ks.
Proof.
  intros ((V & l & L & [] & D) & (_ & c & sl & []) & A). split; [|split; [|exact A]].
  - split; [exact V|]. exists l. split; [exact L|]. split; [constructor; assumption|exact D].
  - split; [exact V|]. exists c, sl. constructor; assumption.
Qed.
Lemma set_ex c sl : slot_of c = Some sl -> exists s : state, reached s /\ set_up s 0 k_ex p_ex ks_ex /\ class_of s 0 = Some c /\ settled (g_conf s) /\ cp_n (g_dt s) = 0%Z /\ cp_n (g_tt s) = 0%Z /\ vars s = [0%nat] /\
  (forall a, assoc (dict_of s 0) "k" = Some a -> only_at s 0 "k" (a_buf a)) /\ lin_of s 0 = Some 1%nat /\ class_of s 1 = Some CLin.
Proof.
  intros Sl. destruct (program_1 (N := RNum) 2 suave1_ex suave12_ex 1%R 2%R 5%R 6%R 1%R 2%R 3%R c sl Sl) as (s0 & E & V & G & D & T0 & O & L & Cl & C).
  destruct (settle s0 0 c) as (st & S & R); [eexists; exact E|rewrite V; left; reflexivity|exact C|exact (slot_ctype _ _ Sl)|exact G|].
  exists (with_conf s0 st). split; [exact R|]. split; [|repeat (split; [assumption|]); assumption]. apply set_up_conf. clear st S R.
  destruct (program_4 (N := RNum) 2 suave1_ex suave12_ex c sl Sl) as (s1 & E1 & V1 & C1 & _).
  destruct (proj1 (prepare (N := RNum) 2 suave1_ex suave12_ex s1 0 c sl k_ex p_ex ks_ex (ex_intro _ _ E1) ltac:(rewrite V1; left; reflexivity) C1 Sl eq_refl (k_short _) (ks_short _))) as (s2 & s3 & E2 & E3 & U & _).
  replace s0 with s3; [exact U|]. pose proof (execute_app _ [Set_pk_lin (N := RNum) 0 k_ex p_ex; Set_terms (N := RNum) 0 ks_ex] _ _ E1) as Y. cbn [app] in Y. assert (X : Some s3 = Some s0) by (refine (eq_trans (eq_sym _) (eq_trans (eq_sym Y) E)); cbn [execute]; rewrite E2; cbn [execute]; rewrite E3; reflexivity). injection X; auto.
Qed.
Lemma ex_deep c sl : slot_of c = Some sl -> exists s l, reached s /\ set_up s 0 k_ex p_ex ks_ex /\ class_of s 0 = Some c /\ lin_of s 0 = Some l /\ class_of s l = Some CLin.
Proof. intros Sl. destruct (set_ex c sl Sl) as (s & R & U & C & _ & _ & _ & _ & _ & L & Cl). exists s, 1%nat. auto. Qed.
Lemma ex_stale c sl : slot_of c = Some sl -> exists s s2, reached s /\ set_up s 0 k_ex p_ex ks_ex /\ class_of s 0 = Some c /\
  (forall a, assoc (dict_of s 0) "k" = Some a -> only_at s 0 "k" (a_buf a)) /\ step (Set_item 0 "k" (Values (N := RNum) [4; 5; 6]%R)) s = Fine s2 [].
Proof.
  intros Sl. destruct (set_ex c sl Sl) as (s & R & U & C & _ & _ & _ & V & O & _). destruct (class_obj _ _ _ C) as (ob & Eo & _). exists s. eexists. do 4 (split; [assumption|]).
  unfold Process.step. cbn [statement]. unfold nothing. unfold mbind at 1. rewrite (bind_Fine _ _ _ _ _ (obj_ok s 0 ob ltac:(apply reach_var; rewrite V; left; reflexivity) Eo)). reflexivity.
Qed.
Lemma ex_values (s : state) d : settled (g_conf s) -> exists ps ss vals, computes (g_conf s) suave1_ex suave12_ex d pkl pkl pkl ks_ex ps ss vals.
Proof. intros S. apply (values_at (g_conf s) k_ex p_ex ex_table pkl pkl ks_ex d S). intros _. split; exact ex_table. Qed.
Lemma spectrum_exists st a b : settled st -> exists spec, spectrum_1loop_is (N := RNum) 2 suave1_ex suave12_ex st pkl k_ex a b spec /\ List.length spec = 2%nat.
Proof.
  intros S. destruct (values_at st k_ex p_ex ex_table pkl pkl k_ex (D_1loop a b) S) as (ps & ss & vals & Cm); [discriminate|].
  assert (L1 : List.length ps = 2%nat). { pose proof (proj1 Cm) as E. rewrite (proj2 (se_cubic _ S)) in E. destruct (poly_lookup_safe (N := RNum) k_ex p_ex k_ex eq_refl) as (v & E' & L); [cbn; lia|]. rewrite E' in E. injection E as <-. exact L. }
  assert (L2 : List.length ss = 2%nat). { pose proof (proj1 (proj2 Cm)) as E. exact (ProofThreads3.sig_loop_length _ _ _ _ _ _ E). }
  destruct ps as [|p0 [|p1 [|]]]; try discriminate L1. destruct ss as [|s0 [|s1 [|]]]; try discriminate L2. eexists. split; [do 3 eexists; split; [exact Cm|reflexivity]|reflexivity].
Qed.
Lemma two_table spec : List.length spec = 2%nat -> lin_table (mk_table (N := RNum) k_ex spec).
Proof. intros L. repeat split; cbn; auto; lia. Qed.
Lemma spectra_exist (s : state) c : settled (g_conf s) -> exists dt ptt, spectra_are (g_conf s) c pkl k_ex p_ex dt ptt /\ lin_table dt /\ lin_table ptt.
Proof.
  intros S. destruct c; try (exists pkl, pkl; split; [exact I|split; exact ex_table]).
  - exists pkl, pkl. split; [split; reflexivity|split; exact ex_table].
  - destruct (spectrum_exists (g_conf s) DELTA THETA S) as (d & D & Ld). destruct (spectrum_exists (g_conf s) THETA THETA S) as (t & Tt & Lt). exists (mk_table (N := RNum) k_ex d), (mk_table (N := RNum) k_ex t). split; [exists d, t; auto|split; apply two_table; assumption].
Qed.
Lemma new_step (s : state) : exists s', step (New CBias) s = Fine s' [] /\ g_conf s' = g_conf s /\ objects s' <> objects s.
Proof. eexists. split; [reflexivity|]. split; [reflexivity|]. cbn. intros X. apply (f_equal (@List.length _)) in X. rewrite app_length in X. cbn in X. lia. Qed.
Lemma ex_run c sl a b : slot_of c = Some sl -> exists s s' d dt ptt ps ss vals, reached s /\ set_up s 0 k_ex p_ex ks_ex /\ meanwhile 0 s s' /\ objects s' <> objects s /\
  class_of s' 0 = Some c /\ driver_of c (set_flag a) (set_flag b) = Some d /\ spectra_are (g_conf s') c pkl k_ex p_ex dt ptt /\ computes (g_conf s') suave1_ex suave12_ex d pkl dt ptt ks_ex ps ss vals.
Proof.
  intros Sl. destruct (set_ex c sl Sl) as (s & R & U & C & S & _). destruct (new_step s) as (s' & E & G & Df). destruct (spectra_exist s c S) as (dt & ptt & Sp & T1 & T2).
  assert (D : exists d, driver_of c (set_flag a) (set_flag b) = Some d) by (destruct c; try discriminate Sl; eexists; reflexivity). destruct D as (d & D).
  destruct (values_at (g_conf s) k_ex p_ex ex_table dt ptt ks_ex d S (fun _ => conj T1 T2)) as (ps & ss & vals & Cm). exists s, s', d, dt, ptt, ps, ss, vals. rewrite G. do 2 (split; [assumption|]).
  split; [eapply mw_step; [|exact E|apply mw_done]; exact I|]. split; [exact Df|]. split; [|auto]. pose proof (class_kept (N := RNum) 2 suave1_ex suave12_ex s (New CBias) 0 c (reached_wf _ _ _ _ R) C) as X. rewrite E in X. exact X.
Qed.
Lemma lib_length K ps ss vals : List.length (lib_spectrum K ps ss vals) = List.length K.
Proof. unfold SpecProcess.lib_spectrum. rewrite map_length. unfold indices, zlen. rewrite map_length, seq_length. lia. Qed.
Lemma ex_B c : slot_of c = Some S_B -> exists (s : state) psd ssd vd pst sst vt ps ss vals, let st := g_conf s in
  reached s /\ set_up s 0 k_ex p_ex ks_ex /\ class_of s 0 = Some c /\ cp_n (g_dt s) = 0%Z /\ cp_n (g_tt s) = 0%Z /\
  computes st suave1_ex suave12_ex (D_1loop DELTA THETA) pkl pkl pkl k_ex psd ssd vd /\ computes st suave1_ex suave12_ex (D_1loop THETA THETA) pkl pkl pkl k_ex pst sst vt /\
  computes st suave1_ex suave12_ex D_B pkl (mk_table (N := RNum) k_ex (lib_spectrum k_ex psd ssd vd)) (mk_table (N := RNum) k_ex (lib_spectrum k_ex pst sst vt)) ks_ex ps ss vals.
Proof.
  intros Sl. destruct (set_ex c S_B Sl) as (s & R & U & C & S & D0 & T0 & _).
  destruct (values_at (g_conf s) k_ex p_ex ex_table pkl pkl k_ex (D_1loop DELTA THETA) S) as (psd & ssd & vd & Cd); [discriminate|]. destruct (values_at (g_conf s) k_ex p_ex ex_table pkl pkl k_ex (D_1loop THETA THETA) S) as (pst & sst & vt & Ct); [discriminate|].
  destruct (values_at (g_conf s) k_ex p_ex ex_table (mk_table (N := RNum) k_ex (lib_spectrum k_ex psd ssd vd)) (mk_table (N := RNum) k_ex (lib_spectrum k_ex pst sst vt)) ks_ex D_B S) as (ps & ss & vals & Cb); [intros _; split; apply two_table; rewrite lib_length; reflexivity|].
  exists s, psd, ssd, vd, pst, sst, vt, ps, ss, vals. cbv zeta. repeat (split; [assumption|]). assumption.
Qed.
Lemma ex_freed : exists s s' : state, reached s /\ cp_n (g_dt s) = 0%Z /\ step (C_run_terms_B 0) s = Fine s' [].
Proof.
  destruct (ex_B CB1 eq_refl) as (s & psd & ssd & vd & pst & sst & vt & ps & ss & vals & R & U & C & D0 & T0 & Cd & Ct & Cb).
  destruct (twice (N := RNum) 2 suave1_ex suave12_ex s 0 CB1 k_ex p_ex ks_ex psd ssd vd pst sst vt ps ss vals R U C eq_refl (or_introl D0) ltac:(cbn; unfold SIZE_T; lia) Cd Ct Cb) as (s' & E & _). exists s, s'. auto.
Qed.
Lemma ex_given c : slot_of c = Some S_B -> exists (s : state) l ps ss vals, reached s /\ set_up s 0 k_ex p_ex ks_ex /\ class_of s 0 = Some c /\ cp_n (g_dt s) = 0%Z /\ cp_n (g_tt s) = 0%Z /\
  In l (vars s) /\ spectrum_is (N := RNum) s l k_ex p_ex /\ apart s 0 c l /\ computes (g_conf s) suave1_ex suave12_ex D_B pkl pkl pkl ks_ex ps ss vals.
Proof.
  intros Sl. destruct (set_ex c S_B Sl) as (s & R & U & C & S & D0 & T0 & V & _ & L & Cl). destruct (ex_values s D_B S) as (ps & ss & vals & Cm). destruct (class_obj _ _ _ C) as (ob & Eo & _).
  assert (Lo : o_lin ob = Some 1%nat) by (unfold lin_of in L; rewrite Eo in L; exact L).
  assert (X : exists s', step (Get_lin 0) s = Fine s' [] /\ vars s' = [1; 0]%nat /\ g_conf s' = g_conf s /\ g_dt s' = g_dt s /\ g_tt s' = g_tt s).
  { eexists. split; [unfold Process.step; cbn [statement]; unfold nothing; unfold mbind at 1; rewrite (bind_Fine _ _ _ _ _ (obj_ok s 0 ob ltac:(apply reach_var; rewrite V; left; reflexivity) Eo)); unfold attribute; rewrite Lo; reflexivity|]. cbn. rewrite V. auto. }
  destruct X as (s' & E & V' & G & D' & T').
  assert (Al : left_alone s s' 0) by (pose proof (alone (N := RNum) 2 suave1_ex suave12_ex s 0 (Get_lin 0) R ltac:(rewrite V; left; reflexivity) I) as X; rewrite E in X; exact X). pose proof (la_set_up _ _ _ Al _ _ _ U) as U'.
  assert (C' : class_of s' 0 = Some c) by (pose proof (class_kept (N := RNum) 2 suave1_ex suave12_ex s (Get_lin 0) 0 c (reached_wf _ _ _ _ R) C) as X; rewrite E in X; exact X).
  exists s', 1%nat, ps, ss, vals. split; [eapply reached_Fine; eauto|]. do 2 (split; [assumption|]). rewrite D', T', G. do 2 (split; [assumption|]). split; [rewrite V'; left; reflexivity|].
  pose proof (eq_trans (la_lin _ _ _ Al) L) as L'. destruct U' as ((_ & l & El & Li & _) & _ & Ap). rewrite L' in El. injection El as <-. split; [|split; [apply Ap; assumption|exact Cm]].
  destruct Li. constructor; auto. intros x a [<-|[<-|[]]] Ha; [destruct (i_kptr a Ha) as (F & D)|destruct (i_pptr a Ha) as (F & D)]; (split; [|exact D]); pose proof (proj1 F) as Ep; rewrite Ep in F; exact F.
Qed.
Lemma ex_two c a b : In c [C1Loop; C2Loop; CBias; CA2] -> exists (s : state) d ps ss vals, reached s /\ set_up s 1 k_ex p_ex ks_ex /\ class_of s 0 = Some c /\ class_of s 1 = Some c /\ vars s = [1; 0]%nat /\
  (forall y r, In (y, r) (dict_of s 0) -> ~ used_by s [1%nat] (a_buf r)) /\ column_of (N := RNum) s 0 "k" = Some [3%R] /\ driver_of c (set_flag a) (set_flag b) = Some d /\ spares (N := RNum) s 0 (Set_verbosity 1 "quiet") /\ printable (N := RNum) s k_ex /\
  computes (g_conf s) suave1_ex suave12_ex d pkl pkl pkl ks_ex ps ss vals.
Proof.
  intros Hc. assert (Sl : exists sl d, slot_of c = Some sl /\ driver_of c (set_flag a) (set_flag b) = Some d) by (destruct Hc as [<-|[<-|[<-|[<-|[]]]]]; do 2 eexists; split; reflexivity). destruct Sl as (sl & d & Sl & D).
  destruct (program_2 (N := RNum) 2 suave1_ex suave12_ex 1%R 2%R 5%R 6%R 1%R 2%R 3%R c Hc) as (s0 & E & V & G & Un & Ck & C0 & C1 & _).
  destruct (settle s0 0 c) as (st & S & R); [eexists; exact E|rewrite V; right; left; reflexivity|exact C0|exact (slot_ctype _ _ Sl)|exact G|].
  destruct (ex_values (with_conf s0 st) d S) as (ps & ss & vals & Cm). exists (with_conf s0 st), d, ps, ss, vals. split; [exact R|]. split.
  - apply set_up_conf. clear st S R Cm.
    assert (X : exists s1 : state, execute (N := RNum) 2 suave1_ex suave12_ex [New c; Set_item 0 "k" (Values (N := RNum) [3%R]); New c] (fresh_process RNum) = Some s1 /\ vars s1 = [1; 0]%nat /\ class_of s1 1 = Some c)
      by exact (program_5 (N := RNum) 2 suave1_ex suave12_ex 3%R c sl Sl). destruct X as (s1 & E1 & V1 & C1').
    destruct (proj1 (prepare (N := RNum) 2 suave1_ex suave12_ex s1 1 c sl k_ex p_ex ks_ex (ex_intro _ _ E1) ltac:(rewrite V1; left; reflexivity) C1' Sl eq_refl (k_short _) (ks_short _))) as (s2 & s3 & E2 & E3 & U & _).
    replace s0 with s3; [exact U|].
    pose proof (execute_app _ [Set_pk_lin (N := RNum) 1 k_ex p_ex; Set_terms (N := RNum) 1 ks_ex] _ _ E1) as Y. cbn [app] in Y. assert (X : Some s3 = Some s0) by (refine (eq_trans (eq_sym _) (eq_trans (eq_sym Y) E)); cbn [execute]; rewrite E2; cbn [execute]; rewrite E3; reflexivity). injection X; auto.
  - do 6 (split; [assumption|]). split; [exact I|]. split; [apply k_short|exact Cm].
Qed.
Lemma ex_dropped : exists s s1 s2 : state, reached s /\ vars s = [1; 0]%nat /\ class_of s 1 = Some C1Loop /\ printable (N := RNum) s k_ex /\ step (Set_pk_lin (N := RNum) 1 k_ex p_ex) s = Fine s1 [] /\
  step (Drop 1) s1 = Fine s2 [] /\ ~ In 1%nat (reachable s2) /\ In 0%nat (vars s2) /\ class_of s2 0 = Some C1Loop.
Proof.
  destruct (program_3 (N := RNum) 2 suave1_ex suave12_ex 1%R 2%R 5%R 6%R) as (s0 & s1 & s2 & E & V & C & E1 & E2 & X). exists s0, s1, s2. split; [eexists; exact E|]. do 2 (split; [assumption|]). split; [apply k_short|]. do 2 (split; [assumption|]). exact X.
Qed.
Lemma ex_null c sl : slot_of c = Some sl -> exists s : state, execute (N := RNum) 2 suave1_ex suave12_ex [New c; Set_terms (N := RNum) 0 ks_ex] (fresh_process RNum) = Some s /\ vars s = [0%nat] /\ class_of s 0 = Some c /\ has_terms (N := RNum) s 0 ks_ex.
Proof.
  intros Sl. destruct (program_4 (N := RNum) 2 suave1_ex suave12_ex c sl Sl) as (s1 & E1 & V1 & C1 & _). assert (Hv : In 0%nat (vars s1)) by (rewrite V1; left; reflexivity).
  destruct (terms_step (N := RNum) 2 suave1_ex suave12_ex s1 0 c sl ks_ex (reached_wf _ _ _ _ (ex_intro _ _ E1)) Hv C1 Sl (ks_short _)) as (s2 & E2 & H2 & _ & _ & T2 & _ & _ & V2). exists s2. split.
  - change [New c; Set_terms (N := RNum) 0 ks_ex] with ([New (N := RNum) c] ++ [Set_terms (N := RNum) 0 ks_ex])%list. rewrite (execute_app _ _ _ _ E1). cbn [execute]. rewrite E2. reflexivity.
  - split; [congruence|]. split; [apply T2|exact H2].
Qed.
Lemma ex_latch a b : exists (s : state) ps ss vals, reached s /\ set_up s 0 k_ex p_ex ks_ex /\ class_of s 0 = Some C2Loop /\ automatic (g_conf s) "gamma3_tree_q" = true /\
  computes (g_conf s) suave1_ex suave12_ex (D_2loop a b) pkl pkl pkl ks_ex ps ss vals /\ printable (N := RNum) s [7; 8; 9]%R.
Proof.
  destruct (set_ex C2Loop S_2loop eq_refl) as (s & R & U & C & S & _ & _ & V & _).
  destruct (proj1 (change_settings (N := RNum) 2 suave1_ex suave12_ex s 0 C2Loop R ltac:(rewrite V; left; reflexivity) C eq_refl) "gamma3_tree_q" ["gamma3_tree_q"] 0%Z (-1)%R (-1)%R "poly") as (st & E & (_ & P1 & I1 & _)); [right; split; [cbn; tauto|reflexivity]|].
  cbn [fst] in *. assert (S' : settled st).
  { constructor.
    - split; [|intros x; rewrite I1; apply S]. intros x. rewrite P1. destruct (existsb _ _); [apply once_cubic|]; apply S.
    - intros x Hx. rewrite P1. pose proof (se_q _ S x Hx) as Ex. revert Ex. cbn in Hx. repeat (destruct Hx as [<-|Hx]; [exact (fun Z => Z)|]). contradiction.
    - intros x Hx. rewrite P1. pose proof (se_mu _ S x Hx) as Ex. revert Ex. cbn in Hx. repeat (destruct Hx as [<-|Hx]; [exact (fun Z => Z)|]). contradiction. }
  destruct (ex_values (with_conf s st) (D_2loop a b) S') as (ps & ss & vals & Cm). exists (with_conf s st), ps, ss, vals. split; [eapply reached_Fine; eauto|]. split; [apply set_up_conf, U|]. split; [exact C|]. split; [|split; [exact Cm|apply short_ex; [discriminate|cbn; lia]]].
  unfold automatic. cbn [with_conf g_conf]. rewrite P1. cbn [existsb String.eqb Ascii.eqb Bool.eqb orb]. unfold once, set_precision. cbn [is_range is_angular existsb String.eqb Ascii.eqb Bool.eqb orb angular app Z.ltb Z.compare]. rn. rewrite (proj2 (Rleb_true (-1) (-1))) by lra. cbn. rewrite (proj2 (Rleb_true (-1) 0)) by lra. reflexivity.
Qed.
Lemma ex_info c sl : slot_of c = Some sl -> exists s : state, reached s /\ In 0%nat (vars s) /\ class_of s 0 = Some c /\ has_ctype c = true /\ g_verbose s = INFO.
Proof. intros Sl. destruct (program_4 (N := RNum) 2 suave1_ex suave12_ex c sl Sl) as (s1 & E1 & V1 & C1 & I1). exists s1. split; [eexists; exact E1|]. rewrite V1. split; [left; reflexivity|]. split; [exact C1|]. split; [exact (slot_ctype _ _ Sl)|exact I1]. Qed.
