(** ProofProcess21: the statements C_run_terms_B and C_set_spectra_B. *)
From Coq Require Import ZArith List String Bool Lia PeanoNat.
From Verif Require Import Base Num Common Kernels Integrals Registry PyTerms Threads SpecThreads Process SpecProcess ProofThreads2 ProofThreads3 ProofScratch3 ProofProcess ProofProcess2 ProofProcess3 ProofProcess4 ProofProcess5 ProofProcess6 ProofProcess7 ProofProcess8 ProofProcess9 ProofProcess10 ProofProcess11 ProofProcess12 ProofProcess13 ProofProcess14 ProofProcess15 ProofProcess18 ProofProcess20.
Import ListNotations.
Local Open Scope string_scope.
Local Open Scope nat_scope.

Section StepB.
Context {N : Num}.
Notation T := (T N).
Notation state := (state N).
Implicit Types (s : state) (o l : nat).
Variables (fuel : nat) (suave1 : (list T -> res T) -> res T) (suave12 : (list T -> res (list T)) -> res (list T)).
Notation step := (step fuel suave1 suave12).

Lemma firstn_nth {A} n (l : list A) i : i < n -> nth_error (firstn n l) i = nth_error l i.
Proof. revert l i. induction n as [|n IH]; intros l i H; [lia|]. destruct l as [|x l]; [destruct i; reflexivity|]. destruct i; [reflexivity|]. cbn. apply IH. lia. Qed.
Lemma statement_regpt s o c (m : M N unit) : class_of s o = Some c -> has_ctype c = true -> In o (vars s) -> nothing (mbind (regpt o) (fun _ => m)) s = nothing m s.
Proof. intros Hc Hh Hv. apply class_obj in Hc as (ob & Eo & <-). unfold nothing. unfold mbind at 1 2. rewrite (regpt_ok s o ob (reach_var s o Hv) Eo Hh). reflexivity. Qed.
Lemma run_B_step s o c K P ks psd ssd vd pst sst vt ps ss vals : wf s -> set_up s o K P ks -> class_of s o = Some c -> slot_of c = Some S_B -> (cp_n (g_dt s) = 0 \/ cp_n (g_tt s) = 0)%Z -> (zlen K < SIZE_T)%Z ->
  computes fuel (g_conf s) suave1 suave12 (D_1loop DELTA THETA) (mk_table K P) (mk_table K P) (mk_table K P) K psd ssd vd ->
  computes fuel (g_conf s) suave1 suave12 (D_1loop THETA THETA) (mk_table K P) (mk_table K P) (mk_table K P) K pst sst vt ->
  computes fuel (g_conf s) suave1 suave12 D_B (mk_table K P) (mk_table K (lib_spectrum K psd ssd vd)) (mk_table K (lib_spectrum K pst sst vt)) ks ps ss vals ->
  exists s', step (C_run_terms_B o) s = Fine s' [] /\ filled s' o D_B ks ps ss vals /\ set_up s' o K P ks /\ g_conf s' = g_conf s /\ wf s' /\
    forall x cx, In x (vars s') -> class_of s' x = Some cx -> has_ctype cx = true -> step (C_run_terms_B x) s' = Crash UseAfterFree.
Proof.
  intros W S Hc Hs Un Sz Cd Ct Cb. destruct (bound_of s o K P ks S) as (c' & sl & l & Hc' & Hl & B). rewrite Hc in Hc'. injection Hc' as <-.
  assert (sl = S_B) by (pose proof (t_slot _ _ _ _ _ (b_terms _ _ _ _ _ _ _ _ B)); congruence). subst sl.
  assert (Hv : In o (vars s)) by apply S. assert (Hh : has_ctype c = true) by (eapply slot_ctype; eauto). assert (Ro := reach_var s o Hv). assert (Rl := reach_hand s l W (i_hand _ _ _ _ (b_lin _ _ _ _ _ _ _ _ B))).
  assert (A : armed s S_B K P ks) by (eapply armed_of; [exact W|exact Ro|exact Rl|apply B|apply B|apply B]).
  assert (Ne : K <> []) by (destruct Cb as (E & _); exact (table_nonempty K P ks _ ps E)).
  destruct (run_terms_B_auto fuel suave1 suave12 s K P ks psd ssd vd pst sst vt ps ss vals A Un Ne Sz Cd Ct Cb) as (s1 & b & c2 & E1 & V1 & V2 & V3 & HO & HD & HV & HT & HL & HC & HE & HG & HB & HS & Hdt & Htt & Hb & Hc2 & Fb & Fc).
  set (s2 := with_temps s1 []).
  assert (St : step (C_run_terms_B o) s = Fine s2 []). { apply step_Fine. cbn [statement]. rewrite (statement_regpt s o c _ Hc Hh Hv). apply nothing_ok, E1. }
  assert (W2 : wf s2). { pose proof (step_wf fuel suave1 suave12 s (C_run_terms_B o) W) as X. rewrite St in X. apply X. }
  assert (Dx : forall x, dict_of s2 x = dict_of s x) by (intros x; apply dict_of_ext; [exact HO|exact HD]).
  assert (Cx : forall x, class_of s2 x = class_of s x) by (intros x; unfold class_of; cbn; rewrite HO; reflexivity).
  assert (Lx : forall x, lin_of s2 x = lin_of s x) by (intros x; unfold lin_of; cbn; rewrite HO; reflexivity).
  set (n := List.length (blocks s)). set (sm := with_blocks s (firstn n (blocks s1))).
  assert (Fn : forall x, x < n -> nth_error (blocks sm) x = nth_error (blocks s1) x) by (intros x Hx; apply firstn_nth, Hx).
  assert (Ln : n <= List.length (blocks s1)). { unfold n. destruct (le_lt_dec (List.length (blocks s)) (List.length (blocks s1))); [assumption|]. exfalso. destruct (nth_error (blocks s) (List.length (blocks s1))) as [[w xs]|] eqn:E; [|apply nth_error_None in E; lia]. destruct (HS _ _ _ E) as (ys & Ey & _). assert (List.length (blocks s1) < List.length (blocks s1)) by (apply nth_error_Some; congruence). lia. }
  assert (Rw : rewritten (outputs s S_B) s sm).
  { constructor; [reflexivity| | |].
    - intros x w xs Hx. destruct (HS _ _ _ Hx) as (ys & Ey & Ly). exists ys. rewrite Fn by (apply nth_error_Some; congruence). auto.
    - unfold sm. cbn. apply firstn_length_le, Ln.
    - intros x Hx. destruct (le_lt_dec n x) as [Hn|Hn]; [|rewrite (Fn x Hn); apply HB; assumption]. rewrite !(proj2 (nth_error_None _ _)); [reflexivity|exact Hn|unfold sm; cbn; rewrite firstn_length_le; [exact Hn|exact Ln]]. }
  assert (Bm : bound_to sm o c S_B l K P ks) by (eapply bound_rw; eauto).
  assert (B2 : bound_to s2 o c S_B l K P ks).
  { apply (bound_keep sm s2); [|exact (Dx o)|exact (Dx l)|exact (Cx o)|cbn; apply HG; discriminate|exact HL| |exact Bm].
    - intros x a Ha. change (dict_of sm o) with (dict_of s o) in Ha. change (dict_of sm l) with (dict_of s l) in Ha. symmetry. apply Fn. destruct Ha as [Ha|Ha]; exact (dict_block _ _ _ _ W Ha).
    - pose proof (i_hand _ _ _ _ (b_lin _ _ _ _ _ _ _ _ B)) as Y. unfold at_hand in *. change (vars s2) with (vars s1). rewrite HV. destruct Y as [Y|(x & Y1 & Y2)]; [left; exact Y|right]. exists x. rewrite Lx. auto. }
  assert (S2 : set_up s2 o K P ks).
  { split; [|split].
    - split; [cbn; rewrite HV; exact Hv|]. exists l. split; [rewrite Lx; exact Hl|]. split; [apply B2|]. destruct S as ((_ & l' & Hl' & _ & Dt) & _). rewrite Hl in Hl'. injection Hl' as <-. unfold distinct_tables in *. cbn. rewrite HO. exact Dt.
    - split; [cbn; rewrite HV; exact Hv|]. exists c, S_B. apply B2.
    - intros c0 l0 H1 H2. rewrite Cx, Hc in H1. injection H1 as <-. rewrite Lx, Hl in H2. injection H2 as <-. apply B2. }
  exists s2. split; [exact St|]. split.
  { assert (G2 : g_terms s2 S_B = g_terms s S_B) by (cbn; apply HG; discriminate). apply (filled_of s2 o c S_B ks DELTA DELTA D_B ps ss vals); [apply B2|destruct c; try discriminate; reflexivity|rewrite G2; exact V1|rewrite G2; exact V2|intros ik Hik; rewrite G2; exact (V3 ik Hik)]. }
  split; [exact S2|]. split; [exact HC|]. split; [exact W2|].
  intros x cx Hx Hcx Hhx. unfold Process.step. cbn [statement]. rewrite (statement_regpt s2 x cx _ Hcx Hhx Hx). unfold nothing, mbind.
  assert (Ro2 := reach_var s2 o ltac:(cbn; rewrite HV; exact Hv)). assert (Rl2 := reach_hand s2 l W2 (i_hand _ _ _ _ (b_lin _ _ _ _ _ _ _ _ B2))).
  assert (A2 : armed s2 S_B K P ks) by (eapply armed_of; [exact W2|exact Ro2|exact Rl2|apply B2|apply B2|apply B2]).
  destruct Cb as (Ep & Es & _).
  rewrite (run_terms_B_dead fuel suave1 suave12 s2 K P ks ps ss b 0%Z A2 Ne); [reflexivity|change (g_conf s2) with (g_conf s1); rewrite HC; exact Ep|change (g_conf s2) with (g_conf s1); rewrite HC; exact Es| | | | | | |].
  - cbn. rewrite Hdt. reflexivity.
  - cbn. rewrite Htt. cbn. destruct K; [congruence|]. unfold zlen. cbn [List.length]. lia.
  - cbn. rewrite Hdt, HL. reflexivity.
  - cbn. rewrite Htt, HL. reflexivity.
  - cbn. rewrite Hdt. reflexivity.
  - destruct Fb as (xs & Fb). unfold alive. cbn. rewrite Fb. reflexivity.
  - intros y Hy. cbn. rewrite Hdt, Htt. cbn. assert (y < n). { unfold outputs in Hy. change (g_terms s2 S_B) with (g_terms s1 S_B) in Hy. rewrite HG in Hy by discriminate. destruct Hy as (z & i & Hz & Ez). destruct (tg_ptr _ _ _ _ (ar_out _ _ _ _ _ A) z Hz) as (x' & i' & E' & _ & Ha & _). rewrite Ez in E'. injection E' as <- _. apply alive_lt, Ha. }
    fold n in Hb, Hc2. lia.
Qed.
(** ** set_spectra_B *)
Lemma set_spectra_step s o c l p a b : In o (vars s) -> class_of s o = Some c -> has_ctype c = true -> In l (vars s) -> l < List.length (objects s) -> spectrum_of s l = Some p ->
  step (C_set_spectra_B o l a b) s = Fine (with_temps (match set_flag a, set_flag b with DELTA, _ | THETA, DELTA => with_dt s p | THETA, THETA => with_tt s p end) []) [].
Proof.
  intros Ho Hc Hh Hl Ll Hp. apply step_Fine. cbn [statement]. rewrite (statement_regpt s o c _ Hc Hh Ho). apply nothing_ok. destruct (nth_error (objects s) l) as [ol|] eqn:El; [|apply nth_error_None in El; lia].
  rewrite (bind_Fine _ _ _ _ _ (obj_ok s l ol (reach_var s l Hl) El)). unfold spectrum_of in Hp. destruct (assoc (dict_of s l) "k") as [ka|] eqn:Ek; [|discriminate]. destruct (assoc (dict_of s l) "pk") as [pa|] eqn:Epk; [|discriminate].
  destruct (a_2d ka) eqn:D1; [discriminate|]. destruct (a_2d pa) eqn:D2; [discriminate|]. cbn [negb andb] in Hp. destruct (Z.eqb_spec (a_len pa) (a_len ka)) as [Hn|]; [|discriminate]. injection Hp as <-.
  rewrite (bind_Fine _ _ _ _ _ (size_ok s l ka Ek D1)). rewrite (bind_Fine _ _ _ _ _ (getitem_ok s l _ _ Ek)). rewrite (bind_Fine _ _ _ _ _ (getitem_ok s l _ _ Epk)).
  rewrite (bind_Fine _ _ _ _ _ (pointer_ok s (a_len ka) ka eq_refl D1)). rewrite (bind_Fine _ _ _ _ _ (pointer_ok s (a_len ka) pa Hn D2)). unfold c_set_spectra_B. destruct (set_flag a), (set_flag b); reflexivity.
Qed.
End StepB.
