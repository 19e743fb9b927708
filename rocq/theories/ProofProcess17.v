(** ProofProcess17: programs, continued: the runs. *)
From Coq Require Import ZArith List String Bool Lia PeanoNat.
From Verif Require Import Base Num Common Kernels Integrals Registry PyTerms Threads SpecThreads Process SpecProcess ProofThreads2 ProofThreads3 ProofScratch3 ProofPy ProofProcess ProofProcess2 ProofProcess3 ProofProcess4 ProofProcess5 ProofProcess6 ProofProcess7 ProofProcess8 ProofProcess9 ProofProcess10 ProofProcess11 ProofProcess12 ProofProcess13 ProofProcess14 ProofProcess15 ProofProcess16.
Import ListNotations.
Local Open Scope string_scope.
Local Open Scope nat_scope.

Section Programs.
Context {N : Num}.
Notation T := (T N).
Notation state := (state N).
Implicit Types (s : state) (o l : nat).
Variables (fuel : nat) (suave1 : (list T -> res T) -> res T) (suave12 : (list T -> res (list T)) -> res (list T)).
Notation step := (step fuel suave1 suave12).
Notation execute := (execute fuel suave1 suave12).


Lemma meanwhile_ok o s s' : wf s -> In o (vars s) -> meanwhile fuel suave1 suave12 o s s' -> left_alone s s' o /\ wf s'.
Proof.
  intros W Lo M. revert W Lo. induction M as [s|s p s1 v s2 Sp E M IH|s p s1 e s2 Sp E M IH]; intros W Lo; [split; [apply left_refl|exact W]|..];
  (pose proof (spares_step fuel suave1 suave12 s o p W (wf_vars _ W _ Lo) Sp) as L; pose proof (step_wf fuel suave1 suave12 s p W) as W1; rewrite E in L, W1; cbn in L, W1;
   destruct (IH (proj1 W1) (la_vars _ _ _ L Lo)); split; [eapply left_trans; eauto|assumption]).
Qed.

(** ** run_terms *)
Lemma computes_free st d pkl dt ptt dt' ptt' ks ps ss vals : d <> D_B -> computes fuel st suave1 suave12 d pkl dt ptt ks ps ss vals -> computes fuel st suave1 suave12 d pkl dt' ptt' ks ps ss vals.
Proof. intros Nd (A & B & C). split; [exact A|]. split; [exact B|]. intros ik Hi. rewrite <- (C ik Hi). destruct d; [reflexivity..|]. destruct (Nd eq_refl). Qed.
Lemma tables_kept s s' p v o l : wf s -> step p s = Fine s' v -> In o (vars s) -> l < List.length (objects s) -> distinct_tables s o l -> distinct_tables s' o l.
Proof.
  intros W E Ho Ll D. assert (A : after (step p s) (fun s' => inv F0 s' /\ keep F0 s s')).
  { apply step_frame; [apply inv0, W|intros x []|]. destruct p; cbn; unfold info_kept, verb_kept, is_class; cbn; try tauto; try apply free0.
    - split; [apply free0|]. intros ob _ sl _ [].
    - intros ob _. repeat split; auto; [intros _; apply free0|intros X; destruct X]. }
  rewrite E in A. destruct A as (_ & Kp). pose proof (wf_vars _ W _ Ho) as Lo.
  intros ob' ol' Eb El'. destruct (nth_error (objects s) o) as [ob|] eqn:Eo; [|apply nth_error_None in Eo; lia]. destruct (nth_error (objects s) l) as [ol|] eqn:Eol; [|apply nth_error_None in Eol; lia].
  destruct (kp_obj _ _ _ Kp _ _ Eo) as (ob2 & X1 & _ & X2 & _). destruct (kp_obj _ _ _ Kp _ _ Eol) as (ol2 & Y1 & _ & Y2 & _). rewrite X1 in Eb. rewrite Y1 in El'. injection Eb as <-. injection El' as <-. rewrite X2, Y2. apply D; assumption.
Qed.
Lemma run_step s o c K P ks a b d dt ptt ps ss vals : wf s -> set_up s o K P ks -> class_of s o = Some c -> driver_of c (set_flag a) (set_flag b) = Some d -> ks <> [] -> (zlen K < SIZE_T)%Z ->
  spectra_are fuel suave1 suave12 (g_conf s) c (mk_table K P) K P dt ptt -> computes fuel (g_conf s) suave1 suave12 d (mk_table K P) dt ptt ks ps ss vals ->
  exists s', step (Run_terms o a b) s = Fine s' [] /\ filled s' o d ks ps ss vals /\ set_up s' o K P ks /\ g_conf s' = latch (g_conf s) d (mk_table K P) /\
    spectra_are fuel suave1 suave12 (g_conf s') c (mk_table K P) K P dt ptt /\ computes fuel (g_conf s') suave1 suave12 d (mk_table K P) dt ptt ks ps ss vals.
Proof.
  intros W Su C D Nk Sz Sa Cm. pose proof Su as ((Hv & l0 & El0 & L0 & Dt) & _). destruct (bound_of s o K P ks Su) as (c' & sl & l & C' & El & B). rewrite C in C'. injection C' as <-. rewrite El in El0. injection El0 as <-.
  destruct (class_obj _ _ _ C) as (ob & Eo & Co). pose proof (hand_lt _ _ W (i_hand _ _ _ _ L0)) as Ll. pose proof (t_slot _ _ _ _ _ (b_terms _ _ _ _ _ _ _ _ B)) as Sl.
  assert (Run : exists s', py_run_terms fuel suave1 suave12 o ob a b s = Fine s' tt /\ bound_to s' o c sl l K P ks /\ filled s' o d ks ps ss vals /\ lin_of s' o = Some l /\ vars s' = vars s /\ g_conf s' = latch (g_conf s) d (mk_table K P)).
  { destruct (match d with D_B => true | _ => false end) eqn:Db.
    - assert (d = D_B) as -> by (destruct d; try discriminate Db; reflexivity). assert (sl = S_B) as -> by (pose proof (driver_slot _ _ _ _ _ D Sl); symmetry; assumption).
      assert (Cc : c = CB1 \/ c = CB2) by (destruct c; try discriminate D; auto). change (latch (g_conf s) D_B (mk_table K P)) with (g_conf s).
      assert (Lo : o_lin ob = Some l) by (unfold lin_of in El; rewrite Eo in El; exact El).
      destruct Cc as [Cc|Cc]; rewrite Cc in *.
      + destruct Sa as [-> ->]. destruct (run_B1_ok fuel suave1 suave12 s o ob l K P ks a b ps ss vals W (reach_var _ _ Hv) Eo Co Lo B Cm) as (s' & E' & B' & F' & O' & V' & _ & _ & _ & _ & _ & _ & Cf' & _).
        exists s'. repeat (split; [assumption|]). split; [unfold lin_of; rewrite O', Eo; exact Lo|auto].
      + destruct Sa as (pd & pt & -> & -> & S1 & S2). destruct (run_B2_ok fuel suave1 suave12 s o ob l K P ks a b pd pt ps ss vals W Hv Eo Co Lo B Sz S1 S2 Cm) as (s' & E' & B' & F' & L' & V' & _ & _ & _ & _ & Cf' & _).
        exists s'. repeat (split; [assumption|]). assumption.
    - assert (Nd : d <> D_B) by (intros ->; discriminate Db).
      destruct (run_ok fuel suave1 suave12 s o ob c sl l K P ks a b d ps ss vals W (reach_var _ _ Hv) Eo Co B Nk D Nd (computes_free _ _ _ _ _ _ _ _ _ _ _ Nd Cm)) as (s' & E' & B' & F' & O' & V' & _ & _ & _ & _ & _ & _ & _ & Cf' & _).
      exists s'. repeat (split; [assumption|]). split; [unfold lin_of; rewrite O'; exact El|auto]. }
  destruct Run as (s' & E' & B' & F' & L' & V' & Cf').
  assert (Es : step (Run_terms o a b) s = Fine (with_temps s' []) []).
  { apply step_Fine. cbn [statement]. apply nothing_ok. rewrite (bind_Fine _ _ _ _ _ (regpt_ok s o ob (reach_var _ _ Hv) Eo ltac:(rewrite Co; eapply slot_ctype, Sl))). exact E'. }
  exists (with_temps s' []). split; [exact Es|]. split; [apply (filled_ext s'); [reflexivity|exact F']|]. split.
  { split; [|split].
    - split; [cbn; rewrite V'; exact Hv|]. exists l. split; [exact L'|]. split; [apply lin_temps, (b_lin _ _ _ _ _ _ _ _ B')|]. eapply tables_kept; eauto.
    - split; [cbn; rewrite V'; exact Hv|]. exists c, sl. apply terms_temps, (b_terms _ _ _ _ _ _ _ _ B').
    - intros c1 l1 Ec El1. change (class_of s' o = Some c1) in Ec. change (lin_of s' o = Some l1) in El1. rewrite L' in El1. injection El1 as <-. pose proof (t_class _ _ _ _ _ (b_terms _ _ _ _ _ _ _ _ B')) as X. rewrite X in Ec. injection Ec as <-.
      apply (b_apart _ _ _ _ _ _ _ _ B'). }
  split; [exact Cf'|]. cbn [g_conf with_temps]. rewrite Cf'. split.
  - destruct c; try exact I; injection D as <-; exact Sa.
  - apply computes_latch; auto.
Qed.
(** ** Queries *)
Lemma reads_of_hand s l K P : wf s -> lin_is s l K P -> exists bk ok bp op, cp_k (g_lin s) = Some (bk, ok) /\ cp_p (g_lin s) = Some (bp, op) /\ reads s (cp_k (g_lin s)) K /\ reads s (cp_p (g_lin s)) P.
Proof.
  intros W L. pose proof (reach_hand _ _ W (i_hand _ _ _ _ L)) as Hl. destruct L.
  assert (Lk : exists lk, assoc (dict_of s l) "k" = Some lk) by (unfold column_of in i_k; destruct (assoc (dict_of s l) "k"); [eauto|discriminate]). destruct Lk as (lk & Elk).
  assert (Lp : exists lp, assoc (dict_of s l) "pk" = Some lp) by (unfold column_of in i_p; destruct (assoc (dict_of s l) "pk"); [eauto|discriminate]). destruct Lp as (lp & Elp).
  destruct (i_kptr _ Elk) as (Fk & _). destruct (i_pptr _ Elp) as (Fp & _). rewrite (column_faces _ _ _ _ Elk) in i_k. rewrite (column_faces _ _ _ _ Elp) in i_p. injection i_k as Ek. injection i_p as Ep.
  pose proof (faces_reads s l "k" lk _ K Hl Elk Fk Ek) as R1. pose proof (faces_reads s l "pk" lp _ P Hl Elp Fp Ep) as R2. destruct Fk as (X1 & _). destruct Fp as (X2 & _). do 4 eexists. repeat (split; [eassumption|]). assumption.
Qed.
Lemma find_step s o c K P k im v : wf s -> has_lin s o K P -> class_of s o = Some c -> has_ctype c = true -> find_pk (mk_table K P) k (if (im =? "poly")%string then POLY else LIN) = Ok v ->
  step (Find_pk_lin o k im) s = Fine (with_temps s []) v.
Proof.
  intros W (Hv & l & _ & L & _) C Ct E. destruct (class_obj _ _ _ C) as (ob & Eo & Co). destruct (reads_of_hand _ _ _ _ W L) as (_ & _ & _ & _ & _ & _ & R1 & R2). apply step_Fine. cbn [statement].
  rewrite (bind_Fine _ _ _ _ _ (regpt_ok s o ob (reach_var _ _ Hv) Eo ltac:(rewrite Co; exact Ct))). unfold py_find_pk_lin. rewrite (bind_Fine _ _ s s s) by reflexivity.
  rewrite (bind_Fine _ _ _ _ _ (table_ok s (g_lin s) K P (i_n _ _ _ _ L) (i_len _ _ _ _ L) R1 R2)). rewrite E. reflexivity.
Qed.
Lemma sigmad2_step s o c K P k uv v : wf s -> has_lin s o K P -> class_of s o = Some c -> has_ctype c = true -> calc_running_sigmad2 (mk_table K P) k uv = Ok v ->
  step (Sigmad2 o k uv) s = Fine (with_temps s []) v.
Proof.
  intros W (Hv & l & _ & L & _) C Ct E. destruct (class_obj _ _ _ C) as (ob & Eo & Co). destruct (reads_of_hand _ _ _ _ W L) as (_ & _ & _ & _ & _ & _ & R1 & R2). apply step_Fine. cbn [statement].
  rewrite (bind_Fine _ _ _ _ _ (regpt_ok s o ob (reach_var _ _ Hv) Eo ltac:(rewrite Co; exact Ct))). unfold py_sigmad2. rewrite (bind_Fine _ _ s s s) by reflexivity.
  rewrite (bind_Fine _ _ _ _ _ (table_ok s (g_lin s) K P (i_n _ _ _ _ L) (i_len _ _ _ _ L) R1 R2)). rewrite E. reflexivity.
Qed.
(** ** The settings *)
Lemma conf_step s p : wf s -> configures p = false -> after (step p s) (fun s' => latched (g_conf s) (g_conf s')).
Proof.
  intros W Hp. set (F := mkFrame (fun _ => False) (fun _ => False) (fun _ => False) (fun _ => True) False (fun _ => False) (fun _ => False) True False).
  assert (A : after (step p s) (fun s' => inv F s' /\ keep F s s')).
  { apply step_frame; [constructor; cbn; auto; tauto|intros x []|]. destruct p; try discriminate Hp; cbn; unfold info_kept, verb_kept, is_class, free_dict; cbn; try tauto.
    }
  destruct (step p s); cbn in *; auto; apply (kp_conf _ _ _ (proj2 A)); exact I.
Qed.
Lemma latched_value st st' d pkl dt ptt k : latched st st' -> automatic_of st d = false -> value_of fuel st' suave1 suave12 d pkl dt ptt k = value_of fuel st suave1 suave12 d pkl dt ptt k.
Proof.
  intros (I & Cu & _ & H) E. assert (X : forall x, x <> "gamma3_tree_q" -> x <> "A_2loop_II_III_q" -> s_prec st' x = s_prec st x) by (intros; apply H; auto).
  destruct d; cbn [value_of automatic_of] in *.
  - unfold value_1loop, new_q, new_mu, im_of. rewrite !X by discriminate. reflexivity.
  - unfold value_2loop, value_gamma3, new_q, new_mu, im_of. rewrite (H "gamma3_tree_q") by (left; exact E). rewrite !X by discriminate. reflexivity.
  - unfold value_bias, new_q, new_mu, im_of. rewrite !X by discriminate. reflexivity.
  - unfold value_A_1loop, new_q, new_mu, im_of. rewrite !X by discriminate. reflexivity.
  - unfold value_A_2loop, value_A_II_III, new_q, new_mu, im_of. rewrite (H "A_2loop_II_III_q") by (left; exact E). rewrite I, Cu, !X by discriminate. reflexivity.
  - unfold value_B, new_q, new_mu, im_of. rewrite !X by discriminate. reflexivity.
Qed.
Lemma latched_computes st st' d pkl dt ptt ks ps ss vals : latched st st' -> automatic_of st d = false -> computes fuel st suave1 suave12 d pkl dt ptt ks ps ss vals <-> computes fuel st' suave1 suave12 d pkl dt ptt ks ps ss vals.
Proof.
  intros L A. pose proof L as (I & Cu & _). unfold computes. rewrite I, Cu. split; intros (X & Y & Z'); (split; [exact X|]; split; [exact Y|]); intros ik Hi.
  - rewrite latched_value with (st := st); auto.
  - rewrite <- latched_value with (st := st) (st' := st'); auto.
Qed.
End Programs.
