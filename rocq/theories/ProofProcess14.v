(** ProofProcess14: B2Loop.run_terms, continued. *)
From Coq Require Import ZArith List String Bool Lia PeanoNat.
From Verif Require Import Base Num Common Kernels Integrals Registry PyTerms Threads SpecThreads Process SpecProcess ProofThreads2 ProofThreads3 ProofScratch3 ProofPy ProofProcess ProofProcess2 ProofProcess3 ProofProcess4 ProofProcess5 ProofProcess6 ProofProcess7 ProofProcess8 ProofProcess9 ProofProcess10 ProofProcess11 ProofProcess12 ProofProcess13.
Import ListNotations.
Local Open Scope string_scope.
Local Open Scope nat_scope.

Section FillB2.
Context {N : Num}.
Notation T := (T N).
Notation state := (state N).
Implicit Types (s : state) (o l : nat).
Variables (fuel : nat) (suave1 : (list T -> res T) -> res T) (suave12 : (list T -> res (list T)) -> res (list T)).

Lemma pk_1loop_ext (c c' : columns N) D : (forall x, In x ["k"; "pk_lin"; "sigmad2"; "gamma1a_1loop"; "gamma1b_1loop"; "pk_gamma2_tree_tree"] -> getitem c x = getitem c' x) -> PyTerms.pk_1loop c D None = PyTerms.pk_1loop c' D None.
Proof. intros H. unfold PyTerms.pk_1loop, getitems. rewrite !H by (cbn; tauto). reflexivity. Qed.
Lemma pk_1loop_length (c : columns N) D K v : getitem c "k" = Ok K -> PyTerms.pk_1loop c D None = Ok v -> List.length v = List.length K.
Proof.
  intros Ek E. unfold PyTerms.pk_1loop in E. rewrite Ek in E. destruct (getitem c "sigmad2") as [s0|]; [|discriminate]. destruct (getitems c ["gamma1a_1loop"; "gamma1b_1loop"; "pk_lin"; "pk_gamma2_tree_tree"]) as [cs|]; [|discriminate].
  change (elementwise (pk_1loop_row D) (K :: s0 :: cs) = Ok v) in E. unfold elementwise in E. destruct (forallb _ _) in E; [|discriminate]. injection E as <-. rewrite map_length, seq_length. reflexivity.
Qed.
(** The columns of a Spectrum1Loop after run_terms *)
Record spectral s x (K ps ss : list T) (vals : Z -> list T) : Prop := {
  sp_k : column_of s x "k" = Some K; sp_p : column_of s x "pk_lin" = Some ps; sp_s : column_of s x "sigmad2" = Some ss;
  sp_c : forall i y, nth_error ["gamma1a_1loop"; "gamma1b_1loop"; "pk_gamma2_tree_tree"] i = Some y -> column_of s x y = Some (map (fun ik => nth i (vals ik) (nZ N 0)) (indices (zlen K))) }.
Lemma spectral_of s x K ps ss vals fa fb : terms_are s x C1Loop S_1loop K -> filled s x (D_1loop fa fb) K ps ss vals -> spectral s x K ps ss vals.
Proof.
  intros T0 F0. pose proof F0 as []. constructor; auto. intros i y Hy. apply (row_column s x C1Loop S_1loop K fa fb vals y i); auto. rewrite f_p, f_s. exact F0.
Qed.
Lemma spectral_columns s s' x K ps ss vals : (forall y, column_of s' x y = column_of s x y) -> spectral s x K ps ss vals -> spectral s' x K ps ss vals.
Proof. intros H []. constructor; intros; rewrite H; auto. Qed.
Definition snoc_temp s (xs : list T) : state := with_temps (with_blocks s (blocks s ++ [(Numpy, xs)])%list) (List.length (blocks s) :: temps s).
Definition new_array s (xs : list T) : array := mkArray (List.length (blocks s)) 0 1 (zlen xs) false.
Lemma pk_sub_ok s x K ps ss vals spec : wf s -> In x (reachable s) -> spectral s x K ps ss vals ->
  (let col i := map (fun ik => nth i (vals ik) (nZ N 0)) (indices (zlen K)) in
   PyTerms.pk_1loop [("k", K); ("pk_lin", ps); ("sigmad2", ss); ("gamma1a_1loop", col 0%nat); ("gamma1b_1loop", col 1%nat); ("pk_gamma2_tree_tree", col 2%nat)] (nZ N 1) None = Ok spec) ->
  py_pk_1loop x s = Fine (snoc_temp s spec) (new_array s spec) /\ List.length spec = List.length K.
Proof.
  intros W Hx Sp E. cbv zeta in E. split; [|eapply pk_1loop_length; [|exact E]; reflexivity]. unfold py_pk_1loop. rewrite (bind_Fine _ _ _ _ _ (columns_eq _ _ W Hx)).
  erewrite pk_1loop_ext; [rewrite E; reflexivity|]. intros y Hy. rewrite getitem_column. destruct Sp. cbn in Hy.
  destruct Hy as [<-|[<-|[<-|[<-|[<-|[<-|[]]]]]]]; [rewrite sp_k0|rewrite sp_p0|rewrite sp_s0|rewrite (sp_c0 0%nat)|rewrite (sp_c0 1%nat)|rewrite (sp_c0 2%nat)]; reflexivity.
Qed.
Lemma snoc_old s xs b : b < List.length (blocks s) -> nth_error (blocks (snoc_temp s xs)) b = nth_error (blocks s) b.
Proof. intros H. cbn. apply nth_error_app1, H. Qed.
Lemma snoc_wf s xs : wf s -> wf (snoc_temp s xs).
Proof.
  intros W. assert (B : forall b y, nth_error (blocks s) b = Some y -> nth_error (blocks (snoc_temp s xs)) b = Some y) by (intros b y E; rewrite snoc_old by (eapply nth_error_lt, E); exact E).
  destruct W. constructor; auto.
  - intros d x a Hd Ha. destruct (wf_array d x a Hd Ha) as (L & ys & E & X). split; [exact L|]. exists ys. auto.
  - intros b i E. destruct (wf_1loop b i E) as (w & ys & X & Nw). eauto.
Qed.
Lemma snoc_column s xs x y : wf s -> column_of (snoc_temp s xs) x y = column_of s x y.
Proof.
  intros W. unfold column_of. change (dict_of (snoc_temp s xs) x) with (dict_of s x). destruct (assoc (dict_of s x) y) as [a|] eqn:E; [|reflexivity]. cbn [option_map]. unfold elements, contents. rewrite snoc_old; [reflexivity|]. eapply dict_block; [exact W|apply assoc_In, E].
Qed.
Lemma snoc_bound s xs o c sl l K P ks : wf s -> bound_to s o c sl l K P ks -> bound_to (snoc_temp s xs) o c sl l K P ks.
Proof.
  intros W B. apply (bound_keep s); auto.
  - intros x a [H|H]; apply snoc_old; eapply dict_block; eauto.
  - apply (i_hand _ _ _ _ (b_lin _ _ _ _ _ _ _ _ B)).
Qed.
Lemma temp_reads s b xs : nth_error (blocks s) b = Some (Numpy, xs) -> In b (temps s) -> reads s (Some (b, 0%Z)) xs.
Proof.
  intros E H. exists b, 0%Z. split; [reflexivity|]. split.
  - eapply alive_held; [exact E|]. unfold held. apply in_app_iff. auto.
  - intros i Hi. unfold contents. rewrite E, Z.add_0_l. apply rd_nth, Hi.
Qed.
Lemma attaches_dt : attaches (fun x ob => mkObj (o_class ob) (o_dict ob) (o_lin ob) (Some x) (o_tt ob) (o_verbose ob)).
Proof. constructor; cbn; auto. intros x ob y [E|E]; [injection E as ->; auto|auto]. Qed.
Lemma attaches_tt : attaches (fun x ob => mkObj (o_class ob) (o_dict ob) (o_lin ob) (o_dt ob) (Some x) (o_verbose ob)).
Proof. constructor; cbn; auto. intros x ob y [E|E]; [auto|injection E as ->; auto]. Qed.

Lemma run_B2_ok s o ob l K P ks a b d t ps ss vals : wf s -> In o (vars s) -> nth_error (objects s) o = Some ob -> o_class ob = CB2 -> o_lin ob = Some l -> bound_to s o CB2 S_B l K P ks -> (zlen K < SIZE_T)%Z ->
  spectrum_1loop_is fuel suave1 suave12 (g_conf s) (mk_table K P) K DELTA THETA d -> spectrum_1loop_is fuel suave1 suave12 (g_conf s) (mk_table K P) K THETA THETA t ->
  computes fuel (g_conf s) suave1 suave12 D_B (mk_table K P) (mk_table K d) (mk_table K t) ks ps ss vals ->
  exists s', py_run_terms fuel suave1 suave12 o ob a b s = Fine s' tt /\ bound_to s' o CB2 S_B l K P ks /\ filled s' o D_B ks ps ss vals /\ lin_of s' o = Some l /\ vars s' = vars s /\
    (forall b, b < List.length (blocks s) -> ~ outputs s S_B b -> nth_error (blocks s') b = nth_error (blocks s) b) /\ (forall x, x < List.length (objects s) -> dict_of s' x = dict_of s x) /\
    (forall sl, sl <> S_1loop -> g_terms s' sl = g_terms s sl) /\ g_lin s' = g_lin s /\ g_conf s' = g_conf s /\ g_verbose s' = INFO.
Proof.
  intros W Hv E C El B Sz (ps1 & ss1 & vals1 & Cm1 & Pd) (ps2 & ss2 & vals2 & Cm2 & Pt) Cm. pose proof B as [T0 L0 A0]. pose proof (table_nonempty _ _ _ _ _ (proj1 Cm)) as Nk. pose proof (nth_error_lt _ _ _ E) as Lo.
  pose proof (hand_lt _ _ W (i_hand _ _ _ _ L0)) as Ll.
  destruct (sub_ok fuel suave1 suave12 s o ob l K P _ "delta" "theta" ps1 ss1 vals1 attaches_dt W Hv E L0 Nk Sz Cm1) as (s1 & E1 & G1 & L1 & O1 & T1 & F1 & Tm1 & Len1 & V1).
  set (x1 := List.length (objects s)) in *. set (ob1 := (fun x ob => mkObj (o_class ob) (o_dict ob) (o_lin ob) (Some x) (o_tt ob) (o_verbose ob)) x1 ob) in *.
  pose proof (gr_wf _ _ _ G1) as W1. assert (Hv1 : In o (vars s1)) by (rewrite (gr_vars _ _ _ G1); exact Hv).
  assert (Cm2' : computes fuel (g_conf s1) suave1 suave12 (D_1loop (set_flag "theta") (set_flag "theta")) (mk_table K P) (mk_table K P) (mk_table K P) K ps2 ss2 vals2) by (rewrite (gr_conf _ _ _ G1); exact Cm2).
  destruct (sub_ok fuel suave1 suave12 s1 o ob1 l K P _ "theta" "theta" ps2 ss2 vals2 attaches_tt W1 Hv1 O1 L1 Nk Sz Cm2') as (s2 & E2 & G2 & L2 & O2 & T2 & F2 & Tm2 & Len2 & V2).
  set (x2 := List.length (objects s1)) in *. pose proof (gr_wf _ _ _ G2) as W2.
  assert (G : grown s s2 o) by (eapply grown_trans; [exact Lo|exact G1|exact G2]).
  assert (Sp1 : spectral s2 x1 K ps1 ss1 vals1) by (apply (spectral_columns s1); [intros y; apply (grown_column s1 s2 o); [exact W1|exact G2|lia]|eapply spectral_of; eauto]).
  assert (Sp2 : spectral s2 x2 K ps2 ss2 vals2) by (eapply spectral_of; eauto).
  assert (Hv2 : In o (vars s2)) by (rewrite (gr_vars _ _ _ G2); exact Hv1).
  assert (Lo2 : o < List.length (objects s2)) by lia.
  assert (R1 : In x1 (reachable s2)) by (apply (reach_link s2 o); [exact Lo2|exact Hv2|unfold links; rewrite O2; cbn; rewrite !in_app_iff; cbn; tauto]).
  assert (R2 : In x2 (reachable s2)) by (apply (reach_link s2 o); [exact Lo2|exact Hv2|unfold links; rewrite O2; cbn; rewrite !in_app_iff; cbn; tauto]).
  destruct (pk_sub_ok s2 x1 K ps1 ss1 vals1 d W2 R1 Sp1 Pd) as [E3 Ld]. set (s3 := snoc_temp s2 d) in *. pose proof (snoc_wf s2 d W2) as W3. fold s3 in W3.
  destruct (pk_sub_ok s3 x2 K ps2 ss2 vals2 t W3) as [E4 Lt]; [rewrite (reachable_ext s2 s3) by reflexivity; exact R2|apply (spectral_columns s2); [intros y; apply snoc_column, W2|exact Sp2]|exact Pt|].
  set (s4 := snoc_temp s3 t) in *. pose proof (snoc_wf s3 t W3) as W4. fold s4 in W4.
  assert (B2 : bound_to s2 o CB2 S_B l K P ks) by (eapply grown_bound; [exact W|exact G|discriminate|exact Lo|exact Ll|exact B]).
  assert (B4 : bound_to s4 o CB2 S_B l K P ks) by (apply snoc_bound; [exact W3|apply snoc_bound; [exact W2|exact B2]]).
  set (ob2 := mkObj (o_class ob1) (o_dict ob1) (o_lin ob1) (o_dt ob1) (Some x2) (o_verbose ob1)) in *.
  assert (Ro : In o (reachable s4)) by (rewrite (reachable_ext s2 s4) by reflexivity; apply reach_var; exact Hv2).
  assert (No : forall n, List.length (blocks s2) <= n -> ~ outputs s4 S_B n).
  { intros n Hn Ho. destruct (output_array _ _ _ _ _ _ (b_terms _ _ _ _ _ _ _ _ B2) Ho) as (y & a0 & _ & _ & Ea & <-). apply assoc_In in Ea. pose proof (dict_block _ _ _ _ W2 Ea). lia. }
  assert (C2 : o_class ob2 = CB2) by exact C.
  assert (H1 : a_len (new_array s2 d) = zlen K) by (unfold new_array, zlen; cbn [a_len]; rewrite Ld; reflexivity).
  assert (H2 : a_len (new_array s3 t) = zlen K) by (unfold new_array, zlen; cbn [a_len]; rewrite Lt; reflexivity).
  assert (X1 : List.length (blocks s3) = S (List.length (blocks s2))) by (unfold s3, snoc_temp; cbn [blocks with_temps with_blocks]; rewrite app_length; cbn [List.length]; lia).
  assert (Q1 : reads s4 (whole (new_array s2 d)) d).
  { apply temp_reads; [|right; left; reflexivity]. unfold s4. rewrite snoc_old by (rewrite X1; apply Nat.lt_succ_diag_r). unfold s3, snoc_temp. cbn [blocks with_temps with_blocks]. rewrite nth_error_snoc, Nat.eqb_refl. reflexivity. }
  assert (Q2 : reads s4 (whole (new_array s3 t)) t).
  { apply temp_reads; [|left; reflexivity]. unfold s4, snoc_temp. cbn [blocks with_temps with_blocks]. rewrite nth_error_snoc, Nat.eqb_refl. reflexivity. }
  assert (No1 : ~ outputs s4 S_B (a_buf (new_array s2 d))) by (apply No; apply le_n).
  assert (No2 : ~ outputs s4 S_B (a_buf (new_array s3 t))) by (apply No; unfold new_array; cbn [a_buf]; rewrite X1; apply Nat.le_succ_diag_r).
  assert (Cm4 : computes fuel (g_conf s4) suave1 suave12 D_B (mk_table K P) (mk_table K d) (mk_table K t) ks ps ss vals) by (change (g_conf s4) with (g_conf s2); rewrite (gr_conf _ _ _ G); exact Cm).
  assert (B4' : bound_to s4 o (o_class ob2) S_B l K P ks) by (rewrite C2; exact B4).
  assert (Sl2 : slot_of (o_class ob2) = Some S_B) by (rewrite C2; reflexivity).
  assert (Eo4 : nth_error (objects s4) o = Some ob2) by exact O2.
  destruct (spectra_B_ok fuel suave1 suave12 s4 o ob2 l K P ks (new_array s2 d) (new_array s3 t) d t ps ss vals W4 Ro Eo4 Sl2 B4' Nk eq_refl eq_refl H1 H2 Q1 Q2 Ld Lt No1 No2 Cm4) as (s5 & E5 & B5 & F5 & O5 & V5 & Tm5 & D5 & Lb5 & Bl5 & Gt5 & Gl5 & Cf5 & Vb5).
  rewrite C2 in B5.
  exists s5. split.
    { unfold py_run_terms. rewrite C, El. unfold attribute. rewrite (bind_Fine _ _ s s l) by reflexivity. rewrite (bind_Fine _ _ _ _ _ E1). rewrite (bind_Fine _ _ _ _ _ E2). rewrite (bind_Fine _ _ _ _ _ E3). rewrite (bind_Fine _ _ _ _ _ E4). exact E5. }
    split; [exact B5|]. split; [exact F5|]. split; [unfold lin_of; rewrite O5; change (objects s4) with (objects s2); rewrite O2; exact El|]. split; [rewrite V5; apply (gr_vars _ _ _ G)|]. split.
    { intros n Hn Ho. pose proof (gr_len _ _ _ G) as X. rewrite Bl5.
      - unfold s4, s3. rewrite !snoc_old by (cbn; rewrite ?app_length; lia). apply (gr_blocks _ _ _ G), Hn.
      - unfold outputs in *. change (g_terms s4) with (g_terms s2). rewrite (gr_terms _ _ _ G) by discriminate. exact Ho. }
    split. { intros y Hy. unfold dict_of. rewrite O5, D5. apply (gr_dict _ _ _ G), Hy. }
    split. { intros sl Ns. rewrite Gt5. apply (gr_terms _ _ _ G), Ns. }
    split; [rewrite Gl5; apply (gr_lin _ _ _ G)|]. split; [rewrite Cf5; apply (gr_conf _ _ _ G)|]. rewrite Vb5. exact V2.
Qed.
End FillB2.
