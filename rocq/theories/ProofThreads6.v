(** ProofThreads6: the six calls. *)
From Coq Require Import ZArith List String Bool Lia Permutation.
From Verif Require Import Base Num Common Kernels Integrals Registry Threads SpecThreads ProofThreads SpecLoops SpecScratch ProofScratch ProofScratch2 ProofScratch3 ProofThreads2 ProofThreads3 ProofThreads4 ProofThreads5.
Import ListNotations.
Local Open Scope string_scope.

(** Rows done one after the other. *)
Lemma run_foreach {N} (f : Z -> prog N unit) (cs : Z -> list loc) (vs : Z -> list (T N)) :
  (forall ik jk c, In c (cs ik) -> In c (cs jk) -> ik = jk) -> forall rows h, NoDup rows ->
  (forall ik h', In ik rows -> (forall l, (forall jk, jk <> ik -> ~ In l (cs jk)) -> h' l = h l) ->
    exists h'', run (f ik) h' = inl (tt, h'') /\ stored h'' (cs ik) (vs ik) /\ forall l, ~ In l (cs ik) -> h'' l = h' l) ->
  exists h', run (foreach f rows) h = inl (tt, h') /\ (forall ik, In ik rows -> stored h' (cs ik) (vs ik)) /\ forall l, (forall ik, In ik rows -> ~ In l (cs ik)) -> h' l = h l.
Proof.
  intros AP. induction rows as [|ik rows IH]; intros h D H; cbn [foreach].
  - exists h. split; [reflexivity|]. split; [intros ? []|reflexivity].
  - inversion D as [|? ? D1 D2]. subst. destruct (H ik h (or_introl eq_refl)) as (h1 & E1 & S1 & F1); [reflexivity|].
    rewrite run_bind, E1. destruct (IH h1 D2) as (h2 & E2 & S2 & F2).
    { intros jk h' Hj A. apply (H jk h'); [right; exact Hj|]. intros l Hl. rewrite A by exact Hl. apply F1, Hl. intros ->. exact (D1 Hj). }
    exists h2. split; [exact E2|]. split.
    + intros jk [<-|Hj]; [|apply S2, Hj]. apply (stored_ext h1); [|exact S1]. intros l Hl. apply F2. intros jk Hj Hc. apply D1. rewrite (AP ik jk l Hl Hc). exact Hj.
    + intros l Hl. rewrite F2, F1; [reflexivity|apply Hl; left; reflexivity|intros jk Hj; apply Hl; right; exact Hj].
Qed.
Lemma NoDup_app_single {A} (l : list A) a : NoDup l -> ~ In a l -> NoDup (l ++ [a]).
Proof. intros D H. apply (Permutation_NoDup (l := a :: l)); [apply Permutation_cons_append|constructor; assumption]. Qed.

Section Calls.
Context {N : Num}.
Variables (fuel : nat) (st : settings N).
Lemma makes_q pkl qs mus x : makes fuel st pkl qs mus -> In x qs -> exists g, new_q fuel st pkl x = Ok g /\ q_ok g.
Proof. intros [H _] Hx. destruct (H x Hx) as (S & g & E). exists g. split; [exact E|]. exact (proj1 (init_q_tables fuel (s_prec st x) pkl g S E)). Qed.
Lemma makes_mu pkl qs mus x : makes fuel st pkl qs mus -> In x mus -> exists m, new_mu fuel st x = Ok m /\ mu_ok m.
Proof. intros [_ H] Hx. destruct (H x Hx) as (S & g & E). exists g. split; [exact E|]. exact (init_mu_tables fuel (s_prec st x) g S E). Qed.
Ltac mq MK x g E O := destruct (makes_q _ _ _ x MK) as (g & E & O); [inl_|].
Ltac mm MK x g E O := destruct (makes_mu _ _ _ x MK) as (g & E & O); [inl_|].
Ltac cells4 := let Hc := fresh in intros ? ? Hc; cbn in Hc; repeat destruct Hc as [<-|Hc]; try (eexists _, _; split; [reflexivity|repeat split; discriminate]); destruct Hc.

Lemma call_1loop a b h pkl ks parts ps ss vals :
  can_start fuel st h pkl ks cells_1loop q_tables_1loop mu_tables_1loop parts ->
  find_pk pkl ks (s_interpol st "spectrum_1loop_pk_lin") = Ok ps -> calc_running_sigmad2 pkl ks (s_cutoff st "set_running_uvcutoff_spectrum_1loop") = Ok ss ->
  (forall ik, (0 <= ik < zlen ks)%Z -> value_1loop fuel st pkl a b (k_ ks ik) = Ok (vals ik)) ->
  completes (run_terms_1loop fuel st a b (zlen ks) parts) h nowhere
    (fun h' => leaves h h' cells_1loop ps ss vals (zlen ks) (q_tables_1loop ++ mu_tables_1loop) (List.length parts) nowhere).
Proof.
  intros (M & D & MK) Ep Es HV. mq MK "gamma1_1loop_q" g1 E1 O1. mq MK "gamma2_tree_q" g E2 O2. mm MK "gamma2_tree_mu" m E3 O3.
  eapply completes_mono; [|eapply (call_ok st _ _ h pkl ks cells_1loop vals (tabs_1loop g1 g m) nowhere cv0); [exact M|exact Ep|exact Es|cells4|intros l []|]].
  - intros h' [L _]. exact L.
  - intros h1 M1 _. exact (region_1loop fuel st a b pkl ks parts vals g1 g m h1 D O1 O2 O3 E1 E2 E3 HV M1).
Qed.
Lemma call_bias h pkl ks parts ps ss vals :
  can_start fuel st h pkl ks cells_bias q_tables_bias mu_tables_bias parts ->
  find_pk pkl ks (s_interpol st "bias_1loop_pk_lin") = Ok ps -> calc_running_sigmad2 pkl ks (s_cutoff st "set_running_uvcutoff_bias_1loop") = Ok ss ->
  (forall ik, (0 <= ik < zlen ks)%Z -> value_bias fuel st pkl (k_ ks ik) = Ok (vals ik)) ->
  completes (run_terms_bias fuel st (zlen ks) parts) h nowhere
    (fun h' => leaves h h' cells_bias ps ss vals (zlen ks) (q_tables_bias ++ mu_tables_bias) (List.length parts) nowhere).
Proof.
  intros (M & D & MK) Ep Es HV. mq MK "bias_1loop_q" g E2 O2. mm MK "bias_1loop_mu" m E3 O3.
  eapply completes_mono; [|eapply (call_ok st _ _ h pkl ks cells_bias vals (tabs_bias g m) nowhere cv0); [exact M|exact Ep|exact Es|cells4|intros l []|]].
  - intros h' [L _]. exact L.
  - intros h1 M1 _. exact (region_bias fuel st pkl ks parts vals g m h1 D O2 O3 E2 E3 HV M1).
Qed.
Lemma call_A_1loop h pkl ks parts ps ss vals :
  can_start fuel st h pkl ks cells_A q_tables_A_1loop mu_tables_A_1loop parts ->
  find_pk pkl ks (s_interpol st "A_1loop_pk_lin") = Ok ps -> calc_running_sigmad2 pkl ks (s_cutoff st "set_precision_A_1loop_sigmad2") = Ok ss ->
  (forall ik, (0 <= ik < zlen ks)%Z -> value_A_1loop fuel st pkl (k_ ks ik) = Ok (vals ik)) ->
  completes (run_terms_A_1loop fuel st (zlen ks) parts) h nowhere
    (fun h' => leaves h h' cells_A ps ss vals (zlen ks) (q_tables_A_1loop ++ mu_tables_A_1loop) (List.length parts) nowhere).
Proof.
  intros (M & D & MK) Ep Es HV. mq MK "A_1loop_q" g E2 O2. mm MK "A_1loop_mu" m E3 O3.
  eapply completes_mono; [|eapply (call_ok st _ _ h pkl ks cells_A vals (tabs_A_1loop g m) nowhere cv0); [exact M|exact Ep|exact Es|cells4|intros l []|]].
  - intros h' [L _]. exact L.
  - intros h1 M1 _. exact (region_A_1loop fuel st pkl ks parts vals g m h1 D O2 O3 E2 E3 HV M1).
Qed.
(** For B, what the shared static variables hold in the end. *)
Lemma call_B dt ptt h pkl ks parts ps ss vals :
  can_start fuel st h pkl ks cells_B q_tables_B mu_tables_B parts ->
  h (Glob "pk_dt") = Some (VPk dt) -> h (Glob "pk_tt") = Some (VPk ptt) -> (forall l, statics_B l -> h l <> None) ->
  find_pk pkl ks (s_interpol st "B_pk_lin") = Ok ps -> calc_running_sigmad2 pkl ks (s_cutoff st "set_running_uvcutoff_B") = Ok ss ->
  (forall ik, (0 <= ik < zlen ks)%Z -> value_B fuel st pkl dt ptt (k_ ks ik) = Ok (vals ik)) ->
  completes (run_terms_B fuel st (zlen ks) parts) h statics_B
    (fun h' => leaves h h' cells_B ps ss vals (zlen ks) (q_tables_B ++ mu_tables_B) (List.length parts) statics_B /\
      (parts <> [] -> h' (Glob "calc_B.pk_dt") = Some (VPk dt) /\ h' (Glob "calc_B.pk_tt") = Some (VPk ptt))).
Proof.
  intros (M & D & MK) Hd Ht Hs Ep Es HV. mq MK "B_q" g E2 O2. mm MK "B_mu" m E3 O3.
  eapply completes_mono; [|eapply (call_ok st _ _ h pkl ks cells_B vals (tabs_B g m) statics_B (cv_B dt ptt)); [exact M|exact Ep|exact Es|cells4| |]].
  - intros h' (L & C & _). split; [exact L|]. intros Np. split; [exact (C (Glob "calc_B.pk_dt") (or_introl eq_refl) Np)|exact (C (Glob "calc_B.pk_tt") (or_intror eq_refl) Np)].
  - intros l [->| ->]; (eexists; split; [reflexivity|discriminate]).
  - intros h1 M1 G. apply (region_B fuel st dt ptt pkl ks parts vals g m h1 D O2 O3 E2 E3 HV); try rewrite G; try assumption; apply Hs; [left|right]; reflexivity.
Qed.

(** *** With a serial end *)
Lemma zlen_indices (ks : list (T N)) : NoDup (indices (zlen ks)). Proof. apply NoDup_indices. Qed.
Lemma machine_weaken (h : heap N) pkl ks out out' tabs n : (forall l, In l out' -> In l out) -> machine h pkl ks out tabs n -> machine h pkl ks out' tabs n.
Proof. intros I [M1 M2 M3 M4]. constructor; auto. Qed.
Lemma leaves_k (h h' : heap N) cells ps ss vals nk tabs n : (forall ik c, In c (cells ik) -> exists x i, c = Arr x i /\ x <> "k" /\ x <> "pk_lin" /\ x <> "sigmad2") ->
  leaves h h' cells ps ss vals nk tabs n nowhere -> (forall ik, h' (Arr "k" ik) = h (Arr "k" ik)) /\ h' pk_lin = h pk_lin.
Proof.
  intros CA L. split.
  - intros ik. apply (l_frame _ _ _ _ _ _ _ _ _ _ L); [|intros; discriminate|intros []].
    unfold out_cells. rewrite !in_app_iff, !In_column, in_flat_map. intros [(i & _ & E)|[(i & _ & E)|(jk & _ & Hc)]]; try discriminate. destruct (CA jk _ Hc) as (x & i & E & X & _). congruence.
  - apply (l_frame _ _ _ _ _ _ _ _ _ _ L); [|intros; discriminate|intros []].
    unfold out_cells. rewrite !in_app_iff, !In_column, in_flat_map. intros [(i & _ & E)|[(i & _ & E)|(jk & _ & Hc)]]; try discriminate. destruct (CA jk _ Hc) as (x & i & E & X & _). discriminate.
Qed.
Lemma call_2loop suave1 a b h pkl ks parts ps ss vals v3 r :
  can_start fuel st h pkl ks cells_2loop_all q_tables_2loop mu_tables_2loop parts ->
  find_pk pkl ks (s_interpol st "spectrum_2loop_pk_lin") = Ok ps -> calc_running_sigmad2 pkl ks (s_cutoff st "set_running_uvcutoff_spectrum_2loop") = Ok ss ->
  (forall ik, (0 <= ik < zlen ks)%Z -> value_2loop fuel st pkl a b (k_ ks ik) = Ok (vals ik)) ->
  q_range (s_prec st "gamma3_tree_q") pkl = Ok r ->
  (forall ik, (0 <= ik < zlen ks)%Z -> value_gamma3 st pkl suave1 a b (k_ ks ik) = Ok (v3 ik)) ->
  completes (run_terms_2loop fuel st suave1 a b (zlen ks) parts) h nowhere
    (fun h' => leaves h h' cells_2loop_all ps ss (fun ik => vals ik ++ v3 ik)%list (zlen ks) (q_tables_2loop ++ mu_tables_2loop) (List.length parts) nowhere).
Proof.
  intros (M & D & MK) Ep Es HV Er H3. mq MK "gamma1_1loop_q" g1 E1 O1. mq MK "gamma1_2loop_q" g2 E2 O2. mq MK "gamma2_tree_q" g E3 O3. mq MK "gamma2d_1loop_q" gd E4 O4. mq MK "gamma2t_1loop_q" gth E5 O5. mm MK "gamma2_tree_mu" m E6 O6.
  assert (CA : forall ik c, In c (cells_2loop ik) -> exists x i, c = Arr x i /\ x <> "k" /\ x <> "pk_lin" /\ x <> "sigmad2") by cells4.
  assert (M' : machine h pkl ks (out_cells cells_2loop (zlen ks)) (q_tables_2loop ++ mu_tables_2loop) (List.length parts)).
  { revert M. apply machine_weaken. unfold out_cells. intros l. rewrite !in_app_iff, !in_flat_map. intros [H|[H|(ik & H1 & H2)]]; auto. right. right. exists ik. split; [exact H1|]. unfold cells_2loop_all. rewrite in_app_iff. auto. }
  eapply completes_then; [|eapply (call_ok st _ _ h pkl ks cells_2loop vals (tabs_2loop g1 g2 g gd gth m) nowhere cv0); [exact M'|exact Ep|exact Es|exact CA|intros l []|]].
  2: { intros h1 M1 _. exact (region_2loop fuel st a b pkl ks parts vals g1 g2 g m gd gth h1 D O1 O2 O3 O6 E1 E2 E3 E6 E4 E5 HV M1). }
  intros h' [L _]. destruct (leaves_k _ _ _ _ _ _ _ _ _ CA L) as [Lk Ll].
  unfold p_gamma3. rewrite run_bind. cbn [load_pk run]. rewrite Ll, (m_lin _ _ _ _ _ _ M). cbn [run]. rewrite run_bind, Er. cbn [attempt run]. destruct r as [qmin qmax].
  match goal with |- exists h3, run (foreach ?f _) _ = _ /\ _ => destruct (run_foreach f (fun ik => [Arr "pk_gamma3_tree" ik]) v3) with (rows := indices (zlen ks)) (h := h') as (h3 & E & S & F) end.
  - intros ik jk c H1 H2. cbn in H1, H2. intuition congruence.
  - apply NoDup_indices.
  - intros ik h2 Hi A. apply In_indices in Hi. rewrite run_bind. cbn [load_num run]. rewrite A, Lk, (machine_k _ _ _ _ _ _ _ M Hi) by (intros jk _ [X|[]]; discriminate). cbn [run].
    specialize (H3 ik Hi). unfold value_gamma3 in H3. rewrite Er in H3. cbn [bind] in H3. unfold im_of in H3.
    rewrite run_bind. unfold k_ in H3. destruct (calc_pk_gamma3_tree _ _ _ _ _ _ _ _ _ _) as [v|]; [|discriminate]. cbn [bind] in H3. injection H3 as H3. cbn [attempt run store].
    destruct (h2 (Arr "pk_gamma3_tree" ik)) eqn:E2'.
    + eexists. split; [reflexivity|]. split; [unfold stored; cbn [map]; rewrite hupd_same, <- H3; reflexivity|]. intros l Hl. apply hupd_other. cbn in Hl. tauto.
    + exfalso. rewrite A in E2' by (intros jk Ne [X|[]]; congruence). rewrite (l_frame _ _ _ _ _ _ _ _ _ _ L) in E2'.
      * apply (m_out _ _ _ _ _ _ M (Arr "pk_gamma3_tree" ik)); [|exact E2']. unfold out_cells. rewrite !in_app_iff, in_flat_map. right. right. exists ik. split; [apply In_indices, Hi|]. unfold cells_2loop_all. rewrite in_app_iff. cbn. auto.
      * unfold out_cells. rewrite !in_app_iff, !In_column, in_flat_map. intros [(i & _ & E)|[(i & _ & E)|(jk & _ & Hc)]]; try discriminate. cbn in Hc. intuition discriminate.
      * intros; discriminate.
      * intros [].
  - exists h3. split; [exact E|]. assert (F' : forall l, (forall i, l <> Arr "pk_gamma3_tree" i) -> h3 l = h' l).
    { intros l Hl. apply F. intros ik _ [X|[]]. exact (Hl ik (eq_sym X)). }
    destruct L as [L1 L2 L3 L4 L5]. constructor.
    + apply (stored_ext h'); [|exact L1]. intros l Hl. apply F'. apply In_column in Hl as (i & _ & ->). discriminate.
    + apply (stored_ext h'); [|exact L2]. intros l Hl. apply F'. apply In_column in Hl as (i & _ & ->). discriminate.
    + intros ik Hi. unfold stored, cells_2loop_all. rewrite !map_app. f_equal.
      * apply (stored_ext h'); [|exact (L3 ik Hi)]. intros l Hl. apply F'. intros i ->. cbn in Hl. intuition discriminate.
      * apply S, In_indices, Hi.
    + intros t x Lt Hx. rewrite F' by discriminate. exact (L4 t x Lt Hx).
    + intros l H1 H2 H4. unfold out_cells in H1. rewrite !in_app_iff, in_flat_map in H1. rewrite F, L5; [reflexivity| |exact H2|exact H4|].
      * unfold out_cells. rewrite !in_app_iff, in_flat_map. intros [X|[X|(ik & X1 & X2)]]; [tauto|tauto|]. apply H1. right. right. exists ik. split; [exact X1|]. unfold cells_2loop_all. rewrite in_app_iff. auto.
      * intros ik Hi Hc. apply H1. right. right. exists ik. split; [exact Hi|]. unfold cells_2loop_all. rewrite in_app_iff. auto.
Qed.
Lemma call_A_2loop suave12 h pkl ks parts ps ss vals v2 r :
  can_start fuel st h pkl ks cells_A q_tables_A_2loop mu_tables_A_2loop parts ->
  find_pk pkl ks (s_interpol st "A_2loop_pk_lin") = Ok ps -> calc_running_sigmad2 pkl ks (s_cutoff st "set_precision_A_2loop_sigmad2") = Ok ss ->
  (forall ik, (0 <= ik < zlen ks)%Z -> value_A_2loop fuel st pkl (k_ ks ik) = Ok (vals ik)) ->
  q_range (s_prec st "A_2loop_II_III_q") pkl = Ok r ->
  (forall ik, (0 <= ik < zlen ks)%Z -> value_A_II_III st pkl suave12 (k_ ks ik) = Ok (v2 ik)) ->
  completes (run_terms_A_2loop fuel st suave12 (zlen ks) parts) h nowhere
    (fun h' => leaves h h' cells_A ps ss (fun ik => zipw (nadd N) (vals ik) (v2 ik)) (zlen ks) (q_tables_A_2loop ++ mu_tables_A_2loop) (List.length parts) nowhere).
Proof.
  intros (M & D & MK) Ep Es HV Er H3. mq MK "A_2loop_I_q" g E1 O1. mq MK "gamma1_1loop_q" g1 E2 O2. mq MK "gamma2d_1loop_q" gd E4 O4. mq MK "gamma2t_1loop_q" gth E5 O5. mm MK "A_2loop_I_mu" m E6 O6.
  assert (CA : forall ik c, In c (cells_A ik) -> exists x i, c = Arr x i /\ x <> "k" /\ x <> "pk_lin" /\ x <> "sigmad2") by cells4.
  assert (AP : forall ik jk c, In c (cells_A ik) -> In c (cells_A jk) -> ik = jk).
  { intros ik jk c H1 H2. apply in_map_iff in H1 as (c1 & <- & I1). apply in_map_iff in H2 as (c2 & E & I2). assert (5 * jk + c2 = 5 * ik + c1)%Z by congruence. cbn in I1, I2. lia. }
  eapply completes_then; [|eapply (call_ok st _ _ h pkl ks cells_A vals (tabs_A_2loop g g1 gd gth m) nowhere cv0); [exact M|exact Ep|exact Es|exact CA|intros l []|]].
  2: { intros h1 M1 _. exact (region_A_2loop fuel st pkl ks parts vals g m g1 gd gth h1 D O1 O6 O2 E1 E6 E2 E4 E5 HV M1). }
  intros h' [L _]. destruct (leaves_k _ _ _ _ _ _ _ _ _ CA L) as [Lk Ll].
  unfold p_A_II_III. rewrite run_bind. cbn [load_pk run]. rewrite Ll, (m_lin _ _ _ _ _ _ M). cbn [run]. rewrite run_bind, Er. cbn [attempt run]. destruct r as [qmin qmax].
  assert (LA : forall p v, sum_A (N := N) p = Ok v -> List.length v = 5%nat).
  { intros p v X. unfold sum_A in X. repeat (match type of X with context [rd ?l ?i] => destruct (rd l i); [|discriminate X]; cbn [bind] in X end). injection X as X. rewrite <- X. reflexivity. }
  match goal with |- exists h3, run (foreach ?f _) _ = _ /\ _ => destruct (run_foreach f cells_A (fun ik => zipw (nadd N) (vals ik) (v2 ik))) with (rows := indices (zlen ks)) (h := h') as (h3 & E & S & F) end.
  - exact AP.
  - apply NoDup_indices.
  - intros ik h2 Hi A. apply In_indices in Hi. rewrite run_bind. cbn [load_num run]. rewrite A, Lk, (machine_k _ _ _ _ _ _ _ M Hi) by (intros jk _ X; destruct (CA jk _ X) as (? & ? & Y & Z & _); congruence). cbn [run].
    specialize (H3 ik Hi). unfold value_A_II_III in H3. rewrite Er in H3. cbn [bind] in H3. unfold k_ in H3. rewrite run_bind.
    destruct (calc_pk_A_2loop_II_III _ _ _ _ _ _ _) as [v|]; [|discriminate]. cbn [bind] in H3. cbn [attempt run]. rewrite run_bind, H3. cbn [attempt run]. rewrite run_bind, block_A.
    assert (S2 : stored h2 (cells_A ik) (vals ik)).
    { apply (stored_ext h'); [|exact (l_rows _ _ _ _ _ _ _ _ _ _ L ik Hi)]. intros l Hl. apply A. intros jk Ne Hj. exact (Ne (AP jk ik l Hj Hl)). }
    rewrite (run_load_all h2 _ (vals ik) S2).
    assert (L1 : List.length (vals ik) = List.length (cells_A ik)) by (exact (stored_length _ _ _ S2)). pose proof (LA _ _ H3) as L2.
    assert (LZ : List.length (zipw (nadd N) (vals ik) (v2 ik)) = List.length (cells_A ik)) by (rewrite zipw_len; [exact L1|rewrite L1, L2; reflexivity]).
    assert (ND : NoDup (cells_A ik)). { unfold cells_A. apply FinFun.Injective_map_NoDup; [intros x y X; assert (5 * ik + x = 5 * ik + y)%Z by congruence; lia|]. repeat constructor; cbn; intuition discriminate. }
    eexists. split; [apply run_store_all; [exact LZ|intros l Hl; exact (stored_present _ _ _ _ S2 Hl)]|]. split; [apply put_all_stored; [exact ND|exact LZ]|]. intros l Hl. apply put_all_other, Hl.
  - exists h3. split; [exact E|]. assert (F' : forall l, (forall i, l <> Arr "A" i) -> h3 l = h' l).
    { intros l Hl. apply F. intros ik _ X. apply in_map_iff in X as (c & X & _). exact (Hl _ (eq_sym X)). }
    destruct L as [L1 L2 L3 L4 L5]. constructor.
    + apply (stored_ext h'); [|exact L1]. intros l Hl. apply F'. apply In_column in Hl as (i & _ & ->). discriminate.
    + apply (stored_ext h'); [|exact L2]. intros l Hl. apply F'. apply In_column in Hl as (i & _ & ->). discriminate.
    + intros ik Hi. apply S, In_indices, Hi.
    + intros t x Lt Hx. rewrite F' by discriminate. exact (L4 t x Lt Hx).
    + intros l H1 H2 H4. rewrite F, L5; [reflexivity|exact H1|exact H2|exact H4|]. unfold out_cells in H1. rewrite !in_app_iff, in_flat_map in H1. intros ik Hi Hc. apply H1. right. right. exists ik. auto.
Qed.
End Calls.
