(** ProofProcess20: run_terms_B of the library without set_spectra_B: the first call works, the second one reads freed memory. *)
From Coq Require Import ZArith List String Bool Lia PeanoNat.
From Verif Require Import Base Num Common Kernels Integrals Registry PyTerms Threads SpecThreads Process SpecProcess ProofThreads2 ProofThreads3 ProofScratch3 ProofProcess ProofProcess2 ProofProcess3 ProofProcess4 ProofProcess5 ProofProcess6 ProofProcess7 ProofProcess8 ProofProcess9 ProofProcess10 ProofProcess11 ProofProcess12 ProofProcess13 ProofProcess14 ProofProcess15 ProofProcess18.
Import ListNotations.
Local Open Scope string_scope.
Local Open Scope nat_scope.

Section RunB.
Context {N : Num}.
Notation T := (T N).
Notation state := (state N).
Implicit Types (s : state) (o l : nat).
Variables (fuel : nat) (suave1 : (list T -> res T) -> res T) (suave12 : (list T -> res (list T)) -> res (list T)).

Lemma lib_spectrum_length ks ps ss vals : List.length (lib_spectrum (N := N) ks ps ss vals) = List.length ks.
Proof. unfold lib_spectrum. rewrite map_length. unfold indices, zlen. rewrite map_length, seq_length. lia. Qed.
Record has_table s (K P : list T) : Prop := { ht_n : cp_n (g_lin s) = zlen K; ht_len : List.length P = List.length K; ht_k : reads s (cp_k (g_lin s)) K; ht_p : reads s (cp_p (g_lin s)) P }.
(** What changes when the library computes the two spectra: new blocks, the arrays [b], [c] of pk_dt and pk_tt among them *)
Record computed s s' (K d t : list T) (b c : nat) : Prop := {
  cm_objects : objects s' = objects s; cm_dicts : dicts s' = dicts s; cm_vars : vars s' = vars s; cm_temps : temps s' = temps s; cm_lin : g_lin s' = g_lin s; cm_conf : g_conf s' = g_conf s; cm_verb : g_verbose s' = g_verbose s;
  cm_terms : forall sl, sl <> S_1loop -> g_terms s' sl = g_terms s sl;
  cm_blocks : forall x, x < List.length (blocks s) -> nth_error (blocks s') x = nth_error (blocks s) x;
  cm_new : List.length (blocks s) <= b /\ List.length (blocks s) <= c /\ b <> c;
  cm_dt : g_dt s' = mkCpk (zlen K) (cp_k (g_lin s)) (Some (b, 0%Z)); cm_tt : g_tt s' = mkCpk (zlen K) (cp_k (g_lin s)) (Some (c, 0%Z));
  cm_b : nth_error (blocks s') b = Some (Calloc, d); cm_c : nth_error (blocks s') c = Some (Calloc, t) }.
Lemma spectra_B_1loop_ok s K P psd ssd vd pst sst vt : has_table s K P -> K <> [] -> (zlen K < SIZE_T)%Z ->
  computes fuel (g_conf s) suave1 suave12 (D_1loop DELTA THETA) (mk_table K P) (mk_table K P) (mk_table K P) K psd ssd vd ->
  computes fuel (g_conf s) suave1 suave12 (D_1loop THETA THETA) (mk_table K P) (mk_table K P) (mk_table K P) K pst sst vt ->
  exists s' b c, c_run_spectra_B_1loop fuel suave1 suave12 s = Fine s' tt /\ computed s s' K (lib_spectrum K psd ssd vd) (lib_spectrum K pst sst vt) b c.
Proof.
  intros [Hn Hl Hk Hp] Ne Sz Cd Ct. unfold c_run_spectra_B_1loop, get. unfold mbind at 1. rewrite Hn. set (zz := repeat (nZ N 0) (Z.to_nat (zlen K))). set (b := List.length (blocks s)).
  rewrite (bind_Fine _ _ s (with_blocks s (blocks s ++ [(Calloc, zz)])%list) (Some (b, 0%Z))) by reflexivity.
  unfold modify at 1, mbind at 1. unfold c_set_spectrum_1loop, modify at 1, mbind at 1. set (s2 := with_1loop _ _).
  assert (Lz : List.length zz = List.length K) by (unfold zz, zlen; rewrite repeat_length; lia).
  assert (B2 : blocks s2 = (blocks s ++ [(Calloc, zz)])%list) by reflexivity. assert (H2 : held s2 = held s) by (apply held_ext; reflexivity).
  assert (Old : forall p xs, reads s p xs -> ~ In b (buf_of p)) by (intros p xs R X; apply (reads_lt _ _ _ _ R) in X; unfold b in X; lia).
  assert (R2 : lib_ready s2 K P K (cp_k (g_lin s)) b zz).
  { constructor; try assumption; try reflexivity.
    - exact (reads_more s s2 _ _ K B2 H2 Hk).
    - exact (reads_more s s2 _ _ P B2 H2 Hp).
    - exact (reads_more s s2 _ _ K B2 H2 Hk).
    - rewrite B2, nth_error_snoc. unfold b. rewrite Nat.eqb_refl. reflexivity.
    - change (g_lin s2) with (g_lin s). rewrite !in_app_iff. intros [X|[X|X]]; [exact (Old _ _ Hk X)|exact (Old _ _ Hk X)|exact (Old _ _ Hp X)]. }
  destruct (run_spectrum_1loop_ok fuel suave1 suave12 s2 K P K _ b zz "delta" "theta" psd ssd vd R2 Ne Sz Cd) as (s3 & f & E3 & Q3 & _ & _ & L3 & O3 & B3 & _).
  unfold mbind at 1. rewrite E3. assert (Lb2 : List.length (blocks s2) = S b) by (rewrite B2, app_length; cbn; unfold b; lia). rewrite Lb2 in L3, O3. set (c := List.length (blocks s3)).
  rewrite (bind_Fine _ _ s3 (with_blocks s3 (blocks s3 ++ [(Calloc, zz)])%list) (Some (c, 0%Z))) by reflexivity. unfold modify at 1, mbind at 1. unfold modify at 1, mbind at 1. set (s5 := with_1loop _ _).
  assert (Hcb : b < c) by (unfold c; lia).
  assert (B5 : blocks s5 = (blocks s3 ++ [(Calloc, zz)])%list) by reflexivity.
  assert (H3 : held s3 = held s) by (apply held_ext; rewrite Q3; reflexivity). assert (H5 : held s5 = held s) by (rewrite <- H3; apply held_ext; reflexivity).
  assert (N3 : forall x, x < List.length (blocks s) -> nth_error (blocks s3) x = nth_error (blocks s) x).
  { intros x Hx. rewrite O3 by (fold b in Hx; lia). apply (more_nth s s2 _ _ B2 Hx). }
  assert (N5 : forall x, x < c -> nth_error (blocks s5) x = nth_error (blocks s3) x) by (intros x Hx; apply (more_nth s3 s5 _ _ B5 Hx)).
  assert (G5 : g_lin s5 = g_lin s) by (unfold s5; cbn; rewrite Q3; reflexivity). assert (F5 : g_conf s5 = g_conf s) by (unfold s5; cbn; rewrite Q3; reflexivity).
  assert (Rs : forall p xs, reads s p xs -> reads s5 p xs). { intros p xs R. apply (reads_same s s5 p xs H5); [|exact R]. intros x Hx. pose proof (reads_lt _ _ _ _ R Hx). rewrite N5 by (fold b in H; lia). apply N3, H. }
  assert (R5 : lib_ready s5 K P K (cp_k (g_lin s)) c zz).
  { constructor; rewrite ?G5; try assumption; try reflexivity; auto.
    - rewrite B5, nth_error_snoc. unfold c. rewrite Nat.eqb_refl. reflexivity.
    - rewrite !in_app_iff. intros X. assert (c < b) by (destruct X as [X|[X|X]]; [exact (reads_lt _ _ _ _ Hk X)|exact (reads_lt _ _ _ _ Hk X)|exact (reads_lt _ _ _ _ Hp X)]). lia. }
  rewrite <- F5 in Ct. destruct (run_spectrum_1loop_ok fuel suave1 suave12 s5 K P K _ c zz "theta" "theta" pst sst vt R5 Ne Sz Ct) as (s6 & g & E6 & Q6 & _ & _ & L6 & O6 & B6 & _).
  assert (Lb5 : List.length (blocks s5) = S c) by (rewrite B5, app_length; cbn; unfold c; lia). rewrite Lb5 in L6, O6.
  exists s6, b, c. split; [exact E6|]. constructor.
  - rewrite Q6. unfold s5. cbn. rewrite Q3. reflexivity.
  - rewrite Q6. unfold s5. cbn. rewrite Q3. reflexivity.
  - rewrite Q6. unfold s5. cbn. rewrite Q3. reflexivity.
  - rewrite Q6. unfold s5. cbn. rewrite Q3. reflexivity.
  - rewrite Q6. exact G5.
  - rewrite Q6. exact F5.
  - rewrite Q6. unfold s5. cbn. rewrite Q3. reflexivity.
  - intros sl Hs. rewrite Q6. cbn. destruct sl; try contradiction (Hs eq_refl); cbn; rewrite Q3; reflexivity.
  - intros x Hx. rewrite O6 by (fold b in Hx; lia). rewrite N5 by (fold b in Hx; lia). apply N3, Hx.
  - fold b. lia.
  - rewrite Q6. unfold s5. cbn. rewrite Q3. cbn. rewrite Hn. reflexivity.
  - rewrite Q6. unfold s5. cbn. rewrite Q3. cbn. rewrite Hn. reflexivity.
  - rewrite O6 by lia. rewrite N5 by lia. exact B3.
  - exact B6.
Qed.
(** The second call *)
Lemma read_dead s (p : ptr) b (o : Z) n : p = Some (b, o) -> alive s b = false -> (0 < n)%Z -> c_read_n p n s = Crash UseAfterFree.
Proof.
  intros -> A Hn. unfold c_read_n, indices. destruct (Z.to_nat n) as [|m] eqn:E; [lia|]. cbn [seq map each_]. unfold mbind at 1. unfold c_read, place. unfold ret at 1, mbind at 1. unfold block at 1, mbind at 1. rewrite A. reflexivity.
Qed.
Lemma table_dead s c K b (o : Z) : K <> [] -> cp_n c = zlen K -> reads s (cp_k c) K -> cp_p c = Some (b, o) -> alive s b = false -> c_table c s = Crash UseAfterFree.
Proof.
  intros Ne Hn Hk Hp A. unfold c_table. assert (X : exists q, cp_k c = Some q) by (destruct Hk as (x & y & -> & _); eauto). destruct X as [q Eq]. rewrite Hn. rewrite (bind_Fine _ _ s s q) by (rewrite Eq; reflexivity).
  rewrite (bind_Fine _ _ _ _ _ (read_n_ok _ _ _ Hk)). unfold mbind at 1. rewrite (read_dead s (cp_p c) b o (zlen K) Hp A); [reflexivity|]. destruct K; [congruence|]. unfold zlen. cbn [List.length]. lia.
Qed.
Lemma run_terms_B_dead s K P ks ps ss b (o : Z) : armed s S_B K P ks -> K <> [] -> find_pk (mk_table K P) ks (s_interpol (g_conf s) (interpol_of D_B)) = Ok ps -> calc_running_sigmad2 (mk_table K P) ks (s_cutoff (g_conf s) (cutoff_of D_B)) = Ok ss ->
  cp_n (g_dt s) = zlen K -> cp_n (g_tt s) <> 0%Z -> cp_k (g_dt s) = cp_k (g_lin s) -> cp_k (g_tt s) = cp_k (g_lin s) -> cp_p (g_dt s) = Some (b, o) -> alive s b = false ->
  (forall x, outputs s S_B x -> ~ In x (buf_of (cp_p (g_dt s)) ++ buf_of (cp_p (g_tt s)))%list) ->
  c_run_terms_B fuel suave1 suave12 s = Crash UseAfterFree.
Proof.
  intros A Ne Ep Es Hn Ht Hk Hk' Hp Dead Ap. destruct (columns_ok suave1 suave12 s D_B K P ks ps ss A Ep Es) as (s1 & E1 & R1 & _). unfold c_run_terms_B. rewrite (bind_Fine _ _ _ _ _ E1).
  assert (Gd : g_dt s1 = g_dt s) by (rewrite (rw_eq _ _ _ R1); reflexivity). assert (Gt : g_tt s1 = g_tt s) by (rewrite (rw_eq _ _ _ R1); reflexivity).
  unfold get. unfold mbind at 1. rewrite Gd, Gt. assert (Z0 : ((cp_n (g_dt s) =? 0) || (cp_n (g_tt s) =? 0))%Z = false). { rewrite Hn. rewrite (proj2 (Z.eqb_neq _ _) Ht), orb_false_r. destruct K; [congruence|reflexivity]. }
  rewrite Z0. cbv zeta. rewrite (bind_Fine _ _ s1 s1 tt) by reflexivity. unfold mbind at 1. rewrite Gd, Gt. cbn [slot_of_driver] in *. assert (A1 : armed s1 S_B K P ks) by (eapply armed_rw; eauto).
  rewrite (bind_Fine _ _ s1 s1 tt). 2: { apply (overlap_ok suave1 suave12 s1 S_B (size_of (zlen ks))); [apply (ar_out _ _ _ _ _ A1)|]. rewrite (rw_terms _ _ _ R1). intros x Hx. rewrite Hk, Hk', !in_app_iff. pose proof (ar_apart _ _ _ _ _ A x Hx) as Y. pose proof (Ap x Hx) as W. rewrite !in_app_iff in Y. rewrite in_app_iff in W. tauto. }
  unfold mbind at 1. rewrite (table_dead s1 (g_dt s) K b o Ne Hn); [reflexivity| |exact Hp|rewrite (rw_alive _ _ _ b R1); exact Dead]. rewrite Hk. pose proof (ar_lk _ _ _ _ _ A1) as Y. rewrite (rw_lin _ _ _ R1) in Y. exact Y.
Qed.
(** The first call *)
Lemma armed_computed s s' K P ks d t b c : computed s s' K d t b c -> armed s S_B K P ks -> armed s' S_B K P ks.
Proof.
  intros C A. assert (H : held s' = held s) by (apply held_ext; [apply C|apply C|apply C|apply C]). assert (G : g_terms s' S_B = g_terms s S_B) by (apply (cm_terms _ _ _ _ _ _ _ C); discriminate). assert (L := cm_lin _ _ _ _ _ _ _ C).
  assert (Rs : forall p xs, reads s p xs -> reads s' p xs) by (intros p xs R; apply (reads_same s s' p xs H); [|exact R]; intros x Hx; apply (cm_blocks _ _ _ _ _ _ _ C), (reads_lt _ _ _ _ R Hx)).
  destruct A as [A1 A2 A3 A4 A5 A6 A7 A8]. constructor; rewrite ?G, ?L; auto.
  destruct A3 as [T1 T2]. constructor; [|exact T2]. intros y Hy. destruct (T1 y Hy) as (x & i & E & Hi & Ha & Hs). exists x, i. assert (Hx : nth_error (blocks s') x = nth_error (blocks s) x) by (apply (cm_blocks _ _ _ _ _ _ _ C), alive_lt, Ha).
  split; [exact E|]. split; [exact Hi|]. unfold alive, contents in *. rewrite Hx, H. split; assumption.
Qed.
Lemma free_ok s b xs : nth_error (blocks s) b = Some (Calloc, xs) -> c_free (Some (b, 0%Z)) s = Fine (with_blocks s (upd (blocks s) b (Freed, xs))) tt.
Proof. intros E. unfold c_free. rewrite E. reflexivity. Qed.
Lemma run_terms_B_auto s K P ks psd ssd vd pst sst vt ps ss vals : armed s S_B K P ks -> (cp_n (g_dt s) = 0 \/ cp_n (g_tt s) = 0)%Z -> K <> [] -> (zlen K < SIZE_T)%Z ->
  computes fuel (g_conf s) suave1 suave12 (D_1loop DELTA THETA) (mk_table K P) (mk_table K P) (mk_table K P) K psd ssd vd ->
  computes fuel (g_conf s) suave1 suave12 (D_1loop THETA THETA) (mk_table K P) (mk_table K P) (mk_table K P) K pst sst vt ->
  computes fuel (g_conf s) suave1 suave12 D_B (mk_table K P) (mk_table K (lib_spectrum K psd ssd vd)) (mk_table K (lib_spectrum K pst sst vt)) ks ps ss vals ->
  let ct := g_terms s S_B in
  exists s' b c, c_run_terms_B fuel suave1 suave12 s = Fine s' tt /\ holds s' ct (column "pk_lin" (zlen ks)) ps /\ holds s' ct (column "sigmad2" (zlen ks)) ss /\ (forall ik, (0 <= ik < zlen ks)%Z -> holds s' ct (cells_of D_B ik) (vals ik)) /\
    objects s' = objects s /\ dicts s' = dicts s /\ vars s' = vars s /\ temps s' = temps s /\ g_lin s' = g_lin s /\ g_conf s' = g_conf s /\ g_verbose s' = g_verbose s /\ (forall sl, sl <> S_1loop -> g_terms s' sl = g_terms s sl) /\
    (forall x, x < List.length (blocks s) -> ~ outputs s S_B x -> nth_error (blocks s') x = nth_error (blocks s) x) /\
    (forall x w xs, nth_error (blocks s) x = Some (w, xs) -> exists ys, nth_error (blocks s') x = Some (w, ys) /\ List.length ys = List.length xs) /\
    g_dt s' = mkCpk (zlen K) (cp_k (g_lin s)) (Some (b, 0%Z)) /\ g_tt s' = mkCpk (zlen K) (cp_k (g_lin s)) (Some (c, 0%Z)) /\ List.length (blocks s) <= b /\ List.length (blocks s) <= c /\
    (exists xs, nth_error (blocks s') b = Some (Freed, xs)) /\ exists xs, nth_error (blocks s') c = Some (Freed, xs).
Proof.
  intros A Unset Ne Sz Cd Ct (Ep & Es & Hv) ct. destruct (columns_ok suave1 suave12 s D_B K P ks ps ss A Ep Es) as (s1 & E1 & R1 & V1 & V2). unfold c_run_terms_B. rewrite (bind_Fine _ _ _ _ _ E1). cbn [slot_of_driver] in *. fold (outputs s S_B) in R1.
  assert (Gd : g_dt s1 = g_dt s) by (rewrite (rw_eq _ _ _ R1); reflexivity). assert (Gt : g_tt s1 = g_tt s) by (rewrite (rw_eq _ _ _ R1); reflexivity).
  unfold get at 1. unfold mbind at 1. rewrite Gd, Gt. assert (Z1 : ((cp_n (g_dt s) =? 0) || (cp_n (g_tt s) =? 0))%Z = true) by (destruct Unset as [-> | ->]; [reflexivity|apply orb_true_r]). rewrite Z1. cbv zeta.
  assert (A1 : armed s1 S_B K P ks) by (eapply armed_rw; eauto). assert (F1 : g_conf s1 = g_conf s) by apply (rw_conf _ _ _ R1). assert (L1 := rw_lin _ _ _ R1).
  rewrite <- F1 in Cd, Ct. destruct (spectra_B_1loop_ok s1 K P psd ssd vd pst sst vt) as (s2 & b & c & E2 & C2); [constructor; apply A1|exact Ne|exact Sz|exact Cd|exact Ct|].
  set (d := lib_spectrum K psd ssd vd) in *. set (t := lib_spectrum K pst sst vt) in *.
  rewrite (bind_Fine _ _ _ _ _ E2). unfold get at 1, mbind at 1. assert (A2 := armed_computed _ _ _ _ _ _ _ _ _ C2 A1).
  assert (H2 : held s2 = held s1) by (apply held_ext; [apply C2|apply C2|apply C2|apply C2]). assert (G2 : g_terms s2 S_B = g_terms s S_B) by (rewrite (cm_terms _ _ _ _ _ _ _ C2) by discriminate; rewrite (rw_terms _ _ _ R1); reflexivity).
  assert (Lb1 : List.length (blocks s1) = List.length (blocks s)) by apply (rw_none _ _ _ R1).
  assert (Outl : forall x, outputs s2 S_B x -> x < List.length (blocks s1)). { unfold outputs. rewrite G2. intros x (y & i & Hy & E). destruct (tg_ptr _ _ _ _ (ar_out _ _ _ _ _ A) y Hy) as (x' & i' & E' & _ & Ha & _). rewrite E in E'. injection E' as <- _. rewrite Lb1. apply alive_lt, Ha. }
  destruct (cm_new _ _ _ _ _ _ _ C2) as (Hb & Hc & Hbc).
  assert (Ap2 : forall x, outputs s2 S_B x -> ~ In x (buf_of (cp_k (g_dt s2)) ++ buf_of (cp_p (g_dt s2)) ++ buf_of (cp_k (g_tt s2)) ++ buf_of (cp_p (g_tt s2)))%list).
  { intros x Hx. rewrite (cm_dt _ _ _ _ _ _ _ C2), (cm_tt _ _ _ _ _ _ _ C2). cbn [cp_k cp_p]. rewrite !in_app_iff. cbn [buf_of In]. pose proof (Outl x Hx). pose proof (ar_apart _ _ _ _ _ A2 x Hx) as Y. rewrite !in_app_iff, (cm_lin _ _ _ _ _ _ _ C2) in Y. intros [X|[[X|[]]|[X|[X|[]]]]]; [tauto|lia|tauto|lia]. }
  rewrite (bind_Fine _ _ s2 s2 tt) by (apply (overlap_ok suave1 suave12 s2 S_B (size_of (zlen ks))); [apply (ar_out _ _ _ _ _ A2)|exact Ap2]).
  assert (Rk : reads s2 (cp_k (g_lin s1)) K) by (pose proof (ar_lk _ _ _ _ _ A2) as Y; rewrite (cm_lin _ _ _ _ _ _ _ C2) in Y; exact Y).
  assert (Rc : forall x xs, nth_error (blocks s2) x = Some (Calloc, xs) -> reads s2 (Some (x, 0%Z)) xs). { intros x xs E. exists x, 0%Z. split; [reflexivity|]. split; [unfold alive; rewrite E; reflexivity|]. intros i Hi. rewrite (contents_at _ _ _ _ E). rewrite Z.add_0_l. apply rd_nth, Hi. }
  rewrite (bind_Fine _ _ s2 s2 (mk_table K d)). 2: { apply table_ok; rewrite ?(cm_dt _ _ _ _ _ _ _ C2); cbn [cp_n cp_k cp_p]; [reflexivity|apply lib_spectrum_length|exact Rk|apply Rc, C2]. }
  rewrite (bind_Fine _ _ s2 s2 (mk_table K t)). 2: { apply table_ok; rewrite ?(cm_tt _ _ _ _ _ _ _ C2); cbn [cp_n cp_k cp_p]; [reflexivity|apply lib_spectrum_length|exact Rk|apply Rc, C2]. }
  assert (Vw : forall x, in_size (tl (c_fields S_B)) (size_of (zlen ks)) x -> view s2 ct x = view s1 ct x).
  { intros x Hx. destruct x as [y i|y|y i]; try destruct Hx. cbn. destruct (tg_ptr _ _ _ _ (ar_out _ _ _ _ _ A) y H) as (x' & i' & E' & _ & Ha & _). unfold ct. rewrite E'. unfold at_ptr, contents. rewrite (cm_blocks _ _ _ _ _ _ _ C2 x') by (rewrite Lb1; apply alive_lt, Ha). reflexivity. }
  assert (W1 : holds s2 ct (column "pk_lin" (zlen ks)) ps) by (apply (holds_ext s1 s2); [|exact V1]; intros x Hx; apply Vw; apply (column_in_size "pk_lin" S_B (zlen ks)); [cbn; tauto|reflexivity|exact Hx]).
  assert (W2 : holds s2 ct (column "sigmad2" (zlen ks)) ss) by (apply (holds_ext s1 s2); [|exact V2]; intros x Hx; apply Vw; apply (column_in_size "sigmad2" S_B (zlen ks)); [cbn; tauto|reflexivity|exact Hx]).
  destruct (rows_ok fuel suave1 suave12 s2 D_B K P ks (mk_table K P) (mk_table K d) (mk_table K t) vals ps ss A2) as (s3 & E3 & R3 & V3 & V4 & V5).
  { intros ik Hi. rewrite (cm_conf _ _ _ _ _ _ _ C2), F1. apply Hv, Hi. }
  { cbn [slot_of_driver]. rewrite G2. exact W1. }
  { cbn [slot_of_driver]. rewrite G2. exact W2. }
  rewrite (bind_Fine _ _ _ _ _ E3). cbn [slot_of_driver] in *. fold (outputs s2 S_B) in R3. rewrite G2 in V3, V4, V5. fold ct in V3, V4, V5.
  unfold c_free_spectra_B, get. unfold mbind at 1. assert (D3 : g_dt s3 = g_dt s2) by (rewrite (rw_eq _ _ _ R3); reflexivity). assert (T3 : g_tt s3 = g_tt s2) by (rewrite (rw_eq _ _ _ R3); reflexivity).
  rewrite D3, T3, (cm_dt _ _ _ _ _ _ _ C2), (cm_tt _ _ _ _ _ _ _ C2). cbn [cp_p].
  assert (Nb3 : nth_error (blocks s3) b = Some (Calloc, d)) by (rewrite (rw_same _ _ _ R3 b) by (intros X; apply Outl in X; lia); apply C2). assert (Nc3 : nth_error (blocks s3) c = Some (Calloc, t)) by (rewrite (rw_same _ _ _ R3 c) by (intros X; apply Outl in X; lia); apply C2).
  rewrite (bind_Fine _ _ _ _ _ (free_ok s3 b d Nb3)). set (s4 := with_blocks s3 _). assert (Nc4 : nth_error (blocks s4) c = Some (Calloc, t)) by (unfold s4; cbn; rewrite nth_error_upd; destruct (Nat.eqb_spec b c); [contradiction|exact Nc3]).
  rewrite (free_ok s4 c t Nc4). set (s5 := with_blocks s4 _). exists s5, b, c.
  assert (Old : forall x, x < List.length (blocks s) -> nth_error (blocks s5) x = nth_error (blocks s3) x). { intros x Hx. unfold s5, s4. cbn. rewrite !nth_error_upd. destruct (Nat.eqb_spec c x); [lia|]. destruct (Nat.eqb_spec b x); [lia|]. reflexivity. }
  assert (Vw5 : forall x, in_size (tl (c_fields S_B)) (size_of (zlen ks)) x -> view s5 ct x = view s3 ct x).
  { intros x Hx. destruct x as [y i|y|y i]; try destruct Hx. cbn [view]. destruct (tg_ptr _ _ _ _ (ar_out _ _ _ _ _ A) y H) as (x' & i' & E' & _ & Ha & _). unfold ct. rewrite E'. unfold at_ptr, contents. rewrite (Old x') by (apply alive_lt, Ha). reflexivity. }
  split; [reflexivity|]. split; [apply (holds_ext s3 s5); [|exact V3]; intros x Hx; apply Vw5; apply (column_in_size "pk_lin" S_B (zlen ks)); [cbn; tauto|reflexivity|exact Hx]|].
  split; [apply (holds_ext s3 s5); [|exact V4]; intros x Hx; apply Vw5; apply (column_in_size "sigmad2" S_B (zlen ks)); [cbn; tauto|reflexivity|exact Hx]|].
  split; [intros ik Hik; apply (holds_ext s3 s5); [|exact (V5 ik Hik)]; intros x Hx; apply Vw5; exact (cells_in_size D_B (zlen ks) ik x Hik Hx)|].
  assert (Q : s5 = with_blocks s2 (blocks s5)) by (unfold s5, s4; rewrite (rw_eq _ _ _ R3); reflexivity).
  split; [rewrite Q; cbn; rewrite (cm_objects _ _ _ _ _ _ _ C2), (rw_eq _ _ _ R1); reflexivity|]. split; [rewrite Q; cbn; rewrite (cm_dicts _ _ _ _ _ _ _ C2), (rw_eq _ _ _ R1); reflexivity|]. split; [rewrite Q; cbn; rewrite (cm_vars _ _ _ _ _ _ _ C2), (rw_eq _ _ _ R1); reflexivity|]. split; [rewrite Q; cbn; rewrite (cm_temps _ _ _ _ _ _ _ C2), (rw_eq _ _ _ R1); reflexivity|].
  split; [rewrite Q; cbn; rewrite (cm_lin _ _ _ _ _ _ _ C2); exact L1|]. split; [rewrite Q; cbn; rewrite (cm_conf _ _ _ _ _ _ _ C2); exact F1|]. split; [rewrite Q; cbn; rewrite (cm_verb _ _ _ _ _ _ _ C2), (rw_eq _ _ _ R1); reflexivity|].
  split; [intros sl Hs; rewrite Q; cbn; rewrite (cm_terms _ _ _ _ _ _ _ C2 sl Hs), (rw_terms _ _ _ R1); reflexivity|].
  assert (O21 : forall x, outputs s2 S_B x <-> outputs s S_B x) by (intros x; unfold outputs; rewrite G2; reflexivity).
  split. { intros x Hx Ho. rewrite (Old x Hx). rewrite (rw_same _ _ _ R3) by (rewrite O21; exact Ho). rewrite (cm_blocks _ _ _ _ _ _ _ C2) by lia. apply (rw_same _ _ _ R1), Ho. }
  split. { intros x w xs Hx. assert (Lx : x < List.length (blocks s)) by (apply nth_error_Some; congruence). destruct (rw_shape _ _ _ R1 _ _ _ Hx) as (ys & Ey & Ly). rewrite <- (cm_blocks _ _ _ _ _ _ _ C2) in Ey by lia. destruct (rw_shape _ _ _ R3 _ _ _ Ey) as (zs & Ez & Lz). exists zs. rewrite (Old x Lx). split; [exact Ez|congruence]. }
  split; [rewrite Q; cbn; rewrite (cm_dt _ _ _ _ _ _ _ C2), L1; reflexivity|]. split; [rewrite Q; cbn; rewrite (cm_tt _ _ _ _ _ _ _ C2), L1; reflexivity|]. split; [lia|]. split; [lia|].
  split; [exists d|exists t].
  - unfold s5. cbn. rewrite !nth_error_upd. destruct (Nat.eqb_spec c b); [congruence|]. rewrite Nat.eqb_refl, Nb3. reflexivity.
  - unfold s5. cbn [blocks with_blocks]. rewrite nth_error_upd, Nat.eqb_refl, Nc4. reflexivity.
Qed.
End RunB.
