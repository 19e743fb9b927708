(** ProofProcess29: the claims about processes. *)
From Coq Require Import ZArith List String Bool Lia PeanoNat.
From Verif Require Import SpecRegistry ProofRegistry Base Num Common Kernels Integrals Registry PyTerms Threads SpecThreads Process SpecProcess ProofThreads2 ProofThreads3 ProofScratch3 ProofPy ProofProcess ProofProcess2 ProofProcess3 ProofProcess4 ProofProcess5 ProofProcess6 ProofProcess7 ProofProcess8 ProofProcess9 ProofProcess10 ProofProcess11 ProofProcess12 ProofProcess13 ProofProcess14 ProofProcess15 ProofProcess16 ProofProcess17 ProofProcess18 ProofProcess19 ProofProcess20 ProofProcess21 ProofProcess22 ProofProcess23 ProofProcess24 ProofProcess25 ProofProcess26 ProofProcess27 ProofProcess28.
Import ListNotations.
Local Open Scope string_scope.
Local Open Scope nat_scope.

Section Claims.
Context {N : Num}.
Notation T := (T N).
Notation state := (state N).
Implicit Types (s : state) (o l : nat).
Variables (fuel : nat) (suave1 : (list T -> res T) -> res T) (suave12 : (list T -> res (list T)) -> res (list T)).
Notation step := (step fuel suave1 suave12).
Notation execute := (execute fuel suave1 suave12).
Notation reached := (reached fuel suave1 suave12).
Notation meanwhile := (meanwhile fuel suave1 suave12).
Notation computes := (computes fuel).

Lemma reached_Fine s p s' v : reached s -> step p s = Fine s' v -> reached s'.
Proof. intros R E. pose proof (reached_step fuel suave1 suave12 s p R) as H. rewrite E in H. exact H. Qed.
Lemma reached_Throws s p e s' : reached s -> step p s = Throws e s' -> reached s'.
Proof. intros R E. pose proof (reached_step fuel suave1 suave12 s p R) as H. rewrite E in H. exact H. Qed.
Lemma reached_meanwhile o s s' : reached s -> meanwhile o s s' -> reached s'.
Proof. intros R M. induction M; [exact R| |]; apply IHM; [eapply reached_Fine|eapply reached_Throws]; eassumption. Qed.
Lemma clean_temps s : reached s -> with_temps s [] = s.
Proof. intros R. pose proof (reached_temps _ _ _ _ R) as E. destruct s. cbn in *. subst. reflexivity. Qed.
Notation wf_of := (reached_wf fuel suave1 suave12).

Lemma class_kept s p o c : wf s -> class_of s o = Some c -> after (step p s) (fun s' => class_of s' o = Some c).
Proof. intros W C. destruct (class_obj _ _ _ C) as (ob & E & <-). pose proof (step_table fuel suave1 suave12 s p o ob W E) as X. destruct (step p s); cbn in *; auto; destruct X as (ob' & E' & Q & _); unfold class_of; rewrite E'; cbn; rewrite Q; reflexivity. Qed.
(** ** One object *)
Lemma prepare s o c sl K P ks : reached s -> In o (vars s) -> class_of s o = Some c -> slot_of c = Some sl -> List.length P = List.length K -> printable s K -> printable s ks ->
  (exists s1 s2, step (Set_pk_lin o K P) s = Fine s1 [] /\ step (Set_terms o ks) s1 = Fine s2 [] /\ set_up s2 o K P ks /\ g_conf s2 = g_conf s) /\
  (exists s1 s2, step (Set_terms o ks) s = Fine s1 [] /\ step (Set_pk_lin o K P) s1 = Fine s2 [] /\ set_up s2 o K P ks /\ g_conf s2 = g_conf s).
Proof.
  intros R Ho C Sl L Pk Pt. pose proof (slot_ctype _ _ Sl) as Ct. pose proof (wf_of _ R) as W. split.
  - destruct (lin_step fuel suave1 suave12 s o c K P W Ho C Ct L Pk) as (s1 & E1 & H1 & _ & _ & Cf1 & Vb1 & V1). pose proof (wf_of _ (reached_Fine _ _ _ _ R E1)) as W1.
    assert (C1 : class_of s1 o = Some c) by (pose proof (class_kept s (Set_pk_lin o K P) o c W C) as X; rewrite E1 in X; exact X).
    destruct (terms_step fuel suave1 suave12 s1 o c sl ks W1 ltac:(rewrite V1; exact Ho) C1 Sl ltac:(eapply printable_ext; eauto)) as (s2 & E2 & _ & S2 & _ & _ & Cf2 & _). exists s1, s2. split; [exact E1|]. split; [exact E2|]. split; [apply S2, H1|congruence].
  - destruct (terms_step fuel suave1 suave12 s o c sl ks W Ho C Sl Pt) as (s1 & E1 & H1 & _ & _ & _ & Cf1 & Vb1 & V1). pose proof (wf_of _ (reached_Fine _ _ _ _ R E1)) as W1.
    assert (C1 : class_of s1 o = Some c) by (pose proof (class_kept s (Set_terms o ks) o c W C) as X; rewrite E1 in X; exact X).
    destruct (lin_step fuel suave1 suave12 s1 o c K P W1 ltac:(rewrite V1; exact Ho) C1 Ct L ltac:(eapply printable_ext; eauto)) as (s2 & E2 & _ & S2 & _ & Cf2 & _). exists s1, s2. split; [exact E1|]. split; [exact E2|]. split; [apply S2, H1|congruence].
Qed.
Lemma run_claim s s' o c K P ks a b d dt ptt ps ss vals : reached s -> set_up s o K P ks -> meanwhile o s s' -> class_of s' o = Some c -> driver_of c (set_flag a) (set_flag b) = Some d -> ks <> [] -> (zlen K < SIZE_T)%Z ->
  spectra_are fuel suave1 suave12 (g_conf s') c (mk_table K P) K P dt ptt -> computes (g_conf s') suave1 suave12 d (mk_table K P) dt ptt ks ps ss vals ->
  exists s1 s2, step (Run_terms o a b) s' = Fine s1 [] /\ filled s1 o d ks ps ss vals /\ set_up s1 o K P ks /\
    step (Run_terms o a b) s1 = Fine s2 [] /\ filled s2 o d ks ps ss vals /\ set_up s2 o K P ks.
Proof.
  intros R S M C D Ne Sz Sp Cm. destruct (meanwhile_ok fuel suave1 suave12 o s s' (wf_of _ R) (proj1 (proj1 S)) M) as (La & W'). pose proof (la_set_up _ _ _ La _ _ _ S) as S'.
  destruct (run_step fuel suave1 suave12 s' o c K P ks a b d dt ptt ps ss vals W' S' C D Ne Sz Sp Cm) as (s1 & E1 & F1 & S1 & _ & Sp1 & Cm1). pose proof (step_wf fuel suave1 suave12 s' (Run_terms o a b) W') as W1. rewrite E1 in W1.
  assert (C1 : class_of s1 o = Some c) by (pose proof (class_kept s' (Run_terms o a b) o c W' C) as X; rewrite E1 in X; exact X).
  destruct (run_step fuel suave1 suave12 s1 o c K P ks a b d dt ptt ps ss vals (proj1 W1) S1 C1 D Ne Sz Sp1 Cm1) as (s2 & E2 & F2 & S2 & _). exists s1, s2. auto 10.
Qed.
Lemma look_up s s' o c K P : reached s -> has_lin s o K P -> meanwhile o s s' -> class_of s' o = Some c -> has_ctype c = true ->
  (forall k im v, find_pk (mk_table K P) k (if (im =? "poly")%string then POLY else LIN) = Ok v -> step (Find_pk_lin o k im) s' = Fine s' v) /\
  (forall k uv v, calc_running_sigmad2 (mk_table K P) k uv = Ok v -> step (Sigmad2 o k uv) s' = Fine s' v).
Proof.
  intros R H M C Ct. destruct (meanwhile_ok fuel suave1 suave12 o s s' (wf_of _ R) (proj1 H) M) as (La & W'). pose proof (la_has_lin _ _ _ La _ _ H) as H'. pose proof (clean_temps _ (reached_meanwhile _ _ _ R M)) as Q.
  split; intros k w v E; [rewrite (find_step fuel suave1 suave12 s' o c K P k w v W' H' C Ct E)|rewrite (sigmad2_step fuel suave1 suave12 s' o c K P k w v W' H' C Ct E)]; rewrite Q; reflexivity.
Qed.
(** ** The two ranges *)
Lemma latch_claim s o c K P ks a b d x dt ptt ps ss vals k0 k1 K2 P2 : reached s -> set_up s o K P ks -> class_of s o = Some c -> driver_of c (set_flag a) (set_flag b) = Some d -> latch_of d = Some x -> ks <> [] -> (zlen K < SIZE_T)%Z ->
  computes (g_conf s) suave1 suave12 d (mk_table K P) dt ptt ks ps ss vals -> automatic (g_conf s) x = true -> nth_error K 0 = Some k0 -> nth_error K (List.length K - 1) = Some k1 -> nle N k0 (nZ N 0) = false -> nle N k1 (nZ N 0) = false ->
  List.length P2 = List.length K2 -> printable s K2 ->
  exists s1 s2, step (Run_terms o a b) s = Fine s1 [] /\ step (Set_pk_lin o K2 P2) s1 = Fine s2 [] /\ set_up s2 o K2 P2 ks /\
    automatic (g_conf s2) x = false /\ pr_min (s_prec (g_conf s2) x) = k0 /\ pr_max (s_prec (g_conf s2) x) = k1.
Proof.
  intros R S C D La Ne Sz Cm Au E0 E1 N0 N1 L2 Pr. assert (Sp : spectra_are fuel suave1 suave12 (g_conf s) c (mk_table K P) K P dt ptt) by (destruct c; try exact I; try discriminate D; injection D as <-; discriminate La).
  pose proof (wf_of _ R) as W. destruct (run_step fuel suave1 suave12 s o c K P ks a b d dt ptt ps ss vals W S C D Ne Sz Sp Cm) as (s1 & S1 & _ & U1 & G1 & _). pose proof (step_wf fuel suave1 suave12 s (Run_terms o a b) W) as W1. rewrite S1 in W1. destruct W1 as (W1 & _).
  assert (C1 : class_of s1 o = Some c) by (pose proof (class_kept s (Run_terms o a b) o c W C) as X; rewrite S1 in X; exact X).
  assert (Ct : has_ctype c = true) by (destruct c; try discriminate D; reflexivity).
  assert (V1 : g_verbose s1 = g_verbose s). { pose proof (verbosity_step fuel suave1 suave12 s (Run_terms o a b) W) as X. unfold verb_ok in X. rewrite S1 in X. rewrite X. cbn. rewrite C. destruct c; try reflexivity; injection D as <-; discriminate La. }
  destruct (lin_step fuel suave1 suave12 s1 o c K2 P2 W1 (proj1 (proj1 U1)) C1 Ct L2 ltac:(eapply printable_ext; eauto)) as (s2 & S2 & _ & U2 & _ & G2 & _).
  exists s1, s2. split; [exact S1|]. split; [exact S2|]. split; [apply U2, U1|]. rewrite G2, G1. unfold latch. rewrite La. unfold automatic in Au. cbv zeta. rewrite Au.
  assert (Q : q_range (s_prec (g_conf s) x) (mk_table K P) = Ok (k0, k1)).
  { unfold q_range. rewrite Au. cbn [mk_table pk_k pk_n]. assert (Lk : 0 < List.length K) by (destruct K; [discriminate E0|cbn; lia]). unfold rd. rewrite (proj2 (Z.ltb_lt _ _)) by (unfold zlen; lia). cbn [Z.leb Z.compare andb bind]. change (Z.to_nat 0) with 0. rewrite E0. cbn [bind].
    unfold u64. rewrite Z.mod_small by (unfold zlen in *; lia). rewrite (proj2 (Z.leb_le _ _)), (proj2 (Z.ltb_lt _ _)) by (unfold zlen; lia). cbn [andb]. replace (Z.to_nat (zlen K - 1)) with (List.length K - 1) by (unfold zlen; lia). rewrite E1. reflexivity. }
  rewrite Q. cbn [fst snd]. unfold automatic, put_prec, put. cbn [s_prec]. rewrite String.eqb_refl. cbn [pr_min pr_max]. rewrite N0, N1. auto.
Qed.
(** ** The spectra of the B term *)
Lemma spectrum_of_is s l K P : spectrum_is s l K P -> exists ka pa, assoc (dict_of s l) "k" = Some ka /\ assoc (dict_of s l) "pk" = Some pa /\ elements s ka = K /\ elements s pa = P /\ faces s ka (whole ka) /\ faces s pa (whole pa) /\
  spectrum_of s l = Some (mkCpk (zlen K) (whole ka) (whole pa)).
Proof.
  intros [Ek Ep L Sh]. unfold column_of in *. destruct (assoc (dict_of s l) "k") as [ka|] eqn:Ak; [|discriminate]. destruct (assoc (dict_of s l) "pk") as [pa|] eqn:Ap; [|discriminate]. injection Ek as Ek. injection Ep as Ep.
  destruct (Sh "k" ka (or_introl eq_refl) Ak) as (Fk & Dk). destruct (Sh "pk" pa (or_intror (or_introl eq_refl)) Ap) as (Fp & Dp).
  assert (Lk : a_len ka = zlen K) by (rewrite <- Ek; symmetry; apply elements_length; apply Fk). assert (Lp : a_len pa = zlen P) by (rewrite <- Ep; symmetry; apply elements_length; apply Fp).
  exists ka, pa. repeat (split; [assumption || reflexivity|]). unfold spectrum_of. rewrite Ak, Ap, Dk, Dp, Lp, Lk. replace (zlen P) with (zlen K) by (unfold zlen; lia). rewrite Z.eqb_refl. reflexivity.
Qed.
Lemma spectra_given s o c K P ks ld lt Kd Pd Kt Pt ps ss vals : reached s -> set_up s o K P ks -> class_of s o = Some c -> slot_of c = Some S_B -> In ld (vars s) -> In lt (vars s) -> spectrum_is s ld Kd Pd -> spectrum_is s lt Kt Pt ->
  apart s o c ld -> apart s o c lt -> Kd <> [] -> Kt <> [] -> computes (g_conf s) suave1 suave12 D_B (mk_table K P) (mk_table Kd Pd) (mk_table Kt Pt) ks ps ss vals ->
  exists s1 s2 s3, step (C_set_spectra_B o ld "delta" "theta") s = Fine s1 [] /\ step (C_set_spectra_B o lt "theta" "theta") s1 = Fine s2 [] /\ step (C_run_terms_B o) s2 = Fine s3 [] /\ filled s3 o D_B ks ps ss vals.
Proof.
  intros R S C Sl Hd Ht Id It Ad At Nd Nt Cm. pose proof (wf_of _ R) as W. destruct (bound_of s o K P ks S) as (c' & sl & l & Hc' & Hl & B). rewrite C in Hc'. injection Hc' as <-.
  assert (sl = S_B) by (pose proof (t_slot _ _ _ _ _ (b_terms _ _ _ _ _ _ _ _ B)); congruence). subst sl. pose proof (slot_ctype _ _ Sl) as Ct. assert (Hv : In o (vars s)) by apply S.
  destruct (spectrum_of_is _ _ _ _ Id) as (kd & pd & Ekd & Epd & Xkd & Xpd & Fkd & Fpd & Sd). destruct (spectrum_of_is _ _ _ _ It) as (kt & pt & Ekt & Ept & Xkt & Xpt & Fkt & Fpt & St).
  set (cd := mkCpk (zlen Kd) (whole kd) (whole pd)) in *. set (ct := mkCpk (zlen Kt) (whole kt) (whole pt)) in *.
  pose proof (set_spectra_step fuel suave1 suave12 s o c ld cd "delta" "theta" Hv C Ct Hd (wf_vars _ W _ Hd) Sd) as E1. cbn in E1. set (s1 := with_temps (with_dt s cd) []) in E1.
  pose proof (set_spectra_step fuel suave1 suave12 s1 o c lt ct "theta" "theta" Hv C Ct Ht (wf_vars _ W _ Ht) St) as E2. cbn -[s1] in E2. set (s2 := with_temps (with_tt s1 ct) []) in E2.
  pose proof (reached_temps _ _ _ _ R) as Tm.
  assert (Rl := reach_hand s l W (i_hand _ _ _ _ (b_lin _ _ _ _ _ _ _ _ B))).
  assert (A : armed s S_B K P ks) by (eapply armed_of; [exact W|exact (reach_var _ _ Hv)|exact Rl|apply B|apply B|apply B]).
  assert (Hh : held s2 = held s) by (apply held_ext; [reflexivity..|rewrite Tm; reflexivity]).
  assert (A2 : armed s2 S_B K P ks) by (apply (armed_ext s); auto).
  assert (Rx : forall p xs, reads s p xs -> reads s2 p xs) by (intros p xs; apply reads_ext; [reflexivity|exact Hh]).
  destruct (run_terms_B_ok fuel suave1 suave12 s2 K P ks Kd Pd Kt Pt ps ss vals) as (s3 & E3 & R3 & V1 & V2 & V3); auto.
  - apply Id.
  - apply It.
  - apply Rx. apply (faces_reads s ld "k" kd); auto using reach_var.
  - apply Rx. apply (faces_reads s ld "pk" pd); auto using reach_var.
  - apply Rx. apply (faces_reads s lt "k" kt); auto using reach_var.
  - apply Rx. apply (faces_reads s lt "pk" pt); auto using reach_var.
  - change (outputs s2 S_B) with (outputs s S_B). intros b Hb X. cbn in X. destruct (output_array _ _ _ _ _ _ (b_terms _ _ _ _ _ _ _ _ B) Hb) as (x & a & Hx & Nk & Ea & Ba). destruct X as [X|[X|[X|[X|[]]]]]; subst b.
    + apply (Ad x "k" a kd Hx Nk Ea Ekd); cbn; auto.
    + apply (Ad x "pk" a pd Hx Nk Ea Epd); cbn; auto.
    + apply (At x "k" a kt Hx Nk Ea Ekt); cbn; auto.
    + apply (At x "pk" a pt Hx Nk Ea Ept); cbn; auto.
  - exists s1, s2, (with_temps s3 []). split; [exact E1|]. split; [exact E2|]. split; [apply step_Fine; cbn [statement]; rewrite (statement_regpt s2 o c _ C Ct Hv); apply nothing_ok, E3|].
    assert (B2 : bound_to s2 o c S_B l K P ks) by (apply (bound_ext s); auto). assert (B3 : bound_to s3 o c S_B l K P ks) by (eapply bound_rw; [exact R3|exact B2]).
    apply (filled_of (with_temps s3 []) o c S_B ks DELTA DELTA D_B ps ss vals); [apply terms_temps, B3|destruct c; discriminate Sl || reflexivity|..]; change (g_terms (with_temps s3 [])) with (g_terms s3); rewrite (rw_terms _ _ _ R3); assumption.
Qed.
Lemma delta_delta s o l b : step (C_set_spectra_B o l "delta" b) s = step (C_set_spectra_B o l "delta" "theta") s.
Proof. reflexivity. Qed.
Lemma one_ignored s o c l K P ks psd ssd vd pst sst vt ps ss vals a b : reached s -> set_up s o K P ks -> class_of s o = Some c -> slot_of c = Some S_B -> (zlen K < SIZE_T)%Z -> In l (vars s) -> spectrum_of s l <> None ->
  cp_n (g_dt s) = 0%Z -> cp_n (g_tt s) = 0%Z ->
  computes (g_conf s) suave1 suave12 (D_1loop DELTA THETA) (mk_table K P) (mk_table K P) (mk_table K P) K psd ssd vd ->
  computes (g_conf s) suave1 suave12 (D_1loop THETA THETA) (mk_table K P) (mk_table K P) (mk_table K P) K pst sst vt ->
  computes (g_conf s) suave1 suave12 D_B (mk_table K P) (mk_table K (lib_spectrum K psd ssd vd)) (mk_table K (lib_spectrum K pst sst vt)) ks ps ss vals ->
  exists s1 s2, step (C_set_spectra_B o l a b) s = Fine s1 [] /\ step (C_run_terms_B o) s1 = Fine s2 [] /\ filled s2 o D_B ks ps ss vals.
Proof.
  intros R S C Sl Sz Hl Sp Z1 Z2 Cd Ct Cb. destruct (spectrum_of s l) as [p|] eqn:Ep; [|congruence]. pose proof (wf_of _ R) as W. assert (Hv : In o (vars s)) by apply S.
  pose proof (set_spectra_step fuel suave1 suave12 s o c l p a b Hv C (slot_ctype _ _ Sl) Hl (wf_vars _ W _ Hl) Ep) as E1. set (s1 := with_temps _ _) in E1. exists s1.
  pose proof (spares_step fuel suave1 suave12 s o (C_set_spectra_B o l a b) W (wf_vars _ W _ Hv) I) as La. rewrite E1 in La. cbn [after] in La. pose proof (la_set_up _ _ _ La _ _ _ S) as S1.
  assert (G : g_conf s1 = g_conf s) by (unfold s1; destruct (set_flag a), (set_flag b); reflexivity). rewrite <- G in Cd, Ct, Cb.
  assert (C1 : class_of s1 o = Some c) by (unfold s1; destruct (set_flag a), (set_flag b); exact C).
  destruct (run_B_step fuel suave1 suave12 s1 o c K P ks psd ssd vd pst sst vt ps ss vals) as (s2 & E2 & F2 & _); auto.
  - apply (wf_of _ (reached_Fine _ _ _ _ R E1)).
  - unfold s1. destruct (set_flag a), (set_flag b); cbn; auto.
  - exists s2. split; [exact E1|]. split; [exact E2|exact F2].
Qed.
(** ** Copies *)
Lemma deepcopy_claim s o c s1 v : reached s -> In o (vars s) -> class_of s o = Some c -> step (Deepcopy o) s = Fine s1 v -> exists n,
  vars s1 = n :: vars s /\ class_of s1 n = Some c /\ (forall x, column_of s1 n x = column_of s o x) /\ (forall y x, In y (vars s) -> column_of s1 y x = column_of s y x) /\
  (if has_ctype c then exists l l', lin_of s1 o = Some l /\ lin_of s1 n = Some l' /\ (forall x, column_of s1 l' x = column_of s1 l x) else lin_of s1 n = None) /\
  forall s2 p, writing fuel suave1 suave12 (family s1 o ++ family s1 n) s1 s2 ->
    (writes_to (family s1 o) p -> after (step p s2) (fun s3 => forall y x, In y (family s1 n) -> column_of s3 y x = column_of s2 y x)) /\
    (writes_to (family s1 n) p -> after (step p s2) (fun s3 => forall y x, In y (family s1 o) -> column_of s3 y x = column_of s2 y x)).
Proof.
  intros R Ho C E. pose proof (wf_of _ R) as W. destruct (deepcopy_step fuel suave1 suave12 s o c s1 v W Ho C E) as (V & Cn & Cl & Old & Lo & Ln & Sp). exists (List.length (objects s)). split; [exact V|]. split; [exact Cn|]. split; [exact Cl|].
  split; [intros y x Hy; apply Old, (wf_vars _ W _ Hy)|]. split.
  { destruct (has_ctype c); [|exact Ln]. destruct Ln as (l & l' & El & El' & X). exists l, l'. rewrite Lo. split; [exact El|]. split; [exact El'|]. intros x. rewrite X. symmetry. apply Old. destruct (class_obj _ _ _ C) as (ob & Eo & _). unfold lin_of in El. rewrite Eo in El. apply (wf_link _ W _ _ _ Eo). auto. }
  intros s2 p Wr. destruct (sep_writing fuel suave1 suave12 _ _ s1 s2 (wf_of _ (reached_Fine _ _ _ _ R E)) Sp Wr) as (W2 & Sp2). split; intros Wt.
  - pose proof (sep_step fuel suave1 suave12 s2 _ _ p W2 Sp2 Wt) as X. destruct (step p s2); cbn in *; auto; destruct X as (_ & X); auto.
  - pose proof (sep_step fuel suave1 suave12 s2 _ _ p W2 (sep_sym _ _ _ Sp2) Wt) as X. destruct (step p s2); cbn in *; auto; destruct X as (_ & X); auto.
Qed.
Lemma deepcopy_raises s o c : reached s -> In o (vars s) -> class_of s o = Some c -> has_ctype c = true -> lin_of s o = None -> exists s1, step (Deepcopy o) s = Throws AttributeError s1.
Proof.
  intros R Ho C Ct Nl. pose proof (wf_of _ R) as W. destruct (class_obj _ _ _ C) as (ob & E & Co). subst c. unfold lin_of in Nl. rewrite E in Nl.
  destruct (front_fine s o ob (List.length (objects s)) (readable_wf s W) (nth_error_lt _ _ _ E) E (fun s' X => ex_reach s s' o X (reach_var _ _ Ho))) as (s2 & Fr).
  exists (with_temps s2 []). unfold Process.step. cbn [statement]. unfold nothing. unfold mbind at 1. rewrite (bind_Fine _ _ _ _ _ (obj_ok _ _ _ (reach_var _ _ Ho) E)). unfold get. unfold mbind at 1. unfold mbind at 1. rewrite (deep_eq _ _ _ _ E). rewrite (bind_Fine _ _ _ _ _ Fr). rewrite Ct, Nl. reflexivity.
Qed.
(** ** Verbosity *)
Lemma set_verbosity_step s o c m : reached s -> In o (vars s) -> class_of s o = Some c -> has_ctype c = true -> exists s1, step (Set_verbosity o m) s = Fine s1 [] /\
  (exists ob, nth_error (objects s1) o = Some ob /\ o_verbose ob = Some m) /\ g_verbose s1 = c_set_verbosity (g_verbose s) m.
Proof.
  intros R Ho C Ct. destruct (class_obj _ _ _ C) as (ob & E & Co). subst c. eexists. split.
  { unfold Process.step. cbn [statement]. unfold nothing. unfold mbind at 1. rewrite (bind_Fine _ _ _ _ _ (regpt_ok _ _ _ (reach_var _ _ Ho) E Ct)). unfold set_verbosity, modify, set_obj. unfold mbind at 1. cbn -[c_set_verbosity]. rewrite E. reflexivity. }
  split; [|reflexivity]. eexists. split; [cbn -[c_set_verbosity]; rewrite nth_error_upd, Nat.eqb_refl, E; reflexivity|reflexivity].
Qed.
Lemma flag_theta x : set_flag x = THETA <-> x = "theta".
Proof. unfold set_flag. destruct (String.eqb_spec x "delta") as [->|]; [split; discriminate|]. destruct (String.eqb_spec x "theta"); split; congruence. Qed.
Lemma flag_other x : x <> "theta" -> set_flag x = set_flag "delta".
Proof. intros H. destruct (set_flag x) eqn:E; [reflexivity|]. apply flag_theta in E. contradiction. Qed.
Lemma flags x : (set_flag x = THETA <-> x = "theta") /\ (x <> "theta" -> set_flag x = set_flag "delta").
Proof. exact (conj (flag_theta x) (flag_other x)). Qed.
Lemma verbosity_claim s p : reached s -> match step p s with
  | Fine s' _ => g_verbose s' = verbosity_after s p | Throws _ s' => g_verbose s' = g_verbose s \/ g_verbose s' = verbosity_after s p | _ => True end.
Proof. intros R. exact (verbosity_step fuel suave1 suave12 s p (wf_of _ R)). Qed.
Lemma unknown_mode s o c m : reached s -> In o (vars s) -> class_of s o = Some c -> has_ctype c = true -> ~ In m ["quiet"; "info"; "debug"] ->
  exists s1 ob, step (Set_verbosity o m) s = Fine s1 [] /\ nth_error (objects s1) o = Some ob /\ o_verbose ob = Some m /\ g_verbose s1 = g_verbose s.
Proof.
  intros R Ho C Ct Hm. destruct (set_verbosity_step s o c m R Ho C Ct) as (s1 & E & (ob & Eo & Vo) & G). exists s1, ob. split; [exact E|]. split; [exact Eo|]. split; [exact Vo|]. rewrite G. unfold c_set_verbosity.
  destruct (String.eqb_spec m "quiet") as [->|]; [destruct Hm; cbn; auto|]. destruct (String.eqb_spec m "info") as [->|]; [destruct Hm; cbn; auto|]. destruct (String.eqb_spec m "debug") as [->|]; [destruct Hm; cbn; auto|]. reflexivity.
Qed.
Lemma binding s o c sl ks : reached s -> In o (vars s) -> class_of s o = Some c -> slot_of c = Some sl -> printable s ks ->
  exists s', step (Set_terms o ks) s = Fine s' [] /\ terms_are s' o c sl ks /\ column_of s' o "k" = Some ks /\
    forall x, In x (fields c) -> x <> "k" -> column_of s' o x = Some (repeat (nZ N 0) (Z.to_nat (zlen ks * comps c x))).
Proof.
  intros R Ho C Sl Pr. destruct (terms_step fuel suave1 suave12 s o c sl ks (wf_of _ R) Ho C Sl Pr) as (s' & E & _ & _ & Z1 & T1 & _). exists s'. split; [exact E|]. split; [exact T1|]. split; [apply T1|].
  intros x Hx Nx. rewrite (Z1 x Hx). unfold column_after. rewrite (proj2 (String.eqb_neq x "k") Nx). reflexivity.
Qed.
Lemma names c sl : slot_of c = Some sl -> c_fields sl = map (c_name c) (fields c) /\ NoDup (c_fields sl).
Proof.
  intros Sl. clear fuel suave1 suave12 N. split; [apply c_fields_names, Sl|]. destruct sl; repeat constructor; cbn; intuition discriminate.
Qed.
Lemma sizes s o c sl ks a b d ik y i : terms_are s o c sl ks -> driver_of c a b = Some d -> (0 <= ik < zlen ks)%Z -> In (Arr y i) (cells_of d ik) ->
  exists x, In x (fields c) /\ x <> "k" /\ y = c_name c x /\ (0 <= i < zlen ks * comps c x)%Z.
Proof.
  intros _ D Hi H. set (n := zlen ks) in *. clearbody n. assert (Q : forall u v w z, Arr u v = Arr w z -> u = w /\ v = z) by (intros u v w z X; injection X; auto). destruct c; try discriminate D; injection D as <-; cbn -[Z.mul Z.add] in H;
    repeat (destruct H as [H|H]; [apply Q in H as (<- & <-);
      match goal with |- context [?z = c_name _ _] => first [exists "pk"; split; [cbn; tauto|]; split; [discriminate|]; split; [reflexivity|match goal with |- context [comps ?c ?x] => let v := eval cbv in (comps c x) in change (comps c x) with v end; lia]|exists z; split; [cbn; tauto|]; split; [discriminate|]; split; [reflexivity|match goal with |- context [comps ?c ?x] => let v := eval cbv in (comps c x) in change (comps c x) with v end; lia]] end|]); contradiction.
Qed.
Lemma settings_kept s p : reached s -> configures p = false -> after (step p s) (fun s' => latched (g_conf s) (g_conf s')).
Proof. intros R. exact (conf_step fuel suave1 suave12 s p (wf_of _ R)). Qed.
Lemma twice s o c K P ks psd ssd vd pst sst vt ps ss vals : reached s -> set_up s o K P ks -> class_of s o = Some c -> slot_of c = Some S_B -> (cp_n (g_dt s) = 0 \/ cp_n (g_tt s) = 0)%Z -> (zlen K < SIZE_T)%Z ->
  computes (g_conf s) suave1 suave12 (D_1loop DELTA THETA) (mk_table K P) (mk_table K P) (mk_table K P) K psd ssd vd ->
  computes (g_conf s) suave1 suave12 (D_1loop THETA THETA) (mk_table K P) (mk_table K P) (mk_table K P) K pst sst vt ->
  computes (g_conf s) suave1 suave12 D_B (mk_table K P) (mk_table K (lib_spectrum K psd ssd vd)) (mk_table K (lib_spectrum K pst sst vt)) ks ps ss vals ->
  exists s', step (C_run_terms_B o) s = Fine s' [] /\ filled s' o D_B ks ps ss vals /\ set_up s' o K P ks /\
    forall x cx, In x (vars s') -> class_of s' x = Some cx -> has_ctype cx = true -> step (C_run_terms_B x) s' = Crash UseAfterFree.
Proof.
  intros R S C Sl Z1 Sz C1 C2 C3. destruct (run_B_step fuel suave1 suave12 s o c K P ks psd ssd vd pst sst vt ps ss vals (wf_of _ R) S C Sl Z1 Sz C1 C2 C3) as (s' & E & F & U & _ & _ & X). exists s'. split; [exact E|]. split; [exact F|]. split; [exact U|exact X].
Qed.
Lemma spectra_effect s o c l p a b : reached s -> In o (vars s) -> class_of s o = Some c -> has_ctype c = true -> In l (vars s) -> spectrum_of s l = Some p ->
  step (C_set_spectra_B o l a b) s = Fine (if (a =? "theta")%string && (b =? "theta")%string then with_tt s p else with_dt s p) [].
Proof.
  intros R Ho C Ct Hl Sp. rewrite (set_spectra_step fuel suave1 suave12 s o c l p a b Ho C Ct Hl (wf_vars _ (wf_of _ R) _ Hl) Sp). pose proof (reached_temps _ _ _ _ R) as Tm. f_equal.
  assert (X : forall q, with_temps (with_tt s q) [] = with_tt s q /\ with_temps (with_dt s q) [] = with_dt s q) by (intros q; destruct s; cbn in *; subst; auto). destruct (X p) as (X1 & X2).
  destruct (String.eqb_spec a "theta") as [->|Na]; [|rewrite (flag_other a Na); exact X2]. destruct (String.eqb_spec b "theta") as [->|Nb]; [exact X1|]. rewrite (flag_other b Nb). exact X2.
Qed.
Lemma alone s o p : reached s -> In o (vars s) -> spares s o p -> after (step p s) (fun s' => left_alone s s' o).
Proof. intros R Ho. apply spares_step; [exact (wf_of _ R)|exact (wf_vars _ (wf_of _ R) _ Ho)]. Qed.
Lemma fills_other s o x c K P ks a b d ps ss vals : reached s -> set_up s o K P ks -> In x (vars s) -> class_of s o = Some c -> class_of s x = Some c ->
  In c [C1Loop; C2Loop; CBias; CA2] -> (forall y r, In (y, r) (dict_of s x) -> ~ used_by s [o] (a_buf r)) ->
  driver_of c (set_flag a) (set_flag b) = Some d -> ks <> [] -> computes (g_conf s) suave1 suave12 d (mk_table K P) (mk_table K P) (mk_table K P) ks ps ss vals ->
  exists s', step (Run_terms x a b) s = Fine s' [] /\ filled s' o d ks ps ss vals /\ forall y, column_of s' x y = column_of s x y.
Proof. intros R S Hx Co Cx Hc. apply (run_other fuel suave1 suave12 s o x c K P ks a b d ps ss vals (wf_of _ R) S Hx Co Cx). destruct Hc as [<-|[<-|[<-|[<-|[]]]]]; reflexivity. Qed.
Lemma wins s o x c cx K P ks a b d ps ss vals : reached s -> has_terms s o ks -> class_of s o = Some c -> In x (vars s) -> class_of s x = Some cx -> has_ctype cx = true -> List.length P = List.length K -> printable s K ->
  driver_of c (set_flag a) (set_flag b) = Some d -> d <> D_B -> ks <> [] -> computes (g_conf s) suave1 suave12 d (mk_table K P) (mk_table K P) (mk_table K P) ks ps ss vals ->
  exists s1 s2, step (Set_pk_lin x K P) s = Fine s1 [] /\ step (Run_terms o a b) s1 = Fine s2 [] /\ filled s2 o d ks ps ss vals.
Proof. intros R. exact (last_wins fuel suave1 suave12 s o x c cx K P ks a b d ps ss vals (wf_of _ R)). Qed.
Lemma dangles s o c x cx K P : reached s -> In o (vars s) -> class_of s o = Some c -> has_ctype c = true -> List.length P = List.length K -> printable s K -> K <> [] ->
  exists s1 s2, step (Set_pk_lin o K P) s = Fine s1 [] /\ step (Drop o) s1 = Fine s2 [] /\
    (~ In o (reachable s2) -> In x (vars s2) -> class_of s2 x = Some cx -> has_ctype cx = true -> forall k, k <> [] ->
      (forall im, step (Find_pk_lin x k im) s2 = Crash UseAfterFree) /\ (forall uv, step (Sigmad2 x k uv) s2 = Crash UseAfterFree)).
Proof.
  intros R Ho C Ct L Pr Ne. destruct (drop_dangles fuel suave1 suave12 s o c x cx K P (wf_of _ R) (reached_temps _ _ _ _ R) Ho C Ct L Pr Ne) as (s1 & s2 & E1 & E2 & X). exists s1, s2. split; [exact E1|]. split; [exact E2|].
  intros A1 A2 A3 A4 k _. destruct (X A1 A2 A3 A4) as (Y1 & Y2). split; intros w; [apply Y1|apply Y2].
Qed.
Lemma copy_claim s o c : reached s -> In o (vars s) -> class_of s o = Some c ->
  exists n s', step (Copy o) s = Fine s' [] /\ vars s' = n :: vars s /\ class_of s' n = Some c /\ lin_of s' n = lin_of s o /\ n <> o /\
    forall ps s2 x, execute ps s' = Some s2 -> column_of s2 n x = column_of s2 o x.
Proof.
  intros R Ho C. pose proof (wf_of _ R) as W. destruct (copy_shares fuel suave1 suave12 s o c W Ho C) as (s' & E & V & Cn & Ln & X). exists (List.length (objects s)), s'. pose proof (wf_vars _ W _ Ho). repeat (split; [assumption || lia|]). exact X.
Qed.
Lemma deepcopy_ends s o c : reached s -> In o (vars s) -> class_of s o = Some c -> (has_ctype c = true -> exists l cl, lin_of s o = Some l /\ class_of s l = Some cl /\ has_ctype cl = false) -> exists s1, step (Deepcopy o) s = Fine s1 [].
Proof. intros R. exact (deepcopy_fine fuel suave1 suave12 s o c (wf_of _ R)). Qed.
Lemma crash_free s p : reached s -> pointer_free p = true -> forall u, step p s <> Crash u.
Proof. intros R Pf u E. pose proof (no_crash fuel suave1 suave12 s p (wf_of _ R) Pf) as X. rewrite E in X. exact X. Qed.
Lemma configure_step s o c f p st : reached s -> In o (vars s) -> class_of s o = Some c -> has_ctype c = true -> statement fuel suave1 suave12 p = nothing (mbind (regpt o) (fun _ => configure f)) -> f (g_conf s) = (st, Done) ->
  step p s = Fine (with_conf s st) [].
Proof.
  intros R Ho C Ct Ep Ef. destruct (class_obj _ _ _ C) as (ob & E & Co). subst c. unfold Process.step. rewrite Ep. unfold nothing. unfold mbind at 1. rewrite (bind_Fine _ _ _ _ _ (regpt_ok _ _ _ (reach_var _ _ Ho) E Ct)). unfold configure. rewrite Ef. unfold ret.
  pose proof (reached_temps _ _ _ _ R) as Tm. destruct s. cbn in *. subst. reflexivity.
Qed.
Lemma change_settings s o c : reached s -> In o (vars s) -> class_of s o = Some c -> has_ctype c = true ->
  (forall g ms n mn mx im, In (g, ms) groups \/ In g all_settings /\ ms = [g] -> exists st, step (Set_precision o g n mn mx im) s = Fine (with_conf s st) [] /\ sets_exactly ms n mn mx im (g_conf s) (st, Done)) /\
  (one_above (N := N) -> exists s' st, step (Clear o) s = Fine s' [] /\ py_clear 5 (g_conf s) = (st, Done) /\ g_conf s' = st /\ g_verbose s' = INFO /\ forall x y, column_of s' x y = column_of s x y).
Proof.
  intros R Ho C Ct. split.
  - intros g ms n mn mx im H. assert (X : sets_exactly ms n mn mx im (g_conf s) (py_set_precision 5 g n mn mx im (g_conf s))) by (destruct H as [H|(H & ->)]; [apply group_call|apply leaf_exactly]; auto; lia).
    destruct (py_set_precision 5 g n mn mx im (g_conf s)) as [st r] eqn:E. pose proof (proj1 X) as D. cbn in D. subst r. exists st. split; [|exact X]. eapply configure_step; eauto. reflexivity.
  - intros Oa. destruct (clear_effect 5 (g_conf s) Oa ltac:(lia)) as (st & E & _). destruct (class_obj _ _ _ C) as (ob & Eo & Co). subst c. eexists. exists st. split.
    { unfold Process.step. cbn [statement]. unfold nothing. unfold mbind at 1. rewrite (bind_Fine _ _ _ _ _ (regpt_ok _ _ _ (reach_var _ _ Ho) Eo Ct)). unfold mbind at 1. unfold configure. rewrite E. unfold set_verbosity, modify, set_obj, ret. unfold mbind at 1. cbn -[py_clear]. rewrite Eo. reflexivity. }
    split; [exact E|]. split; [reflexivity|]. split; [reflexivity|]. intros x y. unfold column_of, dict_of. cbn. rewrite nth_error_upd. destruct (Nat.eqb_spec o x) as [->|]; [rewrite Eo; reflexivity|reflexivity].
Qed.
Lemma stale_claim s o c K P ks p s2 v x y d : reached s -> set_up s o K P ks -> class_of s o = Some c -> ks <> [] -> driver_of c (set_flag x) (set_flag y) = Some d -> d <> D_B ->
  (forall a, assoc (dict_of s o) "k" = Some a -> only_at s o "k" (a_buf a)) -> replaces_k o p -> step p s = Fine s2 v -> step (Run_terms o x y) s2 = Crash UseAfterFree.
Proof. intros R. exact (stale_terms fuel suave1 suave12 s o c K P ks p s2 v x y d (wf_of _ R) (reached_temps _ _ _ _ R)). Qed.
Lemma window_claim s o c l ka pa : reached s -> In o (vars s) -> class_of s o = Some c -> has_ctype c = true -> In l (vars s) ->
  assoc (dict_of s l) "k" = Some ka -> assoc (dict_of s l) "pk" = Some pa -> a_2d ka = false -> a_2d pa = false -> a_len pa = a_len ka -> g_verbose s <> INFO ->
  exists s1, step (Set_spectrum_lin o l) s = Fine s1 [] /\ lin_of s1 o = Some l /\ (forall x y, column_of s1 x y = column_of s x y) /\
    (fits s ka -> fits s pa -> let pkl := mk_table (window s ka) (window s pa) in
      (forall k im, step (Find_pk_lin o k im) s1 = match find_pk pkl k (if (im =? "poly")%string then POLY else LIN) with Ok v => Fine s1 v | Err u => Crash u end) /\
      (forall k uv, step (Sigmad2 o k uv) s1 = match calc_running_sigmad2 pkl k uv with Ok v => Fine s1 v | Err u => Crash u end)) /\
    ((0 < a_len ka)%Z -> ~ fits s ka -> forall k im, k <> [] -> step (Find_pk_lin o k im) s1 = Crash OOB).
Proof. intros R Ho C Ct Hl. exact (strided_lin fuel suave1 suave12 s o c l ka pa (wf_of _ R) (reached_temps _ _ _ _ R) Ho C Ct (reach_var _ _ Hl)). Qed.
Lemma plain_window s x y a : reached s -> In (y, a) (dict_of s x) -> a_step a = 1%Z -> (0 < a_len a)%Z -> fits s a /\ window s a = elements s a.
Proof.
  intros R Ha St Ln. pose proof (wf_of _ R) as W. pose proof (sound_dict _ _ _ _ W Ha) as So. pose proof So as (L0 & xs & B & In0).
  assert (Fi : fits s a) by (unfold fits, contents; rewrite B; specialize (In0 (a_len a - 1)%Z ltac:(lia)); rewrite St in In0; lia).
  assert (Of : (0 <= a_off a)%Z) by (specialize (In0 0%Z ltac:(lia)); lia).
  split; [exact Fi|]. apply nth_ext with (d := nZ N 0) (d' := nZ N 0).
  - pose proof (window_length s a So Fi). pose proof (elements_length s a L0). unfold zlen in *. lia.
  - intros n Hn. pose proof (window_length s a So Fi) as Wl. assert (Ln' : (0 <= Z.of_nat n < a_len a)%Z) by (unfold zlen in Wl; lia). pose proof (elements_nth s a _ Ln') as X. rewrite Nat2Z.id in X. rewrite (nth_error_nth _ _ _ X). unfold window. rewrite window_nth by lia. f_equal. rewrite St. lia.
Qed.
Lemma failed_claim s o c K P K' P' : reached s -> In o (vars s) -> class_of s o = Some c -> has_ctype c = true -> List.length P = List.length K -> printable s K -> K <> [] -> List.length P' <> List.length K' ->
  exists s1 s2, step (Set_pk_lin o K P) s = Fine s1 [] /\ step (Set_pk_lin o K' P') s1 = Throws ArgumentError s2 /\
    (exists l, lin_of s2 o = Some l /\ column_of s2 l "k" = Some K' /\ column_of s2 l "pk" = Some P') /\
    forall k, k <> [] -> (forall im, step (Find_pk_lin o k im) s2 = Crash UseAfterFree) /\ (forall uv, step (Sigmad2 o k uv) s2 = Crash UseAfterFree).
Proof.
  intros R Ho C Ct L Pr Ne Df. destruct (failed_dangles fuel suave1 suave12 s o c K P K' P' (wf_of _ R) (reached_temps _ _ _ _ R) Ho C Ct L Pr Ne Df) as (s1 & s2 & E1 & E2 & X & Y1 & Y2). exists s1, s2. repeat (split; [assumption|]).
  intros k _. split; intros w; [apply Y1|apply Y2].
Qed.
Lemma empty_claim s o c : reached s -> In o (vars s) -> class_of s o = Some c -> has_ctype c = true -> g_verbose s = INFO ->
  step (Set_pk_lin o [] []) s = Crash OOB /\ (forall sl, slot_of c = Some sl -> step (Set_terms o []) s = Crash OOB).
Proof. intros R Ho C Ct V. split; [exact (empty_pk_lin fuel suave1 suave12 s o c (wf_of _ R) Ho C Ct V)|]. intros sl Sl. exact (empty_terms fuel suave1 suave12 s o c sl (wf_of _ R) Ho C Sl V). Qed.
Lemma null_claim ps s o c : execute ps (fresh_process N) = Some s -> forallb (fun p => negb (sets_lin p)) ps = true -> In o (vars s) -> class_of s o = Some c -> has_ctype c = true ->
  (forall k, k <> [] -> (forall im, step (Find_pk_lin o k im) s = Crash NullDeref) /\ (forall uv, step (Sigmad2 o k uv) s = Crash NullDeref)) /\
  (forall ks a b d, ks <> [] -> has_terms s o ks -> driver_of c (set_flag a) (set_flag b) = Some d -> d <> D_B -> step (Run_terms o a b) s = Crash NullDeref).
Proof.
  intros E H Ho C Ct. pose proof (no_lin fuel suave1 suave12 ps s E H) as G. assert (R : reached s) by (exists ps; exact E). destruct (null_lin fuel suave1 suave12 s o c G Ho C Ct) as (X1 & X2). split.
  - intros k _. split; intros w; [apply X1|apply X2].
  - intros ks a b d _ Ht D Nd. exact (null_run fuel suave1 suave12 s o c ks a b d (wf_of _ R) G Ht C D Nd).
Qed.
End Claims.
