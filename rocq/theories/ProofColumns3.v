(** ProofColumns3: the contents of every row. *)
From Coq Require Import ZArith Reals Lra Lia List Bool String.
From Coquelicot Require Import Coquelicot.
From Verif Require Import Base Num BaseFacts Common Kernels Gamma2 Integrals Registry Threads Spec SpecPT SpecIntegrals SpecLoops SpecScratch SpecBispectrum SpecBisp2 Sums ProofSearch ProofKernels SpecKernels ProofGL ProofGL2
  ProofIntegrals ProofIntegrals2 ProofIntegrals9 ProofIntegrals10 ProofBispectrum ProofBispectrum2 ProofScratch2 ProofScratch3 ProofSeries ProofSeries2 ProofGamma2g SpecTable SpecThreads SpecDefined SpecColumns ProofColumns ProofColumns2.
Import ListNotations.
Local Open Scope R_scope.

Lemma two_lin pk : two_points pk -> lin_table pk.
Proof. intros (K & P & -> & L & B & _). unfold lin_table. cbn. split; [exact L|]. split; [exact B|reflexivity]. Qed.
Lemma two_lookup pk : two_points pk -> forall k, find1 (N := RNum) pk POLY k = Ok (lookup_of pk POLY k).
Proof. intros H k. destruct (find1_ok pk k (two_lin pk H)) as [v E]. unfold lookup_of. rewrite E. reflexivity. Qed.
Lemma the_q_is fuel st pkl x g : new_q (N := RNum) fuel st pkl x = Ok g -> the_q fuel st pkl x = g.
Proof. intros E. unfold the_q. rewrite E. reflexivity. Qed.
Lemma the_mu_is fuel st x m : new_mu (N := RNum) fuel st x = Ok m -> the_mu fuel st x = m.
Proof. intros E. unfold the_mu. rewrite E. reflexivity. Qed.
Lemma flag_theta a : flag_of (is_theta a) = a.
Proof. destruct a; reflexivity. Qed.
Lemma bind_inv {A B} (r : res A) (f : A -> res B) v : bind r f = Ok v -> exists a, r = Ok a /\ f a = Ok v.
Proof. destruct r; cbn; [eauto|discriminate]. Qed.
Lemma itquad_ext half xs W W' us ws (f : nat -> R -> R) : (forall i, W i = W' i) -> itquad half xs W us ws f = itquad half xs W' us ws f.
Proof. intros H. unfold itquad. apply rsum_ext. intros i Hi. now rewrite H. Qed.
Lemma itquad_const half xs W us ws (f : nat -> R -> R) c : itquad half xs (fun i => c * W i) us ws f = c * itquad half xs W us ws f.
Proof. unfold itquad. rewrite <- rsum_scal. apply rsum_ext. intros i Hi. ring. Qed.

Section Rows.
Variables (fuel : nat) (st : settings RNum) (suave1 : (list R -> res R) -> res R) (suave12 : (list R -> res (list R)) -> res (list R)).
Variables (pkl dt ptt : Pk RNum) (k : R) (d : driver).
Hypotheses (HT : two_points pkl) (HR : regular_run st pkl d) (Hk : 0 < k).
Let P := the_P pkl.

Lemma run_lookup : forall q, find1 (N := RNum) pkl POLY q = Ok (P q).
Proof. exact (two_lookup pkl HT). Qed.
Lemma run_lookup_is : lookup_is pkl POLY P.
Proof. intros q _. apply run_lookup. Qed.
Lemma run_q x g : In x (q_tables_of d) -> new_q fuel st pkl x = Ok g -> q_table P g /\ q_ok g /\ table_ok g.
Proof.
  intros Hi E. destruct (rr_q _ _ _ HR x Hi) as [Hn (qm & qM & HA & HB)]. pose proof (rr_cubic _ _ _ HR) as [HC _].
  pose proof (init_q_tables fuel (s_prec st x) pkl g ltac:(lia) E) as [Q1 Q2]. split; [|split; assumption].
  destruct HT as (K & Pv & EK & L & B & I). pose proof run_lookup_is as HL. unfold P in *. rewrite EK in E, HL, HA |- *.
  apply (tables_init fuel (s_prec st x) K Pv POLY _ g qm qM Hn (HC x) E L ltac:(change (T RNum) with R in *; lia) I HL HA HB).
Qed.
Lemma run_mu x m : In x (mu_tables_of d) -> new_mu fuel st x = Ok m -> mu_rule m.
Proof. intros Hi E. exact (mu_init fuel (s_prec st x) m (rr_mu _ _ _ HR x Hi) E). Qed.
Lemma run_im x : im_of st x = POLY.
Proof. exact (proj1 (rr_cubic _ _ _ HR) x). Qed.
Lemma run_s x : s_interpol st x = POLY.
Proof. exact (proj2 (rr_cubic _ _ _ HR) x). Qed.
Lemma run_prop1 g1 : In "gamma1_1loop_q"%string (q_tables_of d) -> new_q fuel st pkl "gamma1_1loop_q" = Ok g1 -> propagator_is g1 (prop1 fuel st pkl).
Proof.
  intros Hi E t q. destruct (run_q _ _ Hi E) as [H _]. destruct (gamma1_1loop_val P g1 t q H) as [g' E']. exists g'. rewrite E'. unfold prop1. rewrite (the_q_is _ _ _ _ _ E). reflexivity.
Qed.
Lemma run_vertex gd gt : In "gamma2d_1loop_q"%string (q_tables_of d) -> In "gamma2t_1loop_q"%string (q_tables_of d) ->
  new_q fuel st pkl "gamma2d_1loop_q" = Ok gd -> new_q fuel st pkl "gamma2t_1loop_q" = Ok gt -> one_loop_is gd gt (vertex fuel st pkl).
Proof.
  intros I1 I2 E1 E2 k1 k2 k3. unfold vertex. rewrite (the_q_is _ _ _ _ _ E1), (the_q_is _ _ _ _ _ E2).
  destruct (run_q _ _ I1 E1) as [A1 [_ A2]]. destruct (run_q _ _ I2 E2) as [B1 [_ B2]].
  split; [exact (gamma2_1loop_val P gd false k1 k2 k3 A1 A2)|exact (gamma2_1loop_val P gt true k1 k2 k3 B1 B2)].
Qed.
Lemma run_S q : sigmad2_1 (N := RNum) pkl (s_cutoff st "set_running_uvcutoff_bispectrum_1loop") q = Ok (the_S st pkl q).
Proof. destruct (sigmad2_ok pkl (s_cutoff st "set_running_uvcutoff_bispectrum_1loop") q (two_lin pkl HT)) as [v E]. unfold the_S. rewrite E. reflexivity. Qed.
Lemma cube3 : k * k * k = k ^ 3. Proof. ring. Qed.
Lemma pi2 : 2 * PI * PI = 2 * PI ^ 2. Proof. ring. Qed.
Lemma pi4 : 4 * PI * PI = 4 * PI ^ 2. Proof. ring. Qed.
Lemma mode_sum_3 half gq gm g m f : new_q fuel st pkl gq = Ok g -> new_mu fuel st gm = Ok m ->
  mode_sum fuel st pkl k half 3 gq gm f = itquad half (xs_of g k) (fun i => at_ (xs_of g k) i ^ 3 * at_ (gq_w g) i) (gm_muref m) (gm_wref m) (fun i mu => f (at_ (xs_of g k) i) mu).
Proof. intros E1 E2. unfold mode_sum. rewrite (the_q_is _ _ _ _ _ E1), (the_mu_is _ _ _ _ E2). reflexivity. Qed.
Lemma mode_sum_1 half gq gm g m f : new_q fuel st pkl gq = Ok g -> new_mu fuel st gm = Ok m ->
  mode_sum fuel st pkl k half 1 gq gm f = itquad half (xs_of g k) (fun i => at_ (xs_of g k) i * at_ (gq_w g) i) (gm_muref m) (gm_wref m) (fun i mu => f (at_ (xs_of g k) i) mu).
Proof. intros E1 E2. unfold mode_sum. rewrite (the_q_is _ _ _ _ _ E1), (the_mu_is _ _ _ _ E2). apply itquad_ext. intros i. ring. Qed.

Lemma row_1loop a b v : d = D_1loop a b -> value_1loop fuel st pkl a b k = Ok v -> contents fuel st suave1 suave12 pkl dt ptt k (D_1loop a b) v.
Proof.
  intros Hd E. unfold value_1loop in E. apply bind_inv in E. destruct E as [g1 [E1 E]]. apply bind_inv in E. destruct E as [g [E2 E]]. apply bind_inv in E. destruct E as [m [E3 E]].
  assert (I1 : In "gamma1_1loop_q"%string (q_tables_of d)) by (rewrite Hd; cbn; tauto).
  assert (I2 : In "gamma2_tree_q"%string (q_tables_of d)) by (rewrite Hd; cbn; tauto).
  assert (I3 : In "gamma2_tree_mu"%string (mu_tables_of d)) by (rewrite Hd; cbn; tauto).
  destruct (run_prop1 g1 I1 E1 (is_theta a) k) as [ga A]. rewrite flag_theta in A. rewrite A in E. cbn [bind] in E.
  destruct (run_prop1 g1 I1 E1 (is_theta b) k) as [gb B]. rewrite flag_theta in B. rewrite B in E. cbn [bind] in E.
  destruct (calc_gamma2_tree_val pkl POLY P g m a b k run_lookup_is (proj1 (run_q _ _ I2 E2)) (run_mu _ _ I3 E3) Hk) as [g' [m' C]].
  rewrite run_im, C in E. cbn [bind] in E. cbn in E. injection E as <-. cbn [contents]. rewrite (mode_sum_3 _ _ _ g m _ E2 E3), cube3, pi2. reflexivity.
Qed.
Lemma row_2loop a b v : d = D_2loop a b -> value_of fuel st suave1 suave12 (D_2loop a b) pkl dt ptt k = Ok v -> contents fuel st suave1 suave12 pkl dt ptt k (D_2loop a b) v.
Proof.
  intros Hd E. cbn [value_of] in E. apply bind_inv in E. destruct E as [u [E F]]. apply bind_inv in F. destruct F as [w [F W]]. injection W as <-.
  unfold value_gamma3 in F. apply bind_inv in F. destruct F as [[qmin qmax] [F1 F]]. apply bind_inv in F. destruct F as [y [F2 F]]. injection F as <-.
  unfold calc_pk_gamma3_tree in F2. apply bind_inv in F2. destruct F2 as [I [F2 F3]]. injection F3 as <-.
  unfold value_2loop in E. apply bind_inv in E. destruct E as [g1 [E1 E]]. apply bind_inv in E. destruct E as [g2 [E2 E]]. apply bind_inv in E. destruct E as [g [E3 E]].
  apply bind_inv in E. destruct E as [m [E4 E]]. apply bind_inv in E. destruct E as [gd [E5 E]]. apply bind_inv in E. destruct E as [gt [E6 E]].
  assert (I1 : In "gamma1_1loop_q"%string (q_tables_of d)) by (rewrite Hd; cbn; tauto).
  assert (I2 : In "gamma1_2loop_q"%string (q_tables_of d)) by (rewrite Hd; cbn; tauto).
  assert (I3 : In "gamma2_tree_q"%string (q_tables_of d)) by (rewrite Hd; cbn; tauto).
  assert (I4 : In "gamma2_tree_mu"%string (mu_tables_of d)) by (rewrite Hd; cbn; tauto).
  assert (I5 : In "gamma2d_1loop_q"%string (q_tables_of d)) by (rewrite Hd; cbn; tauto).
  assert (I6 : In "gamma2t_1loop_q"%string (q_tables_of d)) by (rewrite Hd; cbn; tauto).
  destruct (run_q _ _ I1 E1) as [Q1 [QO1 _]]. destruct (run_q _ _ I2 E2) as [Q2 [QO2 _]].
  assert (C : exists g1' g2', calc_pk_gamma1_2loop (N := RNum) g1 g2 a b k =
    Ok (prop1 fuel st pkl (is_theta a) k, prop2 fuel st pkl (is_theta a) k, prop1 fuel st pkl (is_theta b) k, prop2 fuel st pkl (is_theta b) k, g1', g2')).
  { assert (V1 : forall t, prop1 fuel st pkl t k = single_sum P g1 k (prop_kernel t)) by (intros t; unfold prop1; rewrite (the_q_is _ _ _ _ _ E1); reflexivity).
    assert (V2 : forall t, prop2 fuel st pkl t k = double_sum P g2 (fun q1 q2 => integ_gamma1_2loop (N := RNum) (flag_of t) k q1 q2) + single_sum P g1 k (prop_kernel t) * single_sum P g1 k (prop_kernel t) / 2)
      by (intros t; unfold prop2; rewrite V1, (the_q_is _ _ _ _ _ E2); fold P; f_equal; unfold Rdiv; ring).
    rewrite !V1, !V2.
    destruct (gamma1_1loop_val P g1 (is_theta a) k Q1) as [h1 A1]. destruct (gamma1_2loop_val P g2 (is_theta a) k Q2) as [h2 A2]. rewrite flag_theta in A1, A2.
    unfold calc_pk_gamma1_2loop. rewrite A1. cbn [bind]. rewrite A2. cbn [bind].
    destruct (flag_eqb a b) eqn:Eab.
    - assert (a = b) as <- by (destruct a, b; try discriminate; reflexivity). rewrite flag_theta. exists h1, h2. reflexivity.
    - destruct (gamma1_1loop_ok g1 a k QO1) as (z & h1' & Z1 & Z2). rewrite A1 in Z1. injection Z1 as _ <-.
      destruct (gamma1_2loop_ok g2 a k QO2) as (z' & h2' & Z3 & Z4). rewrite A2 in Z3. injection Z3 as _ <-.
      assert (S1 : q_table P h1). { destruct Z2 as (W1 & W2 & W3 & W4 & W5). destruct Q1 as (R1 & R2 & R3 & R4 & R5 & R6 & R7). destruct W1 as (T1 & T2 & T3 & T4 & T5). unfold q_table. rewrite W2 in *. rewrite W3, W4, W5 in *. repeat split; try assumption; try lia; apply R7; assumption. }
      assert (S2 : q_table P h2). { destruct Z4 as (W1 & W2 & W3 & W4 & W5). destruct Q2 as (R1 & R2 & R3 & R4 & R5 & R6 & R7). destruct W1 as (T1 & T2 & T3 & T4 & T5). unfold q_table. rewrite W2 in *. rewrite W3, W4, W5 in *. repeat split; try assumption; try lia; apply R7; assumption. }
      destruct (gamma1_1loop_val P h1 (is_theta b) k S1) as [h3 B1]. destruct (gamma1_2loop_val P h2 (is_theta b) k S2) as [h4 B2]. rewrite flag_theta in B1, B2.
      rewrite B1. cbn [bind]. rewrite B2. cbn [bind]. exists h3, h4. rewrite !flag_theta.
      assert (X1 : single_sum P h1 k (prop_kernel (is_theta b)) = single_sum P g1 k (prop_kernel (is_theta b))) by (unfold single_sum; destruct Z2 as (_ & _ & -> & -> & _); reflexivity).
      assert (X2 : forall f, double_sum P h2 f = double_sum P g2 f) by (intros f; unfold double_sum; destruct Z4 as (_ & _ & -> & -> & _); reflexivity).
      rewrite X1, X2. reflexivity. }
  destruct C as (g1' & g2' & C). change (T RNum) with R in *. rewrite C in E. cbn [bind] in E.
  destruct (calc_gamma2_1loop_val pkl POLY P gd gt (vertex fuel st pkl) g m a b k run_lookup_is (run_vertex gd gt I5 I6 E5 E6) (proj1 (run_q _ _ I3 E3)) (run_mu _ _ I4 E4) Hk) as [g' [m' G]].
  rewrite run_im, G in E. cbn [bind] in E. cbn [comps map seq take firstn List.length Nat.leb bind] in E. injection E as <-.
  cbn [contents]. exists qmin, qmax, I. split; [exact F1|]. split.
  - eexists. split; [exact F2|]. intros x0 x1 x2 x3 x4 _. rewrite run_im.
    exact (gamma3_val pkl POLY P qmin qmax (ln qmin) (ln qmax) k a b x0 x1 x2 x3 x4 run_lookup).
  - unfold comps. cbn [map seq app]. rewrite !(mode_sum_3 _ _ _ g m _ E3 E4), cube3, pi2.
    replace ((2 * PI) ^ 6) with (1 * (2 * PI * (2 * PI)) * (2 * PI * (2 * PI) * (2 * PI * (2 * PI)))) by ring. reflexivity.
Qed.
Lemma bias_value g m a t half : d = D_bias -> new_q fuel st pkl "bias_1loop_q" = Ok g -> new_mu fuel st "bias_1loop_mu" = Ok m -> exists g' m',
  calc_pk_bias_1loop (N := RNum) pkl POLY g m a k (bias_fun t) half = Ok (bias_sum fuel st pkl k t (is_theta a) half, g', m').
Proof.
  intros Hd E1 E2.
  assert (I1 : In "bias_1loop_q"%string (q_tables_of d)) by (rewrite Hd; cbn; tauto).
  assert (I2 : In "bias_1loop_mu"%string (mu_tables_of d)) by (rewrite Hd; cbn; tauto).
  destruct (calc_bias_val pkl POLY P g m a t half k run_lookup_is (proj1 (run_q _ _ I1 E1)) (run_mu _ _ I2 E2) Hk) as [g' [m' C]].
  exists g', m'. rewrite C. apply f_equal. do 2 (apply f_equal2; [|reflexivity]). unfold bias_sum. rewrite (mode_sum_3 _ _ _ g m _ E1 E2), cube3, pi4.
  apply f_equal. rewrite <- (itquad_const half _ _ _ _ _ (if half then 2 else 1)). apply itquad_ext. intros i. ring.
Qed.
Lemma row_bias v : d = D_bias -> value_bias fuel st pkl k = Ok v -> contents fuel st suave1 suave12 pkl dt ptt k D_bias v.
Proof.
  intros Hd E. unfold value_bias in E. apply bind_inv in E. destruct E as [g [E1 E]]. apply bind_inv in E. destruct E as [m [E2 E]]. rewrite run_im in E.
  destruct (bias_value g m DELTA BiasB2 true Hd E1 E2) as (? & ? & C1). cbn [bias_fun] in C1. rewrite C1 in E. cbn [bind] in E.
  destruct (bias_value g m DELTA BiasBS2 true Hd E1 E2) as (? & ? & C2). cbn [bias_fun] in C2. rewrite C2 in E. cbn [bind] in E.
  destruct (bias_value g m THETA BiasB2 true Hd E1 E2) as (? & ? & C3). cbn [bias_fun] in C3. rewrite C3 in E. cbn [bind] in E.
  destruct (bias_value g m THETA BiasBS2 true Hd E1 E2) as (? & ? & C4). cbn [bias_fun] in C4. rewrite C4 in E. cbn [bind] in E.
  destruct (bias_value g m DELTA BiasB22 false Hd E1 E2) as (? & ? & C5). cbn [bias_fun] in C5. rewrite C5 in E. cbn [bind] in E.
  destruct (bias_value g m DELTA BiasB2S2 false Hd E1 E2) as (? & ? & C6). cbn [bias_fun] in C6. rewrite C6 in E. cbn [bind] in E.
  destruct (bias_value g m DELTA BiasBS22 false Hd E1 E2) as (? & ? & C7). cbn [bias_fun] in C7. rewrite C7 in E. cbn [bind] in E.
  destruct (bias_value g m DELTA BiasSigma3 false Hd E1 E2) as (? & ? & C8). cbn [bias_fun] in C8. rewrite C8 in E. cbn [bind] in E.
  injection E as <-. reflexivity.
Qed.
Lemma row_A_1loop v : d = D_A_1loop -> value_A_1loop fuel st pkl k = Ok v -> contents fuel st suave1 suave12 pkl dt ptt k D_A_1loop v.
Proof.
  intros Hd E. unfold value_A_1loop in E. apply bind_inv in E. destruct E as [g [E1 E]]. apply bind_inv in E. destruct E as [m [E2 E]].
  assert (I1 : In "A_1loop_q"%string (q_tables_of d)) by (rewrite Hd; cbn; tauto).
  assert (I2 : In "A_1loop_mu"%string (mu_tables_of d)) by (rewrite Hd; cbn; tauto).
  cbn [contents]. rewrite (the_q_is _ _ _ _ _ E1), (the_mu_is _ _ _ _ E2). cbn zeta.
  destruct (calc_A_spec pkl POLY POLY P (P k) g m k run_lookup_is (run_lookup k) (proj1 (run_q _ _ I1 E1)) (run_mu _ _ I2 E2) Hk) as (g' & m' & err & C & Herr).
  rewrite !run_im, C in E. cbn [bind] in E. exists err. split; [|exact Herr].
  assert (EV : forall l : list R, List.length l = 5%nat -> take (N := RNum) 5 l = Ok v -> v = l).
  { intros l Hl. unfold take. change (T RNum) with R. rewrite Hl. cbn [Nat.leb]. rewrite <- Hl, firstn_all. congruence. }
  rewrite (EV _ (eq_trans (map_length _ _) (seq_length _ _)) E). apply map_ext. intros c. rewrite cube3, pi4. reflexivity.
Qed.
Lemma sum_A_val (I : nat -> R) : sum_A (N := RNum) (comps 12 I) = Ok (comps 5 (A_five I)).
Proof. reflexivity. Qed.
Lemma sum_B_val (I : nat -> R) : sum_B (N := RNum) (comps 12 I) = Ok (comps 9 (B_nine I)).
Proof. reflexivity. Qed.
Lemma sum_A_list (l v : list R) : sum_A (N := RNum) l = Ok v -> v = comps 5 (A_five (at_ l)).
Proof.
  unfold sum_A. intros E. repeat (apply bind_inv in E; let a := fresh "a" in let Ha := fresh "Ha" in destruct E as [a [Ha E]]; apply (rd_inv 0) in Ha; destruct Ha as [_ Ha]; subst a).
  injection E as <-. reflexivity.
Qed.
Lemma row_A_2loop v : d = D_A_2loop -> value_of fuel st suave1 suave12 D_A_2loop pkl dt ptt k = Ok v -> contents fuel st suave1 suave12 pkl dt ptt k D_A_2loop v.
Proof.
  intros Hd E. cbn [value_of] in E. apply bind_inv in E. destruct E as [u [E F]]. apply bind_inv in F. destruct F as [w [F W]].
  unfold value_A_II_III in F. apply bind_inv in F. destruct F as [[qmin qmax] [F1 F]]. apply bind_inv in F. destruct F as [y [F2 F]].
  unfold calc_pk_A_2loop_II_III in F2. apply bind_inv in F2. destruct F2 as [I [F2 F3]].
  unfold value_A_2loop in E. apply bind_inv in E. destruct E as [g [E1 E]]. apply bind_inv in E. destruct E as [m [E2 E]]. apply bind_inv in E. destruct E as [g1 [E3 E]].
  apply bind_inv in E. destruct E as [gd [E4 E]]. apply bind_inv in E. destruct E as [gt [E5 E]].
  assert (I1 : In "A_2loop_I_q"%string (q_tables_of d)) by (rewrite Hd; cbn; tauto).
  assert (I2 : In "A_2loop_I_mu"%string (mu_tables_of d)) by (rewrite Hd; cbn; tauto).
  assert (I3 : In "gamma1_1loop_q"%string (q_tables_of d)) by (rewrite Hd; cbn; tauto).
  assert (I4 : In "gamma2d_1loop_q"%string (q_tables_of d)) by (rewrite Hd; cbn; tauto).
  assert (I5 : In "gamma2t_1loop_q"%string (q_tables_of d)) by (rewrite Hd; cbn; tauto).
  rewrite run_s in E, F2.
  destruct (calc_A_I_val pkl POLY _ g1 gd gt P (the_S st pkl) (prop1 fuel st pkl) (vertex fuel st pkl) g m k run_lookup run_S (proj1 (proj2 (run_q _ _ I3 E3)))
    (run_prop1 g1 I3 E3) (run_vertex gd gt I4 I5 E4 E5) (proj1 (run_q _ _ I1 E1)) (run_mu _ _ I2 E2) Hk) as (g' & m' & C).
  change (T RNum) with R in *. rewrite C in E. cbn [bind] in E. cbn [contents]. fold P.
  set (M := fun n => mode_sum fuel st pkl k true 1 "A_2loop_I_q" "A_2loop_I_mu" (fun x mu => A_first P (the_S st pkl) (prop1 fuel st pkl) (vertex fuel st pkl) k x mu n)).
  match type of E with sum_A (comps 12 ?f) = _ => assert (CM : comps 12 f = comps 12 (fun c => k ^ 3 / (2 * PI ^ 2) * M c)) by (apply map_ext; intros c; unfold M; rewrite (mode_sum_1 _ _ _ g m _ E1 E2), cube3, pi2; reflexivity) end.
  rewrite CM in E. rewrite sum_A_val in E. injection E as <-.
  injection F3 as <-. apply sum_A_list in F. subst w. injection W as <-.
  exists qmin, qmax, I. split; [exact F1|]. split.
  - eexists. split; [exact F2|]. intros x0 x1 x2 x3 x4 Hx. apply (A_second_kernel pkl POLY _ P (the_S st pkl) _ _ k x0 x1 x2 x3 x4 run_lookup run_S Hk). apply Hx. cbn. tauto.
  - assert (AM : forall n, at_ (map (fun v : R => (v * (k * k * k / (2 * PI * PI)))) I) n = k ^ 3 / (2 * PI ^ 2) * at_ I n).
    { intros n. unfold at_. transitivity (nth n (map (fun v : R => v * (k * k * k / (2 * PI * PI))) I) (0 * (k * k * k / (2 * PI * PI)))); [f_equal; ring|].
      rewrite (map_nth (fun v : R => v * (k * k * k / (2 * PI * PI)))), cube3, pi2. ring. }
    transitivity (comps 5 (fun c => k ^ 3 / (2 * PI ^ 2) * A_five (fun n => M n + at_ I n) c)); [|reflexivity]. clearbody M.
    unfold comps. cbn [map seq zipw]. unfold A_five. rn. rn_in AM. rewrite !AM.
    change (k * (k * (k * 1)) / (2 * (PI * (PI * 1)))) with (k ^ 3 / (2 * PI ^ 2)). set (F := k ^ 3 / (2 * PI ^ 2)). repeat (apply f_equal2; [ring|]). reflexivity.
Qed.
Lemma row_B v : d = D_B -> two_points dt -> two_points ptt -> value_B fuel st pkl dt ptt k = Ok v -> contents fuel st suave1 suave12 pkl dt ptt k D_B v.
Proof.
  intros Hd Hdt Htt E. unfold value_B in E. apply bind_inv in E. destruct E as [g [E1 E]]. apply bind_inv in E. destruct E as [m [E2 E]].
  assert (I1 : In "B_q"%string (q_tables_of d)) by (rewrite Hd; cbn; tauto).
  assert (I2 : In "B_mu"%string (mu_tables_of d)) by (rewrite Hd; cbn; tauto).
  destruct B_spec as [K [B1 [B2 _]]].
  destruct (B1 dt ptt POLY (lookup_of dt POLY) (lookup_of ptt POLY) P g m k (fun q _ => two_lookup dt Hdt q) (fun q _ => two_lookup ptt Htt q) (proj1 (run_q _ _ I1 E1)) (run_mu _ _ I2 E2) Hk) as (g' & m' & C).
  rewrite run_im, C in E. cbn [bind] in E. rewrite sum_B_val in E. injection E as <-.
  cbn [contents]. exists K. cbn zeta. split.
  - intros x mu nu H1 H2 H3 H4. exact (B2 (lookup_of dt POLY) (lookup_of ptt POLY) k x mu nu Hk H1 H2 H3 H4).
  - unfold comps. cbn [map seq]. unfold B_nine. rewrite !(mode_sum_1 _ _ _ g m _ E1 E2), cube3, pi2. repeat (apply f_equal2; [ring|]). reflexivity.
Qed.
End Rows.

Theorem row_contents fuel st suave1 suave12 pkl dt ptt k d v : two_points pkl -> (d = D_B -> two_points dt /\ two_points ptt) -> regular_run st pkl d -> 0 < k ->
  value_of fuel st suave1 suave12 d pkl dt ptt k = Ok v -> contents fuel st suave1 suave12 pkl dt ptt k d v.
Proof.
  intros HT HB HR Hk E. destruct d as [a b|a b| | | |].
  - exact (row_1loop fuel st suave1 suave12 pkl dt ptt k _ HT HR Hk a b v eq_refl E).
  - exact (row_2loop fuel st suave1 suave12 pkl dt ptt k _ HT HR Hk a b v eq_refl E).
  - exact (row_bias fuel st suave1 suave12 pkl dt ptt k _ HT HR Hk v eq_refl E).
  - exact (row_A_1loop fuel st suave1 suave12 pkl dt ptt k _ HT HR Hk v eq_refl E).
  - exact (row_A_2loop fuel st suave1 suave12 pkl dt ptt k _ HT HR Hk v eq_refl E).
  - destruct (HB eq_refl). exact (row_B fuel st suave1 suave12 pkl dt ptt k _ HT HR Hk v eq_refl H H0 E).
Qed.
