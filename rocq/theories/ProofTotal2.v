(** ProofTotal2: the bias spectra returned against the integrals of the sampled spectrum. *)
From Coq Require Import Reals Lra Lia List ZArith String.
From Coquelicot Require Import Coquelicot.
From Verif Require Import Base Num BaseFacts Common Kernels Integrals Registry Threads PyTerms Spec SpecPT SpecQuad SpecKernels SpecLoops SpecIntegrals SpecThreads SpecScratch SpecDefined SpecColumns SpecConv SpecPy SpecScale SpecSym SpecDamped SpecSamples SpecTotal SpecTotal2
  ProofKernels ProofCommon3 ProofScratch3 ProofPy ProofPy2 ProofPositive2 ProofQuad2 ProofSamples3 ProofSamples5 ProofSamples6 ProofTotal ProofDamped.
Import ListNotations.
Local Open Scope R_scope.

Lemma bias_entry ks ps ss vals j name i : nth_error bias_names j = Some name -> (i < List.length ks)%nat ->
  entry (columns_of D_bias ks ps ss vals) name i = at_ (vals (Z.of_nat i)) j.
Proof.
  intros H Hi. do 8 (destruct j as [|j]; [injection H as <-; unfold entry, columns_of, getitem; cbn [names_of List.length seq combine map fst snd assoc String.eqb Ascii.eqb Bool.eqb]; rewrite nth_rows by exact Hi; reflexivity|]).
  destruct j; discriminate.
Qed.
Lemma assoc_pair {A} (c : list (string * A)) x v : assoc c x = Some v -> In (x, v) c.
Proof. induction c as [|[y w] c IH]; cbn; [discriminate|]. destruct (String.eqb_spec x y) as [->|Ne]; [intros [= ->]; left; reflexivity|right; auto]. Qed.
Lemma bias_complete ks ps ss vals : List.length ps = List.length ks -> List.length ss = List.length ks -> complete CBias (columns_of D_bias ks ps ss vals) (List.length ks).
Proof.
  intros L1 L2. split.
  - intros x. reflexivity.
  - intros x v H. apply getitem_assoc, assoc_pair in H. cbn [ncomp]. rewrite Nat.mul_1_r.
    assert (LR : forall f : list R -> R, List.length (map f (rows (List.length ks) vals)) = List.length ks) by (intros f; unfold rows; rewrite !map_length, seq_length; reflexivity).
    unfold columns_of in H. cbn [names_of List.length seq combine map fst snd In] in H.
    repeat (destruct H as [H|H]; [injection H as <- <-; first [reflexivity|exact L1|exact L2|apply LR]|]). contradiction.
Qed.

(** The columns of a run: lengths, linear spectrum *)
Lemma run_columns fuel st suave1 suave12 pkl dt ptt ks ps ss vals delta P M h K Pv : samples P 5 M h K Pv -> (3 <= zlen K < 2 ^ 62)%Z -> (forall m, (3 <= m <= 5)%nat -> poly_error M h m <= delta) ->
  pkl = mk_table (N := RNum) K Pv -> regular_run st pkl D_bias -> computes (N := RNum) fuel st suave1 suave12 D_bias pkl dt ptt ks ps ss vals -> ascending ks ->
  List.length ps = List.length ks /\ (forall i, (i < List.length ks)%nat -> at_ K 0 <= nth i ks 0 <= at_ K (List.length K - 1) -> Rabs (nth i ps 0 - P 0%nat (nth i ks 0)) <= delta) /\
  calc_running_sigmad2 (N := RNum) (mk_table (N := RNum) K Pv) ks (s_cutoff st (cutoff_of D_bias)) = Ok ss.
Proof.
  intros HS HK Hd HT HR HC Hks. assert (LK : List.length Pv = List.length K) by apply HS. assert (IK : increasing K) by apply HS.
  pose proof HC as (F1 & F2 & _). rewrite (proj2 (rr_cubic _ _ _ HR)) in F1. rewrite HT in F1, F2. change (T RNum) with R in *.
  pose proof (find_pk_length (N := RNum) _ _ _ _ F1) as L1. change (T RNum) with R in *.
  pose proof (proj1 (lookup_elementwise_R K Pv POLY ks LK ltac:(lia) IK Hks ps) F1) as F4. split; [exact L1|]. split; [|exact F2].
  intros i Hi Hkr. pose proof (Forall2_at _ 0 0 ks ps F4 i Hi) as S2. cbv beta in S2. apply (F_of K Pv) in S2.
  pose proof (lookup_near P M h K Pv delta _ HS HK Hd Hkr) as S3. rewrite S2 in S3. exact S3.
Qed.
Lemma pow4_pos D : 0 <= D ^ 4.
Proof. replace (D ^ 4) with ((D ^ 2) ^ 2) by ring. apply pow2_ge_0. Qed.
Lemma at_map_seq (f : nat -> R) n i : (i < n)%nat -> at_ (map f (seq 0 n)) i = f i.
Proof. intros H. unfold at_. rewrite (nth_indep _ 0 (f 0%nat)) by (rewrite map_length, seq_length; exact H). rewrite map_nth, seq_nth by exact H. reflexivity. Qed.
Lemma damped_close D k s s' x x' es e : 0 <= s -> 0 <= s' -> Rabs (s - s') <= es -> Rabs (x - x') <= e -> Rabs (damped D k s x - damped D k s' x') <= damped_err D k x' es e.
Proof.
  intros Hs Hs' Es Ex. unfold damped, damped_err. cbv zeta. set (ef := D ^ 2 * k ^ 2 * es / 2).
  pose proof (pow2_ge_0 D) as HD. pose proof (pow2_ge_0 k) as Hk. assert (HDk : 0 <= D ^ 2 * k ^ 2) by (apply Rmult_le_pos; assumption).
  assert (Hf : 0 <= damping D k s) by (unfold damping; apply Rmult_le_pos; [apply Rmult_le_pos; assumption|lra]).
  assert (Hf' : 0 <= damping D k s') by (unfold damping; apply Rmult_le_pos; [apply Rmult_le_pos; assumption|lra]).
  assert (Ef : Rabs (damping D k s - damping D k s') <= ef).
  { unfold damping, ef. replace (D ^ 2 * k ^ 2 * s / 2 - D ^ 2 * k ^ 2 * s' / 2) with (D ^ 2 * k ^ 2 * (s - s') / 2) by field. unfold Rdiv. rewrite !Rabs_mult, (Rabs_right (/ 2)) by lra. rewrite <- Rabs_mult, (Rabs_right (D ^ 2 * k ^ 2)) by lra.
    apply Rmult_le_compat_r; [lra|]. apply Rmult_le_compat_l; assumption. }
  set (f := damping D k s) in *. set (f' := damping D k s') in *.
  pose proof (exp_lip_lin f f' Hf Hf') as LL. pose proof (exp_neg_lin f Hf) as A1. pose proof (exp_neg_lin f' Hf') as A2.
  assert (A0 : 0 <= exp (- f) * (1 + f)) by (apply Rmult_le_pos; [left; apply exp_pos|lra]). assert (A0' : 0 <= exp (- f') * (1 + f')) by (apply Rmult_le_pos; [left; apply exp_pos|lra]).
  set (g := exp (- f) * (1 + f)) in *. set (g' := exp (- f') * (1 + f')) in *.
  replace (D ^ 4 * g ^ 2 * x - D ^ 4 * g' ^ 2 * x') with (D ^ 4 * (g ^ 2 * (x - x') + (g + g') * (g - g') * x')) by ring.
  rewrite Rabs_mult, (Rabs_right (D ^ 4)) by (apply Rle_ge, pow4_pos). apply Rmult_le_compat_l; [apply pow4_pos|].
  eapply Rle_trans; [apply Rabs_triang|]. rewrite !Rabs_mult. apply Rplus_le_compat.
  - rewrite (Rabs_right (g ^ 2)) by (apply Rle_ge, pow2_ge_0). pose proof (Rabs_pos (x - x')). assert (g ^ 2 <= 1) by nra. nra.
  - apply Rmult_le_compat_r; [apply Rabs_pos|]. rewrite (Rabs_right (g + g')) by lra. apply Rmult_le_compat; [lra|apply Rabs_pos|lra|lra].
Qed.
Lemma bias_named fuel st suave1 suave12 pkl dt ptt ks ps ss vals ik qmin qmax lam B C delta P M h K Pv D j name t a half :
  samples P 5 M h K Pv -> (3 <= zlen K < 2 ^ 62)%Z -> (forall m, (3 <= m <= 5)%nat -> poly_error M h m <= delta) -> 0 <= delta <= 1 ->
  pkl = mk_table (N := RNum) K Pv -> at_ K 0 <= qmin -> qmax <= at_ K (List.length K - 1) -> regular_run st pkl D_bias ->
  let n := pr_n (s_prec st "bias_1loop_q") in let m := pr_n (s_prec st "bias_1loop_mu") in let k := k_ (N := RNum) ks ik in
  q_range (N := RNum) (s_prec st "bias_1loop_q") pkl = Ok (qmin, qmax) -> 0 < qmin < qmax ->
  computes (N := RNum) fuel st suave1 suave12 D_bias pkl dt ptt ks ps ss vals -> ascending ks -> (0 <= ik < zlen ks)%Z -> 0 < k -> 0 <= lam -> 0 <= B -> 0 <= C -> 
  (j < 7)%nat -> nth_error bias_names j = Some name -> nth_error bias_columns j = Some (t, a, half) ->
  smooth half (qmin / k) (qmax / k) (bias_integrand t (P 0%nat) a k) lam B -> stable half k qmin qmax (fun F => bias_integrand t F a k) (P 0%nat) C ->
  exists out, accessor (N := RNum) CBias name (columns_of D_bias ks ps ss vals) D = Ok out /\ List.length out = List.length ks /\
    Rabs (at_ out (Z.to_nat ik) - D ^ 4 * bias_continuum (P 0%nat) t a half k qmin qmax) <= D ^ 4 * (k ^ 3 / (2 * PI ^ 2) * (mode_bound n m 3 k qmin qmax lam B + mode_change_bound n m 3 k qmin qmax (C * delta))).
Proof.
  intros HS HK Hd Hdl HT Q3 Q4 HR n m k Q1 Q2 HC Hks Hik Hk Hlam HB HCC Hj Hn Hc HSm HSt.
  pose proof (sampled_bias fuel st suave1 suave12 pkl dt ptt ks ps ss vals ik qmin qmax lam B C delta P M h K Pv j t a half HS HK Hd Hdl HT Q3 Q4 HR Q1 Q2 HC Hik Hk Hlam HB HCC Hc HSm HSt) as G. fold n m k in G.
  destruct (run_columns fuel st suave1 suave12 pkl dt ptt ks ps ss vals delta P M h K Pv HS HK Hd HT HR HC Hks) as (L1 & _ & E).
  assert (L2 : List.length ss = List.length ks) by exact (sigma_length _ _ _ _ _ _ E).
  set (i := Z.to_nat ik). assert (Hi : (i < List.length ks)%nat) by (unfold i; unfold zlen in Hik; change (T RNum) with R in *; lia). assert (Ei : ik = Z.of_nat i) by (unfold i; lia).
  eexists. split; [apply (named_val CBias _ (List.length ks) name D (bias_complete ks ps ss vals L1 L2))|].
  { do 7 (destruct j as [|j]; [injection Hn as <-; cbn; tauto|]). lia. }
  cbn [ncomp]. rewrite Nat.mul_1_r. split; [rewrite map_length, seq_length; reflexivity|].
  rewrite at_map_seq by exact Hi. rewrite (bias_entry ks ps ss vals j name i Hn Hi), <- Ei.
  replace (D ^ (2 * powers CBias name)) with (D ^ 4) by (do 7 (destruct j as [|j]; [injection Hn as <-; reflexivity|]); lia).
  rewrite <- Rmult_minus_distr_l, Rabs_mult, (Rabs_right (D ^ 4)) by (apply Rle_ge, pow4_pos). apply Rmult_le_compat_l; [apply pow4_pos|exact G].
Qed.
Lemma bias_damped fuel st suave1 suave12 pkl dt ptt ks ps ss vals ik qmin qmax lam B C delta P M h K Pv D j name t a half :
  samples P 5 M h K Pv -> (3 <= zlen K < 2 ^ 62)%Z -> (forall m, (3 <= m <= 5)%nat -> poly_error M h m <= delta) -> 0 <= delta <= 1 ->
  pkl = mk_table (N := RNum) K Pv -> at_ K 0 <= qmin -> qmax <= at_ K (List.length K - 1) -> regular_run st pkl D_bias ->
  let n := pr_n (s_prec st "bias_1loop_q") in let m := pr_n (s_prec st "bias_1loop_mu") in let k := k_ (N := RNum) ks ik in
  q_range (N := RNum) (s_prec st "bias_1loop_q") pkl = Ok (qmin, qmax) -> 0 < qmin < qmax ->
  computes (N := RNum) fuel st suave1 suave12 D_bias pkl dt ptt ks ps ss vals -> ascending ks -> (0 <= ik < zlen ks)%Z -> 0 < k -> 0 <= lam -> 0 <= B -> 0 <= C -> 
  let uv := s_cutoff st (cutoff_of D_bias) in 0 <= uv -> at_ K 0 <= k * uv -> at_ K 0 <= k <= at_ K (List.length K - 1) -> (forall q, at_ K 0 <= q <= at_ K (List.length K - 1) -> 0 <= P 0%nat q) ->
  (4 <= j < 7)%nat -> nth_error bias_names j = Some name -> nth_error bias_columns j = Some (t, a, half) ->
  smooth half (qmin / k) (qmax / k) (bias_integrand t (P 0%nat) a k) lam B -> stable half k qmin qmax (fun F => bias_integrand t F a k) (P 0%nat) C ->
  let c := Rmin (k * uv) (at_ K (List.length K - 1)) in let x := bias_continuum (P 0%nat) t a half k qmin qmax in
  exists out, pk_damped (N := RNum) name (columns_of D_bias ks ps ss vals) D None = Ok out /\ List.length out = List.length ks /\
    Rabs (at_ out (Z.to_nat ik) - damped D k (RInt (P 0%nat) (at_ K 0) c / (6 * PI ^ 2)) x) <=
    damped_err D k x ((c - at_ K 0) * (M 2%nat * h ^ 2 / 8) / (6 * PI ^ 2)) (k ^ 3 / (2 * PI ^ 2) * (mode_bound n m 3 k qmin qmax lam B + mode_change_bound n m 3 k qmin qmax (C * delta))).
Proof.
  intros HS HK Hd Hdl HT Q3 Q4 HR n m k Q1 Q2 HC Hks Hik Hk Hlam HB HCC uv Huv Hkuv Hkr Hpos Hj Hn Hc HSm HSt c x.
  pose proof (sampled_bias fuel st suave1 suave12 pkl dt ptt ks ps ss vals ik qmin qmax lam B C delta P M h K Pv j t a half HS HK Hd Hdl HT Q3 Q4 HR Q1 Q2 HC Hik Hk Hlam HB HCC Hc HSm HSt) as G. fold n m k x in G.
  destruct (run_columns fuel st suave1 suave12 pkl dt ptt ks ps ss vals delta P M h K Pv HS HK Hd HT HR HC Hks) as (L1 & _ & E). fold uv in E.
  assert (LK : List.length Pv = List.length K) by apply HS. assert (IK : increasing K) by apply HS.
  destruct (sampled_variance P M h K Pv ks uv (samples_fewer P 5 2 M h K Pv ltac:(lia) HS) ltac:(lia) Hks Huv) as (vs & E' & F3). rewrite E in E'. injection E' as <-.
  assert (PP : forall i, (i < List.length K)%nat -> 0 <= at_ Pv i).
  { intros i Hi. rewrite (sm_values _ _ _ _ _ _ HS i Hi). apply Hpos. split; [destruct i; [lra|left; apply IK; lia]|]. destruct (Nat.eq_dec i (List.length K - 1)) as [->|]; [lra|left; apply IK; lia]. }
  destruct (sigmad2_mono_final K Pv ks uv LK ltac:(lia) IK PP Hks Huv ss E) as (Hnn & _).
  assert (L2 : List.length ss = List.length ks) by (clear - F3; induction F3; cbn; [reflexivity|f_equal; assumption]).
  set (i := Z.to_nat ik). assert (Hi : (i < List.length ks)%nat) by (unfold i; unfold zlen in Hik; change (T RNum) with R in *; lia). assert (Ei : ik = Z.of_nat i) by (unfold i; lia).
  assert (Ek : k = nth i ks 0) by reflexivity.
  pose proof (Forall2_at _ 0 0 ks ss F3 i Hi) as S1. cbv beta zeta in S1. specialize (S1 Hkuv). fold c in S1.
  eexists. split; [apply (damped_val _ (List.length ks) name D None (bias_complete ks ps ss vals L1 L2)); [|exact I]|].
  { do 7 (destruct j as [|j]; [try lia; injection Hn as <-; cbn; tauto|]). lia. }
  split; [rewrite map_length, seq_length; reflexivity|].
  rewrite at_map_seq by exact Hi. rewrite (bias_entry ks ps ss vals j name i Hn Hi), <- Ei.
  change (entry (columns_of D_bias ks ps ss vals) "k" i) with (nth i ks 0). change (dispersion (columns_of D_bias ks ps ss vals) None i) with (nth i ss 0). rewrite <- Ek.
  apply damped_close; [apply Hnn, nth_In; rewrite L2; exact Hi| |exact S1|exact G].
  apply Rdiv_le_0_compat; [|pose proof (pow_lt PI 2 PI_RGT_0); lra].
  assert (Hc1 : at_ K 0 <= c) by (unfold c; apply Rmin_glb; [exact Hkuv|exact (Rle_trans _ k _ (proj1 Hkr) (proj2 Hkr))]). assert (Hc2 : c <= at_ K (List.length K - 1)) by (unfold c; apply Rmin_r).
  apply RInt_ge_0; [exact Hc1| |intros y Hy; apply Hpos; split; [lra|apply (Rle_trans _ c); [lra|exact Hc2]]].
  apply (ex_RInt_continuous (V := R_CompleteNormedModule)). intros y Hy. rewrite Rmin_left, Rmax_right in Hy by lra. apply (ex_derive_continuous (P 0%nat)). exists (P 1%nat y). apply (sm_smooth _ _ _ _ _ _ HS); [lia|]. split; [lra|apply (Rle_trans _ c); [lra|exact Hc2]].
Qed.
Lemma bias_sigma3sq fuel st suave1 suave12 pkl dt ptt ks ps ss vals ik qmin qmax lam B C delta P M h K Pv D :
  samples P 5 M h K Pv -> (3 <= zlen K < 2 ^ 62)%Z -> (forall m, (3 <= m <= 5)%nat -> poly_error M h m <= delta) -> 0 <= delta <= 1 ->
  pkl = mk_table (N := RNum) K Pv -> at_ K 0 <= qmin -> qmax <= at_ K (List.length K - 1) -> regular_run st pkl D_bias ->
  let n := pr_n (s_prec st "bias_1loop_q") in let m := pr_n (s_prec st "bias_1loop_mu") in let k := k_ (N := RNum) ks ik in
  q_range (N := RNum) (s_prec st "bias_1loop_q") pkl = Ok (qmin, qmax) -> 0 < qmin < qmax ->
  computes (N := RNum) fuel st suave1 suave12 D_bias pkl dt ptt ks ps ss vals -> ascending ks -> (0 <= ik < zlen ks)%Z -> 0 < k -> 0 <= lam -> 0 <= B -> 0 <= C -> at_ K 0 <= k <= at_ K (List.length K - 1) ->
  smooth false (qmin / k) (qmax / k) (bias_integrand BiasSigma3 (P 0%nat) false k) lam B -> stable false k qmin qmax (fun F => bias_integrand BiasSigma3 F false k) (P 0%nat) C ->
  let x := bias_continuum (P 0%nat) BiasSigma3 false false k qmin qmax in
  exists out, pk_sigma3sq (N := RNum) (columns_of D_bias ks ps ss vals) D = Ok out /\ List.length out = List.length ks /\
    Rabs (at_ out (Z.to_nat ik) - D ^ 4 * (P 0%nat k * x)) <= product_err D (P 0%nat k) x delta (k ^ 3 / (2 * PI ^ 2) * (mode_bound n m 3 k qmin qmax lam B + mode_change_bound n m 3 k qmin qmax (C * delta))).
Proof.
  intros HS HK Hd Hdl HT Q3 Q4 HR n m k Q1 Q2 HC Hks Hik Hk Hlam HB HCC Hkr HSm HSt x.
  pose proof (sampled_bias fuel st suave1 suave12 pkl dt ptt ks ps ss vals ik qmin qmax lam B C delta P M h K Pv 7 BiasSigma3 false false HS HK Hd Hdl HT Q3 Q4 HR Q1 Q2 HC Hik Hk Hlam HB HCC eq_refl HSm HSt) as G. fold n m k x in G.
  destruct (run_columns fuel st suave1 suave12 pkl dt ptt ks ps ss vals delta P M h K Pv HS HK Hd HT HR HC Hks) as (L1 & S2 & E).
  assert (L2 : List.length ss = List.length ks) by exact (sigma_length _ _ _ _ _ _ E).
  set (i := Z.to_nat ik). assert (Hi : (i < List.length ks)%nat) by (unfold i; unfold zlen in Hik; change (T RNum) with R in *; lia). assert (Ei : ik = Z.of_nat i) by (unfold i; lia).
  assert (Ek : k = nth i ks 0) by reflexivity. specialize (S2 i Hi). rewrite <- Ek in S2. specialize (S2 Hkr).
  eexists. split; [apply (sigma3sq_val _ (List.length ks) D (bias_complete ks ps ss vals L1 L2))|].
  split; [rewrite map_length, seq_length; reflexivity|].
  rewrite at_map_seq by exact Hi. rewrite (bias_entry ks ps ss vals 7 "sigma3sq" i eq_refl Hi), <- Ei. change (entry (columns_of D_bias ks ps ss vals) "pk_lin" i) with (nth i ps 0).
  rewrite <- Rmult_minus_distr_l, Rabs_mult, (Rabs_right (D ^ 4)) by (apply Rle_ge, pow4_pos). unfold product_err. apply Rmult_le_compat_l; [apply pow4_pos|].
  set (y := at_ (vals ik) 7) in *. set (p := nth i ps 0) in *. set (e := k ^ 3 / (2 * PI ^ 2) * (mode_bound n m 3 k qmin qmax lam B + mode_change_bound n m 3 k qmin qmax (C * delta))) in *.
  assert (Y : Rabs y <= Rabs x + e) by (replace y with (x + (y - x)) by ring; eapply Rle_trans; [apply Rabs_triang|lra]).
  replace (p * y - P 0%nat k * x) with (P 0%nat k * (y - x) + (p - P 0%nat k) * y) by ring. eapply Rle_trans; [apply Rabs_triang|]. rewrite !Rabs_mult. apply Rplus_le_compat.
  - apply Rmult_le_compat_l; [apply Rabs_pos|exact G].
  - apply Rmult_le_compat; try apply Rabs_pos; assumption.
Qed.
