(** ProofSamples6: columns of runs with a sampled spectrum against the integrals of the spectrum itself. *)
From Coq Require Import Reals Lra Lia List ZArith String.
From Coquelicot Require Import Coquelicot.
From Verif Require Import Base Num BaseFacts Common Kernels Integrals Registry Threads Spec SpecPT SpecQuad SpecKernels SpecLoops SpecIntegrals SpecThreads SpecScratch SpecDefined SpecColumns SpecConv ProofColumns ProofKernels ProofThreads8 ProofDefined12
  ProofColumns3 ProofColumns4 ProofNewton7 ProofNewton8 ProofQuad ProofQuad2 ProofQuad3 ProofConv ProofConv2 ProofConv3 ProofConv4 SpecSamples ProofSamples3 ProofSamples4 ProofSamples5.
Import ListNotations.
Local Open Scope R_scope.

Lemma add_error x y z a b : Rabs (x - y) <= a -> Rabs (y - z) <= b -> Rabs (x - z) <= b + a.
Proof. intros H1 H2. replace (x - z) with ((y - z) + (x - y)) by ring. eapply Rle_trans; [apply Rabs_triang|]. apply Rplus_le_compat; assumption. Qed.
Lemma sampled_gamma1 fuel st suave1 suave12 a b d pkl dt ptt ks ps ss vals ik qmin qmax lam M1 N delta P M h K Pv :
  samples P 5 M h K Pv -> (3 <= zlen K < 2 ^ 62)%Z -> (forall m, (3 <= m <= 5)%nat -> poly_error M h m <= delta) -> pkl = mk_table (N := RNum) K Pv -> at_ K 0 <= qmin -> qmax <= at_ K (List.length K - 1) ->
  d = D_1loop a b \/ d = D_2loop a b -> regular_run st pkl d ->
  let n := pr_n (s_prec st "gamma1_1loop_q") in let k := k_ (N := RNum) ks ik in
  q_range (N := RNum) (s_prec st "gamma1_1loop_q") pkl = Ok (qmin, qmax) -> 0 < qmin < qmax ->
  computes (N := RNum) fuel st suave1 suave12 d pkl dt ptt ks ps ss vals -> (0 <= ik < zlen ks)%Z -> 0 < k -> 0 <= lam ->
  (forall t, bounded_lipschitz (fun s => prop_exact t (exp s / k) * P 0%nat (exp s)) (ln qmin) (ln qmax) lam M1) -> (forall t q, qmin <= q <= qmax -> Rabs (prop_exact t (q / k)) <= N) ->
  let bound := propagator_bound n k qmin qmax lam M1 (M 0%nat) + propagator_change n k qmin qmax N delta in
  Rabs (at_ (vals ik) 0 - exact_integral (P 0%nat) (is_theta a) k qmin qmax) <= bound /\
  Rabs (at_ (vals ik) (match d with D_1loop _ _ => 1 | _ => 2 end) - exact_integral (P 0%nat) (is_theta b) k qmin qmax) <= bound.
Proof.
  intros HSm HB Hdl EP HK0 HK1 Hd HR n k ER Hq HC Hik Hk Hlam HL HN bound.
  assert (HT : two_points pkl) by (rewrite EP; apply (sampled_points P 5 M h); [exact HSm|lia]).
  assert (HD : d = D_B -> two_points dt /\ two_points ptt) by (intros ->; destruct Hd; discriminate).
  pose proof (run_contents fuel st suave1 suave12 d pkl dt ptt ks ps ss vals HT HD HR HC ik Hik Hk) as V.
  destruct (makes_gamma1 fuel st suave1 suave12 a b pkl dt ptt _ d _ Hd (proj2 (proj2 HC) ik Hik)) as [g E].
  assert (Hn : (1 <= n < 2 ^ 62)%Z) by (apply (rr_q _ _ _ HR); destruct Hd as [->| ->]; cbn; tauto).
  assert (A : forall t, Rabs (prop1 fuel st pkl t k - exact_integral (P 0%nat) t k qmin qmax) <= bound).
  { intros t. unfold prop1. rewrite (the_q_is fuel st pkl _ g E). apply (add_error _ (single_sum (P 0%nat) g k (prop_kernel t))).
    - apply (propagator_stable fuel _ pkl g t k qmin qmax _ _ N delta Hn ER Hq Hk E (HN t)). intros q Hq'. unfold the_P. rewrite EP. apply (lookup_near P M h); try assumption. lra.
    - apply (propagator_any fuel _ pkl g t k qmin qmax (P 0%nat) lam M1 (M 0%nat) Hn ER Hq Hk Hlam E (HL t)). intros q Hq'. apply (sm_bound _ _ _ _ _ _ HSm); [lia|lra]. }
  change (T RNum) with R in *. fold k in V. destruct Hd as [->| ->]; cbn [contents] in V.
  - rewrite V. split; apply A.
  - destruct V as (a1 & b1 & I & _ & _ & V). rewrite V. split; apply A.
Qed.
Lemma sampled_mode_sum fuel st pkl k half p gq gm g m qmin qmax I lam B C delta P M h K Pv : samples P 5 M h K Pv -> (3 <= zlen K < 2 ^ 62)%Z -> (forall m, (3 <= m <= 5)%nat -> poly_error M h m <= delta) -> 0 <= delta <= 1 ->
  pkl = mk_table (N := RNum) K Pv -> at_ K 0 <= qmin -> qmax <= at_ K (List.length K - 1) ->
  new_q (N := RNum) fuel st pkl gq = Ok g -> new_mu (N := RNum) fuel st gm = Ok m ->
  (1 <= pr_n (s_prec st gq) < 2 ^ 62)%Z -> (1 <= pr_n (s_prec st gm) < 2 ^ 62)%Z -> q_range (N := RNum) (s_prec st gq) pkl = Ok (qmin, qmax) -> 0 < qmin < qmax -> 0 < k -> 0 <= lam -> 0 <= B -> 0 <= C ->
  smooth half (qmin / k) (qmax / k) (I (P 0%nat)) lam B -> stable half k qmin qmax I (P 0%nat) C ->
  Rabs (mode_sum fuel st pkl k half p gq gm (I (lookup_of pkl POLY)) - mode_integral half p k qmin qmax (I (P 0%nat))) <=
    mode_bound (pr_n (s_prec st gq)) (pr_n (s_prec st gm)) p k qmin qmax lam B + mode_change_bound (pr_n (s_prec st gq)) (pr_n (s_prec st gm)) p k qmin qmax (C * delta).
Proof.
  intros HSm HB Hdl Hd1 EP HK0 HK1 E E' Hn Hm ER Hq Hk Hl HBB HCC HS HT. apply (add_error _ (mode_sum fuel st pkl k half p gq gm (I (P 0%nat)))).
  - unfold mode_sum. rewrite (the_q_is fuel st pkl gq g E), (the_mu_is fuel st gm m E').
    apply (mode_change fuel fuel _ _ pkl g m half p k qmin qmax _ _ (C * delta) Hn Hm E E' ER Hq Hk); [apply Rmult_le_pos; lra|].
    intros x mu HR. apply HT; [exact Hd1| |exact HR]. intros q Hq'. rewrite EP. apply (lookup_near P M h); try assumption. lra.
  - apply (mode_sum_error fuel st pkl k half p gq gm g m qmin qmax _ lam B E E' Hn Hm ER Hq Hk Hl HBB HS).
Qed.
Lemma sampled_gamma2 fuel st suave1 suave12 a b d pkl dt ptt ks ps ss vals ik qmin qmax lam B C delta P M h K Pv :
  samples P 5 M h K Pv -> (3 <= zlen K < 2 ^ 62)%Z -> (forall m, (3 <= m <= 5)%nat -> poly_error M h m <= delta) -> 0 <= delta <= 1 ->
  pkl = mk_table (N := RNum) K Pv -> at_ K 0 <= qmin -> qmax <= at_ K (List.length K - 1) -> d = D_1loop a b \/ d = D_2loop a b -> regular_run st pkl d ->
  let n := pr_n (s_prec st "gamma2_tree_q") in let m := pr_n (s_prec st "gamma2_tree_mu") in let k := k_ (N := RNum) ks ik in
  q_range (N := RNum) (s_prec st "gamma2_tree_q") pkl = Ok (qmin, qmax) -> 0 < qmin < qmax ->
  computes (N := RNum) fuel st suave1 suave12 d pkl dt ptt ks ps ss vals -> (0 <= ik < zlen ks)%Z -> 0 < k -> 0 <= lam -> 0 <= B -> 0 <= C ->
  smooth true (qmin / k) (qmax / k) (gamma2_integrand (P 0%nat) (is_theta a) (is_theta b) k) lam B ->
  stable true k qmin qmax (fun F => gamma2_integrand F (is_theta a) (is_theta b) k) (P 0%nat) C ->
  Rabs (at_ (vals ik) (match d with D_1loop _ _ => 2 | _ => 4 end) - gamma2_continuum (P 0%nat) (is_theta a) (is_theta b) k qmin qmax) <=
    k ^ 3 / (2 * PI ^ 2) * (mode_bound n m 3 k qmin qmax lam B + mode_change_bound n m 3 k qmin qmax (C * delta)).
Proof.
  intros HSm HB Hdl Hd1 EP HK0 HK1 Hd HR n m k ER Hq HC Hik Hk Hlam HBB HCC HS HST.
  assert (HT : two_points pkl) by (rewrite EP; apply (sampled_points P 5 M h); [exact HSm|lia]).
  assert (HD : d = D_B -> two_points dt /\ two_points ptt) by (intros ->; destruct Hd; discriminate).
  pose proof (run_contents fuel st suave1 suave12 d pkl dt ptt ks ps ss vals HT HD HR HC ik Hik Hk) as V.
  destruct (makes_gamma2 fuel st suave1 suave12 a b pkl dt ptt _ d _ Hd (proj2 (proj2 HC) ik Hik)) as (g & mt & E & E').
  assert (Hn : (1 <= n < 2 ^ 62)%Z) by (apply (rr_q _ _ _ HR); destruct Hd as [->| ->]; cbn; tauto).
  assert (Hm : (1 <= m < 2 ^ 62)%Z) by (apply (rr_mu _ _ _ HR "gamma2_tree_mu"); destruct Hd as [->| ->]; cbn; tauto).
  pose proof (sampled_mode_sum fuel st pkl k true 3 _ _ g mt qmin qmax (fun F => gamma2_integrand F (is_theta a) (is_theta b) k) lam B C delta P M h K Pv HSm HB Hdl Hd1 EP HK0 HK1 E E' Hn Hm ER Hq Hk Hlam HBB HCC HS HST) as Bd. fold n m in Bd.
  pose proof (scaled_error _ _ _ _ (norm_const k 2 Hk ltac:(lra)) Bd) as CC. unfold gamma2_continuum.
  change (T RNum) with R in *. fold k in V. destruct Hd as [->| ->]; cbn [contents] in V.
  - rewrite V. exact CC.
  - destruct V as (a1 & b1 & I & _ & _ & V). rewrite V. unfold comps. cbn [map seq app at_ nth].
    assert (EM : mode_sum fuel st pkl k true 3 "gamma2_tree_q" "gamma2_tree_mu" (gamma2_1loop_integrand (the_P pkl) (vertex fuel st pkl) (is_theta a) (is_theta b) 0 k) =
      mode_sum fuel st pkl k true 3 "gamma2_tree_q" "gamma2_tree_mu" (gamma2_integrand (lookup_of pkl POLY) (is_theta a) (is_theta b) k)); [|rewrite EM; exact CC].
    unfold mode_sum, itquad. apply ProofNewton7.rsum_eq. intros i _. f_equal. unfold muquad. destruct (Rlt_dec _ _); [|reflexivity]. apply ProofNewton7.rsum_eq. intros j _. f_equal.
    unfold gamma2_1loop_integrand, gamma2_integrand, the_P. ring.
Qed.
Lemma sampled_bias fuel st suave1 suave12 pkl dt ptt ks ps ss vals ik qmin qmax lam B C delta P M h K Pv j t a half :
  samples P 5 M h K Pv -> (3 <= zlen K < 2 ^ 62)%Z -> (forall m, (3 <= m <= 5)%nat -> poly_error M h m <= delta) -> 0 <= delta <= 1 ->
  pkl = mk_table (N := RNum) K Pv -> at_ K 0 <= qmin -> qmax <= at_ K (List.length K - 1) -> regular_run st pkl D_bias ->
  let n := pr_n (s_prec st "bias_1loop_q") in let m := pr_n (s_prec st "bias_1loop_mu") in let k := k_ (N := RNum) ks ik in
  q_range (N := RNum) (s_prec st "bias_1loop_q") pkl = Ok (qmin, qmax) -> 0 < qmin < qmax ->
  computes (N := RNum) fuel st suave1 suave12 D_bias pkl dt ptt ks ps ss vals -> (0 <= ik < zlen ks)%Z -> 0 < k -> 0 <= lam -> 0 <= B -> 0 <= C -> nth_error bias_columns j = Some (t, a, half) ->
  smooth half (qmin / k) (qmax / k) (bias_integrand t (P 0%nat) a k) lam B -> stable half k qmin qmax (fun F => bias_integrand t F a k) (P 0%nat) C ->
  Rabs (at_ (vals ik) j - bias_continuum (P 0%nat) t a half k qmin qmax) <= k ^ 3 / (2 * PI ^ 2) * (mode_bound n m 3 k qmin qmax lam B + mode_change_bound n m 3 k qmin qmax (C * delta)).
Proof.
  intros HSm HB Hdl Hd1 EP HK0 HK1 HR n m k ER Hq HC Hik Hk Hlam HBB HCC Hj HS HST.
  assert (HT : two_points pkl) by (rewrite EP; apply (sampled_points P 5 M h); [exact HSm|lia]).
  pose proof (run_contents fuel st suave1 suave12 D_bias pkl dt ptt ks ps ss vals HT ltac:(discriminate) HR HC ik Hik Hk) as V.
  destruct (makes_bias fuel st suave1 suave12 pkl dt ptt _ _ (proj2 (proj2 HC) ik Hik)) as (g & mt & E & E').
  assert (Hn : (1 <= n < 2 ^ 62)%Z) by (apply (rr_q _ _ _ HR); cbn; tauto).
  assert (Hm : (1 <= m < 2 ^ 62)%Z) by (apply (rr_mu _ _ _ HR "bias_1loop_mu"); cbn; tauto).
  pose proof (sampled_mode_sum fuel st pkl k half 3 _ _ g mt qmin qmax (fun F => bias_integrand t F a k) lam B C delta P M h K Pv HSm HB Hdl Hd1 EP HK0 HK1 E E' Hn Hm ER Hq Hk Hlam HBB HCC HS HST) as Bd. fold n m in Bd.
  set (b := mode_bound _ _ _ _ _ _ _ _ + _) in Bd |- *.
  assert (CC : Rabs (bias_sum fuel st pkl k t a half - bias_continuum (P 0%nat) t a half k qmin qmax) <= k ^ 3 / (2 * PI ^ 2) * b).
  { unfold bias_sum, bias_continuum. apply (Rle_trans _ (k ^ 3 / (4 * PI ^ 2) * (2 * b))).
    - apply scaled_error; [apply norm_const; lra|]. assert (Pb : 0 <= b) by (eapply Rle_trans; [apply Rabs_pos|exact Bd]).
      eapply Rle_trans; [apply (scaled_error (if half then 2 else 1)); [destruct half; lra|exact Bd]|]. apply Rmult_le_compat_r; [exact Pb|destruct half; lra].
    - apply Req_le. field. apply PI_neq0. }
  change (T RNum) with R in *. fold k in V. cbn [contents] in V. rewrite V.
  do 8 (destruct j as [|j]; [injection Hj as <- <- <-; exact CC|]). destruct j; discriminate.
Qed.
(** All the constants depend on the spectrum, the range and k only. *)
Lemma exact_bounded t k qmin qmax : 0 < qmin -> qmin <= qmax -> 0 < k -> exists N, forall q, qmin <= q <= qmax -> Rabs (prop_exact t (q / k)) <= N.
Proof.
  intros H0 H1 Hk. assert (I0 : 0 < / k) by (apply Rinv_0_lt_compat, Hk).
  destruct (lip_exact t (qmin / k) (qmax / k)) as (l & N & _ & B & _); [apply Rmult_lt_0_compat; assumption|apply Rmult_le_compat_r; lra|]. exists N. intros q Hq. apply B.
  unfold Rdiv. split; apply Rmult_le_compat_r; lra.
Qed.
Lemma constants (F F' : R -> R) D k qmin qmax : 0 < qmin -> qmin <= qmax -> 0 < k -> (forall q, qmin <= q <= qmax -> is_derive F q (F' q) /\ Rabs (F' q) <= D) ->
  (exists lam M1 N, 0 <= lam /\ forall t, bounded_lipschitz (fun s => prop_exact t (exp s / k) * F (exp s)) (ln qmin) (ln qmax) lam M1 /\ forall q, qmin <= q <= qmax -> Rabs (prop_exact t (q / k)) <= N) /\
  (forall half a b, exists lam B C, 0 <= lam /\ 0 <= B /\ 0 <= C /\ smooth half (qmin / k) (qmax / k) (gamma2_integrand F a b k) lam B /\ stable half k qmin qmax (fun Q => gamma2_integrand Q a b k) F C) /\
  (forall half t a, exists lam B C, 0 <= lam /\ 0 <= B /\ 0 <= C /\ smooth half (qmin / k) (qmax / k) (bias_integrand t F a k) lam B /\ stable half k qmin qmax (fun Q => bias_integrand t Q a k) F C).
Proof.
  intros H0 H1 Hk HF. assert (HD : 0 <= D) by (eapply Rle_trans; [apply Rabs_pos|apply (HF qmin); lra]).
  pose proof (lip_derive qmin qmax F F' D H1 HD HF) as LF.
  assert (I0 : 0 < / k) by (apply Rinv_0_lt_compat, Hk). set (u := qmin / k). set (v := qmax / k). assert (Hu : 0 < u) by (apply Rmult_lt_0_compat; assumption). assert (Huv : u <= v) by (apply Rmult_le_compat_r; lra).
  assert (Eu : k * u = qmin) by (unfold u; field; lra). assert (Ev : k * v = qmax) by (unfold v; field; lra).
  assert (LP : lip (k * u) (k * v) F) by (rewrite Eu, Ev; exact LF).
  split; [|split].
  - assert (A : forall t, exists lam M1, 0 <= lam /\ 0 <= M1 /\ bounded_lipschitz (fun s => prop_exact t (exp s / k) * F (exp s)) (ln qmin) (ln qmax) lam M1).
    { intros t. assert (HE : forall s, ln qmin <= s <= ln qmax -> qmin <= exp s <= qmax) by (intros s Hs; rewrite <- (exp_ln qmin), <- (exp_ln qmax) by lra; split; apply exp_le; lra).
      assert (Hll : ln qmin <= ln qmax) by (destruct H1 as [H1| ->]; [left; apply ln_increasing; lra|lra]).
      assert (L : lip (ln qmin) (ln qmax) (fun s => prop_exact t (exp s / k) * F (exp s))).
      { apply lip_mult; [|apply (lip_comp _ _ qmin qmax F exp); [apply lip_exp, Hll|exact HE|exact LF]].
        apply (lip_comp _ _ u v (prop_exact t) (fun s => exp s / k)).
        - unfold Rdiv. apply lip_mult; [apply lip_exp, Hll|apply lip_const].
        - intros s Hs. specialize (HE s Hs). unfold u, v, Rdiv. split; apply Rmult_le_compat_r; lra.
        - apply lip_exact; assumption. }
      destruct L as (lam & M1 & Hl & B1 & B2). exists lam, M1. split; [exact Hl|]. split; [|split; assumption]. eapply Rle_trans; [apply Rabs_pos|apply (B1 (ln qmin)); lra]. }
    destruct (A true) as (l1 & m1 & P1 & Q1 & B1 & B2). destruct (A false) as (l2 & m2 & P2 & Q2 & B3 & B4). destruct (exact_bounded true k qmin qmax H0 H1 Hk) as (N1 & E1). destruct (exact_bounded false k qmin qmax H0 H1 Hk) as (N2 & E2).
    exists (Rmax l1 l2), (Rmax m1 m2), (Rmax N1 N2). pose proof (Rmax_l l1 l2). pose proof (Rmax_r l1 l2). pose proof (Rmax_l m1 m2). pose proof (Rmax_r m1 m2). pose proof (Rmax_l N1 N2). pose proof (Rmax_r N1 N2). split; [lra|].
    intros [|]; (split; [split|]).
    + intros s Hs. specialize (B1 s Hs). lra.
    + intros s r Hs Hr. eapply Rle_trans; [apply (B2 s r Hs Hr)|]. apply Rmult_le_compat_r; [apply Rabs_pos|lra].
    + intros q Hq. specialize (E1 q Hq). lra.
    + intros s Hs. specialize (B3 s Hs). lra.
    + intros s r Hs Hr. eapply Rle_trans; [apply (B4 s r Hs Hr)|]. apply Rmult_le_compat_r; [apply Rabs_pos|lra].
    + intros q Hq. specialize (E2 q Hq). lra.
  - intros half a b. destruct (smooth_lip2 half u v _ (lip2_gamma2 (region half u v) half u v Hu Huv (fun _ _ H => H) F k Hk LP a b)) as (lam & B & A1 & A2 & A3).
    destruct (stab_gamma2 half u v k F Hu Huv Hk LP a b) as (C & M' & HC & _ & _ & S). exists lam, B, C. repeat (split; [assumption|]).
    intros Q d x mu Hd HQ HR. apply (S Q d x mu Hd); [|exact HR]. intros q Hq. rewrite Eu, Ev in Hq. apply HQ, Hq.
  - intros half t a. destruct (smooth_lip2 half u v _ (lip2_bias (region half u v) half u v Hu Huv (fun _ _ H => H) F k Hk LP t a)) as (lam & B & A1 & A2 & A3).
    destruct (stab_bias half u v k F Hu Huv Hk LP t a) as (C & M' & HC & _ & _ & S). exists lam, B, C. repeat (split; [assumption|]).
    intros Q d x mu Hd HQ HR. apply (S Q d x mu Hd); [|exact HR]. intros q Hq. rewrite Eu, Ev in Hq. apply HQ, Hq.
Qed.
