(** ProofConv4: the columns of the runs against the integrals of perturbation theory. *)
From Coq Require Import Reals Lra Lia List ZArith String.
From Coquelicot Require Import Coquelicot.
From Verif Require Import Base Num BaseFacts Common Kernels Integrals Registry Threads Spec SpecPT SpecQuad SpecKernels SpecLoops SpecIntegrals SpecThreads SpecScratch SpecDefined SpecColumns SpecConv ProofKernels ProofThreads8 ProofDefined12
  ProofColumns3 ProofColumns4 ProofNewton8 ProofQuad3 ProofConv ProofConv2 ProofConv3.
Import ListNotations.
Local Open Scope R_scope.

Lemma makes_gamma2 fuel st suave1 suave12 a b pkl dt ptt k d v : d = D_1loop a b \/ d = D_2loop a b ->
  value_of (N := RNum) fuel st suave1 suave12 d pkl dt ptt k = Ok v -> exists g m, new_q (N := RNum) fuel st pkl "gamma2_tree_q" = Ok g /\ new_mu (N := RNum) fuel st "gamma2_tree_mu" = Ok m.
Proof.
  intros [->| ->] V; cbn [value_of] in V.
  - unfold value_1loop in V. apply bind_inv in V. destruct V as (g1 & _ & V). apply bind_inv in V. destruct V as (g & E & V). apply bind_inv in V. destruct V as (m & E' & _). exists g, m. split; assumption.
  - apply bind_inv in V. destruct V as (x & V & _). unfold value_2loop in V. apply bind_inv in V. destruct V as (g1 & _ & V). apply bind_inv in V. destruct V as (g2 & _ & V).
    apply bind_inv in V. destruct V as (g & E & V). apply bind_inv in V. destruct V as (m & E' & _). exists g, m. split; assumption.
Qed.
Lemma makes_bias fuel st suave1 suave12 pkl dt ptt k v : value_of (N := RNum) fuel st suave1 suave12 D_bias pkl dt ptt k = Ok v ->
  exists g m, new_q (N := RNum) fuel st pkl "bias_1loop_q" = Ok g /\ new_mu (N := RNum) fuel st "bias_1loop_mu" = Ok m.
Proof.
  intros V; cbn [value_of] in V. unfold value_bias in V. apply bind_inv in V. destruct V as (g & E & V). apply bind_inv in V. destruct V as (m & E' & _). exists g, m. split; assumption.
Qed.
Lemma mode_sum_error fuel st pkl k half p gq gm g m qmin qmax f lam M : new_q (N := RNum) fuel st pkl gq = Ok g -> new_mu (N := RNum) fuel st gm = Ok m ->
  (1 <= pr_n (s_prec st gq) < 2 ^ 62)%Z -> (1 <= pr_n (s_prec st gm) < 2 ^ 62)%Z -> q_range (N := RNum) (s_prec st gq) pkl = Ok (qmin, qmax) -> 0 < qmin < qmax -> 0 < k -> 0 <= lam -> 0 <= M ->
  smooth half (qmin / k) (qmax / k) f lam M ->
  Rabs (mode_sum fuel st pkl k half p gq gm f - mode_integral half p k qmin qmax f) <= mode_bound (pr_n (s_prec st gq)) (pr_n (s_prec st gm)) p k qmin qmax lam M.
Proof.
  intros E E' Hn Hm ER Hq Hk Hl HM HS. unfold mode_sum. rewrite (the_q_is fuel st pkl gq g E), (the_mu_is fuel st gm m E').
  exact (proj2 (mode_error fuel fuel _ _ pkl g m half p k qmin qmax f lam M Hn Hm E E' ER Hq Hk Hl HM HS)).
Qed.
Lemma scaled_error c x y b : 0 <= c -> Rabs (x - y) <= b -> Rabs (c * x - c * y) <= c * b.
Proof. intros Hc H. replace (c * x - c * y) with (c * (x - y)) by ring. rewrite Rabs_mult, (Rabs_right c) by lra. apply Rmult_le_compat_l; assumption. Qed.
Lemma norm_const k e : 0 < k -> 0 < e -> 0 <= k ^ 3 / (e * PI ^ 2).
Proof. intros Hk He. apply Rdiv_le_0_compat; [apply pow_le; lra|]. apply Rmult_lt_0_compat; [exact He|]. apply pow_lt, PI_RGT_0. Qed.
Lemma gamma2_columns fuel st suave1 suave12 a b d pkl dt ptt ks ps ss vals ik qmin qmax lam M : two_points pkl -> d = D_1loop a b \/ d = D_2loop a b -> regular_run st pkl d ->
  let n := pr_n (s_prec st "gamma2_tree_q") in let m := pr_n (s_prec st "gamma2_tree_mu") in let P := lookup_of pkl POLY in let k := k_ (N := RNum) ks ik in
  q_range (N := RNum) (s_prec st "gamma2_tree_q") pkl = Ok (qmin, qmax) -> 0 < qmin < qmax ->
  computes (N := RNum) fuel st suave1 suave12 d pkl dt ptt ks ps ss vals -> (0 <= ik < zlen ks)%Z -> 0 < k -> 0 <= lam -> 0 <= M ->
  smooth true (qmin / k) (qmax / k) (gamma2_integrand P (is_theta a) (is_theta b) k) lam M ->
  Rabs (at_ (vals ik) (match d with D_1loop _ _ => 2 | _ => 4 end) - gamma2_continuum P (is_theta a) (is_theta b) k qmin qmax) <= k ^ 3 / (2 * PI ^ 2) * mode_bound n m 3 k qmin qmax lam M.
Proof.
  intros HT Hd HR n m P k ER Hq HC Hik Hk Hlam HM HS.
  assert (HD : d = D_B -> two_points dt /\ two_points ptt) by (intros ->; destruct Hd; discriminate).
  pose proof (run_contents fuel st suave1 suave12 d pkl dt ptt ks ps ss vals HT HD HR HC ik Hik Hk) as V.
  destruct (makes_gamma2 fuel st suave1 suave12 a b pkl dt ptt _ d _ Hd (proj2 (proj2 HC) ik Hik)) as (g & mt & E & E').
  assert (Hn : (1 <= n < 2 ^ 62)%Z) by (apply (rr_q _ _ _ HR); destruct Hd as [->| ->]; cbn; tauto).
  assert (Hm : (1 <= m < 2 ^ 62)%Z) by (apply (rr_mu _ _ _ HR "gamma2_tree_mu"); destruct Hd as [->| ->]; cbn; tauto).
  pose proof (mode_sum_error fuel st pkl k true 3 _ _ g mt qmin qmax _ lam M E E' Hn Hm ER Hq Hk Hlam HM HS) as B. fold n m in B.
  pose proof (scaled_error _ _ _ _ (norm_const k 2 Hk ltac:(lra)) B) as C. unfold gamma2_continuum.
  change (T RNum) with R in *. fold k in V. destruct Hd as [->| ->]; cbn [contents] in V.
  - rewrite V. exact C.
  - destruct V as (a1 & b1 & I & _ & _ & V). rewrite V. unfold comps. cbn [map seq app at_ nth].
    assert (EM : mode_sum fuel st pkl k true 3 "gamma2_tree_q" "gamma2_tree_mu" (gamma2_1loop_integrand (the_P pkl) (vertex fuel st pkl) (is_theta a) (is_theta b) 0 k) =
      mode_sum fuel st pkl k true 3 "gamma2_tree_q" "gamma2_tree_mu" (gamma2_integrand P (is_theta a) (is_theta b) k)); [|rewrite EM; exact C].
    unfold mode_sum, itquad. apply ProofNewton7.rsum_eq. intros i _. f_equal. unfold muquad. destruct (Rlt_dec _ _); [|reflexivity]. apply ProofNewton7.rsum_eq. intros j _. f_equal.
    unfold gamma2_1loop_integrand, gamma2_integrand, the_P. fold P. ring.
Qed.
Lemma bias_columns_error fuel st suave1 suave12 pkl dt ptt ks ps ss vals ik qmin qmax lam M j t a half : two_points pkl -> regular_run st pkl D_bias ->
  let n := pr_n (s_prec st "bias_1loop_q") in let m := pr_n (s_prec st "bias_1loop_mu") in let P := lookup_of pkl POLY in let k := k_ (N := RNum) ks ik in
  q_range (N := RNum) (s_prec st "bias_1loop_q") pkl = Ok (qmin, qmax) -> 0 < qmin < qmax ->
  computes (N := RNum) fuel st suave1 suave12 D_bias pkl dt ptt ks ps ss vals -> (0 <= ik < zlen ks)%Z -> 0 < k -> 0 <= lam -> 0 <= M -> nth_error bias_columns j = Some (t, a, half) ->
  smooth half (qmin / k) (qmax / k) (bias_integrand t P a k) lam M ->
  Rabs (at_ (vals ik) j - bias_continuum P t a half k qmin qmax) <= k ^ 3 / (2 * PI ^ 2) * mode_bound n m 3 k qmin qmax lam M.
Proof.
  intros HT HR n m P k ER Hq HC Hik Hk Hlam HM Hj HS.
  pose proof (run_contents fuel st suave1 suave12 D_bias pkl dt ptt ks ps ss vals HT ltac:(discriminate) HR HC ik Hik Hk) as V.
  destruct (makes_bias fuel st suave1 suave12 pkl dt ptt _ _ (proj2 (proj2 HC) ik Hik)) as (g & mt & E & E').
  assert (Hn : (1 <= n < 2 ^ 62)%Z) by (apply (rr_q _ _ _ HR); cbn; tauto).
  assert (Hm : (1 <= m < 2 ^ 62)%Z) by (apply (rr_mu _ _ _ HR "bias_1loop_mu"); cbn; tauto).
  pose proof (mode_sum_error fuel st pkl k half 3 _ _ g mt qmin qmax _ lam M E E' Hn Hm ER Hq Hk Hlam HM HS) as B. fold n m in B.
  assert (C : Rabs (bias_sum fuel st pkl k t a half - bias_continuum P t a half k qmin qmax) <= k ^ 3 / (2 * PI ^ 2) * mode_bound n m 3 k qmin qmax lam M).
  { unfold bias_sum, bias_continuum. apply (Rle_trans _ (k ^ 3 / (4 * PI ^ 2) * (2 * mode_bound n m 3 k qmin qmax lam M))).
    - apply scaled_error; [apply norm_const; lra|]. assert (Pb : 0 <= mode_bound n m 3 k qmin qmax lam M) by (eapply Rle_trans; [apply Rabs_pos|exact B]).
      eapply Rle_trans; [apply (scaled_error (if half then 2 else 1)); [destruct half; lra|exact B]|]. apply Rmult_le_compat_r; [exact Pb|destruct half; lra].
    - apply Req_le. field. apply PI_neq0. }
  change (T RNum) with R in *. fold k in V. cbn [contents] in V. rewrite V.
  do 8 (destruct j as [|j]; [injection Hj as <- <- <-; exact C|]). destruct j; discriminate.
Qed.
Lemma conv_ex k qmin qmax : 1 <= qmin -> qmin <= qmax -> qmax <= 3 -> 0 < k -> let P := lookup_of pk_three POLY in
  (forall half a b, exists lam M, 0 <= lam /\ 0 <= M /\ smooth half (qmin / k) (qmax / k) (gamma2_integrand P a b k) lam M) /\
  (forall half t a, exists lam M, 0 <= lam /\ 0 <= M /\ smooth half (qmin / k) (qmax / k) (bias_integrand t P a k) lam M).
Proof.
  intros H1 H2 H3 Hk. destruct three_points as (K & Pv & EK & A1 & A2 & A3). assert (EK2 : K = [1; 2; 3]) by (apply (f_equal (@pk_k RNum)) in EK; symmetry; exact EK).
  rewrite EK. apply smooth_exist; try assumption; try lra; rewrite EK2; cbn; lra.
Qed.
