(** ProofConv2: the error of the iterated sums. *)
From Coq Require Import Reals Lra Lia List ZArith String.
From Coquelicot Require Import Coquelicot.
From Verif Require Import Base Num BaseFacts Common Kernels Integrals Registry Threads Spec SpecPT SpecQuad SpecKernels SpecLoops SpecIntegrals SpecThreads SpecDefined SpecColumns SpecConv Poly ProofSearch ProofGL ProofGL2 ProofCommon2
  ProofNewton6 ProofNewton7 ProofQuad ProofQuad2 ProofQuad3 ProofConv.
Import ListNotations.
Local Open Scope R_scope.

Lemma Rmax_lip a x y : Rabs (Rmax a x - Rmax a y) <= Rabs (x - y).
Proof. unfold Rmax, Rabs. repeat destruct Rcase_abs; repeat destruct Rle_dec; lra. Qed.
Lemma Rmin_lip a x y : Rabs (Rmin a x - Rmin a y) <= Rabs (x - y).
Proof. unfold Rmin, Rabs. repeat destruct Rcase_abs; repeat destruct Rle_dec; lra. Qed.
Section Ends.
Variables (half : bool) (u v : R).
Hypothesis (Hu : 0 < u) (Huv : u <= v).
Definition slope : R := (1 + v ^ 2) / (2 * u ^ 2) + 1 / 2.
Lemma slope_pos : 0 <= slope.
Proof. unfold slope. assert (0 < (1 + v ^ 2) / (2 * u ^ 2)); [|lra]. apply Rdiv_lt_0_compat; [pose proof (pow2_ge_0 v); lra|]. pose proof (pow_lt u 2 Hu). lra. Qed.
Lemma frac_lip c x y : 0 <= c <= v ^ 2 -> u <= x -> u <= y -> Rabs ((1 + x * x - c) / (2 * x) - (1 + y * y - c) / (2 * y)) <= slope * Rabs (x - y).
Proof.
  intros Hc Hx Hy. replace ((1 + x * x - c) / (2 * x) - (1 + y * y - c) / (2 * y)) with ((1 / 2 - (1 - c) * / (2 * (x * y))) * (x - y)) by (field; lra).
  rewrite Rabs_mult. apply Rmult_le_compat_r; [apply Rabs_pos|]. unfold slope. unfold Rdiv at 2.
  assert (A : 0 < / (2 * (x * y)) <= / (2 * u ^ 2)).
  { split; [apply Rinv_0_lt_compat; nra|]. apply Rinv_le_contravar; [pose proof (pow_lt u 2 Hu); lra|]. nra. }
  set (i := / (2 * (x * y))) in *. set (j := / (2 * u ^ 2)) in *. assert (B : Rabs ((1 - c) * i) <= (1 + v ^ 2) * j).
  { rewrite Rabs_mult, (Rabs_right i) by lra. apply Rmult_le_compat; [apply Rabs_pos|lra| |lra]. apply Rabs_le. lra. }
  eapply Rle_trans; [apply (Rabs_triang (1 / 2) (- ((1 - c) * i)))|]. rewrite Rabs_Ropp, (Rabs_right (1 / 2)) by lra. lra.
Qed.
Lemma lo_lip x y : u <= x -> u <= y -> Rabs (mu_lo v x - mu_lo v y) <= slope * Rabs (x - y).
Proof. intros Hx Hy. unfold mu_lo. eapply Rle_trans; [apply Rmax_lip|]. apply frac_lip; try assumption. nra. Qed.
Lemma hi_lip x y : u <= x -> u <= y -> Rabs (mu_hi half u x - mu_hi half u y) <= slope * Rabs (x - y).
Proof.
  intros Hx Hy. unfold mu_hi. eapply Rle_trans; [apply Rmin_lip|]. destruct half.
  - replace ((1 + x * x - x * x) / (2 * x) - (1 + y * y - y * y) / (2 * y)) with (- / (2 * (x * y)) * (x - y)) by (field; lra).
    rewrite Rabs_mult. apply Rmult_le_compat_r; [apply Rabs_pos|]. rewrite Rabs_Ropp. assert (A : 0 < / (2 * (x * y)) <= / (2 * u ^ 2)).
    { split; [apply Rinv_0_lt_compat; nra|]. apply Rinv_le_contravar; [pose proof (pow_lt u 2 Hu); lra|]. nra. }
    rewrite Rabs_right by lra. unfold slope, Rdiv. pose proof (pow2_ge_0 v). nra.
  - apply frac_lip; try assumption. nra.
Qed.
Lemma lo_ge x : -1 <= mu_lo v x.
Proof. apply Rmax_l. Qed.
Lemma hi_le x : mu_hi half u x <= 1.
Proof. apply Rmin_l. Qed.
(** A narrower range *)
Lemma lo_end v' x e : 0 < x -> 0 <= v' <= v -> v ^ 2 - v' ^ 2 <= 2 * e -> mu_lo v x <= mu_lo v' x /\ mu_lo v' x - mu_lo v x <= e / x.
Proof.
  intros Hx Hv He. assert (A : (1 + x * x - v' * v') / (2 * x) - (1 + x * x - v * v) / (2 * x) = (v ^ 2 - v' ^ 2) / 2 / x) by (field; lra).
  assert (B : 0 <= (v ^ 2 - v' ^ 2) / 2 / x <= e / x).
  { assert (0 <= v ^ 2 - v' ^ 2) by nra. split; [apply Rdiv_le_0_compat; lra|]. unfold Rdiv. apply Rmult_le_compat_r; [apply Rlt_le, Rinv_0_lt_compat, Hx|]. lra. }
  unfold mu_lo, Rmax. repeat destruct Rle_dec; lra.
Qed.
Lemma hi_end u' x e : 0 < x -> u <= u' -> u' ^ 2 - u ^ 2 <= 2 * e -> 0 <= e -> mu_hi half u' x <= mu_hi half u x /\ mu_hi half u x - mu_hi half u' x <= e / x.
Proof.
  intros Hx Hv He H0. assert (C : 0 <= e / x) by (apply Rdiv_le_0_compat; lra). unfold mu_hi. destruct half; [lra|].
  assert (A : (1 + x * x - u * u) / (2 * x) - (1 + x * x - u' * u') / (2 * x) = (u' ^ 2 - u ^ 2) / 2 / x) by (field; lra).
  assert (B : 0 <= (u' ^ 2 - u ^ 2) / 2 / x <= e / x).
  { assert (0 <= u' ^ 2 - u ^ 2) by nra. split; [apply Rdiv_le_0_compat; lra|]. unfold Rdiv. apply Rmult_le_compat_r; [apply Rlt_le, Rinv_0_lt_compat, Hx|]. lra. }
  unfold Rmin. repeat destruct Rle_dec; lra.
Qed.
Variables (f : R -> R -> R) (lam M : R).
Hypothesis (Hlam : 0 <= lam) (HM : 0 <= M) (HS : smooth half u v f lam M).
Lemma row_lip x : u <= x <= v -> bounded_lipschitz (f x) (mu_lo v x) (mu_hi half u x) lam M.
Proof.
  intros Hx. destruct HS as (B & L). split; [intros t Ht; apply B; split; assumption|]. intros s t Hs Ht.
  pose proof (L x s x t (conj Hx Hs) (conj Hx Ht)) as A. rewrite Rminus_eq_0, Rabs_R0, Rplus_0_l in A. exact A.
Qed.
Lemma row_int x : u <= x <= v -> mu_lo v x < mu_hi half u x -> ex_RInt (f x) (mu_lo v x) (mu_hi half u x).
Proof. intros Hx H. exact (lip_int _ _ _ lam H Hlam (proj2 (row_lip x Hx))). Qed.
Lemma angle_on x : angle_integral half u v f x = on (f x) (mu_lo v x) (mu_hi half u x).
Proof. reflexivity. Qed.
Lemma angle_bound x : u <= x <= v -> Rabs (angle_integral half u v f x) <= 2 * M.
Proof.
  intros Hx. rewrite angle_on. eapply Rle_trans; [apply (on_bound _ _ _ M HM); [apply row_int; exact Hx|exact (proj1 (row_lip x Hx))]|].
  pose proof (lo_ge x) as A. pose proof (hi_le x) as B. rewrite (Rmult_comm 2). apply Rmult_le_compat_l; [exact HM|]. apply Rmax_lub; lra.
Qed.
Lemma angle_lip x y : u <= x <= v -> u <= y <= v -> Rabs (angle_integral half u v f x - angle_integral half u v f y) <= (2 * lam + 2 * M * slope) * Rabs (x - y).
Proof.
  intros Hx Hy. rewrite !angle_on.
  eapply Rle_trans; [apply (on_change (f x) (f y) _ _ _ _ M (lam * Rabs (x - y)) HM)|].
  - apply Rmult_le_pos; [exact Hlam|apply Rabs_pos].
  - apply lo_ge.
  - apply lo_ge.
  - apply hi_le.
  - apply hi_le.
  - apply row_int; exact Hx.
  - apply row_int; exact Hy.
  - exact (proj1 (row_lip x Hx)).
  - exact (proj1 (row_lip y Hy)).
  - intros t Ht Ht'. pose proof (proj2 HS x t y t (conj Hx Ht) (conj Hy Ht')) as A. rewrite (Rminus_eq_0 t), Rabs_R0, Rplus_0_r in A. exact A.
  - pose proof (lo_lip x y ltac:(lra) ltac:(lra)) as A. pose proof (hi_lip x y ltac:(lra) ltac:(lra)) as B.
    assert (C : M * (Rabs (mu_lo v x - mu_lo v y) + Rabs (mu_hi half u x - mu_hi half u y)) <= M * (2 * (slope * Rabs (x - y)))) by (apply Rmult_le_compat_l; lra). lra.
Qed.
End Ends.
Lemma exp_lip s t b : s <= b -> t <= b -> Rabs (exp s - exp t) <= exp b * Rabs (s - t).
Proof.
  assert (G : forall s t, s <= t -> t <= b -> Rabs (exp s - exp t) <= exp b * Rabs (s - t)).
  { clear. intros s t H Hb. pose proof (exp_le s t H) as A. rewrite (Rabs_left1 (exp s - exp t)), (Rabs_left1 (s - t)) by lra.
    assert (E : exp s = exp t * exp (s - t)) by (rewrite <- exp_plus; f_equal; ring). pose proof (exp_ineq1_le (s - t)) as B. pose proof (exp_le t b Hb) as C. pose proof (exp_pos t) as D.
    rewrite E. replace (- (exp t * exp (s - t) - exp t)) with (exp t * (1 - exp (s - t))) by ring. apply (Rle_trans _ (exp t * (t - s))); [apply Rmult_le_compat_l; lra|].
    replace (- (s - t)) with (t - s) by ring. apply Rmult_le_compat_r; lra. }
  intros Hs Ht. destruct (Rle_dec s t); [apply G; assumption|]. rewrite Rabs_minus_sym, (Rabs_minus_sym s). apply G; lra.
Qed.
Lemma pow_lip p x y v : 0 <= x <= v -> 0 <= y <= v -> v * Rabs (x ^ p - y ^ p) <= INR p * v ^ p * Rabs (x - y).
Proof.
  intros Hx Hy. induction p as [|p IH]; [cbn [pow INR]; rewrite Rminus_eq_0, Rabs_R0; lra|].
  replace (x ^ S p - y ^ S p) with (x * (x ^ p - y ^ p) + y ^ p * (x - y)) by (cbn [pow]; ring). rewrite S_INR. cbn [pow].
  pose proof (Rabs_triang (x * (x ^ p - y ^ p)) (y ^ p * (x - y))) as A. rewrite !Rabs_mult, (Rabs_right x), (Rabs_right (y ^ p)) in A by (try lra; apply Rle_ge, pow_le; lra).
  assert (B : y ^ p <= v ^ p) by (apply pow_incr; lra). pose proof (Rabs_pos (x - y)) as C. pose proof (Rabs_pos (x ^ p - y ^ p)) as D.
  apply (Rmult_le_compat_l v) in A; [|lra]. eapply Rle_trans; [exact A|].
  assert (E1 : x * (v * Rabs (x ^ p - y ^ p)) <= v * (INR p * v ^ p * Rabs (x - y))).
  { apply (Rle_trans _ (v * (v * Rabs (x ^ p - y ^ p)))); [apply Rmult_le_compat_r; [apply Rmult_le_pos; lra|lra]|]. apply Rmult_le_compat_l; lra. }
  assert (E2 : v * (y ^ p * Rabs (x - y)) <= v * (v ^ p * Rabs (x - y))) by (apply Rmult_le_compat_l; [lra|]; apply Rmult_le_compat_r; lra). lra.
Qed.
Lemma radial_lip half k qmin qmax f lam M p : 0 < k -> 0 < qmin -> qmin <= qmax -> 0 <= lam -> 0 <= M -> smooth half (qmin / k) (qmax / k) f lam M ->
  let u := qmin / k in let v := qmax / k in let F x := x ^ p * angle_integral half u v f x in
  bounded_lipschitz (fun s => F (exp s / k)) (ln qmin) (ln qmax) (2 * v ^ p * (INR p * M + v * (lam + M * slope u v))) (2 * v ^ p * M).
Proof.
  intros Hk Hq Hqq Hlam HM HS u v F. assert (Hu : 0 < u) by (unfold u; apply Rdiv_lt_0_compat; lra). assert (Huv : u <= v) by (unfold u, v, Rdiv; apply Rmult_le_compat_r; [apply Rlt_le, Rinv_0_lt_compat|]; lra).
  assert (Rg : forall s, ln qmin <= s <= ln qmax -> u <= exp s / k <= v).
  { intros s Hs. assert (A1 : qmin <= exp s) by (rewrite <- (exp_ln qmin) by lra; apply exp_le; lra). assert (A2 : exp s <= qmax) by (rewrite <- (exp_ln qmax) by lra; apply exp_le; lra).
    unfold u, v, Rdiv. split; (apply Rmult_le_compat_r; [apply Rlt_le, Rinv_0_lt_compat|]; lra). }
  assert (Pw : forall x, u <= x <= v -> 0 <= x ^ p <= v ^ p) by (intros x Hx; split; [apply pow_le; lra|apply pow_incr; lra]).
  pose proof (angle_bound half u v f lam M Hlam HM HS) as AB. pose proof (angle_lip half u v Hu Huv f lam M Hlam HM HS) as AL. set (A := angle_integral half u v f) in *. split.
  - intros s Hs. unfold F. rewrite Rabs_mult. specialize (Rg s Hs). specialize (Pw _ Rg). specialize (AB _ Rg). rewrite (Rabs_right (_ ^ p)) by lra.
    replace (2 * v ^ p * M) with (v ^ p * (2 * M)) by ring. apply Rmult_le_compat; try lra. apply Rabs_pos.
  - intros s t Hs Ht. set (x := exp s / k). set (y := exp t / k). pose proof (Rg s Hs) as Rx. pose proof (Rg t Ht) as Ry. fold x in Rx. fold y in Ry.
    assert (XY : Rabs (x - y) <= v * Rabs (s - t)).
    { unfold x, y, v. replace (exp s / k - exp t / k) with (/ k * (exp s - exp t)) by (field; lra). pose proof (Rinv_0_lt_compat k Hk) as Ik. rewrite Rabs_mult, (Rabs_right (/ k)) by lra.
      pose proof (exp_lip s t (ln qmax) ltac:(lra) ltac:(lra)) as B. rewrite exp_ln in B by lra. replace (qmax / k * Rabs (s - t)) with (/ k * (qmax * Rabs (s - t))) by (field; lra). apply Rmult_le_compat_l; lra. }
    assert (PP : Rabs (x ^ p - y ^ p) <= INR p * v ^ p * Rabs (s - t)).
    { apply (Rmult_le_reg_l v); [lra|]. eapply Rle_trans; [apply pow_lip; lra|]. replace (v * (INR p * v ^ p * Rabs (s - t))) with (INR p * v ^ p * (v * Rabs (s - t))) by ring.
      apply Rmult_le_compat_l; [|exact XY]. apply Rmult_le_pos; [apply pos_INR|apply pow_le; lra]. }
    unfold F. replace (x ^ p * A x - y ^ p * A y) with ((x ^ p - y ^ p) * A x + y ^ p * (A x - A y)) by ring. eapply Rle_trans; [apply Rabs_triang|]. rewrite !Rabs_mult, (Rabs_right (y ^ p)) by (specialize (Pw y Ry); lra).
    pose proof (slope_pos u v Hu) as SP. set (sl := slope u v) in *. assert (C0 : 0 <= 2 * lam + 2 * M * sl) by (pose proof (Rmult_le_pos _ _ HM SP); lra).
    assert (T1 : Rabs (x ^ p - y ^ p) * Rabs (A x) <= INR p * v ^ p * Rabs (s - t) * (2 * M)) by (apply Rmult_le_compat; try apply Rabs_pos; [exact PP|apply AB; exact Rx]).
    assert (T2 : y ^ p * Rabs (A x - A y) <= v ^ p * ((2 * lam + 2 * M * sl) * (v * Rabs (s - t)))).
    { apply Rmult_le_compat; [apply Pw; exact Ry|apply Rabs_pos|apply Pw; exact Ry|]. eapply Rle_trans; [apply AL; assumption|]. apply Rmult_le_compat_l; assumption. }
    lra.
Qed.
Lemma mode_error fuel fuel' (pq pm : precision RNum) pkl (g : glq RNum) (m : glmu RNum) half p k qmin qmax f lam M :
  (1 <= pr_n pq < 2 ^ 62)%Z -> (1 <= pr_n pm < 2 ^ 62)%Z -> init_gauss_legendre_q (N := RNum) fuel pq pkl = Ok g -> init_gauss_legendre_mu (N := RNum) fuel' pm = Ok m ->
  q_range (N := RNum) pq pkl = Ok (qmin, qmax) -> 0 < qmin < qmax -> 0 < k -> 0 <= lam -> 0 <= M -> smooth half (qmin / k) (qmax / k) f lam M ->
  ex_RInt (fun s => (exp s / k) ^ p * angle_integral half (qmin / k) (qmax / k) f (exp s / k)) (ln qmin) (ln qmax) /\
  Rabs (itquad half (xs_of g k) (fun i => at_ (xs_of g k) i ^ p * at_ (gq_w g) i) (gm_muref m) (gm_wref m) (fun i mu => f (at_ (xs_of g k) i) mu) - mode_integral half p k qmin qmax f)
    <= mode_bound (pr_n pq) (pr_n pm) p k qmin qmax lam M.
Proof.
  intros Hnq Hnm HI HJ ER Hq Hk Hlam HM HS. unfold mode_bound. set (u := qmin / k) in *. set (v := qmax / k) in *. set (l := ln qmax - ln qmin).
  assert (Hu : 0 < u) by (unfold u; apply Rdiv_lt_0_compat; lra). assert (Huv : u < v) by (unfold u, v, Rdiv; apply Rmult_lt_compat_r; [apply Rinv_0_lt_compat|]; lra).
  pose proof (radial_lip half k qmin qmax f lam M p Hk ltac:(lra) ltac:(lra) Hlam HM HS) as RL. cbn zeta in RL. fold u v in RL. unfold slope in RL. set (LL := 2 * v ^ p * _) in RL |- *.
  assert (PL : 0 <= LL).
  { pose proof (slope_pos u v Hu) as SP. unfold slope in SP. pose proof (Rmult_le_pos _ _ HM SP). pose proof (pow_le v p ltac:(lra)). pose proof (pos_INR p). unfold LL.
    apply Rmult_le_pos; [lra|]. pose proof (Rmult_le_pos _ _ H1 HM). assert (0 <= v * (lam + M * ((1 + v ^ 2) / (2 * u ^ 2) + 1 / 2))) by (apply Rmult_le_pos; lra). lra. }
  destruct (radial_rule fuel pq pkl g qmin qmax (fun q => (q / k) ^ p * angle_integral half u v f (q / k)) LL (2 * v ^ p * M) Hnq HI ER Hq PL (proj1 RL) (proj2 RL)) as (X & RR). cbv beta in X, RR. split; [exact X|].
  destruct (weights_sum fuel pq pkl g qmin qmax Hnq HI ER Hq) as (W1 & W2). fold l in RR, W2.
  unfold mode_integral. fold u v. set (J := RInt _ _ _) in *. set (n := IZR (pr_n pq)) in *. set (ends := M * _). set (em := rule_error (pr_n pm) 2 lam M).
  assert (Pem : 0 <= em) by (apply rule_error_pos; lia || lra).
  destruct (init_q_inv fuel pq pkl g (nZ RNum 0) ltac:(lia) HI) as [qm [qM [x [E [EN [_ [_ [_ [A4 [A5 [_ [A7 _]]]]]]]]]]]]. change (T RNum) with R in *. rewrite ER in E. injection E as <- <-.
  set (z := repeat (nZ RNum 0) (Z.to_nat (pr_n pq))) in EN. assert (Hz : zlen z = pr_n pq) by (unfold z; apply zlen_repeat; lia).
  destruct (end_nodes fuel (ln qmin) (ln qmax) z z (pr_n pq) Hnq Hz Hz ltac:(apply ln_increasing; lra) _ _ EN) as (N0 & N1). fold l n in N0, N1. set (e := l * (11 / 4) / (n + 1 / 2) ^ 2) in *.
  set (N := List.length (gq_q g)) in *. assert (LN : N = Z.to_nat (pr_n pq)) by (unfold N; unfold zlen in A4; change (T RNum) with R in *; lia). assert (N_pos : (1 <= N)%nat) by lia.
  assert (Hl : 0 < l) by (unfold l; pose proof (ln_increasing qmin qmax ltac:(lra) ltac:(lra)); lra).
  assert (He : 0 < e) by (unfold e; apply Rdiv_lt_0_compat; [lra|]; apply pow_lt; assert (1 <= n) by (apply (IZR_le 1); lia); lra).
  assert (Q : forall i, (i < N)%nat -> at_ (gq_q g) i = exp (at_ x i)).
  { intros i Hi. specialize (A7 (Z.of_nat i) ltac:(lia)). unfold znth in A7. rewrite Nat2Z.id in A7. exact A7. }
  set (xs := xs_of g k). assert (Lxs : List.length xs = N) by (unfold xs, xs_of; apply map_length).
  assert (Xs : forall i, (i < N)%nat -> at_ xs i = at_ (gq_q g) i / k).
  { intros i Hi. unfold xs, xs_of, at_. rewrite (nth_indep _ 0 (0 / k)) by (rewrite map_length; exact Hi). exact (map_nth (fun q => q / k) (gq_q g) 0 i). }
  assert (Xr : forall i, (i < N)%nat -> u < at_ xs i < v).
  { intros i Hi. rewrite Xs by exact Hi. destruct (W1 i Hi) as (_ & W). unfold u, v, Rdiv. split; (apply Rmult_lt_compat_r; [apply Rinv_0_lt_compat, Hk|apply W]). }
  assert (E0 : at_ xs 0 ^ 2 - u ^ 2 <= 2 * (v ^ 2 * e)).
  { assert (EQ : u = at_ xs 0 * exp (ln qmin - at_ x 0)). { rewrite Xs, Q by lia. unfold u, Rminus. rewrite exp_plus, exp_Ropp, exp_ln by lra. field. split; first [lra|apply Rgt_not_eq, exp_pos]. }
    pose proof (exp_ineq1_le (ln qmin - at_ x 0)) as B. set (r := exp (ln qmin - at_ x 0)) in *. pose proof (Xr 0%nat ltac:(lia)) as C. set (x0 := at_ xs 0) in *.
    assert (Pr : 0 < r) by apply exp_pos. assert (B1 : 1 - e <= r) by lra. assert (B2 : 1 - 2 * e <= r * r) by (destruct (Rle_dec e 1); [assert ((1 - e) * (1 - e) <= r * r) by (apply Rmult_le_compat; lra); nra|pose proof (Rle_0_sqr r); unfold Rsqr in *; lra]). rewrite EQ. replace (x0 ^ 2 - (x0 * r) ^ 2) with (x0 ^ 2 * (1 - r * r)) by ring.
    apply (Rle_trans _ (x0 ^ 2 * (2 * e))); [apply Rmult_le_compat_l; [apply pow2_ge_0|lra]|]. replace (2 * (v ^ 2 * e)) with (v ^ 2 * (2 * e)) by ring. apply Rmult_le_compat_r; [lra|]. apply pow_incr. lra. }
  assert (E1 : v ^ 2 - at_ xs (N - 1) ^ 2 <= 2 * (v ^ 2 * e)).
  { assert (EQ : at_ xs (N - 1) = v * exp (at_ x (N - 1) - ln qmax)). { rewrite Xs, Q by lia. unfold v, Rminus. rewrite exp_plus, exp_Ropp, exp_ln by lra. field. lra. }
    rewrite <- LN in N1. pose proof (exp_ineq1_le (at_ x (N - 1) - ln qmax)) as B. set (r := exp (at_ x (N - 1) - ln qmax)) in *.
    assert (Pr : 0 < r) by apply exp_pos. assert (B1 : 1 - e <= r) by lra. assert (B2 : 1 - 2 * e <= r * r) by (destruct (Rle_dec e 1); [assert ((1 - e) * (1 - e) <= r * r) by (apply Rmult_le_compat; lra); nra|pose proof (Rle_0_sqr r); unfold Rsqr in *; lra]). rewrite EQ. replace (v ^ 2 - (v * r) ^ 2) with (v ^ 2 * (1 - r * r)) by ring.
    replace (2 * (v ^ 2 * e)) with (v ^ 2 * (2 * e)) by ring. apply Rmult_le_compat_l; [apply pow2_ge_0|lra]. }
  set (w := at_ (gq_w g)) in *. set (u' := at_ xs 0) in *. set (v' := at_ xs (N - 1)) in *.
  pose proof (Xr 0%nat ltac:(lia)) as U'. fold u' in U'. pose proof (Xr (N - 1)%nat ltac:(lia)) as V'. fold v' in V'.
  assert (Row : forall i, (i < N)%nat -> Rabs (muquad (gm_muref m) (gm_wref m) (mu_lo v' (at_ xs i)) (mu_hi half u' (at_ xs i)) (f (at_ xs i)) - angle_integral half u v f (at_ xs i)) <= em + ends).
  { intros i Hi. pose proof (Xr i Hi) as Ri. set (y := at_ xs i) in *.
    destruct (lo_end v v' y (v ^ 2 * e) ltac:(lra) ltac:(lra) E1) as (L1 & L2). destruct (hi_end half u Hu u' y (v ^ 2 * e) ltac:(lra) ltac:(lra) E0 ltac:(apply Rmult_le_pos; [apply pow2_ge_0|lra])) as (L3 & L4).
    pose proof (lo_ge v' y) as G1. pose proof (hi_le half u' y) as G2. pose proof (row_lip half u v f lam M HS y ltac:(lra)) as (BR & LR). pose proof (row_int half u v f lam M Hlam HS y ltac:(lra)) as XR.
    set (lo := mu_lo v y) in *. set (hi := mu_hi half u y) in *. set (lo' := mu_lo v' y) in *. set (hi' := mu_hi half u' y) in *.
    assert (BL : bounded_lipschitz (f y) lo' hi' lam M) by (split; [intros; apply BR; lra|intros; apply LR; lra]).
    assert (X' : lo' < hi' -> ex_RInt (f y) lo' hi') by (intros H; exact (proj1 (mu_error fuel' pm m lo' hi' (f y) lam M Hnm HJ G1 H G2 Hlam BL))).
    assert (T1 : Rabs (muquad (gm_muref m) (gm_wref m) lo' hi' (f y) - on (f y) lo' hi') <= em).
    { unfold on. destruct (Rlt_dec lo' hi') as [H|H]; [exact (proj2 (mu_error fuel' pm m lo' hi' (f y) lam M Hnm HJ G1 H G2 Hlam BL))|].
      unfold muquad. destruct (Rlt_dec lo' hi') as [H1|_]; [contradiction|]. rewrite Rminus_eq_0, Rabs_R0. exact Pem. }
    assert (T2 : Rabs (on (f y) lo' hi' - on (f y) lo hi) <= ends).
    { eapply Rle_trans; [apply (on_change (f y) (f y) lo' hi' lo hi M 0 HM (Rle_refl 0) G1 (lo_ge v y) G2 (hi_le half u y) X' XR)|].
      - intros; apply BR; lra.
      - exact BR.
      - intros; rewrite Rminus_eq_0, Rabs_R0; lra.
      - rewrite (Rabs_right (lo' - lo)), (Rabs_left1 (hi' - hi)) by lra. unfold ends. rewrite Rmult_0_r, Rplus_0_l. apply Rmult_le_compat_l; [exact HM|].
        assert (Iy : v ^ 2 * e / y <= v ^ 2 * e / u). { unfold Rdiv. apply Rmult_le_compat_l; [apply Rmult_le_pos; [apply pow2_ge_0|lra]|]. apply Rinv_le_contravar; lra. }
        replace (2 * v ^ 2 / u * e) with (2 * (v ^ 2 * e / u)) by (field; lra). lra. }
    rewrite (angle_on half u v f y). fold lo hi. replace (muquad (gm_muref m) (gm_wref m) lo' hi' (f y) - on (f y) lo hi) with ((muquad (gm_muref m) (gm_wref m) lo' hi' (f y) - on (f y) lo' hi') + (on (f y) lo' hi' - on (f y) lo hi)) by ring.
    eapply Rle_trans; [apply Rabs_triang|]. lra. }
  unfold itquad. rewrite Lxs. fold u' v'.
  set (S2 := rsum N (fun i => w i * ((at_ (gq_q g) i / k) ^ p * angle_integral half u v f (at_ (gq_q g) i / k)))) in RR. set (S1 := rsum N _).
  assert (D : Rabs (S1 - S2) <= rsum N w * (v ^ p * (em + ends))).
  { unfold S1, S2. eapply Rle_trans; [apply rsum_dist|]. rewrite <- rsum_scal. apply rsum_le. intros i Hi. specialize (Row i Hi). pose proof (Xr i Hi) as Ri. destruct (W1 i Hi) as (Wp & _). fold (w i) in Wp. rewrite <- (Xs i Hi).
    set (mq := muquad _ _ _ _ _) in *. set (ai := angle_integral _ _ _ _ _) in *. set (y := at_ xs i) in *.
    replace (y ^ p * w i * mq - w i * (y ^ p * ai)) with (w i * (y ^ p * (mq - ai))) by ring. pose proof (pow_le y p ltac:(lra)) as Py. rewrite !Rabs_mult, (Rabs_right (w i)), (Rabs_right (y ^ p)) by lra.
    apply Rmult_le_compat_l; [lra|]. apply Rmult_le_compat; [exact Py|apply Rabs_pos|apply pow_incr; lra|exact Row]. }
  assert (Pe : 0 <= ends). { eapply Rle_trans; [|apply Req_le; unfold ends; reflexivity]. apply Rmult_le_pos; [exact HM|]. apply Rmult_le_pos; [|lra]. apply Rdiv_le_0_compat; [|exact Hu]. pose proof (pow2_ge_0 v). lra. }
  assert (E2 : rsum N w * (v ^ p * (em + ends)) <= l * (1 + 2 * (n + 1 / 2) ^ 2 * (3 / 10 ^ 14)) * (v ^ p * (em + ends))) by (apply Rmult_le_compat_r; [apply Rmult_le_pos; [apply pow_le; lra|lra]|exact W2]).
  refine (Rle_trans _ (Rabs (S1 - S2) + Rabs (S2 - J)) _ _ _).
  - refine (Rle_trans _ _ _ (Req_le _ _ _) (Rabs_triang (S1 - S2) (S2 - J))). f_equal. unfold Rminus. ring.
  - rewrite (Rplus_comm (rule_error _ _ _ _)). exact (Rplus_le_compat _ _ _ _ (Rle_trans _ _ _ D E2) RR).
Qed.
