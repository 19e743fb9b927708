(** ProofSamples5: the sums over the nodes change little when the spectrum does, and a table of samples is close to its spectrum. *)
From Coq Require Import Reals Lra Lia List ZArith String.
From Coquelicot Require Import Coquelicot.
From Verif Require Import Base Num BaseFacts Common Kernels Integrals Registry Threads Spec SpecPT SpecQuad SpecKernels SpecLoops SpecIntegrals SpecThreads SpecScratch SpecDefined SpecColumns SpecConv Poly ProofSearch ProofGL ProofGL2 ProofColumns ProofKernels ProofCommon2 ProofNewton6 ProofThreads8 ProofDefined12
  ProofColumns2 ProofColumns3 ProofColumns4 ProofNewton7 ProofNewton8 ProofQuad ProofQuad2 ProofQuad3 ProofConv ProofConv2 ProofConv3 ProofConv4 SpecSamples ProofSamples3 ProofSamples4.
Import ListNotations.
Local Open Scope R_scope.

(** Weights of the rule over the angles *)
Lemma mu_change fuel (p : precision RNum) (m : glmu RNum) lo hi f g e : (1 <= pr_n p < 2 ^ 62)%Z -> init_gauss_legendre_mu (N := RNum) fuel p = Ok m -> -1 <= lo -> hi <= 1 -> 0 <= e ->
  (forall t, lo <= t <= hi -> Rabs (f t - g t) <= e) ->
  Rabs (muquad (gm_muref m) (gm_wref m) lo hi f - muquad (gm_muref m) (gm_wref m) lo hi g) <= 2 * (1 + 2 * (IZR (pr_n p) + 1 / 2) ^ 2 * (3 / 10 ^ 14)) * e.
Proof.
  intros Hn HI Hlo Hhi He HD. destruct (Rlt_dec lo hi) as [Hlh|H0].
  2: { unfold muquad. destruct (Rlt_dec lo hi); [contradiction|]. rewrite Rminus_eq_0, Rabs_R0. pose proof (pow2_ge_0 (IZR (pr_n p) + 1 / 2)). apply Rmult_le_pos; lra. }
  destruct (init_mu_inv fuel p m ltac:(lia) HI) as (E & _). rn_in E. change (T RNum) with R in *. set (z := repeat 0 (Z.to_nat (pr_n p))) in E. assert (Hz : zlen z = pr_n p) by (unfold z; apply zlen_repeat; lia).
  destruct (gl_order fuel (-1) 1 z z (pr_n p) Hn Hz Hz ltac:(lra) _ _ E) as (Lx & Lw & _ & HV).
  assert (HC : bounded_lipschitz (fun _ => e) lo hi 0 e).
  { split; [intros; rewrite Rabs_right; lra|]. intros. rewrite Rminus_eq_0, Rabs_R0. lra. }
  destruct (mu_error fuel p m lo hi (fun _ => e) 0 e Hn HI Hlo Hlh Hhi (Rle_refl 0) HC) as (_ & B).
  assert (EC : RInt (fun _ : R => e) lo hi = (hi - lo) * e) by (rewrite RInt_const; reflexivity). rewrite EC in B.
  set (A := muquad (gm_muref m) (gm_wref m) lo hi (fun _ => e)) in B. assert (B1 : A <= 2 * (1 + 2 * (IZR (pr_n p) + 1 / 2) ^ 2 * (3 / 10 ^ 14)) * e).
  { pose proof (Rle_abs (A - (hi - lo) * e)). unfold rule_error in B. set (ep := 2 * (IZR (pr_n p) + 1 / 2) ^ 2 * (3 / 10 ^ 14)) in *.
    assert ((hi - lo) * e <= 2 * e) by (apply Rmult_le_compat_r; lra). unfold Rdiv in B. rewrite !Rmult_0_l in B. lra. }
  eapply Rle_trans; [|exact B1]. unfold A, muquad. destruct (Rlt_dec lo hi) as [_|C]; [|contradiction].
  eapply Rle_trans; [apply rsum_dist|]. apply ProofNewton7.rsum_le. intros j Hj. assert (Hj' : (j < Z.to_nat (pr_n p))%nat) by (rewrite <- Lx; exact Hj). destruct (HV j Hj') as (V1 & V2). set (c := (hi - lo) / 2). set (t := lo + c * (at_ (gm_muref m) j + 1)).
  assert (Hc : 0 < c) by (unfold c; lra). assert (Ht : lo <= t <= hi) by (unfold t; assert (hi = lo + 2 * c) by (unfold c; field); nra).
  replace (c * at_ (gm_wref m) j * f t - c * at_ (gm_wref m) j * g t) with (c * at_ (gm_wref m) j * (f t - g t)) by ring.
  assert (P0 : 0 < c * at_ (gm_wref m) j) by (apply Rmult_lt_0_compat; assumption). rewrite Rabs_mult, (Rabs_right (c * at_ (gm_wref m) j)) by lra. apply Rmult_le_compat_l; [lra|apply HD, Ht].
Qed.
Lemma mode_change fuel fuel' (pq pm : precision RNum) pkl (g : glq RNum) (m : glmu RNum) half p k qmin qmax f f' e :
  (1 <= pr_n pq < 2 ^ 62)%Z -> (1 <= pr_n pm < 2 ^ 62)%Z -> init_gauss_legendre_q (N := RNum) fuel pq pkl = Ok g -> init_gauss_legendre_mu (N := RNum) fuel' pm = Ok m ->
  q_range (N := RNum) pq pkl = Ok (qmin, qmax) -> 0 < qmin < qmax -> 0 < k -> 0 <= e -> (forall x mu, region half (qmin / k) (qmax / k) x mu -> Rabs (f x mu - f' x mu) <= e) ->
  Rabs (itquad half (xs_of g k) (fun i => at_ (xs_of g k) i ^ p * at_ (gq_w g) i) (gm_muref m) (gm_wref m) (fun i mu => f (at_ (xs_of g k) i) mu) -
    itquad half (xs_of g k) (fun i => at_ (xs_of g k) i ^ p * at_ (gq_w g) i) (gm_muref m) (gm_wref m) (fun i mu => f' (at_ (xs_of g k) i) mu)) <= mode_change_bound (pr_n pq) (pr_n pm) p k qmin qmax e.
Proof.
  intros Hnq Hnm HI HJ ER Hq Hk He HD. unfold mode_change_bound. set (u := qmin / k) in *. set (v := qmax / k) in *. set (l := ln qmax - ln qmin).
  assert (Hu : 0 < u) by (unfold u; apply Rdiv_lt_0_compat; lra). assert (Huv : u < v) by (unfold u, v, Rdiv; apply Rmult_lt_compat_r; [apply Rinv_0_lt_compat|]; lra).
  destruct (weights_sum fuel pq pkl g qmin qmax Hnq HI ER Hq) as (W1 & W2). fold l in W2. change (T RNum) with R in *.
  set (N := List.length (gq_q g)) in *. set (xs := xs_of g k). assert (Lxs : List.length xs = N) by (unfold xs, xs_of; apply map_length).
  assert (Xr : forall i, (i < N)%nat -> u < at_ xs i < v).
  { intros i Hi. assert (Xs : at_ xs i = at_ (gq_q g) i / k). { unfold xs, xs_of, at_. rewrite (nth_indep _ 0 (0 / k)) by (rewrite map_length; exact Hi). exact (map_nth (fun q => q / k) (gq_q g) 0 i). }
    rewrite Xs. destruct (W1 i Hi) as (_ & W). unfold u, v, Rdiv. split; (apply Rmult_lt_compat_r; [apply Rinv_0_lt_compat, Hk|apply W]). }
  unfold itquad. rewrite Lxs. eapply Rle_trans; [apply rsum_dist|]. set (em := 2 * (1 + 2 * (IZR (pr_n pm) + 1 / 2) ^ 2 * (3 / 10 ^ 14)) * e).
  assert (Pem : 0 <= em) by (unfold em; pose proof (pow2_ge_0 (IZR (pr_n pm) + 1 / 2)); apply Rmult_le_pos; lra).
  apply (Rle_trans _ (rsum N (fun i => v ^ p * em * at_ (gq_w g) i))).
  - apply ProofNewton7.rsum_le. intros i Hi. pose proof (Xr i Hi) as Ri. destruct (W1 i Hi) as (Wp & _). set (y := at_ xs i) in *.
    assert (A : forall a b c, c * a - c * b = c * (a - b)) by (intros; ring). rewrite A, Rabs_mult.
    assert (Hp : 0 <= y ^ p <= v ^ p) by (split; [apply pow_le; lra|apply pow_incr; lra]).
    rewrite (Rabs_right (y ^ p * at_ (gq_w g) i)) by (apply Rle_ge, Rmult_le_pos; lra).
    replace (v ^ p * em * at_ (gq_w g) i) with (v ^ p * at_ (gq_w g) i * em) by ring.
    apply Rmult_le_compat; [apply Rmult_le_pos; lra|apply Rabs_pos|apply Rmult_le_compat_r; lra|].
    assert (HN : (0 < N)%nat) by lia. pose proof (Xr 0%nat HN) as U'. pose proof (Xr (N - 1)%nat ltac:(lia)) as V'.
    apply (mu_change fuel' pm m _ _ (f y) (f' y) e Hnm HJ); [apply lo_ge|apply hi_le|exact He|].
    intros t Ht. apply HD. split; [lra|].
    destruct (lo_end v (at_ xs (N - 1)) y ((v ^ 2 - at_ xs (N - 1) ^ 2) / 2) ltac:(lra) ltac:(lra) ltac:(lra)) as (L1 & _).
    assert (P2 : u ^ 2 <= at_ xs 0 ^ 2) by (apply pow_incr; lra).
    destruct (hi_end half u Hu (at_ xs 0) y ((at_ xs 0 ^ 2 - u ^ 2) / 2) ltac:(lra) ltac:(lra) ltac:(lra) ltac:(lra)) as (L2 & _). lra.
  - rewrite ProofColumns.rsum_scal. replace (l * (1 + 2 * (IZR (pr_n pq) + 1 / 2) ^ 2 * (3 / 10 ^ 14)) * (v ^ p * em)) with (v ^ p * em * (l * (1 + 2 * (IZR (pr_n pq) + 1 / 2) ^ 2 * (3 / 10 ^ 14)))) by ring.
    apply Rmult_le_compat_l; [apply Rmult_le_pos; [apply pow_le; lra|exact Pem]|exact W2].
Qed.

(** A sampled table is close to its spectrum. *)
Lemma lookup_near P M h K Pv d q : samples P 5 M h K Pv -> (3 <= zlen K < 2 ^ 62)%Z -> (forall m, (3 <= m <= 5)%nat -> poly_error M h m <= d) -> at_ K 0 <= q <= at_ K (List.length K - 1) ->
  Rabs (lookup_of (mk_table (N := RNum) K Pv) POLY q - P 0%nat q) <= d.
Proof.
  intros HS HB Hd Hq. destruct (sampled_poly P M h K Pv q HS ltac:(lia) Hq) as (i & v & Hi & _ & _ & E & B). rewrite (F_of K Pv q v E). eapply Rle_trans; [exact B|]. apply Hd. unfold zlen in HB. lia.
Qed.
Lemma sampled_lip P n M h K Pv : samples P (S n) M h K Pv -> (1 <= List.length K)%nat -> lip (at_ K 0) (at_ K (List.length K - 1)) (P 0%nat).
Proof.
  intros [SL SI SV SS SD SB] HL. assert (Hab : at_ K 0 <= at_ K (List.length K - 1)) by (apply inc_le; [exact SI|lia]).
  apply (lip_derive _ _ _ (P 1%nat) (M 1%nat) Hab).
  - eapply Rle_trans; [apply Rabs_pos|apply (SB 1%nat (at_ K 0)); [lia|lra]].
  - intros t Ht. split; [apply SD; [lia|exact Ht]|apply SB; [lia|exact Ht]].
Qed.
Lemma sampled_points P n M h K Pv : samples P n M h K Pv -> (2 <= zlen K < 2 ^ 62)%Z -> two_points (mk_table (N := RNum) K Pv).
Proof. intros [SL SI SV SS SD SB] HB. exists K, Pv. repeat split; try assumption; lia. Qed.

(** The propagators, for a spectrum close to another one *)
Lemma propagator_any fuel (p : precision RNum) pkl g t k qmin qmax P lam M1 M : (1 <= pr_n p < 2 ^ 62)%Z -> q_range (N := RNum) p pkl = Ok (qmin, qmax) -> 0 < qmin < qmax -> 0 < k -> 0 <= lam ->
  init_gauss_legendre_q (N := RNum) fuel p pkl = Ok g ->
  bounded_lipschitz (fun s => prop_exact t (exp s / k) * P (exp s)) (ln qmin) (ln qmax) lam M1 -> (forall q, qmin <= q <= qmax -> Rabs (P q) <= M) ->
  Rabs (single_sum P g k (prop_kernel t) - exact_integral P t k qmin qmax) <= propagator_bound (pr_n p) k qmin qmax lam M1 M.
Proof.
  intros Hn ER Hq Hk Hlam EI (HM1 & HLip) HM. unfold propagator_bound.
  assert (Hlq : ln qmin < ln qmax) by (apply ln_increasing; lra). set (l := ln qmax - ln qmin) in *. set (c := k ^ 3 / (2 * PI ^ 2)).
  assert (Hc : 0 < c) by (unfold c; apply Rdiv_lt_0_compat; [apply pow_lt, Hk|]; pose proof PI_RGT_0; nra).
  assert (PM : 0 <= M) by (eapply Rle_trans; [apply Rabs_pos|apply (HM qmin); lra]).
  unfold single_sum, exact_integral. fold c. set (n := IZR (pr_n p)).
  destruct (radial_rule fuel p pkl g qmin qmax (fun q => prop_exact t (q / k) * P q) lam M1 Hn EI ER Hq Hlam HM1 HLip) as (X & A).
  destruct (weights_sum fuel p pkl g qmin qmax Hn EI ER Hq) as (W1 & W2). fold l in A, W2. fold n in W2.
  set (N := List.length (gq_q g)) in *. set (w := at_ (gq_w g)) in *. set (q := at_ (gq_q g)) in *. set (J := RInt _ _ _) in *. cbv beta in A.
  assert (B : Rabs (rsum N (fun i => w i * (prop_kernel t (q i / k) * P (q i))) - rsum N (fun i => w i * (prop_exact t (q i / k) * P (q i)))) <= rsum N w * (3 / 10 ^ 5 * M)).
  { eapply Rle_trans; [apply rsum_dist|]. rewrite <- ProofNewton7.rsum_scal. apply rsum_le. intros i Hi. destruct (W1 i Hi) as (Wp & Wq). fold (w i) in Wp. fold (q i) in Wq.
    replace (w i * (prop_kernel t (q i / k) * P (q i)) - w i * (prop_exact t (q i / k) * P (q i))) with (w i * ((prop_kernel t (q i / k) - prop_exact t (q i / k)) * P (q i))) by ring.
    rewrite !Rabs_mult, (Rabs_right (w i)) by lra. apply Rmult_le_compat_l; [lra|].
    assert (Hx : 0 < q i / k) by (apply Rdiv_lt_0_compat; lra). pose proof (prop_close t (q i / k) Hx) as D1. pose proof (tolerance_small (q i / k) Hx) as D2.
    apply Rmult_le_compat; try apply Rabs_pos; [lra|apply HM; lra]. }
  set (S1 := rsum N (fun i => w i * (prop_kernel t (q i / k) * P (q i)))) in *. set (S2 := rsum N (fun i => w i * (prop_exact t (q i / k) * P (q i)))) in *.
  replace (c * S1 - c * J) with (c * ((S1 - S2) + (S2 - J))) by ring. rewrite Rabs_mult, (Rabs_right c) by lra. apply Rmult_le_compat_l; [lra|].
  apply (Rle_trans _ (Rabs (S1 - S2) + Rabs (S2 - J))); [apply Rabs_triang|].
  assert (E1 : rsum N w * (3 / 10 ^ 5 * M) <= l * (1 + 2 * (n + 1 / 2) ^ 2 * (3 / 10 ^ 14)) * (3 / 10 ^ 5 * M)) by (apply Rmult_le_compat_r; lra). lra.
Qed.
Lemma propagator_stable fuel (p : precision RNum) pkl g t k qmin qmax (P Q : R -> R) N d : (1 <= pr_n p < 2 ^ 62)%Z -> q_range (N := RNum) p pkl = Ok (qmin, qmax) -> 0 < qmin < qmax -> 0 < k ->
  init_gauss_legendre_q (N := RNum) fuel p pkl = Ok g -> (forall q, qmin <= q <= qmax -> Rabs (prop_exact t (q / k)) <= N) -> (forall q, qmin <= q <= qmax -> Rabs (Q q - P q) <= d) ->
  Rabs (single_sum Q g k (prop_kernel t) - single_sum P g k (prop_kernel t)) <= propagator_change (pr_n p) k qmin qmax N d.
Proof.
  intros Hn ER Hq Hk EI HN HD. unfold propagator_change. set (c := k ^ 3 / (2 * PI ^ 2)).
  assert (Hc : 0 < c) by (unfold c; apply Rdiv_lt_0_compat; [apply pow_lt, Hk|]; pose proof PI_RGT_0; nra).
  assert (PN : 0 <= N) by (eapply Rle_trans; [apply Rabs_pos|apply (HN qmin); lra]). assert (Pd : 0 <= d) by (eapply Rle_trans; [apply Rabs_pos|apply (HD qmin); lra]).
  destruct (weights_sum fuel p pkl g qmin qmax Hn EI ER Hq) as (W1 & W2). set (l := ln qmax - ln qmin) in *.
  unfold single_sum. fold c. apply scaled_error; [lra|]. set (w := at_ (gq_w g)) in *. set (q := at_ (gq_q g)) in *.
  eapply Rle_trans; [apply rsum_dist|]. apply (Rle_trans _ (rsum (List.length (gq_q g)) w * ((N + 3 / 10 ^ 5) * d))).
  - rewrite <- ProofNewton7.rsum_scal. apply rsum_le. intros i Hi. destruct (W1 i Hi) as (Wp & Wq). fold (w i) in Wp. fold (q i) in Wq.
    replace (w i * (prop_kernel t (q i / k) * Q (q i)) - w i * (prop_kernel t (q i / k) * P (q i))) with (w i * (prop_kernel t (q i / k) * (Q (q i) - P (q i)))) by ring.
    rewrite !Rabs_mult, (Rabs_right (w i)) by lra. apply Rmult_le_compat_l; [lra|]. assert (Hx : 0 < q i / k) by (apply Rdiv_lt_0_compat; lra).
    pose proof (prop_close t (q i / k) Hx) as D1. pose proof (tolerance_small (q i / k) Hx) as D2. pose proof (HN (q i) ltac:(lra)) as D3.
    apply Rmult_le_compat; try apply Rabs_pos; [|apply HD; lra]. replace (prop_kernel t (q i / k)) with ((prop_kernel t (q i / k) - prop_exact t (q i / k)) + prop_exact t (q i / k)) by ring.
    eapply Rle_trans; [apply Rabs_triang|]. lra.
  - apply Rmult_le_compat_r; [apply Rmult_le_pos; lra|exact W2].
Qed.
