(** ProofLimits3: the propagators on the largest and smallest scales. *)
From Coq Require Import ZArith Reals Lra Lia List Bool String Psatz.
From Verif Require Import Base Num BaseFacts Common Kernels Gamma2 Integrals Registry Threads Spec SpecPT SpecIntegrals SpecLoops SpecScratch SpecBispectrum SpecBisp2 Sums ProofSearch ProofKernels SpecKernels ProofSeries4
  SpecTable SpecThreads SpecDefined SpecColumns ProofColumns2 ProofColumns3 ProofColumns4 SpecLimits ProofLimits ProofLimits2.
Import ListNotations.
Local Open Scope R_scope.

(** ** The fit alpha *)
Section Alpha.
Variables (a : flag) (q1 q2 : R).
Hypotheses (H1 : 0 < q1) (H2 : 0 < q2).
Let r := sqrt (q1 * q1 + q2 * q2).
Let s := q1 * q2 / r.
Lemma alpha_parts : 0 < r /\ 0 < s /\ 1 / s ^ 2 = 1 / q1 ^ 2 + 1 / q2 ^ 2 /\ s ^ 2 <= r ^ 2 /\
  alpha (N := RNum) a q1 q2 = (beta (N := RNum) a q1 q2 - cc (N := RNum) a s - dd (N := RNum) a r) * delta (N := RNum) a s.
Proof.
  assert (Hq : 0 < q1 * q1 + q2 * q2) by nra. assert (Hr : 0 < r) by (now apply sqrt_lt_R0). assert (Er : r ^ 2 = q1 ^ 2 + q2 ^ 2) by (unfold r; rewrite pow2_sqrt; lra).
  assert (Hs : 0 < s) by (apply Rdiv_lt_0_compat; [nra|exact Hr]).
  assert (Es : s ^ 2 = q1 ^ 2 * q2 ^ 2 / (q1 ^ 2 + q2 ^ 2)) by (unfold s; rewrite <- Er; field; lra).
  repeat split; try assumption.
  - rewrite Es. field. repeat split; nra.
  - rewrite Es, Er. apply quot_le; [nra|]. assert (0 < q1 ^ 2) by (now apply pow_lt). assert (0 < q2 ^ 2) by (now apply pow_lt). nra.
Qed.
Lemma fit_far : Rabs (cc (N := RNum) a s) + Rabs (dd (N := RNum) a r) <= (13 / 120) * (1 / s ^ 2) /\ Rabs (cc (N := RNum) a s) + Rabs (dd (N := RNum) a r) <= 13 / 120.
Proof.
  destruct alpha_parts as [Hr [Hs [_ [Hsr _]]]]. assert (Hs2 : 0 < s ^ 2) by (now apply pow_lt).
  pose proof (cc_bound a s 1 (1 / 12) Hs ltac:(left; auto)). pose proof (cc_bound a s (s ^ 2) (1 / 12) Hs ltac:(right; auto)).
  pose proof (dd_bound a r 1 (1 / 40) Hr ltac:(left; auto)). pose proof (dd_bound a r (r ^ 2) (1 / 40) Hr ltac:(right; auto)).
  split; [|lra]. apply (Rmult_le_reg_l (s ^ 2)); [exact Hs2|]. replace (s ^ 2 * (13 / 120 * (1 / s ^ 2))) with (13 / 120) by (field; lra).
  pose proof (Rabs_pos (dd (N := RNum) a r)). nra.
Qed.
Lemma alpha_far : Rabs (alpha (N := RNum) a q1 q2 - beta (N := RNum) a q1 q2) <=
  (2 * Rabs (beta (N := RNum) a q1 q2) + 3 / 5) * (1 / q1 ^ 2 + 1 / q2 ^ 2) + Rabs (beta (N := RNum) a q1 q2) / 10 ^ 15.
Proof.
  destruct alpha_parts as [Hr [Hs [<- [_ ->]]]]. destruct fit_far as [F _]. pose proof (delta_far a s Hs) as D. pose proof (delta_bound a s Hs) as D5.
  set (b := beta (N := RNum) a q1 q2) in *. set (c := cc (N := RNum) a s) in *. set (d := dd (N := RNum) a r) in *. set (e := delta (N := RNum) a s) in *.
  assert (Hi : 0 < 1 / s ^ 2) by (apply Rdiv_lt_0_compat; [lra|now apply pow_lt]). replace (2 / s ^ 2) with (2 * (1 / s ^ 2)) in D by (unfold Rdiv; ring). set (i := 1 / s ^ 2) in *. clearbody i b c d e.
  change (T RNum) with R in *. replace ((b - c - d) * e - b) with (b * (e - 1) - (c + d) * e) by ring. eapply Rle_trans; [apply Rabs_triang|]. rewrite Rabs_Ropp, !Rabs_mult.
  assert (Rabs (c + d) <= 13 / 120 * i) by (eapply Rle_trans; [apply Rabs_triang|exact F]).
  pose proof (Rabs_pos b). pose proof (Rabs_pos e). pose proof (Rabs_pos (c + d)).
  apply Rle_trans with (Rabs b * (2 * i + 1 / 10 ^ 15) + 13 / 120 * i * 5); [|nra].
  apply Rplus_le_compat; [apply Rmult_le_compat_l; assumption|]. apply Rmult_le_compat; assumption.
Qed.
Lemma alpha_bound : Rabs (alpha (N := RNum) a q1 q2) <= 5 * Rabs (beta (N := RNum) a q1 q2) + 3 / 5.
Proof.
  destruct alpha_parts as [Hr [Hs [_ [_ ->]]]]. destruct fit_far as [_ F]. pose proof (delta_bound a s Hs) as D5.
  set (b := beta (N := RNum) a q1 q2) in *. set (c := cc (N := RNum) a s) in *. set (d := dd (N := RNum) a r) in *. set (e := delta (N := RNum) a s) in *. clearbody b c d e.
  change (T RNum) with R in *. rewrite Rabs_mult. assert (Rabs (b - c - d) <= Rabs b + 13 / 120).
  { replace (b - c - d) with (b + - (c + d)) by ring. eapply Rle_trans; [apply Rabs_triang|]. rewrite Rabs_Ropp. pose proof (Rabs_triang c d). lra. }
  pose proof (Rabs_pos (b - c - d)). pose proof (Rabs_pos e). pose proof (Rabs_pos b). nra.
Qed.
End Alpha.
(** ** Sums over the nodes *)
Lemma single_bound P (g : glq RNum) k f h e : 0 < k -> (forall q, In q (gq_q g) -> Rabs (f (q / k) - h (q / k)) <= e q) ->
  Rabs (single_sum P g k f - single_sum P g k h) <= k ^ 3 / (2 * PI ^ 2) * absolute_1 P g e.
Proof.
  intros Hk H. unfold single_sum, absolute_1. rewrite <- Rmult_minus_distr_l, <- rsum_minus, Rabs_mult.
  assert (F : 0 < k ^ 3 / (2 * PI ^ 2)) by (pose proof PI_RGT_0; apply Rdiv_lt_0_compat; [now apply pow_lt|]; assert (0 < PI ^ 2) by (now apply pow_lt); lra).
  rewrite (Rabs_pos_eq (k ^ 3 / _)) by lra. apply Rmult_le_compat_l; [lra|]. apply rsum_abs_le. intros i Hi.
  set (w := at_ (gq_w g) i). set (q := at_ (gq_q g) i).
  replace (w * (f (q / k) * P q) - w * (h (q / k) * P q)) with (w * P q * (f (q / k) - h (q / k))) by ring.
  rewrite Rabs_mult. apply Rmult_le_compat_l; [apply Rabs_pos|]. apply H, nth_In, Hi.
Qed.
Lemma single_linear P (g : glq RNum) k c : 0 < k -> single_sum P g k (fun x => - (c * x)) = - (3 * c * k ^ 2 * displacement P g).
Proof.
  intros Hk. unfold single_sum, displacement. pose proof PI_RGT_0. replace (- (3 * c * k ^ 2 * (rsum (length (gq_q g)) (fun i => at_ (gq_w g) i * (at_ (gq_q g) i * P (at_ (gq_q g) i))) / (6 * PI ^ 2)))) with
    (k ^ 3 / (2 * PI ^ 2) * ((- c / k) * rsum (length (gq_q g)) (fun i => at_ (gq_w g) i * (at_ (gq_q g) i * P (at_ (gq_q g) i))))) by (field; lra).
  f_equal. rewrite <- rsum_scal. apply rsum_ext. intros i _. field. lra.
Qed.
Lemma absolute_scal P (g : glq RNum) c f : absolute_1 P g (fun q => c * f q) = c * absolute_1 P g f.
Proof. unfold absolute_1. rewrite <- rsum_scal. apply rsum_ext. intros i _. ring. Qed.
Lemma one_loop_large t P (g : glq RNum) k : 0 < k -> (forall q, In q (gq_q g) -> 10 * k < q) ->
  Rabs (single_sum P g k (prop_kernel t) + uv_coefficient t * k ^ 2 * displacement P g) <= k ^ 4 / (18 * PI ^ 2) * absolute_1 P g (fun q => 1 / q).
Proof.
  intros Hk H. pose proof PI_RGT_0. replace (uv_coefficient t * k ^ 2 * displacement P g) with (- single_sum P g k (fun x => - (uv_slope t * x))).
  - eapply Rle_trans; [apply (single_bound P g k (prop_kernel t) (fun x => - (uv_slope t * x)) (fun q => k / 9 * (1 / q)) Hk)|].
    + intros q Hq. specialize (H q Hq). replace (prop_kernel t (q / k) - - (uv_slope t * (q / k))) with (prop_kernel t (q / k) + uv_slope t * (q / k)) by ring.
      eapply Rle_trans; [apply kernel_hi|right; cbv beta; field; lra]. apply (Rmult_lt_reg_r k); [exact Hk|]. unfold Rdiv. rewrite Rmult_assoc, Rinv_l by lra. lra.
    + change (T RNum) with R. rewrite (absolute_scal P g (k / 9) (fun q => 1 / q)). right. set (A := absolute_1 _ _ _). field. lra.
  - rewrite single_linear by exact Hk. destruct t; cbn [uv_slope uv_coefficient]; field.
Qed.
Lemma one_loop_small t P (g : glq RNum) k : 0 < k -> (forall q, In q (gq_q g) -> 0 < q /\ 2 * q <= k) ->
  Rabs (single_sum P g k (prop_kernel t) + k ^ 2 * displacement P g / 2) <= absolute_1 P g (fun q => q ^ 3) / (8 * PI ^ 2).
Proof.
  intros Hk H. pose proof PI_RGT_0. replace (k ^ 2 * displacement P g / 2) with (- single_sum P g k (fun x => - (1 / 6 * x))).
  - eapply Rle_trans; [apply (single_bound P g k (prop_kernel t) (fun x => - (1 / 6 * x)) (fun q => 1 / (4 * k ^ 3) * q ^ 3) Hk)|].
    + intros q Hq. destruct (H q Hq) as [Q1 Q2]. replace (prop_kernel t (q / k) - - (1 / 6 * (q / k))) with (prop_kernel t (q / k) + q / k / 6) by (field; lra).
      eapply Rle_trans; [apply kernel_lo|right; cbv beta; field; lra]. split; [now apply Rdiv_lt_0_compat|]. apply quot_le; lra.
    + change (T RNum) with R. rewrite (absolute_scal P g (1 / (4 * k ^ 3)) (fun q => q ^ 3)). right. set (A := absolute_1 _ _ _). field. lra.
  - rewrite single_linear by exact Hk. field.
Qed.
Lemma double_bound P (g : glq RNum) f h e : (forall q q', In q (gq_q g) -> In q' (gq_q g) -> Rabs ((f q q' - h q q') * (q ^ 3 * q' ^ 3)) <= e q q') ->
  Rabs (double_sum P g f - double_sum P g h) <= absolute_2 P g e / (4 * PI ^ 4).
Proof.
  intros H. unfold double_sum, absolute_2. pose proof PI_RGT_0. assert (F : 0 < 4 * PI ^ 4) by (assert (0 < PI ^ 4) by (now apply pow_lt); lra).
  unfold Rdiv. rewrite <- Rmult_minus_distr_r, Rabs_mult, (Rabs_pos_eq (/ _)) by (now apply Rlt_le, Rinv_0_lt_compat). apply Rmult_le_compat_r; [now apply Rlt_le, Rinv_0_lt_compat|].
  rewrite <- rsum_minus. apply rsum_abs_le. intros i Hi. rewrite <- rsum_minus. apply rsum_abs_le. intros j Hj.
  set (w := at_ (gq_w g) i). set (q := at_ (gq_q g) i). set (w' := at_ (gq_w g) j). set (q' := at_ (gq_q g) j).
  match goal with |- Rabs ?a <= _ => replace a with (w * P q * (w' * P q') * ((f q q' - h q q') * (q ^ 3 * q' ^ 3))) by ring end.
  rewrite !Rabs_mult. rewrite <- (Rabs_mult w), <- (Rabs_mult w'). rewrite <- !Rabs_mult. rewrite Rabs_mult, (Rabs_mult (w * P q)).
  apply Rmult_le_compat_l; [apply Rmult_le_pos; apply Rabs_pos|]. apply H; apply nth_In; assumption.
Qed.
Lemma integ_alpha a k q1 q2 : 0 < k -> 0 < q1 -> 0 < q2 -> integ_gamma1_2loop (N := RNum) a k q1 q2 = - (k ^ 2 * (alpha (N := RNum) a (q1 / k) (q2 / k) / (q1 ^ 2 + q2 ^ 2))).
Proof. intros Hk H1 H2. unfold integ_gamma1_2loop. rn. set (A := alpha (N := RNum) a (q1 / k) (q2 / k)). field. split; [|lra]. assert (0 < q1 ^ 2) by (now apply pow_lt). assert (0 < q2 ^ 2) by (now apply pow_lt). nra. Qed.
Lemma beta_k a k q1 q2 : 0 < k -> 0 < q1 -> 0 < q2 -> beta (N := RNum) a (q1 / k) (q2 / k) = beta (N := RNum) a q1 q2.
Proof. intros Hk H1 H2. replace (q1 / k) with (/ k * q1) by (unfold Rdiv; ring). replace (q2 / k) with (/ k * q2) by (unfold Rdiv; ring). apply beta_scale; try assumption. now apply Rinv_0_lt_compat. Qed.
Lemma double_scal P (g : glq RNum) c f : double_sum P g (fun q q' => c * f q q') = c * double_sum P g f.
Proof.
  unfold double_sum, Rdiv. rewrite <- Rmult_assoc. f_equal. rewrite <- rsum_scal. apply rsum_ext. intros i _. rewrite <- rsum_scal. apply rsum_ext. intros j _. ring.
Qed.
Lemma absolute_lin P (g : glq RNum) c d f h : absolute_2 P g (fun q q' => c * f q q' + d * h q q') = c * absolute_2 P g f + d * absolute_2 P g h.
Proof.
  unfold absolute_2. rewrite <- !rsum_scal, <- rsum_plus. apply rsum_ext. intros i _. rewrite <- !rsum_scal, <- rsum_plus. apply rsum_ext. intros j _. ring.
Qed.
Section Two.
Variables (t : bool) (P : R -> R) (g : glq RNum) (k : R).
Hypotheses (Hk : 0 < k) (Hg : forall q : R, In q (gq_q g) -> 0 < q).
Let b q1 q2 : R := Rabs (beta (N := RNum) (flag_of t) q1 q2).
Lemma two_loop_large : Rabs (double_sum P g (fun q1 q2 => integ_gamma1_2loop (N := RNum) (flag_of t) k q1 q2) + k ^ 2 * uv_2loop t P g) <=
  (k ^ 4 * absolute_2 P g (fun q1 q2 => (2 * b q1 q2 + 3 / 5) * (q1 * q2)) + k ^ 2 * / 10 ^ 15 * absolute_2 P g (fun q1 q2 => b q1 q2 * (q1 ^ 3 * q2 ^ 3 / (q1 ^ 2 + q2 ^ 2)))) / (4 * PI ^ 4).
Proof.
  replace (k ^ 2 * uv_2loop t P g) with (- double_sum P g (fun q1 q2 => - k ^ 2 * (beta (N := RNum) (flag_of t) q1 q2 / (q1 ^ 2 + q2 ^ 2)))).
  2: { rewrite double_scal. unfold uv_2loop. ring. }
  rewrite <- absolute_lin. apply double_bound. intros q1 q2 I1 I2. pose proof (Hg q1 I1) as H1. pose proof (Hg q2 I2) as H2.
  assert (P1 : 0 < q1 ^ 2) by (now apply pow_lt). assert (P2 : 0 < q2 ^ 2) by (now apply pow_lt). assert (P3 : 0 < q1 ^ 3) by (now apply pow_lt). assert (P4 : 0 < q2 ^ 3) by (now apply pow_lt). assert (Pk : 0 < k ^ 2) by (now apply pow_lt).
  rewrite integ_alpha by assumption. pose proof (alpha_far (flag_of t) (q1 / k) (q2 / k) ltac:(now apply Rdiv_lt_0_compat) ltac:(now apply Rdiv_lt_0_compat)) as A.
  rewrite beta_k in A by assumption. unfold b. set (al := alpha (N := RNum) (flag_of t) (q1 / k) (q2 / k)) in *. set (be := beta (N := RNum) (flag_of t) q1 q2) in *. clearbody al be. change (T RNum) with R in *.
  set (F := k ^ 2 * (q1 ^ 3 * q2 ^ 3 / (q1 ^ 2 + q2 ^ 2))). assert (HF : 0 < F) by (apply Rmult_lt_0_compat; [exact Pk|]; apply Rdiv_lt_0_compat; [now apply Rmult_lt_0_compat|lra]).
  replace ((- (k ^ 2 * (al / (q1 ^ 2 + q2 ^ 2))) - - k ^ 2 * (be / (q1 ^ 2 + q2 ^ 2))) * (q1 ^ 3 * q2 ^ 3)) with (- ((al - be) * F)) by (unfold F; field; lra).
  rewrite Rabs_Ropp, Rabs_mult, (Rabs_pos_eq F) by lra. eapply Rle_trans; [apply Rmult_le_compat_r; [lra|exact A]|]. right. unfold F. field. repeat split; lra.
Qed.
Lemma two_loop_small : Rabs (double_sum P g (fun q1 q2 => integ_gamma1_2loop (N := RNum) (flag_of t) k q1 q2)) <=
  k ^ 2 * absolute_2 P g (fun q1 q2 => (5 * b q1 q2 + 3 / 5) * (q1 ^ 3 * q2 ^ 3 / (q1 ^ 2 + q2 ^ 2))) / (4 * PI ^ 4).
Proof.
  replace (double_sum P g _) with (double_sum P g (fun q1 q2 => integ_gamma1_2loop (N := RNum) (flag_of t) k q1 q2) - double_sum P g (fun q1 q2 => 0 * 0)) by (rewrite double_scal; ring).
  replace (k ^ 2 * absolute_2 P g (fun q1 q2 => (5 * b q1 q2 + 3 / 5) * (q1 ^ 3 * q2 ^ 3 / (q1 ^ 2 + q2 ^ 2)))) with
    (absolute_2 P g (fun q1 q2 => k ^ 2 * ((5 * b q1 q2 + 3 / 5) * (q1 ^ 3 * q2 ^ 3 / (q1 ^ 2 + q2 ^ 2))) + 0 * 0)) by (rewrite absolute_lin; ring).
  apply double_bound. intros q1 q2 I1 I2. pose proof (Hg q1 I1) as H1. pose proof (Hg q2 I2) as H2.
  assert (P1 : 0 < q1 ^ 2) by (now apply pow_lt). assert (P2 : 0 < q2 ^ 2) by (now apply pow_lt). assert (P3 : 0 < q1 ^ 3) by (now apply pow_lt). assert (P4 : 0 < q2 ^ 3) by (now apply pow_lt). assert (Pk : 0 < k ^ 2) by (now apply pow_lt).
  rewrite integ_alpha by assumption. pose proof (alpha_bound (flag_of t) (q1 / k) (q2 / k) ltac:(now apply Rdiv_lt_0_compat) ltac:(now apply Rdiv_lt_0_compat)) as A.
  rewrite beta_k in A by assumption. unfold b. set (al := alpha (N := RNum) (flag_of t) (q1 / k) (q2 / k)) in *. set (be := beta (N := RNum) (flag_of t) q1 q2) in *. clearbody al be. change (T RNum) with R in *.
  set (F := k ^ 2 * (q1 ^ 3 * q2 ^ 3 / (q1 ^ 2 + q2 ^ 2))). assert (HF : 0 < F) by (apply Rmult_lt_0_compat; [exact Pk|]; apply Rdiv_lt_0_compat; [now apply Rmult_lt_0_compat|lra]).
  replace ((- (k ^ 2 * (al / (q1 ^ 2 + q2 ^ 2))) - 0 * 0) * (q1 ^ 3 * q2 ^ 3)) with (- (al * F)) by (unfold F; field; lra).
  rewrite Rabs_Ropp, Rabs_mult, (Rabs_pos_eq F) by lra. eapply Rle_trans; [apply Rmult_le_compat_r; [lra|exact A]|]. right. unfold F. field. lra.
Qed.
End Two.
