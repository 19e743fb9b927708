(** ProofSeries4: symmetry and scaling of the two-loop propagator kernel, inversion of the exact
    formula, the wrong coefficient of the velocity branch. *)
From Coq Require Import Reals Lra Lia.
From Verif Require Import Base Num BaseFacts Common Spec SpecKernels ProofSearch Kernels ProofKernels.
From Coquelicot Require Import Coquelicot.
From Verif Require Import Series ProofSeries2 ProofSeries3.
Import ListNotations.
Local Open Scope R_scope.

Lemma beta_comm a (q1 q2 : R) : beta (N := RNum) a q1 q2 = beta (N := RNum) a q2 q1.
Proof. unfold beta. rn. fold (yq q1 q2) (yq q2 q1). rewrite (yq_comm q2 q1). reflexivity. Qed.
Lemma alpha_comm a (q1 q2 : R) : alpha (N := RNum) a q1 q2 = alpha (N := RNum) a q2 q1.
Proof. unfold alpha. rewrite beta_comm. rn. rewrite (Rplus_comm (q2 * q2)), (Rmult_comm q2 q1). reflexivity. Qed.
Lemma integ_comm a (k q1 q2 : R) : integ_gamma1_2loop (N := RNum) a k q1 q2 = integ_gamma1_2loop (N := RNum) a k q2 q1.
Proof. unfold integ_gamma1_2loop. rewrite alpha_comm. rn. rewrite (Rplus_comm (q2 / k * (q2 / k))). reflexivity. Qed.
Lemma beta_scale a (s q1 q2 : R) : 0 < s -> 0 < q1 -> 0 < q2 -> beta (N := RNum) a (s * q1) (s * q2) = beta (N := RNum) a q1 q2.
Proof.
  intros Hs H1 H2. unfold beta. rn. fold (yq (s * q1) (s * q2)) (yq q1 q2). rewrite yq_scale by assumption. reflexivity.
Qed.
Lemma integ_scale a (s k q1 q2 : R) : s <> 0 -> k <> 0 ->
  integ_gamma1_2loop (N := RNum) a (s * k) (s * q1) (s * q2) = integ_gamma1_2loop (N := RNum) a k q1 q2.
Proof.
  intros Hs Hk. unfold integ_gamma1_2loop. rn.
  replace (s * q1 / (s * k)) with (q1 / k) by (field; auto). replace (s * q2 / (s * k)) with (q2 / k) by (field; auto). reflexivity.
Qed.
Lemma beta_exact_inv y : 0 < y -> y <> 1 -> beta_exact_d (/ y) = beta_exact_d y /\ beta_exact_t (/ y) = beta_exact_t y.
Proof.
  intros Hy H1. assert (y ^ 2 - 1 <> 0) by nra. assert (1 - y ^ 2 <> 0) by nra.
  unfold beta_exact_d, beta_exact_t. rewrite ln_Rinv by exact Hy. set (l := ln y).
  split; field; repeat split; lra.
Qed.
Lemma yq_of y : 0 < y < 1 -> yq 1 ((1 - y) / (1 + y)) = y.
Proof. intros H. unfold yq. replace ((1 - (1 - y) / (1 + y)) / (1 + (1 - y) / (1 + y))) with y by (field; lra). rewrite Rabs_pos_eq; lra. Qed.
Lemma yq_pos y : 0 < y < 1 -> 0 < (1 - y) / (1 + y).
Proof. intros H. apply Rdiv_lt_0_compat; lra. Qed.
Lemma beta_t_gap q1 q2 : 0 < q1 -> 0 < q2 -> 19 / 20 < yq q1 q2 ->
  beta (N := RNum) THETA q1 q2 <= beta_exact_t (yq q1 q2) - 5 / 1000 * (1 - yq q1 q2) ^ 3.
Proof.
  intros H1 H2 Hy. destruct (yq_range q1 q2 H1 H2) as [Y1 Y2]. pose proof (beta_t_near q1 q2 H1 H2 Hy) as H.
  apply Rabs_le_between in H. set (d := 1 - yq q1 q2) in *. assert (Hd : 0 < d < 1 / 20) by (unfold d; lra).
  assert (0 < d ^ 3) by (apply pow_lt; lra). assert (d ^ 5 <= d ^ 3 * (1 / 400)).
  { replace (d ^ 5) with (d ^ 3 * (d * d)) by ring. apply Rmult_le_compat_l; nra. }
  lra.
Qed.
Lemma beta_t_not_taylor C : exists q1 q2, 0 < q1 /\ 0 < q2 /\ 19 / 20 < yq q1 q2 /\
  C * (1 - yq q1 q2) ^ 4 < Rabs (beta (N := RNum) THETA q1 q2 - beta_exact_t (yq q1 q2)).
Proof.
  set (d := / (200 * (Rabs C + 1))). pose proof (Rabs_pos C) as HC.
  assert (Hd : 0 < d <= 1 / 200).
  { unfold d. split; [apply Rinv_0_lt_compat; lra|]. replace (1 / 200) with (/ 200) by field. apply Rinv_le_contravar; lra. }
  assert (HdC : Rabs C * d < 5 / 1000).
  { unfold d. rewrite Rinv_mult. apply (Rmult_lt_reg_r (200 * (Rabs C + 1))); [lra|]. field_simplify; lra. }
  exists 1, ((1 - (1 - d)) / (1 + (1 - d))). rewrite yq_of by lra.
  pose proof (yq_pos (1 - d) ltac:(lra)) as HP. split; [lra|]. split; [exact HP|]. split; [lra|].
  pose proof (beta_t_gap 1 ((1 - (1 - d)) / (1 + (1 - d))) ltac:(lra) HP) as HG. rewrite yq_of in HG by lra. specialize (HG ltac:(lra)).
  set (b := beta _ _ _) in *. clearbody b. replace (1 - (1 - d)) with d in * by ring. 
  assert (0 < d ^ 3) by (apply pow_lt; lra).
  rewrite Rabs_left1 by nra. apply Rlt_le_trans with (5 / 1000 * d ^ 3); [|lra].
  replace (C * d ^ 4) with ((C * d) * d ^ 3) by ring. apply Rmult_lt_compat_r; [assumption|].
  apply Rle_lt_trans with (Rabs C * d); [|exact HdC]. apply Rmult_le_compat_r; [lra|apply Rle_abs].
Qed.
