(** ProofSeries: the incomplete beta function and the expansions of the 1- and 2-loop propagator
    kernels. *)
From Coq Require Import Reals Lra Lia.
From Verif Require Import Base Num BaseFacts Common Spec ProofSearch Kernels ProofKernels.
From Coquelicot Require Import Coquelicot.
From Verif Require Import Series.
Import ListNotations.
Local Open Scope R_scope.

(** ** betafunc *)
Lemma lnsum_S m d : lnsum (S m) d = lnsum m d + d ^ S m / INR (S m).
Proof. reflexivity. Qed.
Lemma lnsum_shift a N z : (1 <= a)%nat ->
  sum_f_R0 (fun n => z ^ (a + n) / INR (a + n)) N = lnsum (a + N) z - lnsum (a - 1) z.
Proof.
  intros Ha. induction N as [|N IH].
  - cbn [sum_f_R0]. rewrite !Nat.add_0_r. destruct a as [|a]; [lia|]. rewrite lnsum_S. replace (S a - 1)%nat with a by lia. ring.
  - cbn [sum_f_R0]. rewrite IH. replace (a + S N)%nat with (S (a + N)) by lia. rewrite lnsum_S. ring.
Qed.
Lemma tail_series a z : (1 <= a)%nat -> 0 <= z < 1 ->
  infinite_sum (fun n => z ^ (a + n) / INR (a + n)) (- ln (1 - z) - lnsum (a - 1) z).
Proof.
  intros Ha Hz eps He.
  assert (Hz1 : Rabs z < 1) by (rewrite Rabs_pos_eq; lra).
  assert (HE : 0 < eps * (1 - z)) by (apply Rmult_lt_0_compat; lra).
  destruct (pow_lt_1_zero z Hz1 (eps * (1 - z)) HE) as [M HM].
  exists M. intros n Hn. rewrite lnsum_shift by exact Ha. unfold R_dist.
  replace (lnsum (a + n) z - lnsum (a - 1) z - (- ln (1 - z) - lnsum (a - 1) z)) with (- (- ln (1 - z) - lnsum (a + n) z)) by ring.
  destruct (ln_remainder (a + n) z Hz) as [R1 R2].
  rewrite Rabs_Ropp, Rabs_pos_eq by exact R1. eapply Rle_lt_trans; [exact R2|].
  assert (HM' := HM (S (a + n)) ltac:(lia)). rewrite Rabs_pos_eq in HM' by (apply pow_le; lra).
  assert (HS : 1 <= INR (S (a + n))) by (change 1 with (INR 1); apply le_INR; lia).
  assert (HP : 0 < INR (S (a + n)) * (1 - z)) by (apply Rmult_lt_0_compat; lra).
  apply (proj2 (Rlt_div_l _ _ _ HP)).
  eapply Rlt_le_trans; [exact HM'|]. apply Rmult_le_compat_l; [lra|].
  assert (0 <= (INR (S (a + n)) - 1) * (1 - z)) by (apply Rmult_le_pos; lra). lra.
Qed.
Lemma sum_unique (f : nat -> R) u v : infinite_sum f u -> infinite_sum f v -> u = v.
Proof. intros H1 H2. apply (UL_sequence (fun n => sum_f_R0 f n)); assumption. Qed.

Lemma betafunc_closed a z : a = 2%nat \/ a = 4%nat \/ a = 6%nat -> 1 / 10 < z < 1 ->
  betafunc (N := RNum) (Z.of_nat a) z = - ln (1 - z) - lnsum (a - 1) z.
Proof.
  intros Ha Hz. unfold betafunc. rn. lits.
  destruct (Rleb_spec z (1 / 10)) as [H|H]; [lra|].
  destruct Ha as [-> | [-> | ->]]; cbn [Z.of_nat Pos.of_succ_nat Pos.succ Z.eqb Pos.eqb Nat.sub lnsum rsum pow INR Nat.add];
    unfold lnsum; cbn [rsum pow INR]; field; lra.
Qed.
Lemma betafunc_series a z : a = 2%nat \/ a = 4%nat \/ a = 6%nat -> 1 / 10 < z < 1 ->
  infinite_sum (fun n => z ^ (a + n) / INR (a + n)) (betafunc (N := RNum) (Z.of_nat a) z).
Proof.
  intros Ha Hz. rewrite betafunc_closed by assumption. apply tail_series; [lia|lra].
Qed.

Lemma betafunc_small a z : (1 <= a)%nat -> 0 <= z <= 1 / 10 ->
  betafunc (N := RNum) (Z.of_nat a) z = lnsum (a + 6) z - lnsum (a - 1) z.
Proof.
  intros Ha Hz. unfold betafunc. rn. lits. destruct (Rleb_spec z (1 / 10)) as [H|H]; [|lra].
  rewrite power_R by lia. rewrite Nat2Z.id, <- INR_IZR_INZ. rewrite <- lnsum_shift by exact Ha.
  cbn [sum_f_R0]. rewrite !pow_add, !plus_INR. cbn [pow INR].
  assert (1 <= INR a) by (change 1 with (INR 1); apply le_INR; lia). field. lra.
Qed.
Lemma betafunc_small_error a z v : (1 <= a)%nat -> 0 <= z <= 1 / 10 ->
  infinite_sum (fun n => z ^ (a + n) / INR (a + n)) v ->
  0 <= v - betafunc (N := RNum) (Z.of_nat a) z <= z ^ (a + 7) / (INR (a + 7) * (1 - z)).
Proof.
  intros Ha Hz Hv. assert (Hz' : 0 <= z < 1) by lra.
  rewrite (sum_unique _ _ _ Hv (tail_series a z Ha Hz')), betafunc_small by assumption.
  pose proof (ln_remainder (a + 6) z Hz') as H. replace (S (a + 6)) with (a + 7)%nat in H by lia. lra.
Qed.
