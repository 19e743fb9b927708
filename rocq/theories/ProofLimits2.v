(** ProofLimits2: bounds of the fitting functions of gamma1_2loop.c. *)
From Coq Require Import ZArith Reals Lra Lia List Bool String Psatz.
From Verif Require Import Base Num BaseFacts Common Kernels Spec Sums ProofSearch ProofKernels SpecKernels ProofSeries2.
Import ListNotations.
Local Open Scope R_scope.

(** Quotients with a positive denominator *)
Lemma quot_le a b d : 0 < d -> a <= b * d -> a / d <= b.
Proof. intros Hd H. apply (Rmult_le_reg_r d); [exact Hd|]. unfold Rdiv. rewrite Rmult_assoc, Rinv_l, Rmult_1_r by lra. exact H. Qed.
Lemma quot_pos a d : 0 <= a -> 0 < d -> 0 <= a / d.
Proof. intros. apply Rmult_le_pos; [assumption|]. now apply Rlt_le, Rinv_0_lt_compat. Qed.
Lemma diff_abs a b c : 0 <= a <= c -> 0 <= b <= c -> Rabs (a - b) <= c.
Proof. intros. apply Rabs_le. lra. Qed.
(** Powers *)
Lemma pw (s : R) (m n : nat) : 0 <= s -> (m <= n)%nat -> s ^ m <= s ^ n + 1.
Proof.
  intros Hs H. destruct (Rle_lt_dec 1 s) as [H1|H1].
  - pose proof (Rle_pow s m n H1 H). lra.
  - assert (s ^ m <= 1) by (rewrite <- (pow1 m); apply pow_incr; lra). pose proof (pow_le s n Hs). lra.
Qed.

Lemma quot_bound p a b d : 0 <= p -> 0 <= a -> 0 < d -> p * a <= b * d -> 0 <= p * (a / d) <= b.
Proof.
  intros Hp Ha Hd H. split; [apply Rmult_le_pos; [|apply quot_pos]; assumption|]. unfold Rdiv. rewrite <- Rmult_assoc. apply quot_le; assumption.
Qed.
Lemma diff_bound p x y c d : 0 <= p -> 0 <= p * x <= c -> 0 <= p * y <= d -> p * Rabs (x - y) <= Rmax c d.
Proof.
  intros Hp H1 H2. rewrite <- (Rabs_pos_eq p Hp) at 1. rewrite <- Rabs_mult, Rmult_minus_distr_l. pose proof (Rmax_l c d). pose proof (Rmax_r c d). apply Rabs_le. lra.
Qed.
Lemma opp_div x y : (- x) / y = - (x / y).
Proof. unfold Rdiv. ring. Qed.
(** The powers of s needed to compare monomials *)
Ltac pows s Hs := pose proof (pow_lt s 2 Hs); pose proof (pow_lt s 3 Hs); pose proof (pow_lt s 4 Hs); pose proof (pow_lt s 5 Hs); pose proof (pow_lt s 6 Hs); pose proof (pow_lt s 8 Hs); pose proof (pow_lt s 10 Hs);
  pose proof (pw s 3 6 (Rlt_le _ _ Hs) ltac:(lia)); pose proof (pw s 5 6 (Rlt_le _ _ Hs) ltac:(lia)); pose proof (pw s 3 8 (Rlt_le _ _ Hs) ltac:(lia)); pose proof (pw s 5 8 (Rlt_le _ _ Hs) ltac:(lia));
  pose proof (pw s 2 10 (Rlt_le _ _ Hs) ltac:(lia)); pose proof (pw s 4 10 (Rlt_le _ _ Hs) ltac:(lia)); pose proof (pw s 2 5 (Rlt_le _ _ Hs) ltac:(lia)); pose proof (pw s 4 5 (Rlt_le _ _ Hs) ltac:(lia)).
Ltac two p b Hp0 Hp := eapply Rle_trans; [apply (diff_bound p _ _ b b Hp0); (apply quot_bound; [exact Hp0|lra|lra|destruct Hp as [[-> ->]|[-> ->]]; lra])|
  destruct Hp as [[-> ->]|[-> ->]]; rewrite Rmax_left; lra].
(** [p = 1] and [p = s^2] *)
Lemma cc_bound a s p b : 0 < s -> p = 1 /\ b = 1 / 12 \/ p = s ^ 2 /\ b = 1 / 12 -> p * Rabs (cc (N := RNum) a s) <= b.
Proof.
  intros Hs Hp. assert (Hp0 : 0 <= p) by (destruct Hp as [[-> _]|[-> _]]; [lra|apply pow_le; lra]). pows s Hs.
  destruct a; unfold cc; rn; lits.
  - two p (1 / 12) Hp0 Hp.
  - rewrite opp_div, <- Rabs_Ropp. match goal with |- context [Rabs (- (- ?x + ?y))] => replace (- (- x + y)) with (x - y) by ring end.
    two p (1 / 12) Hp0 Hp.
Qed.
Lemma dd_bound a s p b : 0 < s -> p = 1 /\ b = 1 / 40 \/ p = s ^ 2 /\ b = 1 / 40 -> p * Rabs (dd (N := RNum) a s) <= b.
Proof.
  intros Hs Hp. assert (Hp0 : 0 <= p) by (destruct Hp as [[-> _]|[-> _]]; [lra|apply pow_le; lra]). pows s Hs.
  destruct a; unfold dd; rn; lits.
  - rewrite opp_div, <- Rabs_Ropp. match goal with |- context [Rabs (- (- ?x + ?y))] => replace (- (- x + y)) with (x - y) by ring end.
    two p (1 / 40) Hp0 Hp.
  - two p (1 / 40) Hp0 Hp.
Qed.
(** delta tends to 1 *)
Lemma delta_bound a s : 0 < s -> Rabs (delta (N := RNum) a s) <= 5.
Proof.
  intros Hs. unfold delta. rn. lits. set (u := s * sqrt 2). assert (Hu : 0 < u) by (apply Rmult_lt_0_compat; [exact Hs|apply Rlt_sqrt2_0]). clearbody u.
  pows u Hu. pose proof (pow2_ge_0 (u * u - 1)) as Hv. destruct a; apply Rabs_le.
  - match goal with |- context [?x / ?d + ?y / ?e + _] => assert (0 <= x / d <= 1) by (split; [apply quot_pos|apply quot_le]; lra); assert (0 <= y / e <= 2) by (split; [apply quot_pos|apply quot_le]; lra) end. lra.
  - match goal with |- context [?x / ?d + ?y / ?e - _] => assert (0 <= x / d <= 27 / 10) by (split; [apply quot_pos|apply quot_le]; lra); assert (0 <= y / e <= 26 / 10) by (split; [apply quot_pos|apply quot_le]; lra) end. lra.
Qed.
Lemma delta_far a s : 0 < s -> Rabs (delta (N := RNum) a s - 1) <= 2 / s ^ 2 + 1 / 10 ^ 15.
Proof.
  intros Hs. assert (H2 : 0 < s ^ 2) by (now apply pow_lt).
  assert (K : exists e r, delta (N := RNum) a s - 1 = e + r /\ Rabs e <= 1 / 10 ^ 15 /\ 2 * s ^ 2 * Rabs r <= 4).
  2: { destruct K as [e [r [-> [He Hr]]]]. eapply Rle_trans; [apply Rabs_triang|]. apply Rle_trans with (1 / 10 ^ 15 + 2 / s ^ 2); [|lra]. apply Rplus_le_compat; [exact He|].
       apply (Rmult_le_reg_l (s ^ 2)); [exact H2|]. replace (s ^ 2 * (2 / s ^ 2)) with 2 by (field; lra). lra. }
  replace (2 * s ^ 2) with ((s * sqrt 2) ^ 2) by (rewrite Rpow_mult_distr, pow2_sqrt; lra).
  unfold delta. rn. lits. set (u := s * sqrt 2). assert (Hu : 0 < u) by (apply Rmult_lt_0_compat; [exact Hs|apply Rlt_sqrt2_0]). clearbody u. clear s Hs H2.
  pows u Hu. pose proof (pow2_ge_0 (u ^ 2 - 1)) as Hv.
  destruct a.
  - exists (3191221482038663 / 13549058352752525 + 764469131436698 / 1000000000000000 - 1).
    exists (12805575495849764 / 10000000000000000 / (18192939946270577 / 1000000000000000 * (u * u * (u * u)) + 398817716852858 / 100000000000000 * (u * u) + 1) -
            3191221482038663 / 13549058352752525 / (13549058352752525 / 10000000000000000 * (u * u * (u * u)) + 1)).
    split; [|split].
    + field_simplify_eq; [ring|]. repeat split; nra.
    + apply Rabs_le. lra.
    + eapply Rle_trans; [apply (diff_bound (u ^ 2) _ _ 1 1); [lra|apply quot_bound; lra|apply quot_bound; lra]|rewrite Rmax_left; lra].
  - exists 0. set (D := 24414566000839355 / 10000000000000000 * (u * u * (u * u)) + 1). set (E := _ + 10332351481570086 / 10000000000000000 * (u * u) + 1).
    assert (HD : 0 < D) by (unfold D; lra). assert (HE : 0 < E) by (unfold E; lra).
    exists (1528058751211026 / 1000000000000000 * (18616263354608626 / 10000000000000000 * (u * u)) / D + 25227965281961247 / 10000000000000000 / E - 1528058751211026 / 1000000000000000 / D).
    split; [|split].
    + replace (24414566000839355 / 10000000000000000 * (u * u * (u * u))) with (D - 1) by (unfold D; ring). field. lra.
    + rewrite Rabs_R0. lra.
    + match goal with |- context [?a + ?b - ?c] => assert (B1 : 0 <= u ^ 2 * a <= 3 / 2) by (apply quot_bound; unfold D; lra); assert (B2 : 0 <= u ^ 2 * b <= 5 / 2) by (apply quot_bound; unfold E; lra);
        assert (B3 : 0 <= u ^ 2 * c <= 4) by (apply quot_bound; unfold D; lra) end.
      rewrite <- (Rabs_pos_eq (u ^ 2)) by lra. rewrite <- Rabs_mult. apply Rabs_le. lra.
Qed.
