(** ProofSeries2: branches of kernel_ff, kernel_gg and beta against the closed formulas. *)
From Coq Require Import Reals Lra Lia.
From Verif Require Import Base Num BaseFacts Common Spec SpecKernels ProofSearch Kernels ProofKernels.
From Coquelicot Require Import Coquelicot.
From Verif Require Import Series.
Import ListNotations.
Local Open Scope R_scope.

(** Bound of a polynomial on |d| <= D. *)
Fixpoint pabs (p : poly) (D : R) : R := match p with [] => 0 | a :: q => Rabs a + D * pabs q D end.
Lemma pabs_nonneg p D : 0 <= D -> 0 <= pabs p D.
Proof. intros H. induction p as [|a p IH]; cbn; [lra|]. pose proof (Rabs_pos a). assert (0 <= D * pabs p D) by (apply Rmult_le_pos; assumption). lra. Qed.
Lemma peval_bound p d D : Rabs d <= D -> Rabs (peval p d) <= pabs p D.
Proof.
  intros H. assert (0 <= D) by (pose proof (Rabs_pos d); lra).
  induction p as [|a p IH]; cbn [peval pabs]; [rewrite Rabs_R0; lra|].
  eapply Rle_trans; [apply Rabs_triang|]. apply Rplus_le_compat_l. rewrite Rabs_mult.
  apply Rmult_le_compat; auto using Rabs_pos.
Qed.
Ltac absnum := repeat match goal with
  | |- context [Rabs ?a] => first [rewrite (Rabs_pos_eq a) by lra | rewrite (Rabs_left a) by lra] end.

Lemma ln_near d : Rabs d < 1 / 100 -> d <> 0 -> Rabs (ln (Rabs (d / (2 + d)))) <= Rabs (ln (Rabs d)) + 101 / 100.
Proof.
  intros Hd Hn. apply Rabs_lt_between in Hd.
  assert (Hp : 0 < Rabs d) by (apply Rabs_pos_lt; exact Hn).
  unfold Rdiv. rewrite Rabs_mult, Rabs_inv, (Rabs_pos_eq (2 + d)) by lra.
  rewrite ln_mult by (auto; apply Rinv_0_lt_compat; lra). rewrite ln_Rinv by lra.
  eapply Rle_trans; [apply Rabs_triang|]. apply Rplus_le_compat_l. rewrite Rabs_Ropp.
  assert (0 <= ln (2 + d)) by (rewrite <- ln_1; apply ln_le; lra).
  rewrite Rabs_pos_eq by assumption.
  assert (ln (2 + d) <= 1 + d); [|lra].
  rewrite <- (ln_exp (1 + d)). apply ln_le; [lra|]. pose proof (exp_ineq1_le (1 + d)). lra.
Qed.
(** The error near x = 1: [Q] is the third order coefficient of the rational part, [e] the factor
    of the logarithm. *)
Lemma near_one (Q : poly) (d e C0 C1 : R) : Rabs d < 1 / 100 -> pabs Q (1 / 100) <= C0 -> Rabs e <= C1 ->
  0 <= C0 -> 0 <= C1 -> C0 * 11 / 10 + C1 * 11 <= 1 -> C1 * 11 <= 1 ->
  Rabs ((d ^ 3 * peval Q d / (1 + d) ^ 2 - d ^ 3 * (2 + d) ^ 3 / (1 + d) ^ 3 * e * ln (Rabs (d / (2 + d)))) * (1 + d))
  <= Rabs d ^ 3 * (1 + Rabs (ln (Rabs d))).
Proof.
  intros Hd HQ He H0 H1 HS HS1. destruct (Req_dec d 0) as [->|Hn].
  { replace ((0 ^ 3 * peval Q 0 / (1 + 0) ^ 2 - 0 ^ 3 * (2 + 0) ^ 3 / (1 + 0) ^ 3 * e * ln (Rabs (0 / (2 + 0)))) * (1 + 0)) with 0 by (cbn; field).
    rewrite Rabs_R0. cbn. lra. }
  pose proof (ln_near d Hd Hn) as HL. pose proof (peval_bound Q d (1 / 100) ltac:(lra)) as HP.
  apply Rabs_lt_between in Hd. set (L := ln (Rabs (d / (2 + d)))) in *. set (M := Rabs (ln (Rabs d))) in *.
  replace ((d ^ 3 * peval Q d / (1 + d) ^ 2 - d ^ 3 * (2 + d) ^ 3 / (1 + d) ^ 3 * e * L) * (1 + d))
    with (d ^ 3 * (peval Q d * / (1 + d) - ((2 + d) ^ 3 * / (1 + d) ^ 2) * e * L)) by (field; lra).
  rewrite Rabs_mult, <- RPow_abs. apply Rmult_le_compat_l; [apply pow_le, Rabs_pos|].
  eapply Rle_trans; [apply Rabs_triang|]. rewrite Rabs_Ropp, !Rabs_mult.
  assert (B1 : Rabs (/ (1 + d)) <= 11 / 10).
  { rewrite Rabs_inv, Rabs_pos_eq by lra. apply Rle_trans with (/ (99 / 100)); [apply Rinv_le_contravar; lra|lra]. }
  assert (B2 : Rabs ((2 + d) ^ 3) * Rabs (/ (1 + d) ^ 2) <= 9).
  { rewrite <- Rabs_mult. rewrite Rabs_pos_eq.
    - apply (proj2 (Rle_div_l _ _ _ (pow_lt (1 + d) 2 ltac:(lra)))). cbn [pow]. nra.
    - apply Rmult_le_pos; [apply pow_le; lra|apply Rlt_le, Rinv_0_lt_compat, pow_lt; lra]. }
  apply Rle_trans with (C0 * (11 / 10) + 9 * C1 * (M + 101 / 100)).
  - apply Rplus_le_compat.
    + apply Rmult_le_compat; auto using Rabs_pos; lra.
    + apply Rmult_le_compat; auto using Rabs_pos; [apply Rmult_le_pos; [apply Rmult_le_pos|]; auto using Rabs_pos|].
      apply Rmult_le_compat; auto using Rabs_pos. apply Rmult_le_pos; auto using Rabs_pos.
  - assert (0 <= M) by apply Rabs_pos. nra.
Qed.
Lemma kernel_ff_near x : Rabs (x - 1) < 1 / 100 ->
  Rabs (kernel_ff (N := RNum) x - f_exact x) <= Rabs (x - 1) ^ 3 * (1 + Rabs (ln (Rabs (x - 1)))).
Proof.
  intros Hx. set (d := x - 1) in *. assert (Hd := Hx). apply Rabs_lt_between in Hd.
  replace (kernel_ff (N := RNum) x - f_exact x) with
    (- ((d ^ 3 * peval [-108 / 504; -207 / 504; -126 / 504; -21 / 504] d / (1 + d) ^ 2 - d ^ 3 * (2 + d) ^ 3 / (1 + d) ^ 3 * ((3 / 2 * (2 + 7 * (1 + d) ^ 2)) / 504) * ln (Rabs (d / (2 + d)))) * (1 + d))).
  - rewrite Rabs_Ropp. apply (near_one _ d _ (1 / 4) (3 / 100)); auto; try lra.
    + cbn [pabs]. absnum. lra.
    + rewrite Rabs_pos_eq; [|nra]. nra.
  - unfold kernel_ff, f_exact. rn. lits. fold d. destruct (Rltb_spec (Rabs d) (1 / 100)) as [_|H]; [|lra].
    replace x with (1 + d) by (unfold d; ring). replace (1 + d + 1) with (2 + d) by ring. replace (1 + d - 1) with d by ring.
    cbn [peval]. field. lra.
Qed.
Lemma kernel_gg_near x : Rabs (x - 1) < 1 / 100 ->
  Rabs (kernel_gg (N := RNum) x - g_exact x) <= Rabs (x - 1) ^ 3 * (1 + Rabs (ln (Rabs (x - 1)))).
Proof.
  intros Hx. set (d := x - 1) in *. assert (Hd := Hx). apply Rabs_lt_between in Hd.
  replace (kernel_gg (N := RNum) x - g_exact x) with
    (- ((d ^ 3 * peval [-36 / 168; -45 / 168; -18 / 168; -3 / 168] d / (1 + d) ^ 2 - d ^ 3 * (2 + d) ^ 3 / (1 + d) ^ 3 * ((3 / 2 * (2 + (1 + d) ^ 2)) / 168) * ln (Rabs (d / (2 + d)))) * (1 + d))).
  - rewrite Rabs_Ropp. apply (near_one _ d _ (1 / 4) (3 / 100)); auto; try lra.
    + cbn [pabs]. absnum. lra.
    + rewrite Rabs_pos_eq; [|nra]. nra.
  - unfold kernel_gg, g_exact. rn. lits. fold d. destruct (Rltb_spec (Rabs d) (1 / 100)) as [_|H]; [|lra].
    replace x with (1 + d) by (unfold d; ring). replace (1 + d + 1) with (2 + d) by ring. replace (1 + d - 1) with d by ring.
    cbn [peval]. field. lra.
Qed.
Lemma kernel_ff_mid x : 1 / 100 <= Rabs (x - 1) -> 0 < x <= 10 -> kernel_ff (N := RNum) x = f_exact x.
Proof.
  intros H1 H2. unfold kernel_ff, f_exact. rn. lits.
  destruct (Rltb_spec (Rabs (x - 1)) (1 / 100)) as [H|_]; [lra|]. destruct (Rltb_spec 10 x) as [H|_]; [lra|].
  rewrite power_R by lia. rewrite (Rplus_comm 1 x). change (Z.to_nat 3) with 3%nat. field. lra.
Qed.
Lemma kernel_gg_mid x : 1 / 100 <= Rabs (x - 1) -> 0 < x <= 10 -> kernel_gg (N := RNum) x = g_exact x.
Proof.
  intros H1 H2. unfold kernel_gg, g_exact. rn. lits.
  destruct (Rltb_spec (Rabs (x - 1)) (1 / 100)) as [H|_]; [lra|]. destruct (Rltb_spec 10 x) as [H|_]; [lra|].
  rewrite power_R by lia. rewrite (Rplus_comm 1 x). change (Z.to_nat 3) with 3%nat. field. lra.
Qed.

(** x > 10: in t = 1/x the logarithm is -2 artanh t. *)
Lemma ln_hi x : 1 < x -> ln (Rabs ((x - 1) / (x + 1))) = - 2 * ((ln (1 + / x) - ln (1 - / x)) / 2).
Proof.
  intros Hx. assert (0 < / x < 1) by (split; [apply Rinv_0_lt_compat; lra|rewrite <- Rinv_1; apply Rinv_lt_contravar; lra]).
  rewrite Rabs_pos_eq by (apply Rlt_le, Rdiv_lt_0_compat; lra).
  replace ((x - 1) / (x + 1)) with ((1 - / x) * / (1 + / x)) by (field; lra).
  rewrite ln_mult, ln_Rinv by (try apply Rinv_0_lt_compat; lra). lra.
Qed.
Lemma hi_bound (Q : poly) (t c A C0 C1 : R) : 0 < t < 1 / 10 -> pabs Q (1 / 10) <= C0 -> Rabs c <= C1 ->
  0 <= A <= t ^ 11 / (11 * (1 - t * t)) -> C0 + C1 / 10 <= 1 / 100 ->
  Rabs (t ^ 6 * peval Q t + c * (A / t ^ 5)) <= t ^ 6 / 100.
Proof.
  intros Ht HQ Hc HA HS. pose proof (peval_bound Q t (1 / 10) ltac:(rewrite Rabs_pos_eq; lra)) as HP.
  assert (Ht6 : 0 < t ^ 6) by (apply pow_lt; lra). assert (Ht5 : 0 < t ^ 5) by (apply pow_lt; lra).
  assert (HB : 0 <= A / t ^ 5 <= t ^ 6 / 10).
  { split; [apply Rmult_le_pos; [lra|apply Rlt_le, Rinv_0_lt_compat, Ht5]|].
    apply (proj2 (Rle_div_l _ _ _ Ht5)). eapply Rle_trans; [apply HA|].
    assert (0 < 11 * (1 - t * t)) by nra. apply (proj2 (Rle_div_l _ _ _ H)).
    replace (t ^ 6 / 10 * t ^ 5 * (11 * (1 - t * t))) with (t ^ 11 * (11 / 10 * (1 - t * t))) by field.
    rewrite <- (Rmult_1_r (t ^ 11)) at 1. apply Rmult_le_compat_l; [apply pow_le; lra|nra]. }
  eapply Rle_trans; [apply Rabs_triang|]. rewrite !Rabs_mult, (Rabs_pos_eq (t ^ 6)), (Rabs_pos_eq (A / t ^ 5)) by lra.
  apply Rle_trans with (t ^ 6 * C0 + C1 * (t ^ 6 / 10)); [|nra].
  pose proof (Rabs_pos c).
  apply Rplus_le_compat; [apply Rmult_le_compat_l; lra|]. apply Rmult_le_compat; lra.
Qed.
Lemma atsum5 t : atsum 5 t = t + t ^ 3 / 3 + t ^ 5 / 5 + t ^ 7 / 7 + t ^ 9 / 9.
Proof. unfold atsum. cbn [rsum Nat.mul Nat.add]. cbn [INR]. field. Qed.
Lemma kernel_ff_hi x : 10 < x -> Rabs (kernel_ff (N := RNum) x - f_exact x) <= 1 / (100 * x ^ 5).
Proof.
  intros Hx. set (t := / x).
  assert (Ht : 0 < t < 1 / 10) by (unfold t; split; [apply Rinv_0_lt_compat; lra|replace (1 / 10) with (/ 10) by field; apply Rinv_lt_contravar; lra]).
  destruct (artanh_remainder 5 t ltac:(lra)) as [A1 A2]. set (A := (ln (1 + t) - ln (1 - t)) / 2 - atsum 5 t) in *.
  change (2 * 5 + 1)%nat with 11%nat in A2. replace (INR 11) with 11 in A2 by (cbn; ring).
  replace (kernel_ff (N := RNum) x - f_exact x) with
    (- (t ^ 6 * peval [-263 / 105 / 504; 0; 118 / 35 / 504; 0; -25 / 21 / 504; 0; -2 / 3 / 504] t
        + (-3 * (t * t - 1) ^ 3 * (2 * t * t + 7) / 504) * (A / t ^ 5)) * x).
  - rewrite Rabs_mult, Rabs_Ropp, (Rabs_pos_eq x) by lra.
    apply Rle_trans with (t ^ 6 / 100 * x); [|unfold t; right; field; lra].
    apply Rmult_le_compat_r; [lra|]. apply (hi_bound _ t _ A (51 / 10000) (42 / 1000)); auto; try lra.
    + cbn [pabs]. absnum. lra.
    + rewrite Rabs_pos_eq.
      * assert (0 <= (1 - t * t) ^ 3 <= 1) by (assert (0 <= 1 - t * t <= 1) by nra; split; [apply pow_le; lra|rewrite <- (pow1 3); apply pow_incr; lra]).
        replace ((t * t - 1) ^ 3) with (- (1 - t * t) ^ 3) by ring. assert (0 <= t * t <= 1 / 100) by nra. nra.
      * assert (0 <= (1 - t * t) ^ 3) by (apply pow_le; nra).
        replace (-3 * (t * t - 1) ^ 3 * (2 * t * t + 7) / 504) with (3 * (1 - t * t) ^ 3 * (2 * t * t + 7) / 504) by field.
        assert (0 <= 2 * t * t + 7) by nra. apply Rmult_le_pos; [|lra]. apply Rmult_le_pos; [|assumption]. lra.
  - unfold kernel_ff, f_exact. rn. lits. rewrite ln_hi by lra. fold t.
    destruct (Rltb_spec (Rabs (x - 1)) (1 / 100)) as [H|_]; [rewrite Rabs_pos_eq in H; lra|]. destruct (Rltb_spec 10 x) as [_|H]; [|lra].
    replace ((ln (1 + t) - ln (1 - t)) / 2) with (A + atsum 5 t) by (unfold A; ring). rewrite atsum5. clearbody A.
    replace x with (/ t) by (unfold t; apply Rinv_inv). cbn [peval]. field. lra.
Qed.
Lemma kernel_gg_hi x : 10 < x -> Rabs (kernel_gg (N := RNum) x - g_exact x) <= 1 / (100 * x ^ 5).
Proof.
  intros Hx. set (t := / x).
  assert (Ht : 0 < t < 1 / 10) by (unfold t; split; [apply Rinv_0_lt_compat; lra|replace (1 / 10) with (/ 10) by field; apply Rinv_lt_contravar; lra]).
  destruct (artanh_remainder 5 t ltac:(lra)) as [A1 A2]. set (A := (ln (1 + t) - ln (1 - t)) / 2 - atsum 5 t) in *.
  change (2 * 5 + 1)%nat with 11%nat in A2. replace (INR 11) with 11 in A2 by (cbn; ring).
  replace (kernel_gg (N := RNum) x - g_exact x) with
    (- (t ^ 6 * peval [-13 / 21 / 168; 0; -2 / 35 / 168; 0; 17 / 21 / 168; 0; -2 / 3 / 168] t
        + (-3 * (t * t - 1) ^ 3 * (2 * t * t + 1) / 168) * (A / t ^ 5)) * x).
  - rewrite Rabs_mult, Rabs_Ropp, (Rabs_pos_eq x) by lra.
    apply Rle_trans with (t ^ 6 / 100 * x); [|unfold t; right; field; lra].
    apply Rmult_le_compat_r; [lra|]. apply (hi_bound _ t _ A (51 / 10000) (42 / 1000)); auto; try lra.
    + cbn [pabs]. absnum. lra.
    + rewrite Rabs_pos_eq.
      * assert (0 <= (1 - t * t) ^ 3 <= 1) by (assert (0 <= 1 - t * t <= 1) by nra; split; [apply pow_le; lra|rewrite <- (pow1 3); apply pow_incr; lra]).
        replace ((t * t - 1) ^ 3) with (- (1 - t * t) ^ 3) by ring. assert (0 <= t * t <= 1 / 100) by nra. nra.
      * assert (0 <= (1 - t * t) ^ 3) by (apply pow_le; nra).
        replace (-3 * (t * t - 1) ^ 3 * (2 * t * t + 1) / 168) with (3 * (1 - t * t) ^ 3 * (2 * t * t + 1) / 168) by field.
        assert (0 <= 2 * t * t + 1) by nra. apply Rmult_le_pos; [|lra]. apply Rmult_le_pos; [|assumption]. lra.
  - unfold kernel_gg, g_exact. rn. lits. rewrite ln_hi by lra. fold t.
    destruct (Rltb_spec (Rabs (x - 1)) (1 / 100)) as [H|_]; [rewrite Rabs_pos_eq in H; lra|]. destruct (Rltb_spec 10 x) as [_|H]; [|lra].
    replace ((ln (1 + t) - ln (1 - t)) / 2) with (A + atsum 5 t) by (unfold A; ring). rewrite atsum5. clearbody A.
    replace x with (/ t) by (unfold t; apply Rinv_inv). cbn [peval]. field. lra.
Qed.
