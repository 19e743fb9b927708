(** ProofLimits: large-scale and small-scale limits of the propagators. *)
From Coq Require Import ZArith Reals Lra Lia List Bool String Psatz.
From Coquelicot Require Import Coquelicot.
From Verif Require Import Base Num BaseFacts Common Kernels Gamma2 Integrals Registry Threads Spec SpecPT SpecIntegrals SpecLoops SpecScratch SpecBispectrum SpecBisp2 Sums ProofSearch ProofKernels SpecKernels ProofGL ProofGL2
  Series ProofSeries ProofSeries2 SpecTable SpecThreads SpecDefined SpecColumns ProofColumns2.
Import ListNotations.
Local Open Scope R_scope.

(** ** 1-loop kernels *)
Lemma ln_lo x : 0 < x < 1 -> ln (Rabs ((x - 1) / (x + 1))) = - 2 * ((ln (1 + x) - ln (1 - x)) / 2).
Proof.
  intros Hx. replace ((x - 1) / (x + 1)) with (- ((1 - x) * / (1 + x))) by (field; lra). rewrite Rabs_Ropp, Rabs_pos_eq by (apply Rlt_le, Rmult_lt_0_compat; [|apply Rinv_0_lt_compat]; lra).
  rewrite ln_mult, ln_Rinv by (try apply Rinv_0_lt_compat; lra). lra.
Qed.
Lemma lo_rest x A : 0 < x <= 1 / 2 -> 0 <= A <= x ^ 5 / (5 * (1 - x * x)) -> 0 <= A / x ^ 3 * (1 - x * x) <= x ^ 2 / 5.
Proof.
  intros Hx [H1 H2]. assert (H3 : 0 < x ^ 3) by (apply pow_lt; lra). assert (0 < 1 - x * x) by nra. split.
  - apply Rmult_le_pos; [|lra]. apply Rmult_le_pos; [lra|apply Rlt_le, Rinv_0_lt_compat, H3].
  - apply Rle_trans with (x ^ 5 / (5 * (1 - x * x)) / x ^ 3 * (1 - x * x)); [|right; field; split; lra].
    apply Rmult_le_compat_r; [lra|]. apply Rmult_le_compat_r; [apply Rlt_le, Rinv_0_lt_compat, H3|exact H2].
Qed.
Lemma lo_bound x A c p q d : 0 < x <= 1 / 2 -> 0 <= A <= x ^ 5 / (5 * (1 - x * x)) -> 0 < d -> Rabs p <= c -> 0 <= q <= 2 + 7 * x ^ 2 -> c + 3 <= d / 4 ->
  Rabs ((x ^ 2 * p - 3 * (1 - x ^ 2) ^ 3 * q * (A / x ^ 3)) / d * x) <= x ^ 3 / 4.
Proof.
  intros Hx HA Hd Hp Hq Hc. pose proof (lo_rest x A Hx HA) as [B1 B2]. set (B := A / x ^ 3 * (1 - x * x)) in *.
  assert (Hx2 : 0 < x ^ 2 <= 1 / 4) by (split; [apply pow_lt; lra|nra]).
  replace (3 * (1 - x ^ 2) ^ 3 * q * (A / x ^ 3)) with (3 * (1 - x ^ 2) ^ 2 * q * B) by (unfold B, Rdiv; ring).
  replace ((x ^ 2 * p - 3 * (1 - x ^ 2) ^ 2 * q * B) / d * x) with ((x ^ 2 * p - 3 * (1 - x ^ 2) ^ 2 * q * B) * (x * / d)) by (unfold Rdiv; ring).
  assert (Hi : 0 < x * / d) by (apply Rmult_lt_0_compat; [lra|now apply Rinv_0_lt_compat]). rewrite Rabs_mult, (Rabs_pos_eq (x * / d)) by lra.
  apply Rle_trans with (x ^ 2 * (c + 3) * (x * / d)).
  - apply Rmult_le_compat_r; [lra|]. eapply Rle_trans; [apply Rabs_triang|]. rewrite Rabs_Ropp, Rabs_mult, (Rabs_pos_eq (x ^ 2)) by lra.
    assert (0 <= (1 - x ^ 2) ^ 2 <= 1) by (split; [apply pow2_ge_0|nra]).
    assert (0 <= (1 - x ^ 2) ^ 2 * q <= 15 / 4) by (split; nra).
    rewrite (Rabs_pos_eq (3 * _ * _ * _)) by (apply Rmult_le_pos; [nra|lra]). rewrite Rmult_plus_distr_l. apply Rplus_le_compat; [apply Rmult_le_compat_l; lra|]. nra.
  - replace (x ^ 3 / 4) with (x ^ 2 * (d / 4) * (x * / d)) by (field; lra). apply Rmult_le_compat_r; [lra|]. apply Rmult_le_compat_l; lra.
Qed.
Lemma atsum2 t : atsum 2 t = t + t ^ 3 / 3.
Proof. unfold atsum. cbn [rsum Nat.mul Nat.add]. cbn [INR]. field. Qed.
Lemma kernel_lo t x : 0 < x <= 1 / 2 -> Rabs (prop_kernel t x + x / 6) <= x ^ 3 / 4.
Proof.
  intros Hx. destruct (artanh_remainder 2 x ltac:(lra)) as [A1 A2]. set (A := (ln (1 + x) - ln (1 - x)) / 2 - atsum 2 x) in *.
  change (2 * 2 + 1)%nat with 5%nat in A2. replace (INR 5) with 5 in A2 by (cbn; ring).
  assert (EA : (ln (1 + x) - ln (1 - x)) / 2 = A + (x + x ^ 3 / 3)) by (unfold A; rewrite atsum2; ring).
  assert (H1 : 1 / 100 <= Rabs (x - 1)) by (rewrite Rabs_left1; lra). assert (Hx2 : 0 < x ^ 2 <= 1 / 4) by (split; [apply pow_lt; lra|nra]).
  destruct t; cbn [prop_kernel].
  - rewrite kernel_gg_mid by (auto; lra). unfold g_exact. rewrite ln_lo, EA by lra. clearbody A.
    match goal with |- Rabs ?a <= _ => replace a with ((x ^ 2 * (-2 - 9 * x ^ 2 + 2 * (x ^ 2) ^ 2 + (x ^ 2) ^ 3) - 3 * (1 - x ^ 2) ^ 3 * (2 + x ^ 2) * (A / x ^ 3)) / 168 * x) by (field; lra) end.
    apply (lo_bound x A 5); auto; try lra. apply Rabs_le. nra.
  - rewrite kernel_ff_mid by (auto; lra). unfold f_exact. rewrite ln_lo, EA by lra. clearbody A.
    match goal with |- Rabs ?a <= _ => replace a with ((x ^ 2 * (94 - 63 * x ^ 2 + 2 * (x ^ 2) ^ 2 + 7 * (x ^ 2) ^ 3) - 3 * (1 - x ^ 2) ^ 3 * (2 + 7 * x ^ 2) * (A / x ^ 3)) / 504 * x) by (field; lra) end.
    apply (lo_bound x A 95); auto; try lra. apply Rabs_le. nra.
Qed.
Definition uv_slope (t : bool) : R := if t then 3 / 10 else 61 / 630.
Lemma kernel_hi t x : 10 < x -> Rabs (prop_kernel t x + uv_slope t * x) <= 1 / (9 * x).
Proof.
  intros Hx. destruct t; cbn [prop_kernel uv_slope]; unfold kernel_ff, kernel_gg; rn; lits.
  all: destruct (Rltb_spec (Rabs (x - 1)) (1 / 100)) as [H|_]; [rewrite Rabs_pos_eq in H; lra|]; destruct (Rltb_spec 10 x) as [_|H]; [|lra].
  all: assert (Hi : 0 < / x) by (apply Rinv_0_lt_compat; lra); assert (Hi2 : / x < / 10) by (apply Rinv_lt_contravar; lra); set (y := / x) in *.
  - match goal with |- Rabs ?a <= _ => replace a with (26 / 245 * y - 38 / 2205 * y ^ 3) by (unfold y; field; lra) end. replace (1 / (9 * x)) with (y / 9) by (unfold y; field; lra).
    assert (0 <= y ^ 3 <= y / 100) by (split; [apply pow_le; lra|nra]). apply Rabs_le. lra.
  - match goal with |- Rabs ?a <= _ => replace a with (2 / 105 * y - 10 / 1323 * y ^ 3) by (unfold y; field; lra) end. replace (1 / (9 * x)) with (y / 9) by (unfold y; field; lra).
    assert (0 <= y ^ 3 <= y / 100) by (split; [apply pow_le; lra|nra]). apply Rabs_le. lra.
Qed.
