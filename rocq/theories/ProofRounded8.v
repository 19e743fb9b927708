(** ProofRounded8: the statements of PropRounded.v. *)
From Coq Require Import ZArith Lia List Bool Reals Lra Psatz.
From Verif Require Import Base Num BaseFacts Order Spec Common SpecRounded ProofRounded ProofRounded2 ProofRounded3 ProofRounded4 ProofRounded5.
From Verif Require ProofSearch.
From Flocq Require Import Core.
Import ListNotations.
Local Open Scope R_scope.

Lemma lin_order F rnd lm (x x' x0 x1 p0 p1 : R) : rounding F rnd -> F p0 -> x0 <= x <= x' -> x' <= x1 ->
  (p0 <= p1 -> p0 <= interpol_lin (N := QNum rnd lm) x x0 x1 p0 p1 <= interpol_lin (N := QNum rnd lm) x' x0 x1 p0 p1) /\
  (p1 <= p0 -> interpol_lin (N := QNum rnd lm) x' x0 x1 p0 p1 <= interpol_lin (N := QNum rnd lm) x x0 x1 p0 p1 <= p0).
Proof.
  intros RD Fp Hx Hx'. split; intros H; split.
  - apply (lin_side_up F rnd lm RD); auto; lra.
  - apply (lin_up F rnd lm RD); lra.
  - apply (lin_down F rnd lm RD); lra.
  - apply (lin_side_down F rnd lm RD); auto; lra.
Qed.
Lemma f2_len {A B} (Q : A -> B -> Prop) xs ys : Forall2 Q xs ys -> length xs = length ys.
Proof. intros H. induction H; cbn; congruence. Qed.
Lemma variance_nonneg F rnd lm (RD : rounding F rnd) (K P : list R) : length P = length K -> (1 <= zlen K < 2 ^ 62)%Z -> increasing K -> Forall F P -> Forall (fun p => 0 <= p) P ->
  forall ks uv, ascending ks -> 0 <= uv ->
  exists vs, calc_running_sigmad2 (N := QNum rnd lm) (mk_table (N := QNum rnd lm) K P) ks uv = Ok vs /\ length vs = length ks /\ Forall (fun v => 0 <= v) vs.
Proof.
  intros HL HB HI FP HP ks uv HA Hu. destruct (run_Q F rnd lm RD K P ks uv HL HB HI HA Hu) as (vs & E & H). exists vs. split; [exact E|]. split.
  - symmetry. exact (f2_len _ _ _ H).
  - exact (variance_sign F rnd lm RD K P HL HB HI FP HP uv ks vs Hu HA E).
Qed.
Lemma bpow53 : bpow radix2 (-53) = / 2 ^ 53.
Proof.
  rewrite pow_IZR. reflexivity.
Qed.
Lemma precision53 : rounding wide to_wide /\ relative (/ 2 ^ 53) to_wide.
Proof. split; [exact wide_rounding|]. rewrite <- bpow53. exact wide_relative. Qed.
Lemma power_nat (x : R) n : power (N := RNum) x (Z.of_nat n) = x ^ n.
Proof. rewrite ProofSearch.power_R by lia. now rewrite Nat2Z.id. Qed.
Lemma power_close F rnd lm u (x : R) (n : nat) : rounding F rnd -> 0 <= u < 1 -> relative u rnd ->
  close u n (power (N := QNum rnd lm) x (Z.of_nat n)) (x ^ n).
Proof.
  intros RD Hu HR. rewrite <- (power_nat x n). destruct n as [|n]; [cbn; rewrite (r_id _ _ RD 1 (r_one _ _ RD)); apply (close_refl u Hu)|].
  cbn [Z.of_nat power]. qn. rn. rewrite (r_id _ _ RD 1 (r_one _ _ RD)).
  pose proof (power_loop_close u Hu rnd HR lm (Pos.of_succ_nat n) x x 1 1 0 0 (close_refl u Hu 0 x) (close_refl u Hu 0 1)) as H.
  rewrite SuccNat2Pos.id_succ in H. replace (0 + (0 + 1) * S n)%nat with (S n) in H by lia. exact H.
Qed.
Lemma lin_error F rnd lm u (x x0 x1 p0 p1 : R) : rounding F rnd -> 0 <= u <= 1 / 100 -> relative u rnd -> F p0 -> x0 <= x <= x1 -> x0 < x1 -> 0 <= p0 -> 0 <= p1 ->
  close u 7 (interpol_lin (N := QNum rnd lm) x x0 x1 p0 p1 + p0) (p0 + (p1 - p0) * (x - x0) / (x1 - x0) + p0).
Proof.
  intros RD Hu HR Fp Hx Hlt H0 H1. pose proof (lin_sum_close F rnd lm RD u Hu HR x x0 x1 p0 p1 Fp Hx Hlt H0 H1) as H.
  replace (p0 + (p1 - p0) * (x - x0) / (x1 - x0) + p0) with (interpol_lin (N := RNum) x x0 x1 p0 p1 + p0); [exact H|].
  unfold interpol_lin. rn. field. lra.
Qed.
Lemma bern_gen u n : 0 <= u <= 1 -> 1 - INR n * u <= (1 - u) ^ n.
Proof.
  intros Hu. induction n as [|n IH]; [cbn; lra|]. rewrite S_INR. cbn [pow].
  assert (0 <= (1 - u) ^ n <= 1). { split; [apply pow_le; lra|]. apply Rle_trans with (1 ^ n); [apply pow_incr; lra|rewrite pow1; lra]. }
  pose proof (pos_INR n). nra.
Qed.
Lemma close_figure (n : nat) a b : (n <= 5017)%nat -> 0 <= b -> close (/ 2 ^ 53) n a b -> Rabs (a - b) <= 1 / 10 ^ 12 * b.
Proof.
  intros Hn Hb (t & [T1 T2] & ->). set (u := / 2 ^ 53) in *.
  assert (E53 : 2 ^ 53 = 9007199254740992) by (rewrite pow_IZR; reflexivity).
  assert (Hu : 0 < u <= / 9000000000000000). { unfold u. rewrite E53. split; [apply Rinv_0_lt_compat; lra|apply Rinv_le; lra]. }
  assert (Hnu : INR n * u <= 6 / 10 ^ 13).
  { assert (INR n <= 5017) by (replace 5017 with (INR 5017) by (rewrite INR_IZR_INZ; reflexivity); now apply le_INR).
    pose proof (pos_INR n). apply Rle_trans with (5017 * / 9000000000000000); [apply Rmult_le_compat; lra|lra]. }
  pose proof (bern_gen u n ltac:(lra)) as B. pose proof (pos_INR n).
  assert (V : 1 - 6 / 10 ^ 13 <= (1 - u) ^ n) by lra.
  assert (T2' : t <= 1 + 1 / 10 ^ 12).
  { apply Rle_trans with (/ (1 - u) ^ n); [exact T2|]. apply Rle_trans with (/ (1 - 6 / 10 ^ 13)); [apply Rinv_le; lra|]. lra. }
  replace (b * t - b) with (b * (t - 1)) by ring. rewrite Rabs_mult, (Rabs_right b) by lra. rewrite Rmult_comm. apply Rmult_le_compat_r; [exact Hb|].
  apply Rabs_le. lra.
Qed.
Lemma wide_small z : (Z.abs z < 2 ^ 53)%Z -> wide (IZR z).
Proof.
  intros H. apply generic_format_FLX. exists (Float radix2 z 0); cbn [Fnum Fexp]; [|exact H]. unfold F2R. cbn [Fnum Fexp bpow]. ring.
Qed.
