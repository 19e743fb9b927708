(** ProofGamma2e: away from its cut-offs the regularised form of the second-order 1-loop kernels is
    equal to the exact form. *)
From Coq Require Import Reals Lra Lia List.
From Verif Require Import Base Num BaseFacts Common Kernels GExpr Gamma2dSrc Gamma2tSrc Gamma2 ProofSearch ProofKernels ProofGamma2 ProofGamma2b ProofGamma2c.
Import ListNotations.
Local Open Scope R_scope.

(** ** Closed forms of the auxiliary functions *)
Lemma betafunc4 z : 1 / 10 < z < 1 -> betafunc (N := RNum) 4 z = - ln (1 - z) - z - z * z / 2 - z * z * z / 3.
Proof.
  intros Hz. unfold betafunc. rnl. destruct (Rleb_spec z (1 / 10)); [lra|]. cbn [Z.eqb Pos.eqb]. field. lra.
Qed.
Lemma betafunc2 z : 1 / 10 < z < 1 -> betafunc (N := RNum) 2 z = - ln (1 - z) - z.
Proof.
  intros Hz. unfold betafunc. rnl. destruct (Rleb_spec z (1 / 10)); [lra|]. cbn [Z.eqb Pos.eqb]. field. lra.
Qed.
(** The variable z of small_beta. *)
Definition zb (k q : R) : R := 4 * k * q / ((k + q) * (k + q)).
Lemma small_beta_closed k q : 0 < k -> 0 < q -> 1 / 1000000 < Rabs ((k - q) / (k + q)) -> 1 / 10 < zb k q ->
  small_beta (N := RNum) k q =
  (k - q) / (k + q) * (LFunc (N := RNum) k q - zb k q - zb k q * zb k q / 2 - zb k q * zb k q * zb k q / 3).
Proof.
  intros Hk Hq Hy Hz. unfold small_beta. rnl. set (y := (k - q) / (k + q)) in *.
  destruct (Rleb_spec (Rabs y) (1 / 1000000)); [lra|].
  assert (Hyz : 1 - y * y = zb k q) by (unfold y, zb; field; lra).
  assert (Hy0 : y <> 0) by (intros E; rewrite E, Rabs_R0 in Hy; lra).
  assert (Hyy : 0 < y * y) by nra.
  rewrite betafunc4 by (rewrite Hyz in *; lra). rewrite Hyz. f_equal.
  unfold LFunc. rn. replace ((k + q) / (k - q)) with (/ y).
  2:{ unfold y. field. split; [|lra]. intros E. apply Hy0. unfold y. rewrite E. unfold Rdiv. ring. }
  rewrite Rabs_inv, ln_Rinv by (apply Rabs_pos_lt; exact Hy0).
  replace (1 - zb k q) with (Rabs y * Rabs y) by (rewrite <- Hyz, <- Rabs_mult, Rabs_pos_eq by lra; ring).
  rewrite ln_mult by (apply Rabs_pos_lt; exact Hy0). ring.
Qed.
(** The variables of big_beta. *)
Definition xb (k1 k2 q : R) : R := (k1 * k1 - q * q) * (k2 * k2 - q * q).
Definition yb (k1 k2 k3 q : R) : R := sq k1 k2 k3 q / (k3 * q).
Lemma sq_xb k1 k2 k3 q : R_sqrt.sqrt (xb k1 k2 q + k3 * q * (k3 * q)) = sq k1 k2 k3 q.
Proof. unfold sq, xb. f_equal. ring. Qed.
Lemma big_beta_closed k1 k2 k3 q : 0 < k3 -> 0 < q ->
  1 / 100 < Rabs (yb k1 k2 k3 q - 1) -> 1 / 10 < 4 * yb k1 k2 k3 q / ((1 + yb k1 k2 k3 q) * (1 + yb k1 k2 k3 q)) ->
  0 < sq k1 k2 k3 q /\ big_beta (N := RNum) k1 k2 k3 q =
  xb k1 k2 q * (WFunc (N := RNum) k1 k2 k3 q - 4 * yb k1 k2 k3 q / ((1 + yb k1 k2 k3 q) * (1 + yb k1 k2 k3 q))) / sq k1 k2 k3 q.
Proof.
  intros H3 Hq Hy Hz. assert (Ha : 0 < k3 * q) by nra.
  pose proof (sq_nonneg k1 k2 k3 q) as Hs0.
  assert (Hy0 : 0 <= yb k1 k2 k3 q).
  { unfold yb, Rdiv. apply Rmult_le_pos; [exact Hs0|]. apply Rlt_le, Rinv_0_lt_compat, Ha. }
  assert (Hyp : 0 < yb k1 k2 k3 q).
  { destruct Hy0 as [H|H]; [exact H|]. exfalso. rewrite <- H in Hz. unfold Rdiv in Hz. rewrite Rmult_0_r, Rmult_0_l in Hz. lra. }
  assert (Hs : 0 < sq k1 k2 k3 q).
  { destruct Hs0 as [H|H]; [exact H|]. exfalso. unfold yb in Hyp. rewrite <- H in Hyp. unfold Rdiv in Hyp. rewrite Rmult_0_l in Hyp. lra. }
  split; [exact Hs|].
  unfold big_beta. rnl. change ((k1 * k1 - q * q) * (k2 * k2 - q * q)) with (xb k1 k2 q). rewrite sq_xb.
  change (sq k1 k2 k3 q / (k3 * q)) with (yb k1 k2 k3 q). set (y := yb k1 k2 k3 q) in *.
  destruct (Rleb_spec (Rabs (y - 1)) (1 / 100000)); [lra|]. destruct (Rleb_spec (Rabs (y - 1)) (1 / 100)); [lra|].
  assert (Hz1 : 1 - Rabs (y - 1) * Rabs (y - 1) / (1 + y) / (1 + y) = 4 * y / ((1 + y) * (1 + y))).
  { rewrite <- Rabs_mult, Rabs_pos_eq by apply Rle_0_sqr. field. lra. }
  assert (Hy1 : y - 1 <> 0) by (intros E; rewrite E, Rabs_R0 in Hy; lra).
  assert (Hyy : 0 < Rabs (y - 1) / (1 + y)) by (apply Rdiv_lt_0_compat; [apply Rabs_pos_lt; exact Hy1|lra]).
  assert (Hlt : 4 * y / ((1 + y) * (1 + y)) < 1).
  { rewrite <- Hz1. assert (0 < Rabs (y - 1) * Rabs (y - 1) / (1 + y) / (1 + y)); [|lra].
    replace (Rabs (y - 1) * Rabs (y - 1) / (1 + y) / (1 + y)) with (Rabs (y - 1) / (1 + y) * (Rabs (y - 1) / (1 + y))) by (field; lra). nra. }
  rewrite Hz1, betafunc2 by lra.
  replace (k3 * q * y) with (sq k1 k2 k3 q) by (unfold y, yb; field; lra).
  f_equal. f_equal. f_equal.
  assert (E1 : 1 - 4 * y / ((1 + y) * (1 + y)) = Rabs (y - 1) / (1 + y) * (Rabs (y - 1) / (1 + y))).
  { rewrite <- Hz1. field. lra. }
  rewrite E1. unfold WFunc. rn.
  replace (k1 * k1 * (k2 * k2) + (- (k1 * k1) - k2 * k2 + k3 * k3) * (q * q) + q * q * (q * q))
    with (k1 * k1 * (k2 * k2) - (k1 * k1 + k2 * k2 - k3 * k3) * (q * q) + q * q * (q * q)) by ring.
  fold (sq k1 k2 k3 q).
  assert (Hsq : sq k1 k2 k3 q * sq k1 k2 k3 q = xb k1 k2 q + k3 * q * (k3 * q)).
  { rewrite <- sq_xb. apply sqrt_sqrt. destruct (Rle_dec 0 (xb k1 k2 q + k3 * q * (k3 * q))) as [H|H]; [exact H|].
    exfalso. rewrite <- sq_xb in Hs. rewrite sqrt_neg_0 in Hs by lra. lra. }
  rewrite <- ln_Rinv by nra. f_equal.
  assert (Es : sq k1 k2 k3 q = y * (k3 * q)) by (unfold y, yb; field; lra).
  assert (Ex : (k1 * k1 - q * q) * (k2 * k2 - q * q) = y * y * (k3 * q * (k3 * q)) - k3 * q * (k3 * q)).
  { change ((k1 * k1 - q * q) * (k2 * k2 - q * q)) with (xb k1 k2 q).
    replace (y * y * (k3 * q * (k3 * q))) with (sq k1 k2 k3 q * sq k1 k2 k3 q) by (rewrite Es; ring). rewrite Hsq. ring. }
  replace (- (4) * (k3 * k3) * (q * q) - 2 * (k1 * k1 - q * q) * (k2 * k2 - q * q))
    with ((- (2) - 2 * (y * y)) * (k3 * q * (k3 * q))) by (rewrite (Rmult_assoc 2), Ex; ring).
  rewrite Es.
  replace (Rabs (y - 1) / (1 + y) * (Rabs (y - 1) / (1 + y))) with ((y - 1) * (y - 1) / ((1 + y) * (1 + y))).
  2:{ rewrite <- (Rabs_pos_eq ((y - 1) * (y - 1))) by apply Rle_0_sqr. rewrite Rabs_mult. field. lra. }
  assert (Hden : (- (2) - 2 * (y * y)) * (k3 * q * (k3 * q)) + 4 * k3 * q * (y * (k3 * q)) <> 0).
  { replace ((- (2) - 2 * (y * y)) * (k3 * q * (k3 * q)) + 4 * k3 * q * (y * (k3 * q)))
      with (- (2) * ((y - 1) * (y - 1)) * (k3 * q * (k3 * q))) by ring.
    repeat apply Rmult_integral_contrapositive_currified; lra. }
  field. repeat split; try lra.
Qed.

(** The expression with the numerator of the rational part of small_beta, up to a factor, in the place of
    (k+q)^2 small_beta(k,q), or of (k^2-q^2)(k+q)^2 small_beta(k,q). *)
Fixpoint gtail (x : gexpr) : gexpr :=
  match x with
  | GMul (GMul (GMul (GMul (GMul a (GSub _ _)) b) _) _) (GSmallBeta k q) =>
    GMul (GMul a b) (GMul (GMul (GLit 4 0) (GMul k (GPower (GSub k q) 2))) (GAdd (GAdd (GMul (GLit 3 0) (GPower (GAdd k q) 4))
      (GMul (GMul (GLit 6 0) (GMul k q)) (GPower (GAdd k q) 2))) (GMul (GLit 16 0) (GPower (GMul k q) 2))))
  | GMul (GMul (GMul a _) _) (GSmallBeta k q) =>
    GMul a (GMul (GMul (GLit 4 0) (GMul k (GSub k q))) (GAdd (GAdd (GMul (GLit 3 0) (GPower (GAdd k q) 4))
      (GMul (GMul (GLit 6 0) (GMul k q)) (GPower (GAdd k q) 2))) (GMul (GLit 16 0) (GPower (GMul k q) 2))))
  | GNeg a => GNeg (gtail a)
  | GDiv a b => GDiv (gtail a) b
  | _ => x
  end.
Lemma common_den n d a e b1 d1 b2 d2 b3 d3 q u1 u2 u3 M m m0 m1 m2 m3 : M <> 0 ->
  d * m = M -> 4 * e * m0 = M -> 3 * d1 * u1 * m1 = M -> 3 * d2 * u2 * m2 = M -> 3 * d3 * u3 * m3 = M ->
  n * m = a * m0 + q * (b1 * m1 + b2 * m2 + b3 * m3) ->
  n / d = a / e / 4 + q / 3 * (b1 / d1 / u1 + b2 / d2 / u2 + b3 / d3 / u3).
Proof.
  intros HM Ed Ee E1 E2 E3 E.
  assert (d <> 0) by (intros Z; rewrite Z in Ed; lra).
  assert (e <> 0) by (intros Z; rewrite Z in Ee; lra).
  assert (N0 : forall x y z, 3 * x * y * z = M -> x <> 0 /\ y <> 0 /\ z <> 0).
  { intros x y z <-. repeat split; intros Z; rewrite Z in HM; lra. }
  destruct (N0 _ _ _ E1) as [? [? ?]]. destruct (N0 _ _ _ E2) as [? [? ?]]. destruct (N0 _ _ _ E3) as [? [? ?]].
  apply (Rmult_eq_reg_r M); [|exact HM].
  transitivity (n * m); [rewrite <- Ed; field; assumption|]. rewrite E.
  rewrite Rmult_plus_distr_r. f_equal; [rewrite <- Ee; field; assumption|].
  rewrite Rmult_assoc, Rmult_plus_distr_r, Rmult_plus_distr_r.
  transitivity (q / 3 * (b1 / d1 / u1 * (3 * d1 * u1 * m1) + b2 / d2 / u2 * (3 * d2 * u2 * m2) + b3 / d3 / u3 * (3 * d3 * u3 * m3)));
    [field; repeat split; assumption|rewrite E1, E2, E3; reflexivity].
Qed.

(** ** The identity *)
Section Eq.
Variables k1 k2 k3 q : R.
Hypotheses (P1 : 0 < k1) (P2 : 0 < k2) (P3 : 0 < k3) (Pq : 0 < q).
Local Notation ev := (ev4 k1 k2 k3 q).
(** Neither auxiliary function is at a cut-off or in its truncated series. *)
Definition small_ok (k : R) : Prop := 1 / 1000000 < Rabs ((k - q) / (k + q)) /\ 1 / 10 < zb k q.
Definition big_ok (a b c : R) : Prop :=
  1 / 100 < Rabs (yb a b c q - 1) /\ 1 / 10 < 4 * yb a b c q / ((1 + yb a b c q) * (1 + yb a b c q)).
Hypotheses (S1 : small_ok k1) (S2 : small_ok k2) (S3 : small_ok k3).
Hypotheses (B12 : big_ok k1 k2 k3) (B13 : big_ok k1 k3 k2) (B23 : big_ok k2 k3 k1).

Ltac sidesE :=
  pose proof (Rmult_lt_0_compat _ _ P1 Pq); pose proof (Rmult_lt_0_compat _ _ P2 Pq); pose proof (Rmult_lt_0_compat _ _ P3 Pq);
  repeat split; lra.
Lemma d_irr : gden ev g2d_reg3rd_beta0 + gden ev g2d_reg3rd_beta4 = gden ev g2d_exact_kernel5 / 4.
Proof.
  destruct (big_beta_closed k1 k2 k3 q P3 Pq (proj1 B12) (proj2 B12)) as [Q12 E12].
  destruct (big_beta_closed k1 k3 k2 q P2 Pq (proj1 B13) (proj2 B13)) as [Q13 E13].
  destruct (big_beta_closed k2 k3 k1 q P1 Pq (proj1 B23) (proj2 B23)) as [Q23 E23].
  unfold g2d_reg3rd_beta0, g2d_reg3rd_beta4, g2d_exact_kernel5. gexp. sqs k1 k2 k3 q. wfs k1 k2 k3 q.
  rewrite E12, E13, E23. unfold yb, xb. 
  set (s12 := sq k1 k2 k3 q) in *. set (s13 := sq k1 k3 k2 q) in *. set (s23 := sq k2 k3 k1 q) in *.
  field. sidesE.
Qed.
Lemma d_b1 : gden ev g2d_reg3rd_beta1 = gden ev g2d_exact_kernel2 / 4 - q / 3 * (gden ev (gtail g2d_reg3rd_beta1) / (k1 + q) ^ 4).
Proof.
  pose proof (small_beta_closed k1 q P1 Pq (proj1 S1) (proj2 S1)) as E.
  unfold g2d_reg3rd_beta1, g2d_exact_kernel2. cbv [gtail]. gexp. rewrite ?pow_1. rewrite E. unfold zb. clear E.
  generalize (LFunc (N := RNum) k1 q). rn. intros L. field. sidesE.
Qed.
Lemma d_b2 : gden ev g2d_reg3rd_beta2 = gden ev g2d_exact_kernel3 / 4 - q / 3 * (gden ev (gtail g2d_reg3rd_beta2) / (k2 + q) ^ 4).
Proof.
  pose proof (small_beta_closed k2 q P2 Pq (proj1 S2) (proj2 S2)) as E.
  unfold g2d_reg3rd_beta2, g2d_exact_kernel3. cbv [gtail]. gexp. rewrite ?pow_1. rewrite E. unfold zb. clear E.
  generalize (LFunc (N := RNum) k2 q). rn. intros L. field. sidesE.
Qed.
Lemma d_b3 : gden ev g2d_reg3rd_beta3 = gden ev g2d_exact_kernel4 / 4 - q / 3 * (gden ev (gtail g2d_reg3rd_beta3) / (k3 + q) ^ 5).
Proof.
  pose proof (small_beta_closed k3 q P3 Pq (proj1 S3) (proj2 S3)) as E.
  unfold g2d_reg3rd_beta3, g2d_exact_kernel4. cbv [gtail]. gexp. rewrite ?pow_1. rewrite E. unfold zb. clear E.
  generalize (LFunc (N := RNum) k3 q). rn. intros L. field. sidesE.
Qed.
Lemma d_rat : gdsum ev g2d_reg3rd_polys / gden ev g2_reg3rd_den =
  gden ev g2d_exact_kernel1 / 4 + q / 3 * (gden ev (gtail g2d_reg3rd_beta1) / (k1 + q) ^ 4
    + gden ev (gtail g2d_reg3rd_beta2) / (k2 + q) ^ 4 + gden ev (gtail g2d_reg3rd_beta3) / (k3 + q) ^ 5).
Proof.
  cbv [gdsum gtail g2_reg3rd_den g2d_reg3rd_polys g2d_reg3rd_poly0 g2d_reg3rd_poly1 g2d_reg3rd_poly2 g2d_reg3rd_poly3 g2d_reg3rd_poly4 g2d_reg3rd_poly5 g2d_reg3rd_poly6 g2d_reg3rd_poly7 g2d_reg3rd_poly8 g2d_reg3rd_poly9 g2d_reg3rd_poly10 g2d_reg3rd_poly11 g2d_reg3rd_poly12 g2d_reg3rd_beta1
    g2d_reg3rd_beta2 g2d_reg3rd_beta3 g2d_exact_kernel1].
  gexp. generalize PI. intros pi.
  apply common_den with (M := 24837120 * (k1 * k2) ^ 9 * k3 ^ 5 * q ^ 5 * ((k1 + q) * (k2 + q)) ^ 4 * (k3 + q) ^ 5)
    (m := 32 * (k1 * k2 * k3) ^ 4 * q) (m0 := 4 * q ^ 5 * ((k1 + q) * (k2 + q)) ^ 4 * (k3 + q) ^ 5 * (k1 * k2 * k3))
    (m1 := 5 * k2 ^ 7 * k3 ^ 5 * (k2 + q) ^ 4 * (k3 + q) ^ 5) (m2 := 5 * k1 ^ 7 * k3 ^ 5 * (k1 + q) ^ 4 * (k3 + q) ^ 5)
    (m3 := 35 * (k1 * k2) ^ 7 * ((k1 + q) * (k2 + q)) ^ 4).
  1:{ repeat first [apply Rmult_integral_contrapositive_currified | apply pow_nonzero]; lra. }
  all: field; lra.
Qed.
Lemma d_poly :
  gdsum ev g2d_reg3rd_polys / gden ev g2_reg3rd_den + (gden ev g2d_reg3rd_beta1 + gden ev g2d_reg3rd_beta2 + gden ev g2d_reg3rd_beta3)
  = (gden ev g2d_exact_kernel1 + gden ev g2d_exact_kernel2 + gden ev g2d_exact_kernel3 + gden ev g2d_exact_kernel4) / 4.
Proof. rewrite d_rat, d_b1, d_b2, d_b3. unfold Rdiv. ring. Qed.
Lemma t_irr : gden ev g2t_reg3rd_beta0 + gden ev g2t_reg3rd_beta4 = (gden ev g2t_exact_kernel5 + gden ev g2t_exact_kernel6) / 4.
Proof.
  destruct (big_beta_closed k1 k2 k3 q P3 Pq (proj1 B12) (proj2 B12)) as [Q12 E12].
  destruct (big_beta_closed k1 k3 k2 q P2 Pq (proj1 B13) (proj2 B13)) as [Q13 E13].
  destruct (big_beta_closed k2 k3 k1 q P1 Pq (proj1 B23) (proj2 B23)) as [Q23 E23].
  unfold g2t_reg3rd_beta0, g2t_reg3rd_beta4, g2t_exact_kernel5, g2t_exact_kernel6. gexp. sqs k1 k2 k3 q. wfs k1 k2 k3 q.
  rewrite E12, E13, E23. unfold yb, xb. 
  set (s12 := sq k1 k2 k3 q) in *. set (s13 := sq k1 k3 k2 q) in *. set (s23 := sq k2 k3 k1 q) in *.
  field. sidesE.
Qed.
Lemma t_b1 : gden ev g2t_reg3rd_beta1 = gden ev g2t_exact_kernel2 / 4 - q / 3 * (gden ev (gtail g2t_reg3rd_beta1) / (k1 + q) ^ 4).
Proof.
  pose proof (small_beta_closed k1 q P1 Pq (proj1 S1) (proj2 S1)) as E.
  unfold g2t_reg3rd_beta1, g2t_exact_kernel2. cbv [gtail]. gexp. rewrite ?pow_1. rewrite E. unfold zb. clear E.
  generalize (LFunc (N := RNum) k1 q). rn. intros L. field. sidesE.
Qed.
Lemma t_b2 : gden ev g2t_reg3rd_beta2 = gden ev g2t_exact_kernel3 / 4 - q / 3 * (gden ev (gtail g2t_reg3rd_beta2) / (k2 + q) ^ 4).
Proof.
  pose proof (small_beta_closed k2 q P2 Pq (proj1 S2) (proj2 S2)) as E.
  unfold g2t_reg3rd_beta2, g2t_exact_kernel3. cbv [gtail]. gexp. rewrite ?pow_1. rewrite E. unfold zb. clear E.
  generalize (LFunc (N := RNum) k2 q). rn. intros L. field. sidesE.
Qed.
Lemma t_b3 : gden ev g2t_reg3rd_beta3 = gden ev g2t_exact_kernel4 / 4 - q / 3 * (gden ev (gtail g2t_reg3rd_beta3) / (k3 + q) ^ 5).
Proof.
  pose proof (small_beta_closed k3 q P3 Pq (proj1 S3) (proj2 S3)) as E.
  unfold g2t_reg3rd_beta3, g2t_exact_kernel4. cbv [gtail]. gexp. rewrite ?pow_1. rewrite E. unfold zb. clear E.
  generalize (LFunc (N := RNum) k3 q). rn. intros L. field. sidesE.
Qed.
Lemma t_rat : gdsum ev g2t_reg3rd_polys / gden ev g2_reg3rd_den =
  gden ev g2t_exact_kernel1 / 4 + q / 3 * (gden ev (gtail g2t_reg3rd_beta1) / (k1 + q) ^ 4
    + gden ev (gtail g2t_reg3rd_beta2) / (k2 + q) ^ 4 + gden ev (gtail g2t_reg3rd_beta3) / (k3 + q) ^ 5).
Proof.
  cbv [gdsum gtail g2_reg3rd_den g2t_reg3rd_polys g2t_reg3rd_poly0 g2t_reg3rd_poly1 g2t_reg3rd_poly2 g2t_reg3rd_poly3 g2t_reg3rd_poly4 g2t_reg3rd_poly5 g2t_reg3rd_poly6 g2t_reg3rd_poly7 g2t_reg3rd_poly8 g2t_reg3rd_poly9 g2t_reg3rd_poly10 g2t_reg3rd_poly11 g2t_reg3rd_poly12 g2t_reg3rd_poly13 g2t_reg3rd_poly14 g2t_reg3rd_poly15 g2t_reg3rd_poly16 g2t_reg3rd_beta1
    g2t_reg3rd_beta2 g2t_reg3rd_beta3 g2t_exact_kernel1].
  gexp. generalize PI. intros pi.
  apply common_den with (M := 24837120 * (k1 * k2) ^ 9 * k3 ^ 5 * q ^ 5 * ((k1 + q) * (k2 + q)) ^ 4 * (k3 + q) ^ 5)
    (m := 32 * (k1 * k2 * k3) ^ 4 * q) (m0 := 4 * q * ((k1 + q) * (k2 + q)) ^ 4 * (k3 + q) ^ 5 * (k1 * k2 * k3))
    (m1 := 5 * k2 ^ 7 * k3 ^ 5 * (k2 + q) ^ 4 * (k3 + q) ^ 5) (m2 := 5 * k1 ^ 7 * k3 ^ 5 * (k1 + q) ^ 4 * (k3 + q) ^ 5)
    (m3 := 35 * (k1 * k2) ^ 7 * ((k1 + q) * (k2 + q)) ^ 4).
  1:{ repeat first [apply Rmult_integral_contrapositive_currified | apply pow_nonzero]; lra. }
  all: field; lra.
Qed.
Lemma t_poly :
  gdsum ev g2t_reg3rd_polys / gden ev g2_reg3rd_den + (gden ev g2t_reg3rd_beta1 + gden ev g2t_reg3rd_beta2 + gden ev g2t_reg3rd_beta3)
  = (gden ev g2t_exact_kernel1 + gden ev g2t_exact_kernel2 + gden ev g2t_exact_kernel3 + gden ev g2t_exact_kernel4) / 4.
Proof. rewrite t_rat, t_b1, t_b2, t_b3. unfold Rdiv. ring. Qed.
Lemma reg3rd_exact a : g2_val (g2_of a) BReg3rd k1 k2 k3 q = g2_val (g2_of a) BExact k1 k2 k3 q.
Proof.
  destruct a; cbn [g2_val g2_of g2d_src g2t_src s_polys s_betas s_den s_exact].
  - pose proof d_poly as E1. pose proof d_irr as E2. unfold g2d_exact, g2d_reg3rd_betas. cbn [gden gdsum]. lra.
  - pose proof t_poly as E1. pose proof t_irr as E2. unfold g2t_exact, g2t_reg3rd_betas. cbn [gden gdsum]. lra.
Qed.
End Eq.
