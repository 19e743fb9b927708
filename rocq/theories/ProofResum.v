(** ProofResum: RegPT and standard perturbation theory, with bounds for every growth factor and dispersion (C119). *)
From Coq Require Import Reals ZArith List String Lia Lra Psatz Bool.
From Coquelicot Require Import Coquelicot.
From Verif Require Import Base Num BaseFacts Common Registry PyTerms PyMethods Spec SpecPy SpecDamped SpecMethods SpecResum ProofPy ProofDamped ProofMethods ProofSmooth.
Import ListNotations.
Local Open Scope R_scope.

Lemma exp_le_1 f : 0 <= f -> exp (- f) <= 1.
Proof. intros H. rewrite <- exp_0. destruct (Req_dec f 0) as [->|N]; [rewrite Ropp_0; lra|left; apply exp_increasing; lra]. Qed.
Lemma damp0 f : 0 <= f -> 0 <= 1 - exp (- f) <= f.
Proof. intros H. pose proof (exp_le_1 f H). pose proof (exp_ineq1_le (- f)). lra. Qed.
Lemma damp1 f : 0 <= f -> 0 <= 1 - exp (- f) * (1 + f) <= f ^ 2 / 2.
Proof.
  intros H. split.
  - apply (from_zero (fun f => 1 - exp (- f) * (1 + f)) (fun f => f * exp (- f))); [rewrite Ropp_0, exp_0; ring|intros y; auto_derive; [trivial|ring]|intros y Hy; apply Rmult_le_pos; [exact Hy|left; apply exp_pos]|exact H].
  - enough (0 <= f ^ 2 / 2 - (1 - exp (- f) * (1 + f))) by lra.
    apply (from_zero (fun f => f ^ 2 / 2 - (1 - exp (- f) * (1 + f))) (fun f => f * (1 - exp (- f)))); [rewrite Ropp_0, exp_0; field|intros y; auto_derive; [trivial|field]|intros y Hy; apply Rmult_le_pos; [exact Hy|apply damp0, Hy]|exact H].
Qed.
Lemma damp2 f : 0 <= f -> 0 <= 1 - exp (- f) * (1 + f + f ^ 2 / 2) <= f ^ 3 / 6.
Proof.
  intros H. split.
  - apply (from_zero (fun f => 1 - exp (- f) * (1 + f + f ^ 2 / 2)) (fun f => f ^ 2 / 2 * exp (- f))); [rewrite Ropp_0, exp_0; field|intros y; auto_derive; [trivial|field]|intros y Hy; apply Rmult_le_pos; [nra|left; apply exp_pos]|exact H].
  - enough (0 <= f ^ 3 / 6 - (1 - exp (- f) * (1 + f + f ^ 2 / 2))) by lra.
    apply (from_zero (fun f => f ^ 3 / 6 - (1 - exp (- f) * (1 + f + f ^ 2 / 2))) (fun f => f ^ 2 / 2 * (1 - exp (- f)))); [rewrite Ropp_0, exp_0; field|intros y; auto_derive; [trivial|field]|intros y Hy; apply Rmult_le_pos; [nra|apply damp0, Hy]|exact H].
Qed.
Lemma ab_plus u v U V : Rabs u <= U -> Rabs v <= V -> Rabs (u + v) <= U + V.
Proof. intros. eapply Rle_trans; [apply Rabs_triang|lra]. Qed.
Lemma ab_mult u v U V : Rabs u <= U -> Rabs v <= V -> Rabs (u * v) <= U * V.
Proof. intros. rewrite Rabs_mult. apply Rmult_le_compat; try apply Rabs_pos; assumption. Qed.
Lemma ab_pos u U : 0 <= u <= U -> Rabs u <= U.
Proof. intros. rewrite Rabs_right; lra. Qed.
Lemma ab_neg u U : 0 <= - u <= U -> Rabs u <= U.
Proof. intros. rewrite <- Rabs_Ropp. apply ab_pos. assumption. Qed.

Section Gap.
Variables (x a : R).
Hypotheses (Hx : 0 <= x) (Ha : 0 <= a).
Let f := x * a.
Lemma f_pos : 0 <= f.
Proof. apply Rmult_le_pos; assumption. Qed.
Lemma propagator1 g : Rabs (exp (- f) * (1 + f + x * g) - (1 + x * g)) <= x ^ 2 * gap_propagator_1loop a g.
Proof.
  pose proof (damp0 f f_pos). pose proof (damp1 f f_pos). replace (exp (- f) * (1 + f + x * g) - (1 + x * g)) with ((exp (- f) * (1 + f) - 1) + x * g * (exp (- f) - 1)) by ring.
  replace (x ^ 2 * gap_propagator_1loop a g) with (f ^ 2 / 2 + x * Rabs g * f) by (unfold gap_propagator_1loop, f; field).
  apply ab_plus; [apply ab_neg; lra|]. apply ab_mult; [|apply ab_neg; lra]. apply ab_mult; [apply ab_pos; lra|lra].
Qed.
Lemma propagator2 g g2 : Rabs (exp (- f) * (1 + f + f ^ 2 / 2 + x * g * (1 + f) + x ^ 2 * g2) - (1 + x * g + x ^ 2 * g2)) <= x ^ 3 * gap_propagator_2loop a g g2.
Proof.
  pose proof (damp0 f f_pos). pose proof (damp1 f f_pos). pose proof (damp2 f f_pos).
  replace (exp (- f) * (1 + f + f ^ 2 / 2 + x * g * (1 + f) + x ^ 2 * g2) - (1 + x * g + x ^ 2 * g2))
    with ((exp (- f) * (1 + f + f ^ 2 / 2) - 1) + x * g * (exp (- f) * (1 + f) - 1) + x ^ 2 * g2 * (exp (- f) - 1)) by ring.
  replace (x ^ 3 * gap_propagator_2loop a g g2) with (f ^ 3 / 6 + x * Rabs g * (f ^ 2 / 2) + x ^ 2 * Rabs g2 * f) by (unfold gap_propagator_2loop, f; field).
  assert (0 <= x ^ 2) by (apply pow_le, Hx).
  apply ab_plus; [apply ab_plus; [apply ab_neg; lra|]|]; (apply ab_mult; [|apply ab_neg; lra]); (apply ab_mult; [apply ab_pos; lra|lra]).
Qed.
Lemma twice : exp (- (2 * f)) = exp (- f) * exp (- f).
Proof. rewrite <- exp_plus. f_equal. ring. Qed.
Lemma damp_twice : 0 <= 1 - exp (- (2 * f)) <= 2 * f.
Proof. pose proof f_pos. apply damp0. lra. Qed.
Lemma size1 g : Rabs (1 + x * g) <= 1 + x * Rabs g.
Proof. apply ab_plus; [rewrite Rabs_R1; lra|]. apply ab_mult; [apply ab_pos; lra|lra]. Qed.
Lemma size2 g g2 : Rabs (1 + x * g + x ^ 2 * g2) <= 1 + x * Rabs g + x ^ 2 * Rabs g2.
Proof. apply ab_plus; [apply size1|]. apply ab_mult; [apply ab_pos; split; [apply pow_le, Hx|lra]|lra]. Qed.
Lemma ab_x n : Rabs (x ^ n) <= x ^ n.
Proof. apply ab_pos. split; [apply pow_le, Hx|lra]. Qed.
Lemma gap1 ga gb P t :
  Rabs (x * P * (exp (- f) * (1 + f + x * ga)) * (exp (- f) * (1 + f + x * gb)) + x ^ 2 * exp (- (2 * f)) * t - (x * P + x ^ 2 * (P * (ga + gb) + t))) <=
  x ^ 3 * (Rabs P * (Rabs ga * Rabs gb + (1 + x * Rabs ga) * gap_propagator_1loop a gb + (1 + x * Rabs gb) * gap_propagator_1loop a ga + x ^ 2 * (gap_propagator_1loop a ga * gap_propagator_1loop a gb)) + 2 * a * Rabs t).
Proof.
  pose proof (propagator1 ga) as HA. pose proof (propagator1 gb) as HB. pose proof (size1 ga) as SA. pose proof (size1 gb) as SB. pose proof damp_twice as HT.
  set (ea := gap_propagator_1loop a ga) in *. set (eb := gap_propagator_1loop a gb) in *.
  set (pa := exp (- f) * (1 + f + x * ga)) in *. set (pb := exp (- f) * (1 + f + x * gb)) in *. set (e2 := exp (- (2 * f))) in *.
  replace (x * P * pa * pb + x ^ 2 * e2 * t - (x * P + x ^ 2 * (P * (ga + gb) + t)))
    with (x ^ 1 * P * (x ^ 2 * (ga * gb) + (1 + x * ga) * (pb - (1 + x * gb)) + (1 + x * gb) * (pa - (1 + x * ga)) + (pa - (1 + x * ga)) * (pb - (1 + x * gb))) + x ^ 2 * t * (e2 - 1)) by ring.
  eapply Rle_trans.
  - apply ab_plus; [|apply ab_mult; [apply ab_mult; [apply ab_x|apply Rle_refl]|apply ab_neg; instantiate (1 := 2 * f); lra]].
    apply ab_mult; [apply ab_mult; [apply ab_x|apply Rle_refl]|].
    apply ab_plus; [|apply ab_mult; [exact HA|exact HB]]. apply ab_plus; [|apply ab_mult; [exact SB|exact HA]]. apply ab_plus; [|apply ab_mult; [exact SA|exact HB]].
    apply ab_mult; [apply ab_x|apply ab_mult; apply Rle_refl].
  - right. unfold f. ring.
Qed.
Lemma gap2 ga ga2 gb gb2 P t2 t1 l2 g3 :
  Rabs (x * P * (exp (- f) * (1 + f + f ^ 2 / 2 + x * ga * (1 + f) + x ^ 2 * ga2)) * (exp (- f) * (1 + f + f ^ 2 / 2 + x * gb * (1 + f) + x ^ 2 * gb2))
        + x ^ 2 * exp (- (2 * f)) * (t2 * (1 + f) ^ 2 + x * t1 * (1 + f) + x ^ 2 * l2) + x ^ 3 * exp (- (2 * f)) * g3
        - (x * P + x ^ 2 * (P * (ga + gb) + t2) + x ^ 3 * (P * (ga2 + gb2 + ga * gb) + t1 + g3))) <=
  x ^ 4 * (Rabs P * (Rabs ga * Rabs gb2 + Rabs ga2 * Rabs gb + x * (Rabs ga2 * Rabs gb2)
            + (1 + x * Rabs ga + x ^ 2 * Rabs ga2) * gap_propagator_2loop a gb gb2 + (1 + x * Rabs gb + x ^ 2 * Rabs gb2) * gap_propagator_2loop a ga ga2
            + x ^ 3 * (gap_propagator_2loop a ga ga2 * gap_propagator_2loop a gb gb2))
           + a ^ 2 * Rabs t2 + 2 * a * Rabs t1 + Rabs l2 + 2 * a * Rabs g3).
Proof.
  pose proof (propagator2 ga ga2) as HA. pose proof (propagator2 gb gb2) as HB. pose proof (size2 ga ga2) as SA. pose proof (size2 gb gb2) as SB. pose proof damp_twice as HT.
  pose proof (damp0 f f_pos) as D0. pose proof (damp1 f f_pos) as D1. pose proof twice as TW. pose proof f_pos as Hf. pose proof (exp_pos (- f)) as EP.
  assert (T1 : Rabs (exp (- (2 * f)) * (1 + f) - 1) <= 2 * f).
  { apply ab_neg. split.
    - rewrite TW. nra.
    - assert (0 <= exp (- (2 * f)) * f) by (apply Rmult_le_pos; [left; apply exp_pos|exact Hf]). lra. }
  assert (T2 : Rabs (exp (- (2 * f)) * (1 + f) ^ 2 - 1) <= f ^ 2).
  { rewrite TW. replace (exp (- f) * exp (- f) * (1 + f) ^ 2 - 1) with ((exp (- f) * (1 + f) - 1) * (exp (- f) * (1 + f) + 1)) by ring.
    replace (f ^ 2) with (f ^ 2 / 2 * 2) by field. apply ab_mult; [apply ab_neg; lra|]. apply ab_pos. assert (0 <= exp (- f) * (1 + f)) by (apply Rmult_le_pos; lra). lra. }
  set (ea := gap_propagator_2loop a ga ga2) in *. set (eb := gap_propagator_2loop a gb gb2) in *.
  set (pa := exp (- f) * (1 + f + f ^ 2 / 2 + x * ga * (1 + f) + x ^ 2 * ga2)) in *. set (pb := exp (- f) * (1 + f + f ^ 2 / 2 + x * gb * (1 + f) + x ^ 2 * gb2)) in *.
  assert (E1 : Rabs (exp (- (2 * f))) <= 1) by (apply ab_pos; pose proof (exp_pos (- (2 * f))); lra).
  set (e2 := exp (- (2 * f))) in *.
  set (A := 1 + x * ga + x ^ 2 * ga2) in *. set (B := 1 + x * gb + x ^ 2 * gb2) in *.
  replace (x * P * pa * pb + x ^ 2 * e2 * (t2 * (1 + f) ^ 2 + x * t1 * (1 + f) + x ^ 2 * l2) + x ^ 3 * e2 * g3 - (x * P + x ^ 2 * (P * (ga + gb) + t2) + x ^ 3 * (P * (ga2 + gb2 + ga * gb) + t1 + g3)))
    with (x ^ 1 * P * (x ^ 3 * (ga * gb2) + x ^ 3 * (ga2 * gb) + x ^ 4 * (ga2 * gb2) + A * (pb - B) + B * (pa - A) + (pa - A) * (pb - B))
          + x ^ 2 * t2 * (e2 * (1 + f) ^ 2 - 1) + x ^ 3 * t1 * (e2 * (1 + f) - 1) + x ^ 4 * l2 * e2 + x ^ 3 * g3 * (e2 - 1)) by (unfold A, B; ring).
  eapply Rle_trans.
  - repeat apply ab_plus.
    2: apply ab_mult; [apply ab_mult; [apply ab_x|apply Rle_refl]|exact T2].
    2: apply ab_mult; [apply ab_mult; [apply ab_x|apply Rle_refl]|exact T1].
    2: apply ab_mult; [apply ab_mult; [apply ab_x|apply Rle_refl]|exact E1].
    2: apply ab_mult; [apply ab_mult; [apply ab_x|apply Rle_refl]|apply ab_neg; instantiate (1 := 2 * f); lra].
    apply ab_mult; [apply ab_mult; [apply ab_x|apply Rle_refl]|].
    repeat apply ab_plus; [apply ab_mult; [apply ab_x|apply ab_mult; apply Rle_refl]| | |apply ab_mult; [exact SA|exact HB]|apply ab_mult; [exact SB|exact HA]|apply ab_mult; [exact HA|exact HB]];
      (apply ab_mult; [apply ab_x|apply ab_mult; apply Rle_refl]).
  - right. unfold f. ring.
Qed.
(** Large exponents *)
Lemma half_square : exp (- f) * (1 + f / 2) ^ 2 <= 1.
Proof.
  pose proof f_pos. pose proof (exp_ineq1_le (f / 2)) as H1. replace (- f) with (- (f / 2) + - (f / 2)) by field. rewrite exp_plus, exp_Ropp.
  set (y := exp (f / 2)) in *. assert (0 < y) by lra. replace (/ y * / y * (1 + f / 2) ^ 2) with (((1 + f / 2) / y) ^ 2) by (field; lra). rewrite <- (pow1 2). apply pow_incr.
  split; [apply Rle_mult_inv_pos; lra|]. apply (Rmult_le_reg_r y); [assumption|]. unfold Rdiv. rewrite Rmult_assoc, Rinv_l by lra. lra.
Qed.
Lemma fall_propagator g : Rabs (exp (- f) * (1 + f + x * g)) * (1 + f / 2) <= 2 * (1 + x * Rabs g).
Proof.
  pose proof f_pos as Hf. pose proof half_square as H. pose proof (exp_pos (- f)) as E. pose proof (Rabs_pos g) as G.
  assert (X : 0 <= x * Rabs g) by (apply Rmult_le_pos; assumption).
  assert (Q : Rabs (1 + f + x * g) <= 2 * (1 + x * Rabs g) * (1 + f / 2)).
  { eapply Rle_trans; [apply ab_plus; [apply (ab_pos (1 + f) (1 + f)); lra|apply ab_mult; [apply (ab_pos x x); lra|apply Rle_refl]]|]. nra. }
  rewrite Rabs_mult, (Rabs_right (exp (- f))) by lra.
  apply Rle_trans with (exp (- f) * (2 * (1 + x * Rabs g) * (1 + f / 2)) * (1 + f / 2)).
  - apply Rmult_le_compat_r; [lra|]. apply Rmult_le_compat_l; [lra|exact Q].
  - replace (exp (- f) * (2 * (1 + x * Rabs g) * (1 + f / 2)) * (1 + f / 2)) with (2 * (1 + x * Rabs g) * (exp (- f) * (1 + f / 2) ^ 2)) by ring.
    rewrite <- (Rmult_1_r (2 * (1 + x * Rabs g))) at 2. apply Rmult_le_compat_l; [lra|exact H].
Qed.
Lemma fall1 ga gb P t :
  Rabs (x * P * (exp (- f) * (1 + f + x * ga)) * (exp (- f) * (1 + f + x * gb)) + x ^ 2 * exp (- (2 * f)) * t) * (1 + f / 2) ^ 2 <=
  4 * x * Rabs P * (1 + x * Rabs ga) * (1 + x * Rabs gb) + x ^ 2 * Rabs t.
Proof.
  pose proof f_pos as Hf. pose proof (fall_propagator ga) as HA. pose proof (fall_propagator gb) as HB. pose proof half_square as H. pose proof (exp_pos (- f)) as E. pose proof (exp_le_1 f Hf) as E1. rewrite twice.
  set (pa := exp (- f) * (1 + f + x * ga)) in *. set (pb := exp (- f) * (1 + f + x * gb)) in *. set (h := 1 + f / 2) in *. assert (Hh : 0 < h) by (unfold h; lra).
  rewrite <- (Rabs_right (h ^ 2)) by (apply Rle_ge, pow_le; lra). rewrite <- Rabs_mult.
  replace ((x * P * pa * pb + x ^ 2 * (exp (- f) * exp (- f)) * t) * h ^ 2) with (x ^ 1 * P * (pa * h) * (pb * h) + x ^ 2 * t * (exp (- f) * (exp (- f) * h ^ 2))) by ring.
  assert (QA : Rabs (pa * h) <= 2 * (1 + x * Rabs ga)) by (rewrite Rabs_mult, (Rabs_right h) by lra; exact HA).
  assert (QB : Rabs (pb * h) <= 2 * (1 + x * Rabs gb)) by (rewrite Rabs_mult, (Rabs_right h) by lra; exact HB).
  assert (QE : Rabs (exp (- f) * (exp (- f) * h ^ 2)) <= 1 * 1).
  { apply ab_mult; apply ab_pos; [lra|]. split; [apply Rmult_le_pos; [lra|apply pow_le; lra]|exact H]. }
  eapply Rle_trans.
  - apply ab_plus; [apply ab_mult; [apply ab_mult; [apply ab_mult; [apply ab_x|apply Rle_refl]|exact QA]|exact QB]|apply ab_mult; [apply ab_mult; [apply ab_x|apply Rle_refl]|exact QE]].
  - right. ring.
Qed.
Lemma third_cube : exp (- f) * (1 + f / 3) ^ 3 <= 1.
Proof.
  pose proof f_pos. pose proof (exp_ineq1_le (f / 3)) as H1. replace (- f) with (- (f / 3) + - (f / 3) + - (f / 3)) by field. rewrite !exp_plus, exp_Ropp.
  set (y := exp (f / 3)) in *. assert (0 < y) by lra. replace (/ y * / y * / y * (1 + f / 3) ^ 3) with (((1 + f / 3) / y) ^ 3) by (field; lra). rewrite <- (pow1 3). apply pow_incr.
  split; [apply Rle_mult_inv_pos; lra|]. apply (Rmult_le_reg_r y); [assumption|]. unfold Rdiv. rewrite Rmult_assoc, Rinv_l by lra. lra.
Qed.
Lemma fall_propagator2 g g2 : Rabs (exp (- f) * (1 + f + f ^ 2 / 2 + x * g * (1 + f) + x ^ 2 * g2)) * (1 + f / 3) <= 9 / 2 * (1 + x * Rabs g + x ^ 2 * Rabs g2).
Proof.
  pose proof f_pos as Hf. pose proof third_cube as H. pose proof (exp_pos (- f)) as E. pose proof (Rabs_pos g) as G. pose proof (Rabs_pos g2) as G2.
  assert (X : 0 <= x * Rabs g) by (apply Rmult_le_pos; assumption). assert (X2 : 0 <= x ^ 2 * Rabs g2) by (apply Rmult_le_pos; [apply pow_le|]; assumption).
  assert (F2 : 0 <= f ^ 2) by apply pow2_ge_0.
  assert (Q : Rabs (1 + f + f ^ 2 / 2 + x * g * (1 + f) + x ^ 2 * g2) <= 9 / 2 * (1 + x * Rabs g + x ^ 2 * Rabs g2) * (1 + f / 3) ^ 2).
  { eapply Rle_trans; [apply ab_plus; [apply ab_plus; [apply (ab_pos (1 + f + f ^ 2 / 2) (1 + f + f ^ 2 / 2)); lra|apply ab_mult; [apply ab_mult; [apply (ab_pos x x); lra|apply Rle_refl]|apply (ab_pos (1 + f) (1 + f)); lra]]|apply ab_mult; [apply ab_x|apply Rle_refl]]|].
    set (h := 9 / 2 * (1 + f / 3) ^ 2). assert (H1 : 1 + f + f ^ 2 / 2 <= h) by (unfold h; lra). assert (H2 : 1 + f <= h) by lra. assert (H3 : 1 <= h) by lra.
    replace (9 / 2 * (1 + x * Rabs g + x ^ 2 * Rabs g2) * (1 + f / 3) ^ 2) with (h + x * Rabs g * h + x ^ 2 * Rabs g2 * h) by (unfold h; ring).
    pose proof (Rmult_le_compat_l _ _ _ X H2). pose proof (Rmult_le_compat_l _ _ _ X2 H3). lra. }
  rewrite Rabs_mult, (Rabs_right (exp (- f))) by lra. set (w := 9 / 2 * (1 + x * Rabs g + x ^ 2 * Rabs g2)) in *.
  apply Rle_trans with (exp (- f) * (w * (1 + f / 3) ^ 2) * (1 + f / 3)).
  - apply Rmult_le_compat_r; [lra|]. apply Rmult_le_compat_l; [lra|exact Q].
  - replace (exp (- f) * (w * (1 + f / 3) ^ 2) * (1 + f / 3)) with (w * (exp (- f) * (1 + f / 3) ^ 3)) by ring.
    rewrite <- (Rmult_1_r w) at 2. apply Rmult_le_compat_l; [unfold w; lra|exact H].
Qed.
Lemma fall2 ga ga2 gb gb2 P t2 t1 l2 g3 :
  Rabs (x * P * (exp (- f) * (1 + f + f ^ 2 / 2 + x * ga * (1 + f) + x ^ 2 * ga2)) * (exp (- f) * (1 + f + f ^ 2 / 2 + x * gb * (1 + f) + x ^ 2 * gb2))
        + x ^ 2 * exp (- (2 * f)) * (t2 * (1 + f) ^ 2 + x * t1 * (1 + f) + x ^ 2 * l2) + x ^ 3 * exp (- (2 * f)) * g3) * (1 + f / 3) ^ 2 <=
  81 / 4 * x * Rabs P * (1 + x * Rabs ga + x ^ 2 * Rabs ga2) * (1 + x * Rabs gb + x ^ 2 * Rabs gb2) + 3 * x ^ 2 * Rabs t2 + x ^ 3 * Rabs t1 + x ^ 4 * Rabs l2 + x ^ 3 * Rabs g3.
Proof.
  pose proof f_pos as Hf. pose proof (fall_propagator2 ga ga2) as HA. pose proof (fall_propagator2 gb gb2) as HB. pose proof third_cube as H. pose proof (exp_pos (- f)) as E. pose proof (exp_le_1 f Hf) as E1. pose proof (damp1 f Hf) as D1. rewrite twice.
  set (pa := exp (- f) * (1 + f + f ^ 2 / 2 + x * ga * (1 + f) + x ^ 2 * ga2)) in *. set (pb := exp (- f) * (1 + f + f ^ 2 / 2 + x * gb * (1 + f) + x ^ 2 * gb2)) in *.
  set (h := 1 + f / 3) in *. assert (Hh : 1 <= h) by (unfold h; lra). set (e := exp (- f)) in *.
  assert (H2 : 0 <= h ^ 2) by (apply pow_le; lra). assert (P2 : 0 <= e * h ^ 2) by (apply Rmult_le_pos; lra).
  assert (L2 : e * h ^ 2 <= 1) by (replace (e * h ^ 3) with (e * h ^ 2 * h) in H by ring; nra).
  assert (F1 : 0 <= e * (1 + f)) by (apply Rmult_le_pos; lra).
  rewrite <- (Rabs_right (h ^ 2)) by lra. rewrite <- Rabs_mult.
  replace ((x * P * pa * pb + x ^ 2 * (e * e) * (t2 * (1 + f) ^ 2 + x * t1 * (1 + f) + x ^ 2 * l2) + x ^ 3 * (e * e) * g3) * h ^ 2)
    with (x ^ 1 * P * (pa * h) * (pb * h) + x ^ 2 * t2 * (e * (1 + f) * (e * (1 + f) * h ^ 2)) + x ^ 3 * t1 * (e * (1 + f) * (e * h ^ 2)) + x ^ 4 * l2 * (e * (e * h ^ 2)) + x ^ 3 * g3 * (e * (e * h ^ 2))) by ring.
  assert (QA : Rabs (pa * h) <= 9 / 2 * (1 + x * Rabs ga + x ^ 2 * Rabs ga2)) by (rewrite Rabs_mult, (Rabs_right h) by lra; exact HA).
  assert (QB : Rabs (pb * h) <= 9 / 2 * (1 + x * Rabs gb + x ^ 2 * Rabs gb2)) by (rewrite Rabs_mult, (Rabs_right h) by lra; exact HB).
  assert (Q0 : Rabs (e * (e * h ^ 2)) <= 1 * 1) by (apply ab_mult; apply ab_pos; lra).
  assert (Q1 : Rabs (e * (1 + f) * (e * h ^ 2)) <= 1 * 1) by (apply ab_mult; apply ab_pos; lra).
  assert (Q2 : Rabs (e * (1 + f) * (e * (1 + f) * h ^ 2)) <= 1 * 3).
  { apply ab_mult; apply ab_pos; [lra|]. split; [apply Rmult_le_pos; assumption|]. apply Rle_trans with (3 * (e * h ^ 3)); [|lra].
    replace (3 * (e * h ^ 3)) with (3 * h * (e * h ^ 2)) by ring. replace (e * (1 + f) * h ^ 2) with ((1 + f) * (e * h ^ 2)) by ring. apply Rmult_le_compat_r; [exact P2|unfold h; lra]. }
  eapply Rle_trans.
  - repeat apply ab_plus.
    1: apply ab_mult; [apply ab_mult; [apply ab_mult; [apply ab_x|apply Rle_refl]|exact QA]|exact QB].
    1: apply ab_mult; [apply ab_mult; [apply ab_x|apply Rle_refl]|exact Q2].
    1: apply ab_mult; [apply ab_mult; [apply ab_x|apply Rle_refl]|exact Q1].
    1: apply ab_mult; [apply ab_mult; [apply ab_x|apply Rle_refl]|exact Q0].
    apply ab_mult; [apply ab_mult; [apply ab_x|apply Rle_refl]|exact Q0].
  - right. field.
Qed.
End Gap.

Lemma exponent D k s : damping D k s = D ^ 2 * (k ^ 2 * s / 2).
Proof. unfold damping. field. Qed.
Lemma half_pos k s : 0 <= s -> 0 <= k ^ 2 * s / 2.
Proof. intros H. pose proof (pow2_ge_0 k). assert (0 <= k ^ 2 * s) by (apply Rmult_le_pos; assumption). lra. Qed.
Lemma near_1loop D k s ga gb P t : 0 <= s -> Rabs (regpt_1loop D k s ga gb P t - spt_1loop D P ga gb t) <= D ^ 6 * gap_1loop D (k ^ 2 * s / 2) ga gb P t.
Proof.
  intros H. unfold regpt_1loop, spt_1loop, gap_1loop, propagator_1loop. cbv zeta. rewrite exponent.
  pose proof (gap1 (D ^ 2) (k ^ 2 * s / 2) (pow2_ge_0 D) (half_pos k s H) ga gb P t) as G.
  replace (D ^ 6) with ((D ^ 2) ^ 3) by ring. replace (D ^ 4) with ((D ^ 2) ^ 2) by ring. exact G.
Qed.
Lemma near_2loop D k s ga ga2 gb gb2 P t2 t1 l2 g3 : 0 <= s ->
  Rabs (regpt_2loop D k s ga ga2 gb gb2 P t2 t1 l2 g3 - spt_2loop D P ga ga2 gb gb2 t2 t1 g3) <= D ^ 8 * gap_2loop D (k ^ 2 * s / 2) ga ga2 gb gb2 P t2 t1 l2 g3.
Proof.
  intros H. unfold regpt_2loop, spt_2loop, spt_1loop, gap_2loop, propagator_2loop. cbv zeta. rewrite exponent.
  pose proof (gap2 (D ^ 2) (k ^ 2 * s / 2) (pow2_ge_0 D) (half_pos k s H) ga ga2 gb gb2 P t2 t1 l2 g3) as G.
  replace (D ^ 8) with ((D ^ 2) ^ 4) by ring. replace (D ^ 6) with ((D ^ 2) ^ 3) by ring. replace (D ^ 4) with ((D ^ 2) ^ 2) by ring. exact G.
Qed.
Lemma far_1loop D k s ga gb P t : 0 <= s ->
  Rabs (regpt_1loop D k s ga gb P t) * (1 + D ^ 2 * k ^ 2 * s / 4) ^ 2 <= 4 * D ^ 2 * Rabs P * (1 + D ^ 2 * Rabs ga) * (1 + D ^ 2 * Rabs gb) + D ^ 4 * Rabs t.
Proof.
  intros H. unfold regpt_1loop, propagator_1loop. cbv zeta. rewrite exponent.
  pose proof (fall1 (D ^ 2) (k ^ 2 * s / 2) (pow2_ge_0 D) (half_pos k s H) ga gb P t) as G.
  replace (1 + D ^ 2 * k ^ 2 * s / 4) with (1 + D ^ 2 * (k ^ 2 * s / 2) / 2) by field. replace (D ^ 4) with ((D ^ 2) ^ 2) by ring. exact G.
Qed.
Lemma far_2loop D k s ga ga2 gb gb2 P t2 t1 l2 g3 : 0 <= s ->
  Rabs (regpt_2loop D k s ga ga2 gb gb2 P t2 t1 l2 g3) * (1 + D ^ 2 * k ^ 2 * s / 6) ^ 2 <=
  81 / 4 * D ^ 2 * Rabs P * (1 + D ^ 2 * Rabs ga + D ^ 4 * Rabs ga2) * (1 + D ^ 2 * Rabs gb + D ^ 4 * Rabs gb2) + 3 * D ^ 4 * Rabs t2 + D ^ 6 * Rabs t1 + D ^ 8 * Rabs l2 + D ^ 6 * Rabs g3.
Proof.
  intros H. unfold regpt_2loop, propagator_2loop. cbv zeta. rewrite exponent.
  pose proof (fall2 (D ^ 2) (k ^ 2 * s / 2) (pow2_ge_0 D) (half_pos k s H) ga ga2 gb gb2 P t2 t1 l2 g3) as G.
  replace (1 + D ^ 2 * k ^ 2 * s / 6) with (1 + D ^ 2 * (k ^ 2 * s / 2) / 3) by field.
  replace (D ^ 8) with ((D ^ 2) ^ 4) by ring. replace (D ^ 6) with ((D ^ 2) ^ 3) by ring. replace (D ^ 4) with ((D ^ 2) ^ 2) by ring. exact G.
Qed.
Lemma bare_1loop D k ga gb P t : regpt_1loop D k 0 ga gb P t = spt_1loop D P ga gb t + D ^ 6 * (P * (ga * gb)).
Proof. unfold regpt_1loop, spt_1loop, propagator_1loop. cbv zeta. replace (damping D k 0) with 0 by (unfold damping; field). rewrite Rmult_0_r, Ropp_0, exp_0. ring. Qed.
Lemma bare_2loop D k ga ga2 gb gb2 P t2 t1 l2 g3 : regpt_2loop D k 0 ga ga2 gb gb2 P t2 t1 l2 g3 =
  spt_2loop D P ga ga2 gb gb2 t2 t1 g3 + D ^ 8 * (P * (ga * gb2 + ga2 * gb) + l2) + D ^ 10 * (P * (ga2 * gb2)).
Proof. unfold regpt_2loop, spt_2loop, spt_1loop, propagator_2loop. cbv zeta. replace (damping D k 0) with 0 by (unfold damping; field). rewrite Rmult_0_r, Ropp_0, exp_0. field. Qed.
Lemma read_pk cl (c : columns RNum) n (D : R) g : complete cl c n -> suits g n -> offers cl g ->
  exists v, pk_of (N := RNum) cl c D g = Ok v /\ List.length v = n /\ forall i, (i < n)%nat -> nth i v 0 = spectrum_of cl c D g i.
Proof.
  intros HC HS HO. exists (map (spectrum_of cl c D g) (seq 0 n)). split; [exact (pk_of_val cl c n D g HC HS HO)|]. split; [rewrite map_length, seq_length; reflexivity|].
  intros i Hi. rewrite (nth_indep _ 0 (spectrum_of cl c D g 0)) by (rewrite map_length, seq_length; exact Hi). rewrite map_nth, seq_nth by exact Hi. reflexivity.
Qed.
Lemma far_damped D k s P : 0 <= s -> Rabs (damped D k s P) * (1 + D ^ 2 * k ^ 2 * s / 4) ^ 2 <= 4 * D ^ 4 * Rabs P.
Proof.
  intros H. unfold damped. cbv zeta. rewrite exponent. pose proof (half_pos k s H) as Ha. set (a := k ^ 2 * s / 2) in *. set (x := D ^ 2) in *. assert (Hx : 0 <= x) by apply pow2_ge_0.
  pose proof (fall_propagator x a Hx Ha 0) as F. rewrite Rabs_R0, !Rmult_0_r, !Rplus_0_r in F. replace (1 + x * k ^ 2 * s / 4) with (1 + x * a / 2) by (unfold a; field).
  assert (Hh : 0 <= 1 + x * a / 2) by (pose proof (Rmult_le_pos _ _ Hx Ha); lra). set (h := 1 + x * a / 2) in *. set (p := exp (- (x * a)) * (1 + x * a)) in *.
  rewrite <- (Rabs_right (h ^ 2)) by (apply Rle_ge, pow_le, Hh). rewrite <- Rabs_mult. replace (D ^ 4 * p ^ 2 * P * h ^ 2) with (x ^ 2 * P * ((p * h) * (p * h))) by (unfold x; ring).
  assert (Q : Rabs (p * h) <= 2) by (rewrite Rabs_mult, (Rabs_right h) by lra; lra).
  eapply Rle_trans; [apply ab_mult; [apply ab_mult; [apply (ab_x x Hx)|apply Rle_refl]|apply ab_mult; [exact Q|exact Q]]|]. right. unfold x. ring.
Qed.
