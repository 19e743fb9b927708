(** ProofNewton4: the Newton loop of nodes_weights_gauss_legendre ends, for every number of nodes. *)
From Coq Require Import Reals Lra Lia List.
From Coquelicot Require Import Coquelicot.
From Verif Require Import Base Num BaseFacts Common Spec SpecQuad Poly Legendre LegendreRoots ProofGL ProofNewton ProofNewton2 ProofNewton3.
Local Open Scope R_scope.

Lemma newton_step_R fuel (n : Z) (z z1 pp : R) : (1 <= n)%Z -> z * z <> 1 ->
  newton (N := RNum) (S fuel) n z z1 pp =
    if Rlt_dec epsR (Rabs (z - z1)) then newton (N := RNum) fuel n (z - step (Z.to_nat n) z) z (DL (Z.to_nat n) z) else Ok (z, pp).
Proof.
  intros Hn Hz. cbn [newton]. rewrite EPS_R. rn.
  change (legendre_loop (N := RNum) (Z.to_nat n) 0 z 1 0) with (leg (N := RNum) n z).
  pose proof (leg_pp_R n z Hn Hz) as Ep. unfold leg_pp in Ep. rewrite leg_R in Ep by exact Hn. cbn [fst snd] in Ep.
  rewrite leg_R by exact Hn.
  change (IZR n * (z * L (Z.to_nat n) z - L (Z.to_nat n - 1) z) / (z * z - 1)) with (gl_pp (N := RNum) n z (L (Z.to_nat n) z) (L (Z.to_nat n - 1) z)).
  rewrite Ep. unfold step.
  destruct (Rlt_dec epsR (Rabs (z - z1))) as [H|H].
  - rewrite (proj2 (Rltb_true _ _) H). reflexivity.
  - rewrite (proj2 (Rltb_false _ _)) by lra. reflexivity.
Qed.

Section Run.
Variables (n : Z) (r b : R).
Hypothesis Hn : (1 <= n)%Z.
Let nn := Z.to_nat n.
Hypothesis HS : start nn r b.
Lemma nn1 : (1 <= nn)%nat.
Proof. unfold nn. lia. Qed.
Lemma inside x : r <= x <= b -> x * x <> 1.
Proof. intros Hx. pose proof (one_minus nn r b HS x Hx). lra. Qed.

Lemma run_regular fuel : forall x z1, r <= x <= b -> newton_regular fuel n x z1.
Proof.
  induction fuel as [|f IH]; intros x z1 Hx; cbn [newton_regular]; [exact I|].
  destruct (Rlt_dec epsR (Rabs (x - z1))) as [_|_]; [|exact I].
  pose proof (inside x Hx) as Hi. split; [exact Hi|]. rewrite leg_pp_R by assumption. rewrite leg_R by exact Hn. cbn [fst]. fold nn.
  split; [apply (slope_nz nn r b nn1 HS x Hx)|]. apply IH. change (L nn x / DL nn x) with (step nn x). apply (step_in nn r b nn1 HS x Hx).
Qed.

(** The loop is left within j + 2 turns once the distance to the zero is below the (2^(5-j))th power of 2/9. *)
Lemma run_ends : forall j fuel x z1 pp, (j <= 5)%nat -> (j + 2 <= fuel)%nat -> r <= x <= b -> kk b * (x - r) <= (2 / 9) ^ (2 ^ (5 - j)) ->
  exists z pp', newton (N := RNum) fuel n x z1 pp = Ok (z, pp').
Proof.
  induction j as [|j IH]; intros fuel x z1 pp Hj Hf Hx Hk.
  - destruct fuel as [|[|f]]; [lia|lia|]. rewrite newton_step_R by (try exact Hn; apply inside; exact Hx).
    destruct (Rlt_dec epsR (Rabs (x - z1))) as [_|_]; [|do 2 eexists; reflexivity].
    pose proof (step_in nn r b nn1 HS x Hx) as Hi. destruct (step_bounds nn r b nn1 HS x Hx) as [Hs _].
    fold nn. rewrite newton_step_R by (try exact Hn; apply inside; exact Hi).
    destruct (Rlt_dec epsR (Rabs (x - step nn x - x))) as [HH|_]; [exfalso|do 2 eexists; reflexivity].
    replace (x - step nn x - x) with (- step nn x) in HH by ring. rewrite Rabs_Ropp, Rabs_right in HH by lra.
    pose proof (kk_ge nn r b HS) as Hk2. change (5 - 0)%nat with 5%nat in Hk. change (2 ^ 5)%nat with 32%nat in Hk.
    assert (2 * (x - r) <= kk b * (x - r)) by (apply Rmult_le_compat_r; lra).
    assert ((2 / 9) ^ 32 <= epsR); [|lra]. unfold epsR, Rdiv. rewrite Rpow_mult_distr, pow_inv. 
    apply Rmult_le_reg_r with (9 ^ 32 * 10 ^ 14); [apply Rmult_lt_0_compat; apply pow_lt; lra|].
    replace (2 ^ 32 * / 9 ^ 32 * (9 ^ 32 * 10 ^ 14)) with (2 ^ 32 * 10 ^ 14) by (field; apply pow_nonzero; lra).
    replace (3 * / 10 ^ 14 * (9 ^ 32 * 10 ^ 14)) with (3 * 9 ^ 32) by (field; apply pow_nonzero; lra).
    rewrite <- !pow_IZR || rewrite !pow_IZR. rewrite <- !mult_IZR. apply IZR_le. vm_compute. discriminate.
  - destruct fuel as [|f]; [lia|]. rewrite newton_step_R by (try exact Hn; apply inside; exact Hx).
    destruct (Rlt_dec epsR (Rabs (x - z1))) as [_|_]; [|do 2 eexists; reflexivity].
    pose proof (step_in nn r b nn1 HS x Hx) as Hi. destruct (step_bounds nn r b nn1 HS x Hx) as [[Hs0 Hs1] Hs].
    pose proof (kk_ge nn r b HS) as Hk2. fold nn. apply IH; [lia|lia|exact Hi|].
    replace (2 ^ (5 - j))%nat with (2 ^ (5 - S j) + 2 ^ (5 - S j))%nat by (replace (5 - j)%nat with (S (5 - S j)) by lia; cbn; lia).
    rewrite pow_add. set (q := (2 / 9) ^ 2 ^ (5 - S j)) in *.
    apply Rle_trans with (kk b * (x - r) * (kk b * (x - r))).
    + replace (kk b * (x - r) * (kk b * (x - r))) with (kk b * (kk b * (x - r) * (x - r))) by ring. apply Rmult_le_compat_l; [lra|].
      eapply Rle_trans; [exact Hs|]. apply Rmult_le_compat_l; [apply Rmult_le_pos; lra|lra].
    + assert (0 <= kk b * (x - r)) by (apply Rmult_le_pos; lra). apply Rmult_le_compat; lra.
Qed.

(** From the starting point *)
Lemma run_start fuel pp : (7 <= fuel)%nat -> exists z pp', newton (N := RNum) fuel n b (b + epsR + 1) pp = Ok (z, pp').
Proof.
  intros Hf. apply (run_ends 5); [lia|lia|destruct HS; lra|]. pose proof (kk_start nn r b HS). cbn [Nat.sub Nat.pow pow]. lra.
Qed.
Lemma run_last fuel : forall x z1 pp z pp', newton (N := RNum) fuel n x z1 pp = Ok (z, pp') -> r <= x <= b -> epsR < Rabs (x - z1) ->
  exists y, r <= y <= b /\ pp' = DL nn y /\ z = y - step nn y /\ step nn y <= epsR.
Proof.
  induction fuel as [|f IH]; intros x z1 pp z pp' E Hx Hc; [discriminate|].
  rewrite newton_step_R in E by (try exact Hn; apply inside; exact Hx). fold nn in E.
  destruct (Rlt_dec epsR (Rabs (x - z1))) as [_|]; [|contradiction].
  pose proof (step_in nn r b nn1 HS x Hx) as Hi. destruct (step_bounds nn r b nn1 HS x Hx) as [[Hs0 Hs1] Hs].
  destruct (Rlt_dec epsR (Rabs (x - step nn x - x))) as [HH|HH].
  - apply (IH _ _ _ _ _ E Hi HH).
  - destruct f as [|f]; [discriminate|]. rewrite newton_step_R in E by (try exact Hn; apply inside; exact Hi). fold nn in E.
    destruct (Rlt_dec epsR (Rabs (x - step nn x - x))) as [|_]; [contradiction|]. injection E as <- <-.
    exists x. split; [exact Hx|]. split; [reflexivity|]. split; [reflexivity|].
    replace (x - step nn x - x) with (- step nn x) in HH by ring. rewrite Rabs_Ropp, Rabs_right in HH by lra. lra.
Qed.
Lemma run_result fuel pp z pp' : newton (N := RNum) fuel n b (b + epsR + 1) pp = Ok (z, pp') ->
  r <= z <= b /\ z - r <= 2 / 9 * epsR /\ z - r <= 88 / 81 * (fr nn * fr nn) * (epsR * epsR) /\
  0 < (1 - z * z) * pp' * pp' /\
  Rabs ((1 - r * r) * DL nn r * DL nn r - (1 - z * z) * pp' * pp') <= 2 * (fr nn * fr nn) * epsR * ((1 - z * z) * pp' * pp').
Proof.
  intros E. pose proof epsR_pos as He. destruct (run_last fuel _ _ _ _ _ E) as [y [Hy [-> [-> Hs]]]].
  - destruct HS; lra.
  - replace (b - (b + epsR + 1)) with (- (epsR + 1)) by ring. rewrite Rabs_Ropp, Rabs_right; lra.
  - destruct (step_small nn r b nn1 HS y epsR Hy Hs) as [_ [H1 H2]]. split; [apply (step_in nn r b nn1 HS y Hy)|].
    split; [exact H1|]. split; [exact H2|]. apply (weight_err nn r b nn1 HS y epsR Hy Hs).
Qed.
End Run.

(** The starting points of the code *)
Lemma start_code (n : Z) ii : (1 <= n)%Z -> (0 <= ii < (n + 1) / 2)%Z ->
  (2 * Z.to_nat ii + 1 <= Z.to_nat n)%nat /\
  cos (PI * (IZR ii + 75 / 100) / (IZR n + 5 / 10)) = cos (phi (Z.to_nat n) (Z.to_nat ii)).
Proof.
  intros Hn Hi. split.
  - pose proof (Z.mul_div_le (n + 1) 2 ltac:(lia)). lia.
  - unfold phi, fr. rewrite !INR_IZR_INZ, !Z2Nat.id by lia. do 2 f_equal. lra.
Qed.
Lemma all_regular fuel n : (1 <= n)%Z -> gl_regular fuel n.
Proof.
  intros Hn ii Hi. cbn zeta. destruct (start_code n ii Hn Hi) as [H1 ->]. destruct (start_guess _ _ H1) as [t [_ [_ HS]]].
  apply (run_regular n (cos t) _ Hn HS). destruct HS; lra.
Qed.
