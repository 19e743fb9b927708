(** ProofSeries3: the two-loop propagator kernel beta. *)
From Coq Require Import Reals Lra Lia.
From Verif Require Import Base Num BaseFacts Common Spec SpecKernels ProofSearch Kernels ProofKernels.
From Coquelicot Require Import Coquelicot.
From Verif Require Import Series ProofSeries2.
Import ListNotations.
Local Open Scope R_scope.

(** The variable of beta. *)
Definition yq (q1 q2 : R) : R := Rabs ((q1 - q2) / (q1 + q2)).
Lemma yq_range q1 q2 : 0 < q1 -> 0 < q2 -> 0 <= yq q1 q2 < 1.
Proof.
  intros H1 H2. unfold yq. split; [apply Rabs_pos|]. unfold Rdiv. rewrite Rabs_mult, Rabs_inv, (Rabs_pos_eq (q1 + q2)) by lra.
  assert (HQ : 0 < q1 + q2) by lra. apply (proj2 (Rlt_div_l _ _ _ HQ)). rewrite Rmult_1_l. apply Rabs_def1; lra.
Qed.
Lemma yq_comm q1 q2 : yq q1 q2 = yq q2 q1.
Proof. unfold yq. rewrite (Rplus_comm q2 q1). replace ((q2 - q1) / (q1 + q2)) with (- ((q1 - q2) / (q1 + q2))) by (unfold Rdiv; ring). rewrite Rabs_Ropp. reflexivity. Qed.
Lemma yq_scale s q1 q2 : 0 < s -> 0 < q1 -> 0 < q2 -> yq (s * q1) (s * q2) = yq q1 q2.
Proof. intros Hs H1 H2. unfold yq. f_equal. field. split; nra. Qed.

Lemma lnsum11 d : lnsum 11 d = d + d ^ 2 / 2 + d ^ 3 / 3 + d ^ 4 / 4 + d ^ 5 / 5 + d ^ 6 / 6 + d ^ 7 / 7 + d ^ 8 / 8 + d ^ 9 / 9 + d ^ 10 / 10 + d ^ 11 / 11.
Proof. unfold lnsum. cbn [rsum]. cbn [INR]. field. Qed.

(** [exact - Taylor = d^5 (Q - g rho/d^12) / (- D (2-d)^7)] with rho the remainder of the log *)
Lemma one_bound (Q : poly) (d g rho D C0 C1 : R) : 0 < d < 1 / 20 -> pabs Q (1 / 20) <= C0 -> Rabs g <= C1 ->
  0 <= rho <= d ^ 12 / (12 * (1 - d)) -> 0 < D -> C0 + C1 / 11 <= 2 * D ->
  Rabs (d ^ 5 * ((peval Q d - g * (rho / d ^ 12)) / (D * (2 - d) ^ 7))) <= d ^ 5 / 50.
Proof.
  intros Hd HQ Hg Hr HD HS. pose proof (peval_bound Q d (1 / 20) ltac:(rewrite Rabs_pos_eq; lra)) as HP.
  assert (Hd12 : 0 < d ^ 12) by (apply pow_lt; lra). assert (Hd5 : 0 < d ^ 5) by (apply pow_lt; lra).
  assert (HB : 0 <= rho / d ^ 12 <= 1 / 11).
  { split; [apply Rmult_le_pos; [lra|apply Rlt_le, Rinv_0_lt_compat, Hd12]|].
    apply (proj2 (Rle_div_l _ _ _ Hd12)). eapply Rle_trans; [apply Hr|].
    assert (H : 0 < 12 * (1 - d)) by lra. apply (proj2 (Rle_div_l _ _ _ H)). 
    replace (1 / 11 * d ^ 12 * (12 * (1 - d))) with (d ^ 12 * (12 / 11 * (1 - d))) by field.
    rewrite <- (Rmult_1_r (d ^ 12)) at 1. apply Rmult_le_compat_l; lra. }
  assert (H2 : 100 <= (2 - d) ^ 7).
  { apply Rle_trans with ((39 / 20) ^ 7); [lra|apply pow_incr; lra]. }
  rewrite Rabs_mult, (Rabs_pos_eq (d ^ 5)) by lra. replace (d ^ 5 / 50) with (d ^ 5 * (1 / 50)) by field. apply Rmult_le_compat_l; [lra|].
  unfold Rdiv at 1. rewrite Rabs_mult, Rabs_inv, (Rabs_pos_eq (D * (2 - d) ^ 7)) by nra.
  assert (HDp : 0 < D * (2 - d) ^ 7) by nra. apply (proj2 (Rle_div_l _ _ _ HDp)).
  apply Rle_trans with (2 * D); [|nra]. eapply Rle_trans; [|exact HS].
  eapply Rle_trans; [apply Rabs_triang|]. rewrite Rabs_Ropp, Rabs_mult, (Rabs_pos_eq (rho / d ^ 12)) by lra.
  apply Rplus_le_compat; [lra|]. replace (C1 / 11) with (C1 * (1 / 11)) by field. apply Rmult_le_compat; auto using Rabs_pos; lra.
Qed.

Lemma beta_d_near q1 q2 : 0 < q1 -> 0 < q2 -> 19 / 20 < yq q1 q2 ->
  Rabs (beta (N := RNum) DELTA q1 q2 - beta_exact_d (yq q1 q2)) <= (1 - yq q1 q2) ^ 5 / 50.
Proof.
  intros H1 H2 Hy. destruct (yq_range q1 q2 H1 H2) as [Y1 Y2]. unfold beta. rn. fold (yq q1 q2). lits.
  set (y := yq q1 q2) in *. clearbody y. set (d := 1 - y) in *. replace y with (1 - d) by (unfold d; ring).
  assert (Hd : 0 < d < 1 / 20) by (unfold d; lra). clearbody d. clear y Hy Y1 Y2.
  destruct (Rltb_spec (Rabs d) (5 / 100)) as [_|H]; [|rewrite Rabs_pos_eq in H by lra; lra].
  pose proof (ln_remainder 11 d ltac:(lra)) as HR. set (rho := - ln (1 - d) - lnsum 11 d) in *.
  replace (INR 12) with 12 in HR by (cbn; ring).
  rewrite <- Rabs_Ropp.
  match goal with |- Rabs (- (?a - ?b)) <= _ => replace (- (a - b)) with
   (d ^ 5 * ((peval [- 38817280 / 231; 92927488 / 77; - 134029792 / 33; 637206208 / 77; - 2586009080 / 231; 798457928 / 77; - 45882972 / 7; 89850560 / 33; - 7405512 / 11; 832080 / 11] d
      - (- 2 * (1 + (1 - d) ^ 2) * (120 * (1 - d) ^ 4 * (3467 - 790 * (1 - d) ^ 2 + 3467 * (1 - d) ^ 4))) * (rho / d ^ 12)) / (429975 * (2 - d) ^ 7))) end.
  - apply (one_bound _ d _ rho 429975 260000 3400000); auto; try lra.
    + cbn [pabs]. absnum. lra.
    + assert (0 <= (1 - d) ^ 2 <= 1) by nra. assert (0 <= (1 - d) ^ 4 <= 1) by (replace ((1 - d) ^ 4) with ((1 - d) ^ 2 * (1 - d) ^ 2) by ring; nra).
      set (u := (1 - d) ^ 2) in *. set (v := (1 - d) ^ 4) in *.
      assert (0 <= (1 + u) <= 2) by lra. assert (0 <= 3467 - 790 * u + 3467 * v <= 6934) by lra.
      assert (0 <= v * (3467 - 790 * u + 3467 * v) <= 1 * 6934) by (split; [apply Rmult_le_pos; lra|apply Rmult_le_compat; lra]).
      assert (0 <= (1 + u) * (v * (3467 - 790 * u + 3467 * v)) <= 2 * 6934) by (split; [apply Rmult_le_pos; lra|apply Rmult_le_compat; lra]).
      rewrite Rabs_left1; lra.
  - unfold beta_exact_d. replace (ln (1 - d)) with (- (rho + lnsum 11 d)) by (unfold rho; ring). rewrite lnsum11. clearbody rho.
    replace ((1 - d) ^ 2 - 1) with (- (d * (2 - d))) by ring. cbn [peval]. field. lra.
Qed.
Lemma beta_d_mid q1 q2 : 0 < q1 -> 0 < q2 -> 1 / 100 <= yq q1 q2 <= 19 / 20 ->
  beta (N := RNum) DELTA q1 q2 = beta_exact_d (yq q1 q2).
Proof.
  intros H1 H2 Hy. unfold beta. rn. fold (yq q1 q2). lits. set (y := yq q1 q2) in *. clearbody y.
  destruct (Rltb_spec (Rabs (1 - y)) (5 / 100)) as [H|_]; [rewrite Rabs_pos_eq in H; lra|].
  destruct (Rltb_spec y (1 / 100)) as [H|_]; [lra|]. rewrite power_R by lia. change (Z.to_nat 7) with 7%nat.
  unfold beta_exact_d. f_equal; [ring|]. f_equal; f_equal; ring.
Qed.
Lemma beta_d_zero q1 q2 : 0 < q1 -> 0 < q2 -> yq q1 q2 < 1 / 100 ->
  Rabs (beta (N := RNum) DELTA q1 q2 - beta_exact_d (yq q1 q2)) <= 3 * yq q1 q2 ^ 4 * (1 + Rabs (ln (yq q1 q2))).
Proof.
  intros H1 H2 Hy. destruct (yq_range q1 q2 H1 H2) as [Y1 Y2]. unfold beta. rn. fold (yq q1 q2). lits.
  set (y := yq q1 q2) in *. clearbody y. assert (Hyy : 0 <= y ^ 2 <= 1 / 10000) by (cbn [pow]; nra).
  destruct (Rltb_spec (Rabs (1 - y)) (5 / 100)) as [H|_]; [rewrite Rabs_pos_eq in H; lra|].
  destruct (Rltb_spec y (1 / 100)) as [_|H]; [|lra].
  rewrite <- Rabs_Ropp.
  match goal with |- Rabs (- (?a - ?b)) <= _ => replace (- (a - b)) with
   (- (y ^ 4 * ((peval [1069064; 0; -2017892; 0; 2816620; 0; -2666520; 0; 1141040; 0; -399364; 0; 57052] y + 240 * (1 + y ^ 2) * (3467 - 790 * y ^ 2 + 3467 * y ^ 4) * ln y) * / (429975 * (1 - y ^ 2) ^ 7)))) end.
  - rewrite Rabs_Ropp, Rabs_mult, (Rabs_pos_eq (y ^ 4)) by (apply pow_le; lra).
    replace (3 * y ^ 4 * (1 + Rabs (ln y))) with (y ^ 4 * (3 * (1 + Rabs (ln y)))) by ring. apply Rmult_le_compat_l; [apply pow_le; lra|].
    assert (HD : 1 - 7 / 10000 <= (1 - y ^ 2) ^ 7) by (apply Rle_trans with ((1 - 1 / 10000) ^ 7); [lra|apply pow_incr; lra]).
    rewrite Rabs_mult, Rabs_inv, (Rabs_pos_eq (429975 * _)) by nra.
    assert (HDp : 0 < 429975 * (1 - y ^ 2) ^ 7) by nra. apply (proj2 (Rle_div_l _ _ _ HDp)).
    eapply Rle_trans; [apply Rabs_triang|]. rewrite Rabs_mult.
    pose proof (peval_bound [1069064; 0; -2017892; 0; 2816620; 0; -2666520; 0; 1141040; 0; -399364; 0; 57052] y (1 / 100) ltac:(rewrite Rabs_pos_eq; lra)) as HP.
    assert (HP2 : pabs [1069064; 0; -2017892; 0; 2816620; 0; -2666520; 0; 1141040; 0; -399364; 0; 57052] (1 / 100) <= 429975 * (26 / 10)) by (cbn [pabs]; absnum; lra).
    assert (Hy4 : 0 <= y ^ 4 <= 1 / 10000) by (replace (y ^ 4) with (y ^ 2 * y ^ 2) by ring; nra).
    assert (HG : Rabs (240 * (1 + y ^ 2) * (3467 - 790 * y ^ 2 + 3467 * y ^ 4)) <= 429975 * 2).
    { set (u := y ^ 2) in *. set (v := y ^ 4) in *.
      assert (0 <= (1 + u) * (3467 - 790 * u + 3467 * v) <= (1 + 1 / 10000) * (3467 + 2)) by (split; [apply Rmult_le_pos; lra|apply Rmult_le_compat; lra]).
      rewrite Rabs_pos_eq; lra. }
    pose proof (Rabs_pos (ln y)) as HL. set (l := Rabs (ln y)) in *.
    assert (Rabs (240 * (1 + y ^ 2) * (3467 - 790 * y ^ 2 + 3467 * y ^ 4)) * l <= 429975 * 2 * l) by (apply Rmult_le_compat_r; lra).
    assert (429975 * (1 - 7 / 10000) * (3 * (1 + l)) <= 429975 * (1 - y ^ 2) ^ 7 * (3 * (1 + l))) by (apply Rmult_le_compat_r; [lra|apply Rmult_le_compat_l; lra]).
    lra.
  - unfold beta_exact_d. set (l := ln y). replace (y ^ 2 - 1) with (- (1 - y ^ 2)) by ring. cbn [peval]. field. nra.
Qed.
Lemma beta_t_near q1 q2 : 0 < q1 -> 0 < q2 -> 19 / 20 < yq q1 q2 ->
  Rabs (beta (N := RNum) THETA q1 q2 + 2 * 91912 / 33108075 * (1 - yq q1 q2) ^ 3 - beta_exact_t (yq q1 q2)) <= (1 - yq q1 q2) ^ 5 / 50.
Proof.
  intros H1 H2 Hy. destruct (yq_range q1 q2 H1 H2) as [Y1 Y2]. unfold beta. rn. fold (yq q1 q2). lits.
  set (y := yq q1 q2) in *. clearbody y. set (d := 1 - y) in *. replace y with (1 - d) by (unfold d; ring).
  assert (Hd : 0 < d < 1 / 20) by (unfold d; lra). clearbody d. clear y Hy Y1 Y2.
  destruct (Rltb_spec (Rabs d) (5 / 100)) as [_|H]; [|rewrite Rabs_pos_eq in H by lra; lra].
  pose proof (ln_remainder 11 d ltac:(lra)) as HR. set (rho := - ln (1 - d) - lnsum 11 d) in *.
  replace (INR 12) with 12 in HR by (cbn; ring).
  rewrite <- Rabs_Ropp.
  match goal with |- Rabs (- (?a - ?b)) <= _ => replace (- (a - b)) with
   (d ^ 5 * ((peval [- 13288960 / 33; 3205632; - 403819936 / 33; 2137656384 / 77; - 9420329960 / 231; 3087431384 / 77; - 2034221276 / 77; 372054080 / 33; - 31102296 / 11; 3494640 / 11] d
      - (- 2 * (1 + (1 - d) ^ 2) * (120 * (1 - d) ^ 4 * (14561 - 10690 * (1 - d) ^ 2 + 14561 * (1 - d) ^ 4))) * (rho / d ^ 12)) / (4729725 * (2 - d) ^ 7))) end.
  - apply (one_bound _ d _ rho 4729725 700000 14000000); auto; try lra.
    + cbn [pabs]. absnum. lra.
    + assert (0 <= (1 - d) ^ 2 <= 1) by nra. assert (0 <= (1 - d) ^ 4 <= 1) by (replace ((1 - d) ^ 4) with ((1 - d) ^ 2 * (1 - d) ^ 2) by ring; nra).
      set (u := (1 - d) ^ 2) in *. set (v := (1 - d) ^ 4) in *.
      assert (0 <= (1 + u) <= 2) by lra. assert (0 <= 14561 - 10690 * u + 14561 * v <= 29122) by lra.
      assert (0 <= v * (14561 - 10690 * u + 14561 * v) <= 1 * 29122) by (split; [apply Rmult_le_pos; lra|apply Rmult_le_compat; lra]).
      assert (0 <= (1 + u) * (v * (14561 - 10690 * u + 14561 * v)) <= 2 * 29122) by (split; [apply Rmult_le_pos; lra|apply Rmult_le_compat; lra]).
      rewrite Rabs_left1; lra.
  - unfold beta_exact_t. replace (ln (1 - d)) with (- (rho + lnsum 11 d)) by (unfold rho; ring). rewrite lnsum11. clearbody rho.
    replace ((1 - d) ^ 2 - 1) with (- (d * (2 - d))) by ring. cbn [peval]. field. lra.
Qed.
Lemma beta_t_mid q1 q2 : 0 < q1 -> 0 < q2 -> 1 / 100 <= yq q1 q2 <= 19 / 20 ->
  beta (N := RNum) THETA q1 q2 = beta_exact_t (yq q1 q2).
Proof.
  intros H1 H2 Hy. unfold beta. rn. fold (yq q1 q2). lits. set (y := yq q1 q2) in *. clearbody y.
  destruct (Rltb_spec (Rabs (1 - y)) (5 / 100)) as [H|_]; [rewrite Rabs_pos_eq in H; lra|].
  destruct (Rltb_spec y (1 / 100)) as [H|_]; [lra|]. rewrite power_R by lia. change (Z.to_nat 7) with 7%nat.
  unfold beta_exact_t. f_equal; [ring|]. f_equal; f_equal; ring.
Qed.
Lemma beta_t_zero q1 q2 : 0 < q1 -> 0 < q2 -> yq q1 q2 < 1 / 100 ->
  Rabs (beta (N := RNum) THETA q1 q2 - beta_exact_t (yq q1 q2)) <= 3 * yq q1 q2 ^ 4 * (1 + Rabs (ln (yq q1 q2))).
Proof.
  intros H1 H2 Hy. destruct (yq_range q1 q2 H1 H2) as [Y1 Y2]. unfold beta. rn. fold (yq q1 q2). lits.
  set (y := yq q1 q2) in *. clearbody y. assert (Hyy : 0 <= y ^ 2 <= 1 / 10000) by (cbn [pow]; nra).
  destruct (Rltb_spec (Rabs (1 - y)) (5 / 100)) as [H|_]; [rewrite Rabs_pos_eq in H; lra|].
  destruct (Rltb_spec y (1 / 100)) as [_|H]; [|lra].
  rewrite <- Rabs_Ropp.
  match goal with |- Rabs (- (?a - ?b)) <= _ => replace (- (a - b)) with
   (- (y ^ 4 * ((peval [4371992; 0; -9964076; 0; 13525060; 0; -11493960; 0; 5087120; 0; -1780492; 0; 254356] y + 240 * (1 + y ^ 2) * (14561 - 10690 * y ^ 2 + 14561 * y ^ 4) * ln y) * / (4729725 * (1 - y ^ 2) ^ 7)))) end.
  - rewrite Rabs_Ropp, Rabs_mult, (Rabs_pos_eq (y ^ 4)) by (apply pow_le; lra).
    replace (3 * y ^ 4 * (1 + Rabs (ln y))) with (y ^ 4 * (3 * (1 + Rabs (ln y)))) by ring. apply Rmult_le_compat_l; [apply pow_le; lra|].
    assert (HD : 1 - 7 / 10000 <= (1 - y ^ 2) ^ 7) by (apply Rle_trans with ((1 - 1 / 10000) ^ 7); [lra|apply pow_incr; lra]).
    rewrite Rabs_mult, Rabs_inv, (Rabs_pos_eq (4729725 * _)) by nra.
    assert (HDp : 0 < 4729725 * (1 - y ^ 2) ^ 7) by nra. apply (proj2 (Rle_div_l _ _ _ HDp)).
    eapply Rle_trans; [apply Rabs_triang|]. rewrite Rabs_mult.
    pose proof (peval_bound [4371992; 0; -9964076; 0; 13525060; 0; -11493960; 0; 5087120; 0; -1780492; 0; 254356] y (1 / 100) ltac:(rewrite Rabs_pos_eq; lra)) as HP.
    assert (HP2 : pabs [4371992; 0; -9964076; 0; 13525060; 0; -11493960; 0; 5087120; 0; -1780492; 0; 254356] (1 / 100) <= 4729725 * (26 / 10)) by (cbn [pabs]; absnum; lra).
    assert (Hy4 : 0 <= y ^ 4 <= 1 / 10000) by (replace (y ^ 4) with (y ^ 2 * y ^ 2) by ring; nra).
    assert (HG : Rabs (240 * (1 + y ^ 2) * (14561 - 10690 * y ^ 2 + 14561 * y ^ 4)) <= 4729725 * 2).
    { set (u := y ^ 2) in *. set (v := y ^ 4) in *.
      assert (0 <= (1 + u) * (14561 - 10690 * u + 14561 * v) <= (1 + 1 / 10000) * (14561 + 2)) by (split; [apply Rmult_le_pos; lra|apply Rmult_le_compat; lra]).
      rewrite Rabs_pos_eq; lra. }
    pose proof (Rabs_pos (ln y)) as HL. set (l := Rabs (ln y)) in *.
    assert (Rabs (240 * (1 + y ^ 2) * (14561 - 10690 * y ^ 2 + 14561 * y ^ 4)) * l <= 4729725 * 2 * l) by (apply Rmult_le_compat_r; lra).
    assert (4729725 * (1 - 7 / 10000) * (3 * (1 + l)) <= 4729725 * (1 - y ^ 2) ^ 7 * (3 * (1 + l))) by (apply Rmult_le_compat_r; [lra|apply Rmult_le_compat_l; lra]).
    lra.
  - unfold beta_exact_t. set (l := ln y). replace (y ^ 2 - 1) with (- (1 - y ^ 2)) by ring. cbn [peval]. field. nra.
Qed.
