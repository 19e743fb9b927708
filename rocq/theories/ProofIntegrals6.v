(** ProofIntegrals6: the closed forms of the P(k)P(q) part of the 1-loop A terms and their expansions. *)
From Coq Require Import Reals Lra Lia List.
From Coquelicot Require Import Coquelicot.
From Verif Require Import Base Num BaseFacts Common Kernels Gamma2 Integrals Spec SpecPT SpecIntegrals SpecLoops SpecTable Sums ProofSearch ProofKernels ProofGL2 ProofIntegrals ProofIntegrals2 ProofIntegrals3 ProofIntegrals4 ProofIntegrals5 Series ProofSeries2.
Import ListNotations.
Local Open Scope R_scope.

Lemma atsum7 t : atsum 7 t = t + t ^ 3 / 3 + t ^ 5 / 5 + t ^ 7 / 7 + t ^ 9 / 9 + t ^ 11 / 11 + t ^ 13 / 13.
Proof. unfold atsum. cbn [rsum]. cbn [INR Nat.mul Nat.add]. field. Qed.
Lemma atsum9 t : atsum 9 t = t + t ^ 3 / 3 + t ^ 5 / 5 + t ^ 7 / 7 + t ^ 9 / 9 + t ^ 11 / 11 + t ^ 13 / 13 + t ^ 15 / 15 + t ^ 17 / 17.
Proof. unfold atsum. cbn [rsum]. cbn [INR Nat.mul Nat.add]. field. Qed.
Definition a_int (c : nat) (x L : R) : R :=
  match c with
  | 0%nat => (- (1)) / 84 / x * (2 * x * (19 - 24 * x ^ 2 + 9 * x ^ 4) - 9 * (x ^ 2 - 1) ^ 3 * L)
  | 1%nat => 1 / 112 / x ^ 3 * (2 * x * (x ^ 2 + 1) * (3 - 14 * x ^ 2 + 3 * x ^ 4) - 3 * (x ^ 2 - 1) ^ 4 * L)
  | 2%nat => 1 / 336 / x ^ 3 * (2 * x * (9 - 185 * x ^ 2 + 159 * x ^ 4 - 63 * x ^ 6) + 9 * (x ^ 2 - 1) ^ 3 * (7 * x ^ 2 + 1) * L)
  | 3%nat => 1 / 112 / x ^ 3 * (2 * x * (x ^ 2 + 1) * (3 - 14 * x ^ 2 + 3 * x ^ 4) - 3 * (x ^ 2 - 1) ^ 4 * L)
  | _ => 1 / 336 / x ^ 3 * (2 * x * (9 - 109 * x ^ 2 + 63 * x ^ 4 - 27 * x ^ 6) + 9 * (x ^ 2 - 1) ^ 3 * (3 * x ^ 2 + 1) * L)
  end.
Definition a_small (c : nat) (x : R) : R :=
  match c with
  | 0%nat => 8 * x ^ 8 / 735 + 24 * x ^ 6 / 245 - 24 * x ^ 4 / 35 + 8 * x ^ 2 / 7 - 2 / 3
  | 1%nat => (-16) * x ^ 8 / 8085 - 16 * x ^ 6 / 735 + 48 * x ^ 4 / 245 - 16 * x ^ 2 / 35
  | 2%nat => 32 * x ^ 8 / 1617 + 128 * x ^ 6 / 735 - 288 * x ^ 4 / 245 + 64 * x ^ 2 / 35 - 4 / 3
  | 3%nat => (-16) * x ^ 8 / 8085 - 16 * x ^ 6 / 735 + 48 * x ^ 4 / 245 - 16 * x ^ 2 / 35
  | _ => 24 * x ^ 8 / 2695 + 8 * x ^ 6 / 105 - 24 * x ^ 4 / 49 + 24 * x ^ 2 / 35 - 2 / 3
  end.
Definition a_large (c : nat) (x : R) : R :=
  match c with
  | 0%nat => 2 / 105 - 24 / (245 * x ^ 2) - 8 / (735 * x ^ 4) - 8 / (2695 * x ^ 6) - 8 / (7007 * x ^ 8)
  | 1%nat => (-16) / 35 + 48 / (245 * x ^ 2) - 16 / (735 * x ^ 4) - 16 / (8085 * x ^ 6) - 16 / (35035 * x ^ 8)
  | 2%nat => (-44) / 105 - 32 / (735 * x ^ 4) - 64 / (8085 * x ^ 6) - 96 / (35035 * x ^ 8)
  | 3%nat => (-16) / 35 + 48 / (245 * x ^ 2) - 16 / (735 * x ^ 4) - 16 / (8085 * x ^ 6) - 16 / (35035 * x ^ 8)
  | _ => (-46) / 105 + 24 / (245 * x ^ 2) - 8 / (245 * x ^ 4) - 8 / (1617 * x ^ 6) - 8 / (5005 * x ^ 8)
  end.
Lemma small_id_0 (x rho : R) : 0 < x ->
  a_int 0 x (2 * (atsum 7 x + rho)) - a_small 0 x = x ^ 10 * peval [(8 / 2695); (8 / 7007); (89 / 6006); (-30 / 1001); (3 / 182)] (x * x) + 2 * (9 / 84 / x * (x ^ 2 - 1) ^ 3) * rho.
Proof. intros Hx. rewrite atsum7. unfold a_int, a_small. cbn [peval]. field. lra. Qed.
Lemma small_id_1 (x rho : R) : 0 < x ->
  a_int 1 x (2 * (atsum 7 x + rho)) - a_small 1 x = x ^ 10 * peval [(-16 / 35035); (575 / 168168); (-269 / 24024); (93 / 8008); (-3 / 728)] (x * x) + 2 * (- 3 / 112 / x ^ 3 * (x ^ 2 - 1) ^ 4) * rho.
Proof. intros Hx. rewrite atsum7. unfold a_int, a_small. cbn [peval]. field. lra. Qed.
Lemma small_id_2 (x rho : R) : 0 < x ->
  a_int 2 x (2 * (atsum 7 x + rho)) - a_small 2 x = x ^ 10 * peval [(192 / 35035); (137 / 24024); (443 / 24024); (-387 / 8008); (3 / 104)] (x * x) + 2 * (9 / 336 / x ^ 3 * ((x ^ 2 - 1) ^ 3 * (7 * x ^ 2 + 1))) * rho.
Proof. intros Hx. rewrite atsum7. unfold a_int, a_small. cbn [peval]. field. lra. Qed.
Lemma small_id_4 (x rho : R) : 0 < x ->
  a_int 4 x (2 * (atsum 7 x + rho)) - a_small 4 x = x ^ 10 * peval [(8 / 3185); (59 / 12936); (29 / 8008); (-21 / 1144); (9 / 728)] (x * x) + 2 * (9 / 336 / x ^ 3 * ((x ^ 2 - 1) ^ 3 * (3 * x ^ 2 + 1))) * rho.
Proof. intros Hx. rewrite atsum7. unfold a_int, a_small. cbn [peval]. field. lra. Qed.
Lemma large_id_0 (t rho : R) : 0 < t ->
  a_int 0 (/ t) (2 * (atsum 9 t + rho)) - a_large 0 (/ t) = t ^ 10 * peval [(-8 / 15015); (-24 / 85085); (-177 / 15470); (2 / 85); (-3 / 238)] (t * t) + 2 * (9 / 84 / t ^ 5 * (1 - t ^ 2) ^ 3) * rho.
Proof. intros Hx. rewrite atsum9. unfold a_int, a_large. cbn [peval]. field. lra. Qed.
Lemma large_id_1 (t rho : R) : 0 < t ->
  a_int 1 (/ t) (2 * (atsum 9 t + rho)) - a_large 1 (/ t) = t ^ 10 * peval [(-16 / 105105); (-16 / 255255); (1899 / 680680); (-541 / 61880); (43 / 4760); (-3 / 952)] (t * t) + 2 * (- 3 / 112 / t ^ 5 * (1 - t ^ 2) ^ 4) * rho.
Proof. intros Hx. rewrite atsum9. unfold a_int, a_large. cbn [peval]. field. lra. Qed.
Lemma large_id_2 (t rho : R) : 0 < t ->
  a_int 2 (/ t) (2 * (atsum 9 t + rho)) - a_large 2 (/ t) = t ^ 10 * peval [(-128 / 105105); (-32 / 51051); (-13677 / 680680); (2371 / 61880); (-11 / 680); (-3 / 952)] (t * t) + 2 * (9 / 336 / t ^ 5 * ((1 - t ^ 2) ^ 3 * (7 + t ^ 2))) * rho.
Proof. intros Hx. rewrite atsum9. unfold a_int, a_large. cbn [peval]. field. lra. Qed.
Lemma large_id_4 (t rho : R) : 0 < t ->
  a_int 4 (/ t) (2 * (atsum 9 t + rho)) - a_large 4 (/ t) = t ^ 10 * peval [(-24 / 35035); (-8 / 23205); (-453 / 52360); (183 / 12376); (-1 / 280); (-3 / 952)] (t * t) + 2 * (9 / 336 / t ^ 5 * ((1 - t ^ 2) ^ 3 * (3 + t ^ 2))) * rho.
Proof. intros Hx. rewrite atsum9. unfold a_int, a_large. cbn [peval]. field. lra. Qed.
Lemma trunc_bound (t q r : R) : 0 < t <= 1 / 100 -> Rabs q <= 1 / 150 -> Rabs r <= t ^ 12 -> Rabs (t ^ 10 * q + r) <= t ^ 10 / 100.
Proof.
  intros Ht Hq Hr. assert (H10 : 0 < t ^ 10) by (apply pow_lt; lra).
  assert (H12 : t ^ 12 <= t ^ 10 * (1 / 10000)). { replace (t ^ 12) with (t ^ 10 * (t * t)) by ring. apply Rmult_le_compat_l; nra. }
  eapply Rle_trans; [apply Rabs_triang|]. rewrite Rabs_mult, (Rabs_pos_eq (t ^ 10)) by lra.
  assert (t ^ 10 * Rabs q <= t ^ 10 * (1 / 150)) by (apply Rmult_le_compat_l; lra). lra.
Qed.
Lemma rem_bound (g c rho t : R) m n p : 0 < t <= 1 / 100 -> g = c / t ^ n -> Rabs c <= 1 -> 0 <= rho <= t ^ m / p -> 1 <= p -> (n + 12 <= m)%nat ->
  Rabs (g * rho) <= t ^ 12.
Proof.
  intros Ht -> Hc Hr Hp Hn. assert (Hn0 : 0 < t ^ n) by (apply pow_lt; lra).
  rewrite Rabs_mult, (Rabs_pos_eq rho) by lra. unfold Rdiv. rewrite Rabs_mult, Rabs_inv, (Rabs_pos_eq (t ^ n)) by lra.
  apply Rle_trans with (1 * / t ^ n * t ^ m).
  - apply Rmult_le_compat; try lra.
    + apply Rmult_le_pos; [apply Rabs_pos|apply Rlt_le, Rinv_0_lt_compat, Hn0].
    + apply Rmult_le_compat_r; [apply Rlt_le, Rinv_0_lt_compat, Hn0|exact Hc].
    + eapply Rle_trans; [apply Hr|]. apply (Rmult_le_reg_r p); [lra|]. unfold Rdiv. rewrite Rmult_assoc, Rinv_l, Rmult_1_r by lra.
      rewrite <- (Rmult_1_r (t ^ m)) at 1. apply Rmult_le_compat_l; [apply pow_le; lra|lra].
  - replace m with (n + 12 + (m - n - 12))%nat by lia. rewrite !pow_add. rewrite Rmult_1_l, <- !Rmult_assoc, Rinv_l, Rmult_1_l by lra.
    rewrite <- (Rmult_1_r (t ^ 12)) at 2. apply Rmult_le_compat_l; [apply pow_le; lra|]. rewrite <- (pow1 (m - n - 12)). apply pow_incr. lra.
Qed.
Lemma peval_small l t : 0 <= t <= 1 / 10000 -> pabs l (1 / 10000) <= 1 / 150 -> Rabs (peval l t) <= 1 / 150.
Proof. intros Ht H. eapply Rle_trans; [|exact H]. apply peval_bound. rewrite Rabs_pos_eq; lra. Qed.

Definition logx (x : R) : R := ln (Rabs ((x + 1) / (x - 1))).
Lemma logx_small x : 0 < x < 1 -> logx x = 2 * ((ln (1 + x) - ln (1 - x)) / 2).
Proof.
  intros Hx. unfold logx, Rdiv. rewrite Rabs_mult, Rabs_inv, (Rabs_pos_eq (x + 1)), (Rabs_left (x - 1)) by lra.
  rewrite ln_mult by (try apply Rinv_0_lt_compat; lra). rewrite ln_Rinv by lra.
  replace (- (x - 1)) with (1 - x) by ring. rewrite (Rplus_comm x 1). field.
Qed.
Lemma logx_inv x : 0 < x -> x <> 1 -> logx (/ x) = logx x.
Proof.
  intros Hx H1. unfold logx. f_equal. rewrite <- (Rabs_Ropp ((x + 1) / (x - 1))).
  f_equal. field. lra.
Qed.
Lemma sq_range x : 0 <= x <= 1 -> 0 <= 1 - x ^ 2 <= 1.
Proof. intros. nra. Qed.
Lemma pow01 u n : 0 <= u <= 1 -> 0 <= u ^ n <= 1.
Proof. intros H. split; [apply pow_le; lra|]. rewrite <- (pow1 n). apply pow_incr. lra. Qed.
Lemma a_small_err c x : (c < 5)%nat -> 0 < x < 1 / 10000 -> Rabs (a_int c x (logx x) - a_small c x) <= x ^ 10 / 100.
Proof.
  intros Hc Hx. rewrite logx_small by lra. pose proof (artanh_remainder 7 x ltac:(lra)) as HR.
  set (at7 := (ln (1 + x) - ln (1 - x)) / 2) in *. set (rho := at7 - atsum 7 x) in *.
  replace at7 with (atsum 7 x + rho) by (unfold rho; ring). clearbody rho. clear at7.
  assert (Hp : INR (2 * 7 + 1) * (1 - x * x) >= 1).
  { replace (INR (2 * 7 + 1)) with 15 by (cbn [INR Nat.mul Nat.add]; ring). nra. }
  assert (Hu : 0 <= x * x <= 1 / 10000) by nra.
  pose proof (sq_range x ltac:(lra)) as Hw. set (w := 1 - x ^ 2) in *.
  pose proof (pow01 w 3 Hw) as H3. pose proof (pow01 w 4 Hw) as H4.
  assert (Hx2 : 0 <= x ^ 2 <= 1 / 10000) by nra.
  assert (E3 : (x ^ 2 - 1) ^ 3 = - w ^ 3) by (unfold w; ring). assert (E4 : (x ^ 2 - 1) ^ 4 = w ^ 4) by (unfold w; ring).
  assert (HX1 : 0 < x <= 1 / 100) by lra.
  assert (Main : forall i q g cc n, a_int i x (2 * (atsum 7 x + rho)) - a_small i x = x ^ 10 * peval q (x * x) + 2 * g * rho ->
     pabs q (1 / 10000) <= 1 / 150 -> 2 * g = cc / x ^ n -> Rabs cc <= 1 -> (n <= 3)%nat ->
     Rabs (a_int i x (2 * (atsum 7 x + rho)) - a_small i x) <= x ^ 10 / 100).
  { intros i q g cc n E HQ HG HC Hn. rewrite E. apply trunc_bound; [lra|apply peval_small; assumption|].
    apply (rem_bound _ cc _ _ (2 * 7 + 1) n _ HX1 HG HC HR); [lra|lia]. }
  assert (H0 : Rabs (a_int 0 x (2 * (atsum 7 x + rho)) - a_small 0 x) <= x ^ 10 / 100).
  { apply (Main 0%nat _ _ (- (18 / 84 * w ^ 3)) 1%nat (small_id_0 x rho ltac:(lra))); [cbn [pabs]; absnum; lra| | |lia].
    - rewrite E3. field. lra.
    - rewrite Rabs_left1; lra. }
  assert (H1 : Rabs (a_int 1 x (2 * (atsum 7 x + rho)) - a_small 1 x) <= x ^ 10 / 100).
  { apply (Main 1%nat _ _ (- (6 / 112 * w ^ 4)) 3%nat (small_id_1 x rho ltac:(lra))); [cbn [pabs]; absnum; lra| | |lia].
    - rewrite E4. field. lra.
    - rewrite Rabs_left1; lra. }
  assert (H2 : Rabs (a_int 2 x (2 * (atsum 7 x + rho)) - a_small 2 x) <= x ^ 10 / 100).
  { apply (Main 2%nat _ _ (- (18 / 336 * (w ^ 3 * (7 * x ^ 2 + 1)))) 3%nat (small_id_2 x rho ltac:(lra))); [cbn [pabs]; absnum; lra| | |lia].
    - rewrite E3. field. lra.
    - assert (0 <= w ^ 3 * (7 * x ^ 2 + 1) <= 1 * 2) by (split; [apply Rmult_le_pos; lra|apply Rmult_le_compat; lra]). rewrite Rabs_left1; lra. }
  assert (H5 : Rabs (a_int 4 x (2 * (atsum 7 x + rho)) - a_small 4 x) <= x ^ 10 / 100).
  { apply (Main 4%nat _ _ (- (18 / 336 * (w ^ 3 * (3 * x ^ 2 + 1)))) 3%nat (small_id_4 x rho ltac:(lra))); [cbn [pabs]; absnum; lra| | |lia].
    - rewrite E3. field. lra.
    - assert (0 <= w ^ 3 * (3 * x ^ 2 + 1) <= 1 * 2) by (split; [apply Rmult_le_pos; lra|apply Rmult_le_compat; lra]). rewrite Rabs_left1; lra. }
  do 5 (destruct c as [|c]; [assumption|]). lia.
Qed.
Lemma a_large_err c x : (c < 5)%nat -> 100 < x -> Rabs (a_int c x (logx x) - a_large c x) <= 1 / (100 * x ^ 10).
Proof.
  intros Hc Hx. rewrite <- logx_inv by lra. assert (Ht : 0 < / x < 1 / 100).
  { split; [apply Rinv_0_lt_compat; lra|]. unfold Rdiv. rewrite Rmult_1_l. apply Rinv_lt_contravar; lra. }
  replace (1 / (100 * x ^ 10)) with ((/ x) ^ 10 / 100) by (rewrite pow_inv; field; lra).
  rewrite <- (Rinv_inv x) at 1 3. set (t := / x) in *. clearbody t. clear x Hx.
  rewrite logx_small by lra. pose proof (artanh_remainder 9 t ltac:(lra)) as HR.
  set (at9 := (ln (1 + t) - ln (1 - t)) / 2) in *. set (rho := at9 - atsum 9 t) in *.
  replace at9 with (atsum 9 t + rho) by (unfold rho; ring). clearbody rho. clear at9.
  assert (Hp : INR (2 * 9 + 1) * (1 - t * t) >= 1).
  { replace (INR (2 * 9 + 1)) with 19 by (cbn [INR Nat.mul Nat.add]; ring). nra. }
  assert (Hu : 0 <= t * t <= 1 / 10000) by nra.
  pose proof (sq_range t ltac:(lra)) as Hw. set (w := 1 - t ^ 2) in *.
  pose proof (pow01 w 3 Hw) as H3. pose proof (pow01 w 4 Hw) as H4.
  assert (Hx2 : 0 <= t ^ 2 <= 1 / 10000) by nra.
  assert (HX1 : 0 < t <= 1 / 100) by lra.
  assert (Main : forall i q g cc n, a_int i (/ t) (2 * (atsum 9 t + rho)) - a_large i (/ t) = t ^ 10 * peval q (t * t) + 2 * g * rho ->
     pabs q (1 / 10000) <= 1 / 150 -> 2 * g = cc / t ^ n -> Rabs cc <= 1 -> (n <= 5)%nat ->
     Rabs (a_int i (/ t) (2 * (atsum 9 t + rho)) - a_large i (/ t)) <= t ^ 10 / 100).
  { intros i q g cc n E HQ HG HC Hn. rewrite E. apply trunc_bound; [lra|apply peval_small; assumption|].
    apply (rem_bound _ cc _ _ (2 * 9 + 1) n _ HX1 HG HC HR); [lra|lia]. }
  assert (H0 : Rabs (a_int 0 (/ t) (2 * (atsum 9 t + rho)) - a_large 0 (/ t)) <= t ^ 10 / 100).
  { apply (Main 0%nat _ _ (18 / 84 * w ^ 3) 5%nat (large_id_0 t rho ltac:(lra))); [cbn [pabs]; absnum; lra| | |lia].
    - fold w. field. lra.
    - rewrite Rabs_pos_eq; lra. }
  assert (H1 : Rabs (a_int 1 (/ t) (2 * (atsum 9 t + rho)) - a_large 1 (/ t)) <= t ^ 10 / 100).
  { apply (Main 1%nat _ _ (- (6 / 112 * w ^ 4)) 5%nat (large_id_1 t rho ltac:(lra))); [cbn [pabs]; absnum; lra| | |lia].
    - fold w. field. lra.
    - rewrite Rabs_left1; lra. }
  assert (H2 : Rabs (a_int 2 (/ t) (2 * (atsum 9 t + rho)) - a_large 2 (/ t)) <= t ^ 10 / 100).
  { apply (Main 2%nat _ _ (18 / 336 * (w ^ 3 * (7 + t ^ 2))) 5%nat (large_id_2 t rho ltac:(lra))); [cbn [pabs]; absnum; lra| | |lia].
    - fold w. field. lra.
    - assert (0 <= w ^ 3 * (7 + t ^ 2) <= 1 * 8) by (split; [apply Rmult_le_pos; lra|apply Rmult_le_compat; lra]). rewrite Rabs_pos_eq; lra. }
  assert (H5 : Rabs (a_int 4 (/ t) (2 * (atsum 9 t + rho)) - a_large 4 (/ t)) <= t ^ 10 / 100).
  { apply (Main 4%nat _ _ (18 / 336 * (w ^ 3 * (3 + t ^ 2))) 5%nat (large_id_4 t rho ltac:(lra))); [cbn [pabs]; absnum; lra| | |lia].
    - fold w. field. lra.
    - assert (0 <= w ^ 3 * (3 + t ^ 2) <= 1 * 8) by (split; [apply Rmult_le_pos; lra|apply Rmult_le_compat; lra]). rewrite Rabs_pos_eq; lra. }
  do 5 (destruct c as [|c]; [assumption|]). lia.
Qed.
(** Next to x = 1 the code drops the logarithm. *)
Lemma ln_le_inv d : 0 < d -> - ln d <= / d.
Proof.
  intros Hd. assert (Hi : 0 < / d) by (apply Rinv_0_lt_compat; lra). rewrite <- ln_Rinv by exact Hd.
  pose proof (exp_ineq1_le (ln (/ d))) as H. rewrite exp_ln in H by exact Hi. lra.
Qed.
Lemma logx_near x : 0 < Rabs (x - 1) <= 1 / 10 -> Rabs (logx x) <= 4 / Rabs (x - 1).
Proof.
  intros Hd. assert (Hx : 9 / 10 <= x <= 11 / 10).
  { destruct Hd as [_ Hd]. apply Rcomplements.Rabs_le_between in Hd. lra. }
  unfold logx, Rdiv. rewrite Rabs_mult, Rabs_inv, (Rabs_pos_eq (x + 1)) by lra. set (d := Rabs (x - 1)) in *.
  assert (Hi : 0 < / d) by (apply Rinv_0_lt_compat; lra).
  rewrite ln_mult by lra. rewrite ln_Rinv by lra. pose proof (ln_le_inv d ltac:(lra)) as H1.
  assert (H2 : 0 <= ln (x + 1) <= x).
  { split; [rewrite <- ln_1; apply Rcomplements.ln_le; lra|]. pose proof (exp_ineq1_le (ln (x + 1))) as H. rewrite exp_ln in H by lra. lra. }
  assert (H3 : ln d <= 0) by (rewrite <- ln_1; apply Rcomplements.ln_le; lra).
  assert (H4 : 10 <= / d). { rewrite <- (Rinv_inv 10). apply Rinv_le_contravar; lra. }
  rewrite Rabs_pos_eq; lra.
Qed.
Lemma a_one_err c x : (c < 5)%nat -> 0 < Rabs (x - 1) <= 3 / 10 ^ 14 -> Rabs (a_int c x (logx x) - a_int c x 0) <= 50 * Rabs (x - 1) ^ 2.
Proof.
  intros Hc Hd. assert (HL := logx_near x). set (L := logx x) in *. specialize (HL ltac:(lra)). clearbody L.
  assert (Hx : 9 / 10 <= x <= 11 / 10).
  { destruct Hd as [_ Hd]. assert (Hd' : Rabs (x - 1) <= 1 / 10) by lra. apply Rcomplements.Rabs_le_between in Hd'. lra. }
  assert (Hi1 : 0 < / x <= 2). { split; [apply Rinv_0_lt_compat; lra|]. rewrite <- (Rinv_inv 2). apply Rinv_le_contravar; lra. }
  assert (E : exists g, a_int c x L - a_int c x 0 = (x - 1) ^ 3 * L * g /\ Rabs g <= 12).
  { assert (Hi3 : 0 < (/ x) ^ 3 <= 8).
    { split; [apply pow_lt; lra|]. replace 8 with (2 ^ 3) by ring. apply pow_incr. lra. }
    assert (Hq : 0 < (x + 1) ^ 3 <= 10).
    { split; [apply pow_lt; lra|]. apply Rle_trans with ((21 / 10) ^ 3); [apply pow_incr; lra|lra]. }
    assert (Hq4 : 0 < (x + 1) ^ 4 <= 20).
    { split; [apply pow_lt; lra|]. apply Rle_trans with ((21 / 10) ^ 4); [apply pow_incr; lra|lra]. }
    assert (Hx2 : 0 <= x ^ 2 <= 121 / 100) by nra.
    assert (P3 : 0 <= (/ x) ^ 3 * (x + 1) ^ 3 <= 8 * 10) by (split; [apply Rmult_le_pos; lra|apply Rmult_le_compat; lra]).
    assert (P4 : 0 <= (/ x) ^ 3 * (x + 1) ^ 4 <= 8 * 20) by (split; [apply Rmult_le_pos; lra|apply Rmult_le_compat; lra]).
    assert (P1 : 0 <= (/ x) * (x + 1) ^ 3 <= 2 * 10) by (split; [apply Rmult_le_pos; lra|apply Rmult_le_compat; lra]).
    destruct c as [|[|[|[|[|c]]]]]; [| | | | |lia]; unfold a_int.
    - exists (9 / 84 * (/ x * (x + 1) ^ 3)). split; [field; lra|]. rewrite Rabs_pos_eq; lra.
    - exists (- (3 / 112 * ((/ x) ^ 3 * (x + 1) ^ 4)) * (x - 1)). split; [field; lra|]. rewrite Rabs_mult, Rabs_left1 by lra.
      assert (- - (3 / 112 * ((/ x) ^ 3 * (x + 1) ^ 4)) * Rabs (x - 1) <= 10 * 1) by (apply Rmult_le_compat; try lra; apply Rabs_pos). lra.
    - exists (9 / 336 * ((/ x) ^ 3 * (x + 1) ^ 3 * (7 * x ^ 2 + 1))). split; [field; lra|].
      assert (0 <= (/ x) ^ 3 * (x + 1) ^ 3 <= 15).
      { rewrite <- Rpow_mult_distr. replace (/ x * (x + 1)) with (1 + / x) by (field; lra).
        assert (/ x <= 10 / 9) by (replace (10 / 9) with (/ (9 / 10)) by field; apply Rinv_le_contravar; lra).
        split; [apply pow_le; lra|]. apply Rle_trans with ((20 / 9) ^ 3); [apply pow_incr; lra|lra]. }
      assert (0 <= (/ x) ^ 3 * (x + 1) ^ 3 * (7 * x ^ 2 + 1) <= 15 * 10) by (split; [apply Rmult_le_pos; lra|apply Rmult_le_compat; lra]).
      rewrite Rabs_pos_eq; lra.
    - exists (- (3 / 112 * ((/ x) ^ 3 * (x + 1) ^ 4)) * (x - 1)). split; [field; lra|]. rewrite Rabs_mult, Rabs_left1 by lra.
      assert (- - (3 / 112 * ((/ x) ^ 3 * (x + 1) ^ 4)) * Rabs (x - 1) <= 10 * 1) by (apply Rmult_le_compat; try lra; apply Rabs_pos). lra.
    - exists (9 / 336 * ((/ x) ^ 3 * (x + 1) ^ 3 * (3 * x ^ 2 + 1))). split; [field; lra|].
      assert (0 <= (/ x) ^ 3 * (x + 1) ^ 3 * (3 * x ^ 2 + 1) <= 8 * 10 * 5) by (split; [apply Rmult_le_pos; lra|apply Rmult_le_compat; lra]).
      rewrite Rabs_pos_eq; lra. }
  destruct E as [g [-> Hg]]. set (d := Rabs (x - 1)) in *. rewrite !Rabs_mult, <- RPow_abs. fold d.
  assert (Hd3 : d ^ 3 * Rabs L <= d ^ 3 * (4 / d)) by (apply Rmult_le_compat_l; [apply pow_le; lra|exact HL]).
  replace (d ^ 3 * (4 / d)) with (4 * d ^ 2) in Hd3 by (field; lra).
  apply Rle_trans with (4 * d ^ 2 * 12); [|assert (0 <= d ^ 2) by (apply pow_le; lra); lra].
  apply Rmult_le_compat; auto using Rabs_pos. apply Rmult_le_pos; [apply pow_le; lra|apply Rabs_pos].
Qed.
