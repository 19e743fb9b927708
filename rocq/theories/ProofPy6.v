(** ProofPy6: the shot-noise window, the no-wiggle transfer function, sigmar and zeros. *)
From Coq Require Import Reals ZArith List String Lia Lra Bool.
From Coquelicot Require Import Coquelicot.
From Verif Require Import Base Num BaseFacts Common Registry PyTerms Spec SpecPy Sums ProofKernels ProofPy ProofPy2 ProofPy4.
Import ListNotations.
Local Open Scope R_scope.

(** ** The window *)
Lemma window_val kmin kmax k : 0 < kmin <= kmax -> 0 < k -> shotnoise_row (N := RNum) kmin kmax k = window kmin kmax k.
Proof.
  intros [H0 H1] Hk. unfold shotnoise_row, window. rn.
  assert (A : kmax < k <-> 1 < k / kmax).
  { split; intros H; [apply (Rmult_lt_reg_r kmax); [lra|]; unfold Rdiv; rewrite Rmult_assoc, Rinv_l by lra; lra|].
    apply (Rmult_lt_reg_r (/ kmax)); [apply Rinv_0_lt_compat; lra|]. rewrite Rinv_r by lra. exact H. }
  assert (B : k < kmin <-> 1 < kmin / k).
  { split; intros H; [apply (Rmult_lt_reg_r k); [lra|]; unfold Rdiv; rewrite Rmult_assoc, Rinv_l by lra; lra|].
    apply (Rmult_lt_reg_r (/ k)); [apply Rinv_0_lt_compat; lra|]. rewrite Rinv_r by lra. exact H. }
  assert (E1 : exp (- (1 - 1)^2) = 1) by (rewrite <- exp_0; f_equal; ring).
  destruct (Rltb_spec kmax k) as [L|L], (Rltb_spec k kmin) as [M|M]; try lra.
  - rewrite (Rmax_left (k / kmax)) by (apply A in L; lra). rewrite (Rmax_right (kmin / k)) by (destruct (Rle_dec (kmin / k) 1); [lra|exfalso; apply M, B; lra]).
    rewrite E1. replace ((k / kmax - 1)^2) with ((k / kmax - 1) * (k / kmax - 1)) by ring. ring.
  - rewrite (Rmax_left (kmin / k)) by (apply B in M; lra). rewrite (Rmax_right (k / kmax)) by (destruct (Rle_dec (k / kmax) 1); [lra|exfalso; apply L, A; lra]).
    rewrite E1. replace ((kmin / k - 1)^2) with ((kmin / k - 1) * (kmin / k - 1)) by ring. ring.
  - rewrite (Rmax_right (kmin / k)) by (destruct (Rle_dec (kmin / k) 1); [lra|exfalso; apply M, B; lra]).
    rewrite (Rmax_right (k / kmax)) by (destruct (Rle_dec (k / kmax) 1); [lra|exfalso; apply L, A; lra]). rewrite E1. ring.
Qed.
Lemma exp_neg_sq_range x : 0 < exp (- x^2) <= 1.
Proof.
  split; [apply exp_pos|]. rewrite <- exp_0. pose proof (pow2_ge_0 x) as H. destruct (Rle_lt_or_eq_dec (- x^2) 0) as [L|L]; [lra|apply Rlt_le, exp_increasing, L|rewrite L; lra].
Qed.
Lemma exp_le x y : x <= y -> exp x <= exp y.
Proof. intros [H| ->]; [apply Rlt_le, exp_increasing, H|apply Rle_refl]. Qed.
Lemma exp_neg_sq_mono x y : 0 <= x <= y -> exp (- y^2) <= exp (- x^2).
Proof. intros H. apply exp_le, Ropp_le_contravar, pow_incr, H. Qed.
Lemma window_facts kmin kmax : 0 < kmin <= kmax ->
  (forall k, kmin <= k <= kmax -> window kmin kmax k = 1) /\
  (forall k, 0 < k -> 0 < window kmin kmax k <= 1) /\
  (forall k k', kmax <= k <= k' -> window kmin kmax k' <= window kmin kmax k) /\
  (forall k k', 0 < k <= k' -> k' <= kmin -> window kmin kmax k <= window kmin kmax k') /\
  (forall k, 0 < k -> continuity_pt (window kmin kmax) k).
Proof.
  intros [H0 H1]. assert (E1 : exp (- (1 - 1)^2) = 1) by (rewrite <- exp_0; f_equal; ring).
  assert (Q1 : forall k, k <= kmax -> Rmax (k / kmax) 1 = 1).
  { intros k Hk. apply Rmax_right. apply (Rmult_le_reg_r kmax); [lra|]. unfold Rdiv. rewrite Rmult_assoc, Rinv_l by lra. lra. }
  assert (Q2 : forall k, kmin <= k -> Rmax (kmin / k) 1 = 1).
  { intros k Hk. apply Rmax_right. apply (Rmult_le_reg_r k); [lra|]. unfold Rdiv. rewrite Rmult_assoc, Rinv_l by lra. lra. }
  split; [|split; [|split; [|split]]].
  - intros k Hk. unfold window. rewrite Q1, Q2 by lra. rewrite E1. ring.
  - intros k Hk. unfold window. pose proof (exp_neg_sq_range (Rmax (k / kmax) 1 - 1)). pose proof (exp_neg_sq_range (Rmax (kmin / k) 1 - 1)).
    split; [apply Rmult_lt_0_compat; lra|]. apply Rle_trans with (1 * 1); [apply Rmult_le_compat; lra|lra].
  - intros k k' Hk. unfold window. rewrite !Q2 by lra. rewrite E1, !Rmult_1_r. apply exp_neg_sq_mono.
    assert (k / kmax <= k' / kmax) by (apply Rmult_le_compat_r; [apply Rlt_le, Rinv_0_lt_compat; lra|lra]).
    pose proof (Rmax_r (k / kmax) 1). split; [lra|]. pose proof (Rle_max_compat_r (k/kmax) (k'/kmax) 1). lra.
  - intros k k' Hk Hk'. unfold window. rewrite !Q1 by lra. rewrite E1, !Rmult_1_l. apply exp_neg_sq_mono.
    assert (kmin / k' <= kmin / k) by (apply Rmult_le_compat_l; [lra|apply Rinv_le_contravar; lra]).
    pose proof (Rmax_r (kmin / k') 1). split; [lra|]. pose proof (Rle_max_compat_r (kmin/k') (kmin/k) 1). lra.
  - intros k Hk.
    assert (RM : forall x, Rmax x 1 = (x + 1 + Rabs (x - 1)) / 2).
    { intros x. unfold Rmax, Rabs. destruct (Rle_dec x 1), (Rcase_abs (x - 1)); lra. }
    assert (CM : forall g, continuity_pt g k -> continuity_pt (fun k => exp (- (Rmax (g k) 1 - 1)^2)) k).
    { intros g Hg. apply (continuity_pt_ext (fun k => exp (- ((g k + 1 + Rabs (g k - 1)) / 2 - 1)^2))); [intros t; rewrite RM; reflexivity|].
      assert (Hr : continuity_pt (fun k => (g k + 1 + Rabs (g k - 1)) / 2 - 1) k).
      { apply continuity_pt_minus; [|apply continuity_pt_const; intros ? ?; reflexivity].
        apply (continuity_pt_mult _ (fun _ => / 2)); [|apply continuity_pt_const; intros ? ?; reflexivity].
        apply continuity_pt_plus; [apply continuity_pt_plus; [exact Hg|apply continuity_pt_const; intros ? ?; reflexivity]|].
        apply (continuity_pt_comp (fun k => g k - 1) Rabs); [|apply Rcontinuity_abs].
        apply continuity_pt_minus; [exact Hg|apply continuity_pt_const; intros ? ?; reflexivity]. }
      apply (continuity_pt_comp (fun k => - ((g k + 1 + Rabs (g k - 1)) / 2 - 1)^2) exp); [|apply derivable_continuous_pt, derivable_pt_exp].
      apply continuity_pt_opp. apply (continuity_pt_ext (fun k => ((g k + 1 + Rabs (g k - 1)) / 2 - 1) * ((g k + 1 + Rabs (g k - 1)) / 2 - 1))); [intros t; ring|].
      apply continuity_pt_mult; exact Hr. }
    unfold window. apply (continuity_pt_mult (fun k => exp (- (Rmax (k / kmax) 1 - 1)^2)) (fun k => exp (- (Rmax (kmin / k) 1 - 1)^2))); apply CM.
    + apply (continuity_pt_mult (fun k => k) (fun _ => / kmax)); [apply derivable_continuous_pt, derivable_pt_id|apply continuity_pt_const; intros ? ?; reflexivity].
    + apply (continuity_pt_mult (fun _ => kmin) Rinv); [apply continuity_pt_const; intros ? ?; reflexivity|].
      apply continuity_pt_inv; [apply derivable_continuous_pt, derivable_pt_id|lra].
Qed.
Lemma shotnoise_val (c : columns RNum) kk kmin kmax : getitem c "k" = Ok kk -> 0 < kmin <= kmax -> (forall k, In k kk -> 0 < k) ->
  shotnoise (N := RNum) c kmin kmax = Ok (map (window kmin kmax) kk).
Proof.
  intros Hk Hm Hp. unfold shotnoise. rewrite Hk. cbn [bind]. f_equal. apply map_ext_in. intros k Hin. apply window_val; [exact Hm|apply Hp, Hin].
Qed.

(** ** The transfer function *)
Lemma ln_le_pow2 x (n : nat) : 0 < x <= 2 ^ n -> ln x <= INR n.
Proof.
  intros [H0 H1]. apply Rle_trans with (ln (2 ^ n)); [apply ln_le; assumption|].
  rewrite ln_pow by lra. rewrite <- (Rmult_1_r (INR n)) at 2. apply Rmult_le_compat_l; [apply pos_INR|].
  rewrite <- (ln_exp 1). apply ln_le; [lra|]. pose proof (exp_ineq1 1). lra.
Qed.
Lemma alpha_positive omega_b omega_m : 45 / 1000 <= omega_m <= 1 -> 0 <= omega_b <= omega_m / 3 -> 0 < alpha_gamma (N := RNum) omega_b omega_m.
Proof.
  intros Hm Hb. unfold alpha_gamma. rn. pows.
  assert (F : 0 <= omega_b / omega_m <= / 3).
  { split; [apply Rmult_le_pos; [lra|apply Rlt_le, Rinv_0_lt_compat; lra]|]. apply (Rmult_le_reg_r omega_m); [lra|]. unfold Rdiv. rewrite Rmult_assoc, Rinv_l by lra. lra. }
  set (f := omega_b / omega_m) in *.
  assert (L1 : ln (431 * omega_m) <= 9).
  { replace 9 with (INR 9) by (cbn; ring). apply ln_le_pow2. cbn [pow]. lra. }
  assert (L2 : 0 <= ln (223 / IZR (10 ^ 1) * omega_m)).
  { rewrite <- ln_1. apply ln_le; [lra|]. change (10 ^ 1)%Z with 10%Z. lra. }
  assert (328 / IZR (10 ^ 3) * ln (431 * omega_m) * f <= 984 / 1000).
  { change (10 ^ 3)%Z with 1000%Z. apply Rle_trans with (328 / 1000 * 9 * f); [apply Rmult_le_compat_r; lra|]. lra. }
  assert (0 <= 38 / IZR (10 ^ 2) * ln (223 / IZR (10 ^ 1) * omega_m) * f ^ 2).
  { apply Rmult_le_pos; [apply Rmult_le_pos; [change (10 ^ 2)%Z with 100%Z; lra|exact L2]|apply pow2_ge_0]. }
  lra.
Qed.
Lemma gamma_eff_positive h omega_b omega_m k : 0 < h -> 0 < omega_m -> 0 < alpha_gamma (N := RNum) omega_b omega_m -> 0 < gamma_eff (N := RNum) h omega_b omega_m k.
Proof.
  intros Hh Hm Ha. unfold gamma_eff. rn. pows. set (al := alpha_gamma omega_b omega_m) in *. change (0 < (al : R)) in Ha.
  match goal with |- context [?x ^ 4] => set (y := x ^ 4); assert (0 <= y) by (unfold y; change 4%nat with (2 * 2)%nat; rewrite pow_mult; apply pow2_ge_0) end.
  apply Rmult_lt_0_compat; [apply Rdiv_lt_0_compat; assumption|].
  replace (al + (1 - al) / (1 + y)) with ((1 + al * y) / (1 + y)) by (field; lra). apply Rdiv_lt_0_compat; [|lra].
  pose proof (Rmult_le_pos al y). lra.
Qed.
Lemma transfer_range h omega_b omega_m T_cmb k : 0 < gamma_eff (N := RNum) h omega_b omega_m k -> 0 <= k ->
  0 < transfer_row (N := RNum) h omega_b omega_m T_cmb k <= 1.
Proof.
  intros Hg Hk. unfold transfer_row. rn. pows. set (g := gamma_eff h omega_b omega_m k) in *.
  set (q := k * (T_cmb / (27 / IZR (10 ^ 1))) ^ 2 / g).
  assert (Hq : 0 <= q) by (unfold q; apply Rmult_le_pos; [apply Rmult_le_pos; [exact Hk|apply pow2_ge_0]|apply Rlt_le, Rinv_0_lt_compat, Hg]).
  set (L := ln _).
  assert (HL : 0 < L).
  { unfold L. rewrite <- ln_1. apply ln_increasing; [lra|]. change (10 ^ 15)%Z with 1000000000000000%Z. change (10 ^ 1)%Z with 10%Z. lra. }
  match goal with |- 0 < L / (L + ?C * (q * q)) <= 1 => set (c := C); assert (Hc : 0 < c) end.
  { unfold c. change (10 ^ 1)%Z with 10%Z. assert (0 < 731 / (1 + 625 / 10 * q)) by (apply Rdiv_lt_0_compat; lra). lra. }
  assert (0 <= c * (q * q)) by (apply Rmult_le_pos; [lra|apply Rmult_le_pos; exact Hq]).
  split; [apply Rdiv_lt_0_compat; lra|]. apply (Rmult_le_reg_r (L + c * (q * q))); [lra|]. unfold Rdiv. rewrite Rmult_assoc, Rinv_l by lra. lra.
Qed.
Lemma transfer_zero h omega_b omega_m T_cmb : transfer_row (N := RNum) h omega_b omega_m T_cmb 0 = 1.
Proof.
  unfold transfer_row. rn. unfold Rdiv. rewrite !Rmult_0_l, !Rmult_0_r, !Rplus_0_r. apply Rinv_r. apply Rgt_not_eq. rewrite <- ln_1.
  apply ln_increasing; [lra|]. change (10 ^ 15)%Z with 1000000000000000%Z. lra.
Qed.
(** run_terms of the no-wiggle spectrum *)
Lemma nowiggle_normalised (c c' : columns RNum) (pk kk : list R) n_s h omega_b omega_m T_cmb :
  getitem c "k" = Ok kk -> pk <> [] -> (forall k, In k kk -> 0 < k) -> (forall k, 0 < gamma_eff (N := RNum) h omega_b omega_m k) ->
  run_terms_nowiggle (N := RNum) c (Some pk) None n_s h omega_b omega_m T_cmb = Ok c' ->
  exists v, getitem c' "pk" = Ok v /\ List.length v = List.length kk /\ nth 0 v 0 = nth 0 pk 0 /\ kk <> [] /\
    exists A, forall i, (i < List.length kk)%nat ->
      nth i v 0 = A * (Rpow (nth i kk 0) n_s * (transfer_row (N := RNum) h omega_b omega_m T_cmb (nth i kk 0))^2).
Proof.
  intros Hk Hp Hpos Hg. unfold run_terms_nowiggle. rewrite Hk. cbn [bind].
  destruct pk as [|p pk]; [congruence|].
  assert (R0 : rd (p :: pk) 0 = Ok p) by exact (rd_nth (0 : R) (p :: pk) _ 0 eq_refl (Nat.lt_0_succ _)).
  change (rd (A := T RNum) (p :: pk) 0) with (rd (p :: pk) 0). rewrite R0. cbn [bind].
  destruct kk as [|k kk]; [discriminate|]. cbn [map].
  set (t := fun k => transfer_row (N := RNum) h omega_b omega_m T_cmb k).
  set (nw := fun k : R => nmul RNum (npow (n := RNum) k n_s) (nmul RNum (t k) (t k))).
  assert (W0 : rd (A := T RNum) (nw k :: map nw kk) 0 = Ok (nw k)) by exact (rd_nth (0 : T RNum) (nw k :: map nw kk) _ 0 eq_refl (Nat.lt_0_succ _)).
  intros E. change (rd (A := T RNum) _ 0) with (rd (A := T RNum) (nw k :: map nw kk) 0) in E. rewrite W0 in E. cbn [bind] in E. injection E as <-.
  rewrite getitem_set, String.eqb_refl. eexists. split; [reflexivity|].
  assert (NZ : nw k <> 0).
  { unfold nw, t. rn. apply Rmult_integral_contrapositive. split.
    - rewrite Rpow_pos by (apply Hpos; left; reflexivity). unfold Rpower. apply Rgt_not_eq, exp_pos.
    - pose proof (transfer_range h omega_b omega_m T_cmb k (Hg k) (Rlt_le _ _ (Hpos k (or_introl eq_refl)))) as Q. apply Rmult_integral_contrapositive. split; apply Rgt_not_eq, Q. }
  split; [exact (f_equal S (eq_trans (map_length _ _) (map_length _ _)))|]. split; [change (p / nw k * nw k = p); field; exact NZ|]. split; [discriminate|].
  exists (p / nw k). intros i Hi. set (l := k :: kk) in *.
  change (nth i (map (fun x => (p / nw k) * x) (map nw l)) 0 = p / nw k * (Rpow (nth i l 0) n_s * (t (nth i l 0))^2)).
  rewrite map_map. rewrite (nth_indep _ 0 (p / nw k * nw (nth 0 l 0))) by (rewrite map_length; exact Hi).
  rewrite (map_nth (fun x => p / nw k * nw x)). unfold nw at 2. rn. rewrite (nth_indep l (nth 0 l 0) 0) by exact Hi. ring.
Qed.

(** ** sigmar *)
Lemma np_trapz_scal (a : R) y x : np_trapz (N := RNum) (map (Rmult a) y) x = a * np_trapz (N := RNum) y x.
Proof.
  revert x; induction y as [|y0 y IH]; intros x; [cbn; req; ring|]. destruct y as [|y1 y]; [cbn; destruct x; req; ring|].
  destruct x as [|x0 [|x1 x]]; [cbn; req; ring|cbn; req; ring|]. specialize (IH (x1 :: x)).
  change (np_trapz (N := RNum) (map (Rmult a) (y0 :: y1 :: y)) (x0 :: x1 :: x)) with ((x1 - x0) * (a * y1 + a * y0) / 2 + np_trapz (N := RNum) (map (Rmult a) (y1 :: y)) (x1 :: x)).
  change (np_trapz (N := RNum) (y0 :: y1 :: y) (x0 :: x1 :: x)) with ((x1 - x0) * (y1 + y0) / 2 + np_trapz (N := RNum) (y1 :: y) (x1 :: x)).
  rewrite IH. req. field.
Qed.
Lemma np_trapz_val (y x : list R) : List.length y = List.length x -> np_trapz (N := RNum) y x = trapz x y.
Proof.
  intros L. unfold trapz. revert x L; induction y as [|y0 y IH]; intros x L; [destruct x; [reflexivity|discriminate]|].
  destruct x as [|x0 x]; [discriminate|]. destruct y as [|y1 y]; [destruct x; [reflexivity|discriminate]|]. destruct x as [|x1 x]; [discriminate|].
  change (np_trapz (N := RNum) (y0 :: y1 :: y) (x0 :: x1 :: x)) with ((x1 - x0) * (y1 + y0) / 2 + np_trapz (N := RNum) (y1 :: y) (x1 :: x)).
  rewrite (IH (x1 :: x)) by (cbn in L |- *; lia). cbn [List.length]. rewrite !Nat.sub_succ, !Nat.sub_0_r.
  assert (RS : forall n f, rsum (S n) f = f 0%nat + rsum n (fun i => f (S i))).
  { induction n as [|n IHn]; intros f; [cbn; ring|]. change (rsum (S (S n)) f) with (rsum (S n) f + f (S n)). rewrite IHn. cbn [rsum]. ring. }
  rewrite RS. reflexivity.
Qed.
Lemma sigmar_val (c : columns RNum) (r D : R) n : complete CLin c n ->
  sigmar (N := RNum) c r (accessor (N := RNum) CLin "pk" c D) =
  Ok (sqrt (D^2 * trapz (map (entry c "k") (seq 0 n)) (map (fun i => entry c "pk" i * (tophat (entry c "k" i * r) * entry c "k" i)^2) (seq 0 n)) / (2 * PI^2))).
Proof.
  intros HC. fetch HC "k"%string. fetch HC "pk"%string. unfold sigmar, accessor. change (assoc (accessors CLin) "pk") with (Some (1%Z, "pk"%string)). cbv iota.
  unfold scale_factor. rewrite A, A0. cbn [bind]. rewrite (elementwise_ok _ _ n); [|discriminate|].
  2:{ intros d [<-|[<-|[]]]; [rewrite map_length; assumption|assumption]. }
  cbn [bind]. f_equal. rn. f_equal. pows. change (2 * 1)%Z with 2%Z.
  set (y := map (fun i => entry c "pk" i * (tophat (entry c "k" i * r) * entry c "k" i)^2) (seq 0 n)).
  assert (K : v = map (entry c "k") (seq 0 n)).
  { apply (nth_ext _ _ 0 0); [rewrite map_length, seq_length; assumption|]. intros i Hi. change (T RNum) with R in *. rewrite B in Hi.
    rewrite (nth_indep (map _ _) 0 (entry c "k" 0)) by (rewrite map_length, seq_length; exact Hi). rewrite map_nth, seq_nth by exact Hi. apply getitem_entry, A. }
  rewrite <- K.
  match goal with |- context [@np_trapz RNum ?q ?z] => replace (np_trapz (N := RNum) q z) with (np_trapz (N := RNum) (map (Rmult (D^2)) y) v) end.
  - rewrite np_trapz_scal, np_trapz_val by (unfold y; rewrite map_length, seq_length; symmetry; exact B). field. apply PI_neq0.
  - f_equal. unfold y. rewrite map_map. apply map_ext. intros i. cbn [map]. rewrite <- (getitem_entry c _ _ A), <- (getitem_entry c _ _ A0).
    replace (nth i (map (fun e : R => D^2 * e) v0) 0) with (D^2 * nth i v0 0).
    + unfold tophat. rn. pows. unfold Rdiv. ring.
    + replace 0 with (D^2 * 0) at 2 by ring. symmetry. apply (map_nth (fun e => D^2 * e)).
Qed.
Lemma sqrt_scale D x : 0 <= x -> sqrt (D^2 * x) = Rabs D * sqrt x.
Proof. intros H. rewrite sqrt_mult by (assumption || apply pow2_ge_0). f_equal. replace (D^2) with (Rsqr D) by (unfold Rsqr; ring). apply sqrt_Rsqr_abs. Qed.
Lemma trapz_nonneg (k p : list R) : increasing k -> (forall i, 0 <= at_ p i) -> 0 <= trapz k p.
Proof.
  intros HI HP. unfold trapz. apply rsum_nonneg. intros i Hi. assert (at_ k i < at_ k (S i)) by (apply HI; lia). pose proof (HP i). pose proof (HP (S i)).
  unfold Rdiv. apply Rmult_le_pos; [apply Rmult_le_pos; lra|lra].
Qed.
