(** ProofNoWiggle: the transfer function decreases from 1 to 0 (C110). *)
From Coq Require Import Reals ZArith List String Lia Lra Bool.
From Coquelicot Require Import Coquelicot.
From Verif Require Import Base Num BaseFacts Common Registry PyTerms PyNoWiggle Spec SpecPy Sums SpecNoWiggle ProofKernels ProofPy ProofPy2 ProofPy4 ProofPy6.
Import ListNotations.
Local Open Scope R_scope.

Lemma e_size : 2.7 < numpy_e < 2.8.
Proof. unfold numpy_e. lra. Qed.
(** ** The shape *)
Lemma ln_2e : 1.5 < ln (2 * numpy_e).
Proof.
  rewrite <- (ln_exp 1.5). apply ln_increasing; [apply exp_pos|]. replace 1.5 with (1 + 0.5) by lra. rewrite exp_plus. pose proof exp_le_3 as A.
  assert (B : exp 0.5 * exp 0.5 <= 3) by (rewrite <- exp_plus; replace (0.5 + 0.5) with 1 by lra; exact A). pose proof (exp_pos 0.5) as C.
  assert (exp 0.5 < 1.7321) by nra. pose proof e_size as E. unfold numpy_e in *. nra.
Qed.
Definition logq (q : R) : R := ln (2 * numpy_e + 1.8 * q).
Definition cq (q : R) : R := 14.2 + 731 / (1 + 62.5 * q).
Lemma logq_size q : 0 <= q -> 1.5 < logq q.
Proof. intros H. apply Rlt_le_trans with (ln (2 * numpy_e)); [exact ln_2e|]. pose proof e_size. apply ln_le; lra. Qed.
Lemma cq_size q : 0 <= q -> 14.2 < cq q <= 745.2.
Proof.
  intros H. unfold cq. assert (0 < 731 / (1 + 62.5 * q)) by (apply Rdiv_lt_0_compat; lra). split; [lra|]. assert (731 / (1 + 62.5 * q) <= 731); [|lra].
  apply (Rmult_le_reg_r (1 + 62.5 * q)); [lra|]. unfold Rdiv. rewrite Rmult_assoc, Rinv_l by lra. nra.
Qed.
Lemma logq_ratio q q' : 0 < q < q' -> q * logq q' < q' * logq q.
Proof.
  intros [H0 H1]. pose proof e_size as E. set (a := 2 * numpy_e) in *. assert (A : 5 < a) by (unfold a; lra). assert (P : 0 < a + 1.8 * q) by lra.
  assert (X : logq q' <= logq q + 1.8 * (q' - q) / (a + 1.8 * q)).
  { set (x := 1.8 * (q' - q) / (a + 1.8 * q)). assert (0 < x) by (apply Rdiv_lt_0_compat; lra). replace (logq q') with (logq q + ln (1 + x)).
    - apply Rplus_le_compat_l. rewrite <- (ln_exp x) at 2. apply ln_le; [lra|]. apply Rlt_le, exp_ineq1. lra.
    - unfold logq. fold a. rewrite <- ln_mult by lra. f_equal. unfold x. field. lra. }
  pose proof (logq_size q ltac:(lra)) as L. assert (Y : q * (1.8 * (q' - q) / (a + 1.8 * q)) <= q' - q).
  { replace (q * (1.8 * (q' - q) / (a + 1.8 * q))) with ((q' - q) * (1.8 * q / (a + 1.8 * q))) by (field; lra).
    assert (1.8 * q / (a + 1.8 * q) <= 1); [|nra]. apply (Rmult_le_reg_r (a + 1.8 * q)); [exact P|]. unfold Rdiv. rewrite Rmult_assoc, Rinv_l by lra. lra. }
  nra.
Qed.
Lemma cq_ratio q q' : 0 <= q < q' -> q * cq q < q' * cq q'.
Proof.
  intros [H0 H1]. unfold cq. assert (q * (731 / (1 + 62.5 * q)) <= q' * (731 / (1 + 62.5 * q'))); [|nra].
  apply (Rmult_le_reg_r ((1 + 62.5 * q) * (1 + 62.5 * q'))); [nra|].
  replace (q * (731 / (1 + 62.5 * q)) * ((1 + 62.5 * q) * (1 + 62.5 * q'))) with (731 * q * (1 + 62.5 * q')) by (field; lra).
  replace (q' * (731 / (1 + 62.5 * q')) * ((1 + 62.5 * q) * (1 + 62.5 * q'))) with (731 * q' * (1 + 62.5 * q)) by (field; lra). nra.
Qed.
Lemma T0_val q : eh_T0 numpy_e q = logq q / (logq q + cq q * q ^ 2).
Proof. reflexivity. Qed.
Lemma T0_decreasing q q' : 0 <= q < q' -> eh_T0 numpy_e q' < eh_T0 numpy_e q.
Proof.
  intros [H0 H1]. rewrite !T0_val. pose proof (logq_size q H0) as L. pose proof (logq_size q' ltac:(lra)) as L'. pose proof (cq_size q H0) as C. pose proof (cq_size q' ltac:(lra)) as C'.
  pose proof (cq_ratio q q' (conj H0 H1)) as CR. set (l := logq q) in *. set (l' := logq q') in *. set (c := cq q) in *. set (c' := cq q') in *.
  assert (0 <= c * q ^ 2) by nra. assert (0 < c' * q' ^ 2) by (apply Rmult_lt_0_compat; [lra|apply pow_lt; lra]).
  assert (K : l' * (c * q ^ 2) < l * (c' * q' ^ 2)).
  { destruct H0 as [H0| <-].
    - pose proof (logq_ratio q q' (conj H0 H1)) as LR. fold l l' in LR. assert (0 < q * l') by nra. assert (0 < q * c) by nra.
      replace (l' * (c * q ^ 2)) with (q * l' * (q * c)) by ring. replace (l * (c' * q' ^ 2)) with (q' * l * (q' * c')) by ring. apply Rmult_le_0_lt_compat; lra.
    - replace (l' * (c * 0 ^ 2)) with 0 by ring. apply Rmult_lt_0_compat; lra. }
  apply (Rmult_lt_reg_r ((l + c * q ^ 2) * (l' + c' * q' ^ 2))); [apply Rmult_lt_0_compat; lra|].
  replace (l' / (l' + c' * q' ^ 2) * ((l + c * q ^ 2) * (l' + c' * q' ^ 2))) with (l' * (l + c * q ^ 2)) by (field; lra).
  replace (l / (l + c * q ^ 2) * ((l + c * q ^ 2) * (l' + c' * q' ^ 2))) with (l * (l' + c' * q' ^ 2)) by (field; lra). lra.
Qed.
Lemma T0_large q : 0 <= q -> 0 <= 1 - eh_T0 numpy_e q <= 500 * q ^ 2.
Proof.
  intros H. rewrite T0_val. pose proof (logq_size q H) as L. pose proof (cq_size q H) as C. set (l := logq q) in *. set (c := cq q) in *. pose proof (pow2_ge_0 q) as Q.
  assert (0 <= c * q ^ 2) by (apply Rmult_le_pos; lra). replace (1 - l / (l + c * q ^ 2)) with (c * q ^ 2 / (l + c * q ^ 2)) by (field; lra).
  assert (I : 0 < / (l + c * q ^ 2)) by (apply Rinv_0_lt_compat; lra). split; [apply Rmult_le_pos; lra|].
  apply (Rmult_le_reg_r (l + c * q ^ 2)); [lra|]. unfold Rdiv. rewrite Rmult_assoc, Rinv_l by lra. nra.
Qed.
Lemma T0_small q : 1 <= q -> 0 < eh_T0 numpy_e q <= / (4 * q).
Proof.
  intros H. rewrite T0_val. pose proof (logq_size q ltac:(lra)) as L. pose proof (cq_size q ltac:(lra)) as C.
  assert (U : logq q <= 3 * q).
  { assert (logq 1 <= 3). { unfold logq. rewrite <- (ln_exp 3). pose proof e_size. apply ln_le; [lra|]. pose proof (exp_ineq1 1 ltac:(lra)) as E1. replace 3 with (1 + 1 + 1) by lra. rewrite !exp_plus. nra. }
    destruct H as [H| <-]; [|lra]. pose proof (logq_ratio 1 q ltac:(lra)). nra. }
  set (l := logq q) in *. set (c := cq q) in *. assert (0 < c * q ^ 2) by (apply Rmult_lt_0_compat; [lra|apply pow_lt; lra]).
  split; [apply Rdiv_lt_0_compat; lra|]. apply (Rmult_le_reg_r ((l + c * q ^ 2) * (4 * q))); [apply Rmult_lt_0_compat; lra|].
  replace (l / (l + c * q ^ 2) * ((l + c * q ^ 2) * (4 * q))) with (4 * (q * l)) by (field; lra).
  replace (/ (4 * q) * ((l + c * q ^ 2) * (4 * q))) with (l + c * q ^ 2) by (field; lra). nra.
Qed.
(** ** The wavenumber *)
Section Cosmology.
Variables Om Ob h T : R.
Hypothesis (Hh : 0 < h) (Hm : 45 / 1000 <= Om * h ^ 2 <= 1) (Hb : 0 <= Ob <= Om / 3).
Local Lemma Om_pos : 0 < Om.
Proof. pose proof (pow_lt h 2 Hh). nra. Qed.
Lemma alpha_range : 0 < eh_alpha Om Ob h <= 1.
Proof.
  pose proof Om_pos as HO. unfold eh_alpha. assert (F : 0 <= Ob / Om <= / 3).
  { split; [apply Rmult_le_pos; [lra|apply Rlt_le, Rinv_0_lt_compat; lra]|]. apply (Rmult_le_reg_r Om); [lra|]. unfold Rdiv. rewrite Rmult_assoc, Rinv_l by lra. lra. }
  set (f := Ob / Om) in *. set (w := Om * h ^ 2) in *.
  assert (L1 : ln (431 * w) <= 9) by (replace 9 with (INR 9) by (cbn; ring); apply ln_le_pow2; cbn [pow]; lra).
  assert (L2 : 0 <= ln (22.3 * w)) by (rewrite <- ln_1; apply ln_le; lra). assert (L3 : ln (22.3 * w) <= ln (431 * w)) by (apply ln_le; lra).
  set (a := ln (431 * w)) in *. set (b := ln (22.3 * w)) in *.
  assert (0 <= b * f) by nra. assert (a * f <= 3) by nra. assert (b * f <= a * f) by nra. assert (b * f ^ 2 <= / 3 * (b * f)) by nra. assert (0 <= b * f ^ 2) by nra. split; lra.
Qed.
Lemma fourth_pos x : 0 <= x ^ 4.
Proof. replace (x ^ 4) with ((x ^ 2) ^ 2) by ring. apply pow2_ge_0. Qed.
Lemma gamma_range k : Om * h * eh_alpha Om Ob h <= eh_gamma Om Ob h k <= Om * h /\ 0 < eh_gamma Om Ob h k.
Proof.
  pose proof Om_pos as HO. pose proof alpha_range as A. unfold eh_gamma. set (al := eh_alpha Om Ob h) in *. pose proof (fourth_pos (0.43 * (k * h) * eh_horizon Om Ob h)) as Y. set (y := _ ^ 4) in *.
  assert (P : 0 < Om * h) by nra. assert (I : 0 < / (1 + y) <= 1). { split; [apply Rinv_0_lt_compat; lra|]. apply (Rmult_le_reg_r (1 + y)); [lra|]. rewrite Rinv_l by lra. lra. }
  unfold Rdiv. set (i := / (1 + y)) in *. assert (al <= al + (1 - al) * i <= 1) by nra. split; [split; nra|nra].
Qed.
Lemma gamma_antitone k k' : 0 <= k <= k' -> eh_gamma Om Ob h k' <= eh_gamma Om Ob h k.
Proof.
  intros Hk. pose proof Om_pos as HO. pose proof alpha_range as A. unfold eh_gamma. set (al := eh_alpha Om Ob h) in *. set (s := eh_horizon Om Ob h).
  apply Rmult_le_compat_l; [nra|]. apply Rplus_le_compat_l. apply Rmult_le_compat_l; [lra|]. apply Rinv_le_contravar; [pose proof (fourth_pos (0.43 * (k * h) * s)); lra|]. apply Rplus_le_compat_l.
  replace ((0.43 * (k * h) * s) ^ 4) with ((0.43 * h * s) ^ 4 * k ^ 4) by ring. replace ((0.43 * (k' * h) * s) ^ 4) with ((0.43 * h * s) ^ 4 * k' ^ 4) by ring.
  apply Rmult_le_compat_l; [apply fourth_pos|]. apply pow_incr. exact Hk.
Qed.
Lemma q_range k : 0 <= k -> k * (T / 2.7) ^ 2 / (Om * h) <= eh_q Om Ob h T k <= k * (T / 2.7) ^ 2 / (Om * h * eh_alpha Om Ob h).
Proof.
  intros Hk. pose proof Om_pos as HO. pose proof alpha_range as A. destruct (gamma_range k) as [[G1 G2] G3]. unfold eh_q. set (x := (T / 2.7) ^ 2). assert (0 <= k * x) by (apply Rmult_le_pos; [lra|apply pow2_ge_0]).
  assert (0 < Om * h * eh_alpha Om Ob h) by (apply Rmult_lt_0_compat; [nra|lra]).
  split; apply Rmult_le_compat_l; try assumption; apply Rinv_le_contravar; assumption.
Qed.
Lemma q_increasing k k' : T <> 0 -> 0 <= k < k' -> 0 <= eh_q Om Ob h T k < eh_q Om Ob h T k'.
Proof.
  intros HT Hk. destruct (gamma_range k) as [_ G]. destruct (gamma_range k') as [_ G']. pose proof (gamma_antitone k k' ltac:(lra)) as GA. unfold eh_q. set (x := (T / 2.7) ^ 2).
  assert (X : 0 < x) by (unfold x; apply pow2_gt_0; apply Rmult_integral_contrapositive; split; [exact HT|lra]). split; [apply Rmult_le_pos; [nra|apply Rlt_le, Rinv_0_lt_compat, G]|].
  apply Rle_lt_trans with (k * x / eh_gamma Om Ob h k'); [apply Rmult_le_compat_l; [nra|apply Rinv_le_contravar; assumption]|].
  apply Rmult_lt_compat_r; [apply Rinv_0_lt_compat, G'|]. nra.
Qed.
Lemma eh_decreasing k k' : T <> 0 -> 0 <= k < k' -> eh_transfer numpy_e Om Ob h T k' < eh_transfer numpy_e Om Ob h T k.
Proof. intros HT Hk. apply T0_decreasing, q_increasing; assumption. Qed.
Lemma eh_large k : 0 <= k -> 0 <= 1 - eh_transfer numpy_e Om Ob h T k <= 500 * (k * (T / 2.7) ^ 2 / (Om * h * eh_alpha Om Ob h)) ^ 2.
Proof.
  intros Hk. pose proof (q_range k Hk) as [Q1 Q2]. assert (Q0 : 0 <= eh_q Om Ob h T k).
  { eapply Rle_trans; [|exact Q1]. pose proof Om_pos. apply Rmult_le_pos; [apply Rmult_le_pos; [exact Hk|apply pow2_ge_0]|apply Rlt_le, Rinv_0_lt_compat; nra]. }
  destruct (T0_large _ Q0) as [A B]. split; [exact A|]. eapply Rle_trans; [exact B|]. apply Rmult_le_compat_l; [lra|]. apply pow_incr. split; assumption.
Qed.
Lemma eh_small k : Om * h <= k * (T / 2.7) ^ 2 -> 0 <= k -> 0 < eh_transfer numpy_e Om Ob h T k <= Om * h / (4 * (k * (T / 2.7) ^ 2)).
Proof.
  intros H Hk. pose proof Om_pos as HO. pose proof (q_range k Hk) as [Q1 _]. set (x := k * (T / 2.7) ^ 2) in *. assert (P : 0 < Om * h) by nra.
  assert (Q : 1 <= x / (Om * h)) by (apply (Rmult_le_reg_r (Om * h)); [exact P|]; unfold Rdiv; rewrite Rmult_assoc, Rinv_l by lra; lra).
  destruct (T0_small (eh_q Om Ob h T k) ltac:(lra)) as [A B]. split; [exact A|]. eapply Rle_trans; [exact B|]. replace (Om * h / (4 * x)) with (/ (4 * (x / (Om * h)))) by (field; lra).
  apply Rinv_le_contravar; lra.
Qed.
End Cosmology.
(** ** The code *)
Lemma row_val h omega_b omega_m T k : 0 < h -> 0 < omega_m -> 0 < omega_b ->
  transfer_row (N := RNum) h omega_b omega_m T k = eh_transfer numpy_e (omega_m / h ^ 2) (omega_b / h ^ 2) h T k.
Proof.
  intros Hh Hm Hb. assert (E : omega_m / h ^ 2 * h ^ 2 = omega_m) by (field; lra). assert (Eb : omega_b / h ^ 2 * h ^ 2 = omega_b) by (field; lra).
  assert (A : alpha_gamma (N := RNum) omega_b omega_m = eh_alpha (omega_m / h ^ 2) (omega_b / h ^ 2) h).
  { unfold alpha_gamma, eh_alpha. rewrite E. replace (omega_b / h ^ 2 / (omega_m / h ^ 2)) with (omega_b / omega_m) by (field; lra). rn. pows.
    change (10 ^ 3)%Z with 1000%Z. change (10 ^ 2)%Z with 100%Z. change (10 ^ 1)%Z with 10%Z. reflexivity. }
  assert (G : gamma_eff (N := RNum) h omega_b omega_m k = eh_gamma (omega_m / h ^ 2) (omega_b / h ^ 2) h k).
  { unfold gamma_eff, eh_gamma. rewrite A. unfold eh_horizon. rewrite E, Eb. rn. pows. rewrite Rpow_pos by exact Hb.
    change (10 ^ 2)%Z with 100%Z. change (10 ^ 1)%Z with 10%Z. replace (75 / 100) with (3 / 4) by lra. replace (omega_m / h ^ 2 * h) with (omega_m / h) by (field; lra).
    change (983 / 100) with 9.83. set (l := ln (9.83 / omega_m)). set (s := sqrt _).
    replace (43 / 100 * (k * (445 / 10 * h * l / s))) with (0.43 * (k * h) * (44.5 * l / s)) by (replace 0.43 with (43 / 100) by lra; replace 44.5 with (445 / 10) by lra; unfold Rdiv; ring). reflexivity. }
  unfold transfer_row, eh_transfer, eh_T0, eh_q. rewrite G. rn. pows. change (10 ^ 15)%Z with 1000000000000000%Z. change (10 ^ 1)%Z with 10%Z. unfold numpy_e.
  cbv zeta. set (q := _ / eh_gamma _ _ _ _). replace (q * q) with (q ^ 2) by ring. reflexivity.
Qed.
Lemma there_back (w h : R) : h <> 0 -> w = w / h ^ 2 * h ^ 2.
Proof. intros H. field. exact H. Qed.
Notation Om_of a h := (density (kw_Omega_m (N := RNum) a) (kw_omega_m a) 0.21 h).
Notation Ob_of a h := (density (kw_Omega_b (N := RNum) a) (kw_omega_b a) 0.022 h).
Lemma par_m_val (a : cosmology (N := RNum)) : 0 < or_default (kw_h a) 0.676 -> par_omega_m a = Om_of a (or_default (kw_h a) 0.676) * (or_default (kw_h a) 0.676) ^ 2.
Proof.
  intros Hh. unfold par_omega_m, par_h, given, density. unfold or_default in *. rn. pows. change (10 ^ 3)%Z with 1000%Z. change (676 / 1000) with 0.676.
  destruct (kw_Omega_m a); [reflexivity|]. destruct (kw_omega_m a); [|change (10 ^ 2)%Z with 100%Z]; exact (there_back _ _ (Rgt_not_eq _ _ Hh)).
Qed.
Lemma par_b_val (a : cosmology (N := RNum)) : 0 < or_default (kw_h a) 0.676 -> par_omega_b a = Ob_of a (or_default (kw_h a) 0.676) * (or_default (kw_h a) 0.676) ^ 2.
Proof.
  intros Hh. unfold par_omega_b, par_h, given, density. unfold or_default in *. rn. pows. change (10 ^ 3)%Z with 1000%Z. change (676 / 1000) with 0.676.
  destruct (kw_Omega_b a); [reflexivity|]. destruct (kw_omega_b a); exact (there_back _ _ (Rgt_not_eq _ _ Hh)).
Qed.
Lemma row_par (a : cosmology (N := RNum)) k : let h := or_default (kw_h a) 0.676 in 0 < h -> 0 < Om_of a h -> 0 < Ob_of a h ->
  transfer_row (N := RNum) (par_h a) (par_omega_b a) (par_omega_m a) (par_T_cmb a) k = eh_transfer numpy_e (Om_of a h) (Ob_of a h) h (or_default (kw_T_cmb a) 2.7255) k.
Proof.
  intros h Hh Hm Hb. assert (H2 : 0 < h ^ 2) by (apply pow_lt; exact Hh). assert (Eh : par_h a = h) by reflexivity. assert (ET : par_T_cmb a = or_default (kw_T_cmb a) 2.7255) by reflexivity.
  rewrite par_m_val, par_b_val, Eh, ET by exact Hh. fold h. rewrite row_val; [|exact Hh|apply Rmult_lt_0_compat; assumption|apply Rmult_lt_0_compat; assumption].
  f_equal; [field; lra|field; lra].
Qed.
Lemma transfer_val (c : columns RNum) kk (a : cosmology (N := RNum)) : let h := or_default (kw_h a) 0.676 in getitem c "k" = Ok kk -> 0 < h -> 0 < Om_of a h -> 0 < Ob_of a h ->
  transfer (N := RNum) c a = Ok (map (eh_transfer numpy_e (Om_of a h) (Ob_of a h) h (or_default (kw_T_cmb a) 2.7255)) kk).
Proof. intros h Hk Hh Hm Hb. unfold transfer. rewrite Hk. cbn [bind]. f_equal. apply map_ext. intros k. apply row_par; assumption. Qed.
Lemma eh_pos Om Ob h T k : 0 < h -> 45 / 1000 <= Om * h ^ 2 <= 1 -> 0 <= Ob <= Om / 3 -> 0 <= k -> 0 < eh_transfer numpy_e Om Ob h T k.
Proof.
  intros Hh Hm Hb Hk. assert (Q0 : 0 <= eh_q Om Ob h T k).
  { destruct (gamma_range Om Ob h Hh Hm Hb k) as [_ G]. apply Rmult_le_pos; [apply Rmult_le_pos; [exact Hk|apply pow2_ge_0]|apply Rlt_le, Rinv_0_lt_compat, G]. }
  unfold eh_transfer. rewrite T0_val. pose proof (logq_size _ Q0). pose proof (cq_size _ Q0). pose proof (pow2_ge_0 (eh_q Om Ob h T k)). apply Rdiv_lt_0_compat; nra.
Qed.
Section Run.
Variables (c : columns RNum) (kk : list R) (a : cosmology (N := RNum)) (n : option R).
Let h := or_default (kw_h a) 0.676.
Let Om := Om_of a h.
Let Ob := Ob_of a h.
Let Tr := eh_transfer numpy_e Om Ob h (or_default (kw_T_cmb a) 2.7255).
Hypothesis (Hk : getitem c "k" = Ok kk) (Hh : 0 < h) (Hm : 45 / 1000 <= Om * h ^ 2 <= 1) (Hb : 0 < Ob <= Om / 3) (Hpos : forall k, In k kk -> 0 < k).
Local Lemma nw_val k : In k kk ->
  nmul RNum (npow (n := RNum) k (given (N := RNum) n (nZ RNum 1))) (nmul RNum (transfer_row (N := RNum) (par_h a) (par_omega_b a) (par_omega_m a) (par_T_cmb a) k) (transfer_row (N := RNum) (par_h a) (par_omega_b a) (par_omega_m a) (par_T_cmb a) k)) =
  Rpower k (or_default n 1) * Tr k ^ 2.
Proof.
  intros Hin. rewrite row_par; [|exact Hh|pose proof (Om_pos Om h Hh Hm); assumption|apply Hb]. fold h. change (density (kw_Omega_m a) (kw_omega_m a) 0.21 h) with Om. change (density (kw_Omega_b a) (kw_omega_b a) 0.022 h) with Ob. fold Tr. fold (Tr k).
  replace (npow (n := RNum) k (given (N := RNum) n (nZ RNum 1))) with (Rpower k (or_default n 1)); [change (Rpower k (or_default n 1) * (Tr k * Tr k) = Rpower k (or_default n 1) * Tr k ^ 2); ring|].
  symmetry. rewrite <- (Rpow_pos k (or_default n 1)) by (apply Hpos, Hin). destruct n; reflexivity.
Qed.
Lemma run_amplitude A pk : exists c' v, run_terms_kw (N := RNum) c pk (Some A) n a = Ok c' /\ getitem c' "pk" = Ok v /\ (forall x, x <> "pk"%string -> getitem c' x = getitem c x) /\
  v = map (fun k => A * (Rpower k (or_default n 1) * Tr k ^ 2)) kk.
Proof.
  unfold run_terms_kw, run_terms_nowiggle. rewrite Hk. cbn [bind]. eexists _, _. split; [reflexivity|]. split; [rewrite getitem_set, String.eqb_refl; reflexivity|].
  split; [intros x Hx; rewrite getitem_set; destruct (String.eqb_spec "pk" x); congruence || reflexivity|]. rewrite map_map. apply map_ext_in. intros k Hin. exact (f_equal (Rmult A) (nw_val k Hin)).
Qed.
Lemma run_first p0 pk k0 kk' : kk = k0 :: kk' -> exists c' v, run_terms_kw (N := RNum) c (Some (p0 :: pk)) None n a = Ok c' /\ getitem c' "pk" = Ok v /\ (forall x, x <> "pk"%string -> getitem c' x = getitem c x) /\
  v = map (fun k => p0 * (Rpower (k / k0) (or_default n 1) * (Tr k / Tr k0) ^ 2)) kk.
Proof.
  intros E. assert (H0 : In k0 kk) by (rewrite E; left; reflexivity). pose proof (nw_val k0 H0) as V0.
  unfold run_terms_kw, run_terms_nowiggle. rewrite Hk. cbn [bind]. set (t := transfer_row (N := RNum) (par_h a) (par_omega_b a) (par_omega_m a) (par_T_cmb a)) in *. set (nw := fun k : R => nmul RNum (npow (n := RNum) k (given (N := RNum) n (nZ RNum 1))) (nmul RNum (t k) (t k))).
  assert (R0 : rd (A := T RNum) (p0 :: pk) 0 = Ok p0) by exact (rd_nth (0 : R) (p0 :: pk) _ 0 eq_refl (Nat.lt_0_succ _)). rewrite R0. cbn [bind].
  assert (W0 : rd (A := T RNum) (map nw kk) 0 = Ok (nw k0)). { rewrite E. exact (rd_nth (0 : T RNum) (nw k0 :: map nw kk') _ 0 eq_refl (Nat.lt_0_succ _)). }
  change (rd (A := T RNum) (map _ kk) 0) with (rd (A := T RNum) (map nw kk) 0). rewrite W0. cbn [bind]. eexists _, _. split; [reflexivity|]. split; [rewrite getitem_set, String.eqb_refl; reflexivity|].
  split; [intros x Hx; rewrite getitem_set; destruct (String.eqb_spec "pk" x); congruence || reflexivity|]. rewrite map_map. apply map_ext_in. intros k Hin.
  change (p0 / nw k0 * nw k = p0 * (Rpower (k / k0) (or_default n 1) * (Tr k / Tr k0) ^ 2)). change (nw k0 = Rpower k0 (or_default n 1) * Tr k0 ^ 2) in V0. rewrite V0.
  replace (nw k) with (Rpower k (or_default n 1) * Tr k ^ 2) by (symmetry; exact (nw_val k Hin)).
  pose proof (Hpos k0 H0) as P0. pose proof (Hpos k Hin) as P. assert (TP : 0 < Tr k0) by (apply eh_pos; try assumption; lra).
  unfold Rpower. rewrite ln_div by assumption. replace (or_default n 1 * (ln k - ln k0)) with (or_default n 1 * ln k + - (or_default n 1 * ln k0)) by ring. rewrite exp_plus, exp_Ropp.
  field. split; [lra|apply Rgt_not_eq, exp_pos].
Qed.
End Run.
Lemma adm Om Ob h : admissible Om Ob h -> 0 < h /\ 45 / 1000 <= Om * h ^ 2 <= 1 /\ 0 < Ob <= Om / 3 /\ 0 <= Ob <= Om / 3 /\ 0 < Om.
Proof. intros (A & B & C). assert (45 / 1000 <= Om * h ^ 2 <= 1) by lra. pose proof (Om_pos Om h A H). repeat split; lra. Qed.
Section API.
Variables (c : columns RNum) (kk : list R) (a : cosmology (N := RNum)).
Let h := or_default (kw_h a) 0.676.
Let Om := Om_of a h.
Let Ob := Ob_of a h.
Let T := or_default (kw_T_cmb a) 2.7255.
Hypothesis (Hk : getitem c "k" = Ok kk) (HA : admissible Om Ob h).
Lemma api_val : transfer (N := RNum) c a = Ok (map (eh_transfer numpy_e Om Ob h T) kk).
Proof. destruct (adm _ _ _ HA) as (A & B & C & D & E). apply transfer_val; [exact Hk|exact A|exact E|apply C]. Qed.
Lemma api_at i : (i < List.length kk)%nat -> at_ (map (eh_transfer numpy_e Om Ob h T) kk) i = eh_transfer numpy_e Om Ob h T (at_ kk i).
Proof. intros Hi. unfold at_. rewrite (nth_indep _ 0 (eh_transfer numpy_e Om Ob h T 0)) by (rewrite map_length; exact Hi). apply map_nth. Qed.
Lemma api_decreasing v i j : transfer (N := RNum) c a = Ok v -> T <> 0 -> (i < List.length kk)%nat -> (j < List.length kk)%nat -> 0 <= at_ kk i < at_ kk j -> at_ v j < at_ v i.
Proof.
  rewrite api_val. intros E HT Hi Hj Hij. injection E as <-. rewrite !api_at by assumption. destruct (adm _ _ _ HA) as (A & B & C & D & E). apply eh_decreasing; assumption.
Qed.
Lemma api_ends v i : transfer (N := RNum) c a = Ok v -> (i < List.length kk)%nat -> 0 <= at_ kk i ->
  0 < at_ v i <= 1 /\ 1 - at_ v i <= 500 * (at_ kk i * (T / 2.7) ^ 2 / (Om * h * eh_alpha Om Ob h)) ^ 2 /\
  (Om * h <= at_ kk i * (T / 2.7) ^ 2 -> at_ v i <= Om * h / (4 * (at_ kk i * (T / 2.7) ^ 2))).
Proof.
  rewrite api_val. intros E Hi H0. injection E as <-. rewrite !api_at by assumption. destruct (adm _ _ _ HA) as (A & B & C & D & E).
  pose proof (eh_large Om Ob h T A B D (at_ kk i) H0) as L. pose proof (eh_pos Om Ob h T (at_ kk i) A B D H0). split; [lra|]. split; [apply L|]. intros Hx. apply (eh_small Om Ob h T A B D); assumption.
Qed.
Lemma api_A A n pk : (forall k, In k kk -> 0 < k) -> exists c' v, run_terms_kw (N := RNum) c pk (Some A) n a = Ok c' /\ getitem c' "pk" = Ok v /\ (forall x, x <> "pk"%string -> getitem c' x = getitem c x) /\
  v = map (fun k => A * (Rpower k (or_default n 1) * eh_transfer numpy_e Om Ob h T k ^ 2)) kk.
Proof. intros Hp. destruct (adm _ _ _ HA) as (H1 & B & C & D & E). exact (run_amplitude c kk a n Hk H1 B C Hp A pk). Qed.
Lemma api_first n p0 pk k0 : (forall k, In k kk -> 0 < k) -> hd_error kk = Some k0 -> exists c' v, run_terms_kw (N := RNum) c (Some (p0 :: pk)) None n a = Ok c' /\ getitem c' "pk" = Ok v /\ (forall x, x <> "pk"%string -> getitem c' x = getitem c x) /\
  v = map (fun k => p0 * (Rpower (k / k0) (or_default n 1) * (eh_transfer numpy_e Om Ob h T k / eh_transfer numpy_e Om Ob h T k0) ^ 2)) kk.
Proof.
  intros Hp E0. destruct (adm _ _ _ HA) as (H1 & B & C & D & E). destruct kk as [|x l] eqn:El; [discriminate|]. injection E0 as ->.
  exact (run_first c (k0 :: l) a n Hk H1 B C Hp p0 pk k0 l eq_refl).
Qed.
Lemma api_shape n p0 pk c' v i j : (forall k, In k kk -> 0 < k) -> T <> 0 -> 0 < p0 -> run_terms_kw (N := RNum) c (Some (p0 :: pk)) None n a = Ok c' -> getitem c' "pk" = Ok v ->
  (i < List.length kk)%nat -> (j < List.length kk)%nat -> at_ kk i < at_ kk j -> 0 < at_ v j / Rpower (at_ kk j) (or_default n 1) < at_ v i / Rpower (at_ kk i) (or_default n 1).
Proof.
  intros Hp HT H0 R V Hi Hj Hij. destruct kk as [|k0 l] eqn:El; [cbn in Hi; lia|]. rewrite <- El in *. assert (E0 : hd_error kk = Some k0) by (rewrite El; reflexivity). 
  destruct (api_first n p0 pk k0 Hp E0) as (c2 & v2 & R2 & V2 & _ & W). pose proof (eq_trans (eq_sym R) R2) as R3. injection R3 as <-. pose proof (eq_trans (eq_sym V) V2) as V3. injection V3 as <-. destruct (adm _ _ _ HA) as (H1 & B & C & D & E).
  set (Tr := eh_transfer numpy_e Om Ob h T) in *. assert (IN : forall m, (m < List.length kk)%nat -> 0 < at_ kk m) by (intros m Hm; apply Hp, nth_In, Hm). assert (P0 : 0 < k0) by (apply Hp; rewrite El; left; reflexivity).
  assert (T0 : 0 < Tr k0) by (apply eh_pos; try assumption; lra).
  assert (X : forall m, (m < List.length kk)%nat -> at_ v m / Rpower (at_ kk m) (or_default n 1) = p0 * / (Rpower k0 (or_default n 1)) * (Tr (at_ kk m) / Tr k0) ^ 2).
  { intros m Hm. pose proof (IN m Hm) as Pm. rewrite W. unfold at_ at 1.
    set (f := fun k => _) in W |- *. rewrite (nth_indep _ 0 (f 0)) by (rewrite map_length; exact Hm). rewrite map_nth. unfold f. fold (at_ kk m).
    unfold Rpower. rewrite ln_div by assumption. replace (or_default n 1 * (ln (at_ kk m) - ln k0)) with (or_default n 1 * ln (at_ kk m) + - (or_default n 1 * ln k0)) by ring. rewrite exp_plus, exp_Ropp.
    field. repeat split; try (apply Rgt_not_eq, exp_pos); lra. }
  rewrite !X by assumption. assert (TD : Tr (at_ kk j) < Tr (at_ kk i)) by (apply eh_decreasing; try assumption; split; [apply Rlt_le, IN, Hi|exact Hij]).
  assert (TJ : 0 < Tr (at_ kk j)) by (apply eh_pos; try assumption; apply Rlt_le, IN, Hj). assert (K0 : 0 < p0 * / Rpower k0 (or_default n 1)) by (apply Rmult_lt_0_compat; [exact H0|apply Rinv_0_lt_compat, exp_pos]).
  assert (Y : 0 < Tr (at_ kk j) / Tr k0 < Tr (at_ kk i) / Tr k0) by (split; [apply Rdiv_lt_0_compat; assumption|apply Rmult_lt_compat_r; [apply Rinv_0_lt_compat, T0|exact TD]]).
  split; [apply Rmult_lt_0_compat; [exact K0|apply pow_lt, Y]|]. apply Rmult_lt_compat_l; [exact K0|]. nra.
Qed.
End API.
Lemma run_raises {N} (c : columns N) kk n (a : cosmology (N := N)) : getitem c "k" = Ok kk ->
  run_terms_kw c None None n a = Err (PyExc TypeError) /\ run_terms_kw c (Some []) None n a = Err (PyExc IndexError) /\
  (kk = [] -> forall p pk, run_terms_kw c (Some (p :: pk)) None n a = Err (PyExc IndexError)).
Proof. intros Hk. unfold run_terms_kw, run_terms_nowiggle. rewrite Hk. split; [reflexivity|]. split; [reflexivity|]. intros ->. reflexivity. Qed.
