(** Series: truncated expansions of the logarithm with explicit remainders. *)
From Coq Require Import Reals Lra Lia.
From Coquelicot Require Import Coquelicot.
From Verif Require Import Spec.
Local Open Scope R_scope.

(** f' >= 0 on [0,b] gives f 0 <= f b. *)
Lemma incr_from_0 (f df : R -> R) b : 0 <= b -> (forall t, 0 <= t <= b -> is_derive f t (df t)) ->
  (forall t, 0 <= t <= b -> 0 <= df t) -> f 0 <= f b.
Proof.
  intros Hb HD HP. destruct (Req_dec b 0) as [->|Hn]; [lra|].
  destruct (MVT_gen f 0 b df) as [c [Hc E]].
  - intros t Ht. rewrite Rmin_left, Rmax_right in Ht by lra. apply HD; lra.
  - intros t Ht. rewrite Rmin_left, Rmax_right in Ht by lra. apply derivable_continuous_pt. exists (df t).
    apply is_derive_Reals. apply HD; lra.
  - rewrite Rmin_left, Rmax_right in Hc by lra. assert (0 <= df c * (b - 0)) by (apply Rmult_le_pos; [apply HP; lra|lra]). lra.
Qed.

(** Partial sums of -ln(1-d) and of artanh. *)
Definition lnsum (m : nat) (d : R) : R := rsum m (fun n => d ^ (S n) / INR (S n)).
Definition atsum (m : nat) (t : R) : R := rsum m (fun j => t ^ (2 * j + 1) / INR (2 * j + 1)).
Definition geom (m : nat) (d : R) : R := rsum m (fun n => d ^ n).
Definition geom2 (m : nat) (t : R) : R := rsum m (fun j => t ^ (2 * j)).

Lemma geom_val m d : d <> 1 -> geom m d = (1 - d ^ m) / (1 - d).
Proof.
  intros Hd. induction m as [|m IH]; unfold geom in *; cbn [rsum pow]; [field; lra|].
  rewrite IH. field. lra.
Qed.
Lemma geom2_val m t : t * t <> 1 -> geom2 m t = (1 - t ^ (2 * m)) / (1 - t * t).
Proof.
  intros Hd. induction m as [|m IH]; unfold geom2 in *; cbn [rsum]; [cbn; field; lra|].
  rewrite IH. replace (2 * S m)%nat with (S (S (2 * m))) by lia. cbn [pow]. field. lra.
Qed.
Lemma is_derive_rsum (f df : nat -> R -> R) m x : (forall n, (n < m)%nat -> is_derive (f n) x (df n x)) ->
  is_derive (fun t => rsum m (fun n => f n t)) x (rsum m (fun n => df n x)).
Proof.
  induction m as [|m IH]; intros H; cbn [rsum].
  - apply is_derive_ext with (fun _ => 0); [reflexivity|]. apply (is_derive_const 0 x).
  - apply (is_derive_plus (fun t => rsum m (fun n => f n t)) (f m)); [apply IH; intros; apply H; lia|apply H; lia].
Qed.
Lemma is_derive_lnsum m x : is_derive (lnsum m) x (geom m x).
Proof.
  apply (is_derive_rsum (fun n d => d ^ S n / INR (S n)) (fun n d => d ^ n)).
  intros n _. assert (INR (S n) <> 0) by (apply not_0_INR; lia).
  apply (is_derive_ext (fun d => / INR (S n) * d ^ S n)); [intros t; apply Rmult_comm|].
  replace (x ^ n) with (/ INR (S n) * (INR (S n) * 1 * x ^ pred (S n))) by (cbn [pred]; field; assumption).
  apply is_derive_scal. apply is_derive_pow. apply (is_derive_id x).
Qed.
Lemma is_derive_atsum m x : is_derive (atsum m) x (geom2 m x).
Proof.
  apply (is_derive_rsum (fun j t => t ^ (2 * j + 1) / INR (2 * j + 1)) (fun j t => t ^ (2 * j))).
  intros j _. assert (INR (2 * j + 1) <> 0) by (apply not_0_INR; lia).
  apply (is_derive_ext (fun t => / INR (2 * j + 1) * t ^ (2 * j + 1))); [intros t; apply Rmult_comm|].
  replace (x ^ (2 * j)) with (/ INR (2 * j + 1) * (INR (2 * j + 1) * 1 * x ^ pred (2 * j + 1)))
    by (replace (pred (2 * j + 1)) with (2 * j)%nat by lia; field; assumption).
  apply is_derive_scal. apply is_derive_pow. apply (is_derive_id x).
Qed.

Lemma ln_remainder m d : 0 <= d < 1 ->
  0 <= - ln (1 - d) - lnsum m d <= d ^ S m / (INR (S m) * (1 - d)).
Proof.
  intros Hd.
  assert (HL : forall t, 0 <= t < 1 -> is_derive (fun t => - ln (1 - t) - lnsum m t) t (t ^ m / (1 - t))).
  { intros t Ht. replace (t ^ m / (1 - t)) with (/ (1 - t) - geom m t) by (rewrite geom_val by lra; field; lra).
    apply (is_derive_minus (fun t => - ln (1 - t)) (lnsum m)); [|apply is_derive_lnsum].
    auto_derive; [lra|field; lra]. }
  assert (E0 : - ln (1 - 0) - lnsum m 0 = 0).
  { rewrite Rminus_0_r, ln_1. enough (lnsum m 0 = 0) by lra. clear. unfold lnsum.
    induction m as [|m IH]; cbn [rsum]; [reflexivity|]. rewrite IH, pow_i by lia. unfold Rdiv. ring. }
  split.
  - rewrite <- E0. apply (incr_from_0 (fun t => - ln (1 - t) - lnsum m t) (fun t => t ^ m / (1 - t))); [lra| |].
    + intros t Ht. apply HL; lra.
    + intros t Ht. apply Rmult_le_pos; [apply pow_le; lra|]. apply Rlt_le, Rinv_0_lt_compat; lra.
  - assert (HS : 0 < INR (S m)) by (apply lt_0_INR; lia).
    pose (h := fun t => t ^ S m / (INR (S m) * (1 - t)) - (- ln (1 - t) - lnsum m t)).
    assert (h 0 <= h d); [|unfold h in *; rewrite E0, pow_i in H by lia; unfold Rdiv in H at 1; rewrite Rmult_0_l in H; lra].
    apply (incr_from_0 h (fun t => t ^ S m / (INR (S m) * ((1 - t) * (1 - t))))); [lra| |].
    + intros t Ht. unfold h.
      replace (t ^ S m / (INR (S m) * ((1 - t) * (1 - t)))) with
        ((/ INR (S m)) * ((INR (S m) * 1 * t ^ pred (S m)) * / (1 - t) + t ^ S m * (/ (1 - t) ^ 2)) - t ^ m / (1 - t))
        by (cbn [pred pow]; field; split; [lra|apply not_0_INR; lia]).
      apply (is_derive_minus (fun t => t ^ S m / (INR (S m) * (1 - t)))); [|apply HL; lra].
      apply (is_derive_ext_loc (fun t => / INR (S m) * (t ^ S m * / (1 - t)))).
      * exists (mkposreal (1 - d) ltac:(lra)). intros u Hu. unfold ball in Hu; cbn in Hu. unfold AbsRing_ball, abs, minus, plus, opp in Hu; cbn in Hu.
        apply Rabs_def2 in Hu. cbn. field. split; [lra|]. apply (not_0_INR (S m)); lia.
      * apply is_derive_scal. apply (is_derive_mult (fun t => t ^ S m) (fun t => / (1 - t))).
        -- apply is_derive_pow. apply (is_derive_id t).
        -- auto_derive; [lra|field; lra].
        -- intros; apply Rmult_comm.
    + intros t Ht. apply Rmult_le_pos; [apply pow_le; lra|]. apply Rlt_le, Rinv_0_lt_compat.
      apply Rmult_lt_0_compat; [exact HS|]. apply Rmult_lt_0_compat; lra.
Qed.

(** artanh t = (ln (1+t) - ln (1-t)) / 2 *)
Lemma artanh_remainder m t : 0 <= t < 1 ->
  0 <= (ln (1 + t) - ln (1 - t)) / 2 - atsum m t <= t ^ (2 * m + 1) / (INR (2 * m + 1) * (1 - t * t)).
Proof.
  intros Hd.
  assert (HL : forall t, 0 <= t < 1 -> is_derive (fun t => (ln (1 + t) - ln (1 - t)) / 2 - atsum m t) t (t ^ (2 * m) / (1 - t * t))).
  { clear. intros t Ht. assert (t * t <> 1) by nra.
    replace (t ^ (2 * m) / (1 - t * t)) with (/ (1 - t * t) - geom2 m t) by (rewrite geom2_val by lra; field; lra).
    apply (is_derive_minus (fun t => (ln (1 + t) - ln (1 - t)) / 2) (atsum m)); [|apply is_derive_atsum].
    auto_derive; [split; [lra|split; [lra|exact I]]|field; repeat split; lra]. }
  assert (E0 : (ln (1 + 0) - ln (1 - 0)) / 2 - atsum m 0 = 0).
  { rewrite Rplus_0_r, Rminus_0_r, ln_1. enough (atsum m 0 = 0) by lra. clear. unfold atsum.
    induction m as [|m IH]; cbn [rsum]; [reflexivity|]. rewrite IH, pow_i by lia. unfold Rdiv. ring. }
  split.
  - rewrite <- E0. apply (incr_from_0 (fun t => (ln (1 + t) - ln (1 - t)) / 2 - atsum m t) (fun t => t ^ (2 * m) / (1 - t * t))); [lra| |].
    + intros u Hu. apply HL; lra.
    + intros u Hu. apply Rmult_le_pos; [apply pow_le; lra|]. apply Rlt_le, Rinv_0_lt_compat; nra.
  - assert (HS : 0 < INR (2 * m + 1)) by (apply lt_0_INR; lia).
    pose (h := fun t => t ^ (2 * m + 1) / (INR (2 * m + 1) * (1 - t * t)) - ((ln (1 + t) - ln (1 - t)) / 2 - atsum m t)).
    assert (h 0 <= h t); [|unfold h in *; rewrite E0, pow_i in H by lia; unfold Rdiv in H at 1; rewrite Rmult_0_l in H; lra].
    apply (incr_from_0 h (fun t => 2 * t * t ^ (2 * m + 1) / (INR (2 * m + 1) * ((1 - t * t) * (1 - t * t))))); [lra| |].
    + intros u Hu. unfold h. assert (u * u <> 1) by nra.
      replace (2 * u * u ^ (2 * m + 1) / (INR (2 * m + 1) * ((1 - u * u) * (1 - u * u)))) with
        ((/ INR (2 * m + 1)) * ((INR (2 * m + 1) * 1 * u ^ pred (2 * m + 1)) * / (1 - u * u) + u ^ (2 * m + 1) * (2 * u * / (1 - u * u) ^ 2)) - u ^ (2 * m) / (1 - u * u))
        by (replace (pred (2 * m + 1)) with (2 * m)%nat by lia; replace (2 * m + 1)%nat with (S (2 * m)) in * by lia; cbn [pow]; field; split; [lra|apply not_0_INR; lia]).
      apply (is_derive_minus (fun t => t ^ (2 * m + 1) / (INR (2 * m + 1) * (1 - t * t)))); [|apply HL; lra].
      apply (is_derive_ext_loc (fun t => / INR (2 * m + 1) * (t ^ (2 * m + 1) * / (1 - t * t)))).
      * assert (He : 0 < Rmin (1 - u) (1 + u)) by (apply Rmin_glb_lt; lra).
        exists (mkposreal _ He). intros v Hv. unfold ball in Hv; cbn in Hv. unfold AbsRing_ball, abs, minus, plus, opp in Hv; cbn in Hv.
        assert (Hv' : Rabs (v + - u) < 1 - u) by (eapply Rlt_le_trans; [exact Hv|apply Rmin_l]).
        apply Rabs_def2 in Hv'. change (/ INR (2 * m + 1) * (v ^ (2 * m + 1) * / (1 - v * v)) = v ^ (2 * m + 1) / (INR (2 * m + 1) * (1 - v * v))).
        unfold Rdiv. rewrite Rinv_mult. ring.
      * apply is_derive_scal. apply (is_derive_mult (fun t => t ^ (2 * m + 1)) (fun t => / (1 - t * t))).
        -- apply is_derive_pow. apply (is_derive_id u).
        -- auto_derive; [lra|field; lra].
        -- intros; apply Rmult_comm.
    + intros u Hu. apply Rmult_le_pos; [apply Rmult_le_pos; [lra|apply pow_le; lra]|]. apply Rlt_le, Rinv_0_lt_compat.
      apply Rmult_lt_0_compat; [exact HS|]. apply Rmult_lt_0_compat; nra.
Qed.
