(** ProofRounded4: relative errors of [power] and of the running variance. *)
From Coq Require Import ZArith Lia Reals Lra Psatz List Bool.
From Verif Require Import Base Num BaseFacts Order Spec Common ProofSearch ProofInterp ProofFindPk ProofFindPkR SpecRounded ProofRounded ProofRounded2 ProofRounded3.
From Flocq Require Import Core.
Import ListNotations.
Local Open Scope R_scope.

Section Close.
Context (u : R) (Hu : 0 <= u < 1).
Let v := 1 - u.
Lemma v01 : 0 < v <= 1. Proof. unfold v. lra. Qed.
Lemma vn n : 0 < v ^ n <= 1.
Proof. destruct v01 as [A B]. split; [apply pow_lt, A|]. rewrite <- (pow1 n). apply pow_incr. lra. Qed.
Lemma vni n : 1 <= / v ^ n.
Proof. destruct (vn n) as [A B]. rewrite <- Rinv_1. apply Rinv_le; lra. Qed.
Lemma close_lo n a b : close u n a b -> 0 <= b -> b * v ^ n <= a.
Proof. intros (t & [H _] & ->) Hb. fold v in H. now apply Rmult_le_compat_l. Qed.
Lemma close_hi n a b : close u n a b -> 0 <= b -> a * v ^ n <= b.
Proof.
  intros (t & [_ H] & ->) Hb. fold v in H. destruct (vn n) as [A B]. apply (Rmult_le_compat_r (v ^ n)) in H; [|lra]. rewrite Rinv_l in H by lra.
  rewrite Rmult_assoc. rewrite <- (Rmult_1_r b) at 2. now apply Rmult_le_compat_l.
Qed.
Lemma close_intro n a b : 0 <= b -> b * v ^ n <= a -> a * v ^ n <= b -> close u n a b.
Proof.
  intros Hb H1 H2. destruct (vn n) as [A B]. destruct Hb as [Hb|Hb].
  - exists (a / b). fold v. split; [|field; lra]. split.
    + apply Rmult_le_reg_l with b; [exact Hb|]. replace (b * (a / b)) with a by (field; lra). exact H1.
    + apply Rmult_le_reg_l with b; [exact Hb|]. replace (b * (a / b)) with a by (field; lra).
      apply Rmult_le_reg_r with (v ^ n); [exact A|]. rewrite Rmult_assoc, Rinv_l by lra. lra.
  - subst b. exists 1. fold v. split; [split; [lra|apply vni]|]. nra.
Qed.
Lemma close_refl n a : close u n a a.
Proof. exists 1. fold v. destruct (vn n). split; [split; [lra|apply vni]|ring]. Qed.
Lemma close_pos n a b : close u n a b -> 0 <= b -> 0 <= a.
Proof. intros H Hb. apply close_lo in H; [|exact Hb]. destruct (vn n). nra. Qed.
Lemma factor_mul n m s t : v ^ n <= s <= / v ^ n -> v ^ m <= t <= / v ^ m -> v ^ (n + m) <= s * t <= / v ^ (n + m).
Proof.
  intros [A B] [C D]. destruct (vn n), (vn m). rewrite pow_add, Rinv_mult. split; apply Rmult_le_compat; lra.
Qed.
Lemma close_trans n m a b c : close u n a b -> close u m b c -> close u (n + m) a c.
Proof.
  intros (s & Hs & ->) (t & Ht & ->). exists (s * t). fold v in Hs, Ht |- *. split; [now apply factor_mul|ring].
Qed.
Lemma close_weaken n m a b : close u n a b -> (n <= m)%nat -> close u m a b.
Proof. intros H Hnm. replace m with (n + (m - n))%nat by lia. apply close_trans with b; [exact H|apply close_refl]. Qed.
Lemma close_mul n m a b c d : close u n a b -> close u m c d -> close u (n + m) (a * c) (b * d).
Proof. intros (s & Hs & ->) (t & Ht & ->). exists (s * t). fold v in Hs, Ht |- *. split; [now apply factor_mul|ring]. Qed.
Lemma close_inv n a b : close u n a b -> b <> 0 -> close u n (/ a) (/ b).
Proof.
  intros (t & [A B] & ->) Hb. fold v in A, B. destruct (vn n). exists (/ t). fold v. split; [|field; split; lra]. split.
  - rewrite <- (Rinv_inv (v ^ n)). apply Rinv_le; lra.
  - apply Rinv_le; lra.
Qed.
Lemma close_div n m a b c d : close u n a b -> close u m c d -> d <> 0 -> close u (n + m) (a / c) (b / d).
Proof. intros H1 H2 Hd. unfold Rdiv. apply close_mul; [exact H1|now apply close_inv]. Qed.
Lemma close_add n a b c d : close u n a b -> close u n c d -> 0 <= b -> 0 <= d -> close u n (a + c) (b + d).
Proof.
  intros H1 H2 Hb Hd. pose proof (close_lo _ _ _ H1 Hb). pose proof (close_hi _ _ _ H1 Hb). pose proof (close_lo _ _ _ H2 Hd). pose proof (close_hi _ _ _ H2 Hd).
  apply close_intro; lra.
Qed.

Context (rnd : R -> R) (HR : relative u rnd).
Lemma rnd_close x : close u 1 (rnd x) x.
Proof.
  pose proof (HR x) as H. pose proof v01 as [V1 V2].
  assert (I : 1 + u <= / (1 - u)).
  { fold v. apply Rmult_le_reg_r with v; [exact V1|]. rewrite Rinv_l by lra. unfold v. nra. }
  destruct (Req_dec x 0) as [->|Hx].
  - rewrite Rabs_R0, Rmult_0_r in H. exists 1. rewrite !pow_1. split; [split; lra|].
    assert (rnd 0 - 0 = 0) by (destruct (Req_dec (rnd 0 - 0) 0) as [E|E]; [exact E|apply Rabs_pos_lt in E; lra]). lra.
  - exists (rnd x / x). rewrite !pow_1. split; [|field; exact Hx].
    assert (B : Rabs (rnd x / x - 1) <= u).
    { replace (rnd x / x - 1) with ((rnd x - x) / x) by (field; exact Hx). unfold Rdiv. rewrite Rabs_mult, Rabs_inv.
      apply Rmult_le_reg_r with (Rabs x); [now apply Rabs_pos_lt|]. rewrite Rmult_assoc, Rinv_l, Rmult_1_r by (apply Rabs_no_R0; exact Hx). exact H. }
    unfold Rabs in B. destruct (Rcase_abs _) in B; split; lra.
Qed.
Lemma rnd_step n a b : close u n a b -> close u (S n) (rnd a) b.
Proof. intros H. change (S n) with (1 + n)%nat. apply close_trans with a; [|exact H]. apply rnd_close. Qed.
Lemma rnd_step' n m a b : close u n a b -> m = S n -> close u m (rnd a) b.
Proof. intros H ->. now apply rnd_step. Qed.

(** ** power *)
Context (lm : libmR).
Local Notation Q := (QNum rnd lm).
Lemma power_loop_close e : forall (base base' res res' : R) n m, close u n base base' -> close u m res res' ->
  close u (m + (n + 1) * Pos.to_nat e) (power_loop (N := Q) base res e) (power_loop (N := RNum) base' res' e).
Proof.
  induction e as [e IH|e IH|]; intros base base' res res' n m Hb Hr; cbn [power_loop]; qn; rn.
  - eapply close_weaken; [apply IH; apply rnd_step, close_mul; eassumption|]. rewrite Pos2Nat.inj_xI. nia.
  - eapply close_weaken; [apply IH; [apply rnd_step, close_mul; eassumption|exact Hr]|]. rewrite Pos2Nat.inj_xO. nia.
  - eapply close_weaken; [apply rnd_step, close_mul; eassumption|]. rewrite Pos2Nat.inj_1. lia.
Qed.
End Close.
