(** ProofRounded17: rounding in shotnoise (C112). *)
From Coq Require Import ZArith Lia Reals Lra Psatz List Bool String.
From Verif Require Import Base Num BaseFacts Order Spec Common Registry PyTerms SpecPy SpecRounded SpecRounded2 SpecRounded5 ProofPy6 ProofRounded ProofRounded4 ProofRounded9.
Import ListNotations.
Local Open Scope R_scope.

Section Shotnoise.
Context (F : R -> Prop) (rnd : R -> R) (lm : libmR) (RD : rounding F rnd).
Local Notation Q := (QNum rnd lm).

(** The rounded exp(-(t - 1)^2), t being a rounded ratio *)
Definition side (t : R) : R := rnd (1 * q_exp lm (- rnd (rnd (t - 1) * rnd (t - 1)))).
Lemma one1 : rnd 1 = 1. Proof. apply (r_id _ _ RD), (r_one _ _ RD). Qed.
Lemma row_inside kmin kmax k : kmin <= k <= kmax -> shotnoise_row (N := Q) kmin kmax k = 1.
Proof. intros H. unfold shotnoise_row. qn. rewrite one1. destruct (Rltb_spec kmax k); [lra|]. destruct (Rltb_spec k kmin); [lra|reflexivity]. Qed.
Lemma row_above kmin kmax k : kmin <= kmax < k -> shotnoise_row (N := Q) kmin kmax k = side (rnd (k / kmax)).
Proof. intros H. unfold shotnoise_row, side. qn. rewrite one1. destruct (Rltb_spec kmax k); [|lra]. destruct (Rltb_spec k kmin); [lra|reflexivity]. Qed.
Lemma row_below kmin kmax k : k < kmin <= kmax -> shotnoise_row (N := Q) kmin kmax k = side (rnd (kmin / k)).
Proof. intros H. unfold shotnoise_row, side. qn. rewrite one1. destruct (Rltb_spec kmax k); [lra|]. destruct (Rltb_spec k kmin); [reflexivity|lra]. Qed.

Context (HE : monotone_exp lm).
Lemma sq_pos x : 0 <= rnd (x * x).
Proof. rewrite <- (r_id _ _ RD 0 (r_zero _ _ RD)) at 1. apply (r_mono _ _ RD). nra. Qed.
Lemma exp_1 x : 0 <= x -> 0 <= q_exp lm (- x) <= 1.
Proof. intros H. destruct HE as (E0 & EP & EM). split; [apply EP|]. rewrite <- E0. apply EM. lra. Qed.
Lemma times_range w y : 0 <= w <= 1 -> 0 <= y <= 1 -> 0 <= rnd (w * y) <= 1.
Proof. intros Hw Hy. split; [rewrite <- (r_id _ _ RD 0 (r_zero _ _ RD)) at 1|rewrite <- one1]; apply (r_mono _ _ RD); nra. Qed.
Lemma row_range kmin kmax k : 0 <= shotnoise_row (N := Q) kmin kmax k <= 1.
Proof.
  unfold shotnoise_row. qn. rewrite one1.
  assert (A : forall (b : bool) x, 0 <= (if b then rnd (1 * q_exp lm (- rnd (x * x))) else 1) <= 1) by (intros [] x; [apply times_range; [lra|apply exp_1, sq_pos]|lra]).
  destruct (Rltb k kmin); [|apply A]. apply times_range; [apply A|apply exp_1, sq_pos].
Qed.
Lemma sub1_pos t : 1 <= t -> 0 <= rnd (t - 1).
Proof. intros H. rewrite <- (r_id _ _ RD 0 (r_zero _ _ RD)) at 1. apply (r_mono _ _ RD). lra. Qed.
Lemma side_mono t t' : 1 <= t <= t' -> side t' <= side t.
Proof.
  intros H. unfold side. apply (r_mono _ _ RD), Rmult_le_compat_l; [lra|]. destruct HE as (_ & _ & EM). apply EM, Ropp_le_contravar, (r_mono _ _ RD).
  pose proof (sub1_pos t ltac:(lra)). assert (rnd (t - 1) <= rnd (t' - 1)) by (apply (r_mono _ _ RD); lra). nra.
Qed.
Lemma ratio_ge a b : 0 < b <= a -> 1 <= rnd (a / b).
Proof. intros H. rewrite <- one1 at 1. apply (r_mono _ _ RD). apply Rmult_le_reg_r with b; [lra|]. unfold Rdiv. rewrite Rmult_assoc, Rinv_l by lra. lra. Qed.
Lemma row_falls kmin kmax k k' : 0 < kmin <= kmax -> kmin <= k <= k' -> shotnoise_row (N := Q) kmin kmax k' <= shotnoise_row (N := Q) kmin kmax k.
Proof.
  intros Hm Hk. destruct (Rle_dec k kmax) as [A|A]; [rewrite (row_inside kmin kmax k) by lra; apply row_range|].
  rewrite !row_above by lra. apply side_mono. split; [apply ratio_ge; lra|]. apply (r_mono _ _ RD), Rmult_le_compat_r; [left; apply Rinv_0_lt_compat; lra|lra].
Qed.
Lemma row_rises kmin kmax k k' : 0 < kmin <= kmax -> 0 < k <= k' -> k' <= kmax -> shotnoise_row (N := Q) kmin kmax k <= shotnoise_row (N := Q) kmin kmax k'.
Proof.
  intros Hm Hk Hk'. destruct (Rle_dec kmin k') as [A|A]; [rewrite (row_inside kmin kmax k') by lra; apply row_range|].
  rewrite !row_below by lra. apply side_mono. split; [apply ratio_ge; lra|]. apply (r_mono _ _ RD), Rmult_le_compat_l; [lra|]. apply Rinv_le_contravar; lra.
Qed.

Context (u : R) (e : nat) (Hu : 0 <= u < 1) (HR : relative u rnd) (HA : accurate u e lm).
Lemma exp_lipschitz a b : 0 <= a -> 0 <= b -> Rabs (exp (- a) - exp (- b)) <= Rabs (a - b).
Proof.
  assert (G : forall a b, 0 <= a <= b -> 0 <= exp (- a) - exp (- b) <= b - a).
  { intros x y H. split; [pose proof (exp_le (- y) (- x) ltac:(lra)); lra|]. pose proof (exp_ineq1_le (x - y)) as L. replace (exp (- y)) with (exp (- x) * exp (x - y)) by (rewrite <- exp_plus; f_equal; ring).
    pose proof (exp_pos (- x)). assert (exp (- x) <= 1) by (rewrite <- exp_0; apply exp_le; lra). assert (exp (x - y) <= 1) by (rewrite <- exp_0; apply exp_le; lra). nra. }
  intros Ha Hb. destruct (Rle_dec a b) as [L|L].
  - destruct (G a b ltac:(lra)). rewrite Rabs_right by lra. rewrite Rabs_left1; lra.
  - destruct (G b a ltac:(lra)). rewrite Rabs_left1 by lra. rewrite Rabs_right; lra.
Qed.
Lemma side_error s : 1 <= s -> Rabs (side (rnd s) - exp (- (s - 1) ^ 2)) <= units u (S e) + units u 5 * (s + 1) ^ 2.
Proof.
  intros Hs. unfold side. set (x := rnd (rnd s - 1)). 
  assert (W : within u 2 x (s - 1) (s + 1)).
  { unfold x, Rminus. replace (s + 1) with (s + Rabs (- (1))) by (rewrite Rabs_Ropp, Rabs_R1; ring). eapply w_rnd_add; [exact Hu|exact HR| | |reflexivity].
    - apply w_close'; [exact Hu|apply rnd_close; assumption|lra].
    - apply w_weak with 0%nat; [exact Hu|apply w_exact, Hu|lia]. }
  assert (W2 : within u 5 (rnd (x * x)) ((s - 1) * (s - 1)) ((s + 1) * (s + 1))) by (eapply w_rnd_mul; [exact Hu|exact HR|exact W|exact W|reflexivity]).
  destruct W2 as [_ W2]. set (a := rnd (x * x)) in *. assert (Pa : 0 <= a) by apply sq_pos.
  assert (C : close u (S e) (rnd (1 * q_exp lm (- a))) (exp (- a))) by (apply rnd_step; [exact Hu|exact HR|]; rewrite Rmult_1_l; apply HA).
  destruct (w_close' u Hu _ _ _ C ltac:(left; apply exp_pos)) as [_ B].
  assert (E1 : exp (- a) <= 1) by (rewrite <- exp_0; apply exp_le; lra). pose proof (units_pos u Hu (S e)) as UP.
  pose proof (exp_lipschitz a ((s - 1) * (s - 1)) Pa ltac:(nra)) as L. replace ((s - 1) ^ 2) with ((s - 1) * (s - 1)) by ring. replace ((s + 1) ^ 2) with ((s + 1) * (s + 1)) by ring.
  replace (rnd (1 * q_exp lm (- a)) - exp (- ((s - 1) * (s - 1)))) with (rnd (1 * q_exp lm (- a)) - exp (- a) + (exp (- a) - exp (- ((s - 1) * (s - 1))))) by ring.
  eapply Rle_trans; [apply Rabs_triang|]. apply Rplus_le_compat; [|lra]. eapply Rle_trans; [exact B|]. nra.
Qed.
Lemma row_error kmin kmax k : 0 < kmin <= kmax -> 0 < k ->
  Rabs (shotnoise_row (N := Q) kmin kmax k - window kmin kmax k) <= units u (S e) + units u 5 * (Rmax (k / kmax) (kmin / k) + 1) ^ 2.
Proof.
  intros Hm Hk. pose proof (units_pos u Hu (S e)) as U1. pose proof (units_pos u Hu 5) as U2.
  destruct (Rlt_dec kmax k) as [A|A]; [|destruct (Rlt_dec k kmin) as [B|B]].
  - assert (G : forall a b, 0 < b < a -> b / a <= 1 <= a / b).
    { intros a b H. split; [apply Rmult_le_reg_r with a|apply Rmult_le_reg_r with b]; try lra; unfold Rdiv; rewrite Rmult_assoc, Rinv_l by lra; lra. }
    destruct (G k kmax ltac:(lra)) as [_ G1]. destruct (G k kmin ltac:(lra)) as [G2 _].
    rewrite row_above by lra. unfold window. rewrite (Rmax_left (k / kmax) 1), (Rmax_right (kmin / k) 1), (Rmax_left (k / kmax)) by lra. replace (- (1 - 1) ^ 2) with 0 by ring. rewrite exp_0, Rmult_1_r. apply side_error, G1.
  - assert (G : forall a b, 0 < b < a -> b / a <= 1 <= a / b).
    { intros a b H. split; [apply Rmult_le_reg_r with a|apply Rmult_le_reg_r with b]; try lra; unfold Rdiv; rewrite Rmult_assoc, Rinv_l by lra; lra. }
    destruct (G kmin k ltac:(lra)) as [_ G1]. destruct (G kmax k ltac:(lra)) as [G2 _].
    rewrite row_below by lra. unfold window. rewrite (Rmax_right (k / kmax) 1), (Rmax_left (kmin / k) 1), (Rmax_right (k / kmax)) by lra. replace (- (1 - 1) ^ 2) with 0 by ring. rewrite exp_0, Rmult_1_l. apply side_error, G1.
  - rewrite row_inside by lra. destruct (window_facts kmin kmax Hm) as (W & _). rewrite W by lra. unfold Rminus. rewrite Rplus_opp_r, Rabs_R0. pose proof (pow2_ge_0 (Rmax (k / kmax) (kmin / k) + 1)). nra.
Qed.
End Shotnoise.

Lemma shotnoise_at rnd lm (c : columns RNum) K kmin kmax : getitem c "k" = Ok K ->
  exists w, shotnoise (N := QNum rnd lm) c kmin kmax = Ok w /\ List.length w = List.length K /\ forall i, (i < List.length K)%nat -> at_ w i = shotnoise_row (N := QNum rnd lm) kmin kmax (at_ K i).
Proof.
  intros HG. exists (map (shotnoise_row (N := QNum rnd lm) kmin kmax) K). split; [|split; [apply map_length|]].
  - unfold shotnoise. change (getitem (N := QNum rnd lm) c "k") with (getitem (N := RNum) c "k"). rewrite HG. reflexivity.
  - intros i Hi. unfold at_. rewrite (nth_indep _ 0 (shotnoise_row (N := QNum rnd lm) kmin kmax 0)) by (rewrite map_length; exact Hi). apply map_nth.
Qed.
Lemma shotnoise_rounded F rnd lm (c : columns RNum) K kmin kmax : rounding F rnd -> monotone_exp lm -> getitem c "k" = Ok K -> 0 < kmin <= kmax ->
  exists w, shotnoise (N := QNum rnd lm) c kmin kmax = Ok w /\ List.length w = List.length K /\
    (forall i, (i < List.length K)%nat -> 0 <= at_ w i <= 1) /\
    (forall i, (i < List.length K)%nat -> kmin <= at_ K i <= kmax -> at_ w i = 1) /\
    (forall i j, (i < List.length K)%nat -> (j < List.length K)%nat -> kmin <= at_ K i <= at_ K j -> at_ w j <= at_ w i) /\
    (forall i j, (i < List.length K)%nat -> (j < List.length K)%nat -> 0 < at_ K i <= at_ K j -> at_ K j <= kmax -> at_ w i <= at_ w j).
Proof.
  intros RD HE HG Hm. destruct (shotnoise_at rnd lm c K kmin kmax HG) as (w & E & L & V). exists w. split; [exact E|]. split; [exact L|]. split; [|split; [|split]].
  - intros i Hi. rewrite V by exact Hi. apply (row_range F rnd lm RD HE).
  - intros i Hi H. rewrite V by exact Hi. apply (row_inside F rnd lm RD), H.
  - intros i j Hi Hj H. rewrite !V by assumption. apply (row_falls F rnd lm RD HE); assumption.
  - intros i j Hi Hj H H'. rewrite !V by assumption. apply (row_rises F rnd lm RD HE); assumption.
Qed.
Lemma shotnoise_error F rnd lm u e (c : columns RNum) K kmin kmax : rounding F rnd -> 0 <= u < 1 -> relative u rnd -> accurate u e lm -> getitem c "k" = Ok K -> 0 < kmin <= kmax ->
  exists w, shotnoise (N := QNum rnd lm) c kmin kmax = Ok w /\ List.length w = List.length K /\
    forall i, (i < List.length K)%nat -> 0 < at_ K i -> Rabs (at_ w i - window kmin kmax (at_ K i)) <= units u (e + 1) + units u 5 * (Rmax (at_ K i / kmax) (kmin / at_ K i) + 1) ^ 2.
Proof.
  intros RD Hu HR HA HG Hm. destruct (shotnoise_at rnd lm c K kmin kmax HG) as (w & E & L & V). exists w. split; [exact E|]. split; [exact L|].
  intros i Hi Hp. rewrite V by exact Hi. rewrite Nat.add_1_r. apply (row_error F rnd lm RD u e Hu HR HA); assumption.
Qed.
