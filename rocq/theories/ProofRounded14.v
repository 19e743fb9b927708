(** ProofRounded14: sigmar in rounded arithmetic. *)
From Coq Require Import ZArith Lia Reals Lra Psatz List Bool String Permutation.
From Coquelicot Require Import Coquelicot.
From Verif Require Import Base Num BaseFacts Order Sums Spec Common Registry PyTerms SpecPy SpecRounded SpecRounded2 SpecRounded4 ProofRounded4 ProofRounded8 ProofRounded9 ProofRounded13 ProofPy ProofPy2.
From Flocq Require Import Core.
Import ListNotations.
Local Open Scope R_scope.

Lemma sin_lip x y : Rabs (sin x - sin y) <= Rabs (x - y).
Proof.
  destruct (MVT_gen sin y x cos) as (z & _ & E); [intros t _; auto_derive; [exact I|ring]|intros t _; apply continuity_sin|]. rewrite E, Rabs_mult. pose proof (Rabs_pos (x - y)). assert (Rabs (cos z) <= 1) by (apply Rabs_le, COS_bound). nra.
Qed.
Lemma cos_lip x y : Rabs (cos x - cos y) <= Rabs (x - y).
Proof.
  destruct (MVT_gen cos y x (fun t => - sin t)) as (z & _ & E); [intros t _; auto_derive; [exact I|ring]|intros t _; apply continuity_cos|]. rewrite E, Rabs_mult, Rabs_Ropp. pose proof (Rabs_pos (x - y)). assert (Rabs (sin z) <= 1) by (apply Rabs_le, SIN_bound). nra.
Qed.
Lemma sin_le_abs x : Rabs (sin x) <= Rabs x.
Proof. pose proof (sin_lip x 0) as H. rewrite sin_0, !Rminus_0_r in H. exact H. Qed.

Section Model.
Context (F : R -> Prop) (rnd : R -> R) (lm : libmR) (u : R) (e : nat) (RD : rounding F rnd) (Hu : 0 <= u <= 1 / 100) (HR : relative u rnd) (HA : accurate u e lm) (HT : accurate_trig u e lm) (HI : integers F).
Notation Q := (QNum rnd lm).
Local Lemma u01 : 0 <= u < 1. Proof. lra. Qed.
(** a function with slope of at most 1 of an argument with one rounding *)
Lemma shifted g q x x' s : (forall y z, Rabs (g y - g z) <= Rabs (y - z)) -> close u e q (g x') -> within u 1 x' x x -> Rabs (g x') <= / (1 - u) * s -> Rabs (g x) <= s -> x <= s -> within u (S e) q (g x) s.
Proof.
  intros HL HC [A B] S1 S2 S3. split; [exact S2|]. destruct (w_close u u01 _ _ _ HC) as [_ W]. replace (q - g x) with ((q - g x') + (g x' - g x)) by ring. eapply Rle_trans; [apply Rabs_triang|].
  pose proof (HL x' x) as L. pose proof (units_pos u u01 e) as U. pose proof (units_pos u u01 1) as U1.
  assert (T1 : units u e * Rabs (g x') <= units u e * (/ (1 - u) * s)) by (apply Rmult_le_compat_l; assumption). assert (T2 : units u 1 * x <= units u 1 * s) by (apply Rmult_le_compat_l; assumption).
  replace (units u (S e) * s) with (units u e * (/ (1 - u) * s) + units u 1 * s); [lra|]. unfold units. cbn [pow]. rewrite Rmult_1_r, Rinv_mult. ring.
Qed.
Context (k r : R) (Hk : 0 < k) (Hr : 0 < r).
Notation x := (k * r).
Notation x' := (rnd (k * r)).
Lemma x_pos : 0 < x. Proof. apply Rmult_lt_0_compat; assumption. Qed.
Lemma x_close : close u 1 x' x. Proof. apply rnd_close; [exact u01|exact HR]. Qed.
Lemma x_within : within u 1 x' x x. Proof. apply w_close'; [exact u01|exact x_close|pose proof x_pos; lra]. Qed.
Lemma x_size : Rabs x' <= / (1 - u) * x.
Proof. destruct (w_size u _ _ _ _ x_within) as [_ H]. cbn [pow] in H. rewrite Rmult_1_r in H. exact H. Qed.
Lemma inv_ge1 : 1 <= / (1 - u).
Proof. pose proof (vni u u01 1) as H. cbn [pow] in H. rewrite Rmult_1_r in H. exact H. Qed.
Lemma sin_w : within u (S e) (q_sin lm x') (sin x) x.
Proof.
  pose proof x_pos. apply (shifted sin _ x x'); [exact sin_lip|apply HT|exact x_within| | |lra].
  - eapply Rle_trans; [apply sin_le_abs|exact x_size].
  - eapply Rle_trans; [apply sin_le_abs|]. rewrite Rabs_right by lra. lra.
Qed.
Lemma cos_w : within u (S e) (q_cos lm x') (cos x) (1 + x).
Proof.
  pose proof x_pos. pose proof inv_ge1. apply (shifted cos _ x x'); [exact cos_lip|apply HT|exact x_within| | |lra].
  - assert (Rabs (cos x') <= 1) by (apply Rabs_le, COS_bound). nra.
  - assert (Rabs (cos x) <= 1) by (apply Rabs_le, COS_bound). lra.
Qed.
Lemma rint3 : rnd 3 = 3.
Proof. pose proof (r_id F rnd RD _ (HI 3%nat ltac:(lia))) as H. replace (INR 3) with 3 in H by (cbn; ring). exact H. Qed.
Lemma top_w : within u (2 * e + 9) (rnd (rnd (rnd 3 * rnd (q_sin lm x' - rnd (x' * q_cos lm x'))) / q_pow lm x' (rnd 3))) (tophat x) (tophat_size x).
Proof.
  pose proof x_pos as Hx. rewrite rint3.
  assert (A : within u (e + 3) (rnd (x' * q_cos lm x')) (x * cos x) (x * (1 + x))) by (apply (w_rnd_mul u u01 rnd HR 1 (S e)); [exact x_within|exact cos_w|lia]).
  assert (B : within u (e + 4) (rnd (q_sin lm x' - rnd (x' * q_cos lm x'))) (sin x - x * cos x) (x + x * (1 + x))).
  { apply (w_rnd_add u u01 rnd HR (e + 3)); [apply (w_weak u u01 (S e)); [exact sin_w|lia]|apply w_opp, A|lia]. }
  assert (T3 : within u 0 3 3 3) by (pose proof (w_exact u u01 3) as W; rewrite Rabs_right in W by lra; exact W).
  assert (C : within u (e + 5) (rnd (3 * rnd (q_sin lm x' - rnd (x' * q_cos lm x')))) (3 * (sin x - x * cos x)) (3 * (x + x * (1 + x)))) by (apply (w_rnd_mul u u01 rnd HR 0 (e + 4)); [exact T3|exact B|lia]).
  assert (P : close u (e + 3) (q_pow lm x' 3) (x ^ 3)).
  { replace 3 with (INR 3) at 1 by (cbn; ring). eapply close_trans; [exact u01|apply (proj2 HA)|]. pose proof x_close as X. pose proof (close_mul u u01 _ _ _ _ _ _ X (close_mul u u01 _ _ _ _ _ _ X X)) as X3. cbn [pow]. rewrite !Rmult_1_r. exact X3. }
  assert (D : within u (e + 3) (/ q_pow lm x' 3) (/ x ^ 3) (/ x ^ 3)).
  { apply w_close'; [exact u01| |left; apply Rinv_0_lt_compat, pow_lt, Hx]. apply close_inv; [exact u01|exact P|apply pow_nonzero; lra]. }
  replace (2 * e + 9)%nat with (S (e + 5 + (e + 3))) by lia. apply w_rnd; [exact u01|exact HR|].
  replace (tophat x) with (3 * (sin x - x * cos x) * / x ^ 3) by reflexivity. replace (tophat_size x) with (3 * (x + x * (1 + x)) * / x ^ 3) by (unfold tophat_size; field; lra). apply w_mul; [exact C|exact D].
Qed.
Lemma row_w (p : R) : 0 <= p ->
  let w := rnd (rnd (rnd 3 * rnd (q_sin lm x' - rnd (x' * q_cos lm x'))) / q_pow lm x' (rnd 3)) in let wk := rnd (w * k) in
  within u (4 * e + 22) (rnd (p * rnd (wk * wk))) (p * (tophat x * k) ^ 2) (p * (tophat_size x * k) ^ 2) /\ 0 <= rnd (p * rnd (wk * wk)).
Proof.
  intros Hp w wk. assert (K0 : within u 0 k k k) by (pose proof (w_exact u u01 k) as W; rewrite Rabs_right in W by lra; exact W). assert (P0 : within u 0 p p p) by (pose proof (w_exact u u01 p) as W; rewrite Rabs_right in W by lra; exact W).
  assert (A : within u (2 * e + 10) wk (tophat x * k) (tophat_size x * k)) by (apply (w_rnd_mul u u01 rnd HR (2 * e + 9) 0); [exact top_w|exact K0|lia]). split.
  - apply (w_rnd_mul u u01 rnd HR 0 (4 * e + 21)); [exact P0| |lia]. cbn [pow]. rewrite !Rmult_1_r. apply (w_rnd_mul u u01 rnd HR (2 * e + 10) (2 * e + 10)); [exact A|exact A|lia].
  - apply (rnd_pos F rnd RD), Rmult_le_pos; [exact Hp|]. apply (rnd_pos F rnd RD). nra.
Qed.
End Model.

Section Sigmar.
Context (F : R -> Prop) (rnd : R -> R) (lm : libmR) (u : R) (e : nat) (RD : rounding F rnd) (Hu : 0 <= u <= 1 / 100) (HR : relative u rnd) (HA : accurate u e lm) (HT : accurate_trig u e lm) (HI : integers F).
Notation Q := (QNum rnd lm).
Lemma sigmar_order (K v : list R) r S : increasing K -> length v = length K -> Forall (fun x => 0 <= x) v -> 0 < r -> (forall i, (i < length K)%nat -> 0 < at_ K i) ->
  any_order rnd (trapezia rnd K (map (fun i => sigmar_row rnd lm r (at_ v i) (at_ K i)) (seq 0 (length K)))) S ->
  let s := rnd (sqrt (rnd (rnd (rnd (rnd 1 / rnd 2) / q_pow lm (rnd PI) (rnd 2)) * S))) in
  let integral W := trapz K (map (fun i => at_ v i * (W (at_ K i * r) * at_ K i) ^ 2) (seq 0 (length K))) / (2 * PI ^ 2) in let x := sqrt (integral tophat) in
  0 < x -> Rabs (s - x) <= units u (length K + 5 * e + 32) * (integral tophat_size / x).
Proof.
  intros HK HL Hv Hr Kp HO s integral x Hx. pose proof (at_nonneg v Hv) as P.
  set (y' := map (fun i => sigmar_row rnd lm r (at_ v i) (at_ K i)) (seq 0 (length K))) in *. set (y := map (fun i => at_ v i * (tophat (at_ K i * r) * at_ K i) ^ 2) (seq 0 (length K))). set (m := map (fun i => at_ v i * (tophat_size (at_ K i * r) * at_ K i) ^ 2) (seq 0 (length K))).
  assert (AT : forall (f : nat -> R) i, (i < length K)%nat -> at_ (map f (seq 0 (length K))) i = f i).
  { intros f i Hi. unfold at_. rewrite (nth_indep _ 0 (f 0%nat)) by (rewrite map_length, seq_length; exact Hi). rewrite map_nth, seq_nth by exact Hi. reflexivity. }
  assert (HW : forall i, (i < length K)%nat -> within u (4 * e + 22) (at_ y' i) (at_ y i) (at_ m i)) by (intros i Hi; unfold y', y, m; rewrite !AT by exact Hi; apply (row_w F rnd lm u e RD Hu HR HA HT HI); auto).
  assert (Hy : forall i, 0 <= at_ y' i).
  { apply at_nonneg, Forall_map, Forall_forall. intros i Hi. apply in_seq in Hi. apply (row_w F rnd lm u e RD Hu HR HA HT HI); auto. apply Kp. lia. }
  assert (Ly : length y' = length K) by (unfold y'; rewrite map_length, seq_length; reflexivity).
  assert (HS : 0 <= S) by exact (order_pos F rnd RD _ _ HO (trapezia_pos F rnd RD K y' HK Hy)).
  pose proof (root_within F rnd lm u e RD Hu HR HA HI 2 (4 * e + 22) K y' y m S ltac:(lia) HK Ly HW Hy HS HO) as (A & W). cbv zeta in A, W.
  replace (INR 2) with 2 in A, W by (cbn; ring).
  assert (E : forall q, 1 / 2 / PI ^ 2 * trapz K q = trapz K q / (2 * PI ^ 2)) by (intros q; field; apply PI_neq0). rewrite !E in W.
  change (trapz K y / (2 * PI ^ 2)) with (integral tophat) in W. change (trapz K m / (2 * PI ^ 2)) with (integral tophat_size) in W.
  assert (B : 0 < integral tophat) by (destruct (Rle_lt_dec (integral tophat) 0) as [N|N]; [exfalso; unfold x in Hx; rewrite (sqrt_neg_0 _ N) in Hx; lra|exact N]).
  pose proof (w_rnd u (u01 u Hu) rnd HR _ _ _ _ (sqrt_within u _ _ _ _ A B W)) as [_ R]. replace (length K + 5 * e + 32)%nat with (Datatypes.S (4 * e + 22 + length K + e + 9)) by lia. exact R.
Qed.
Lemma sigmar_error (c : columns RNum) (K v : list R) r : getitem c "k" = Ok K -> increasing K -> length v = length K -> Forall (fun x => 0 <= x) v -> 0 < r -> (forall i, (i < length K)%nat -> 0 < at_ K i) ->
  exists s, sigmar (N := Q) c r (Ok v) = Ok s /\
  let integral W := trapz K (map (fun i => at_ v i * (W (at_ K i * r) * at_ K i) ^ 2) (seq 0 (length K))) / (2 * PI ^ 2) in let x := sqrt (integral tophat) in
  0 < x -> Rabs (s - x) <= units u (length K + 5 * e + 32) * (integral tophat_size / x).
Proof.
  intros HG HK HL Hv Hr Kp. set (y := map (fun i => sigmar_row rnd lm r (at_ v i) (at_ K i)) (seq 0 (length K))). assert (Ly : length y = length K) by (unfold y; rewrite map_length, seq_length; reflexivity).
  eexists. split; [|exact (sigmar_order K v r (np_trapz (N := Q) y K) HK HL Hv Hr Kp (np_order F rnd lm RD HI K y Ly))].
  unfold sigmar. change (getitem (N := Q) c "k") with (getitem (N := RNum) c "k"). rewrite HG. cbn [bind]. unfold elementwise. cbn [forallb]. change (T Q) with R in *. rewrite HL, !Nat.eqb_refl. cbn [andb bind].
  match goal with |- context [@np_trapz _ ?q K] => replace q with y; [reflexivity|] end. unfold y. apply map_ext_in. intros i Hi. apply in_seq in Hi. cbn [map].
  rewrite !(nth_indep _ (nZ Q 0) 0) by (change (T Q) with R; lia). reflexivity.
Qed.
End Sigmar.
