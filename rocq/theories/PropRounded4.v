(** PropRounded4: C109, rounding in sigmav and sigmar.  Arithmetic and notions: SpecRounded.v, SpecRounded2.v, SpecRounded4.v.  [sigmav c (Ok v)] is o.sigmav() of an object with the columns [c] whose pk() returns [v];
    [e] is the accuracy of the functions of the C library. *)
From Coq Require Import ZArith Reals Lra Lia List String.
From Verif Require Import Base Num Order Sums Spec Common Registry PyTerms SpecPy SpecRounded SpecRounded2 SpecRounded4 ProofRounded4 ProofRounded6 ProofRounded8 ProofRounded9 ProofRounded10 ProofRounded13 ProofRounded14.
Import ListNotations.
Local Open Scope R_scope.

(** The trapezoidal sum of a spectrum without negative values has a relative error of at most n + 4 roundings for n points, in whatever order the terms are added; *)
Theorem C109_order rnd u (K v : list R) S : 0 <= u <= 1 / 100 -> relative u rnd -> increasing K -> length v = length K -> Forall (fun x => 0 <= x) v ->
  any_order rnd (trapezia rnd K v) S -> Rabs (S - trapz K v) <= units u (length K + 4) * trapz K v.
Proof. exact (fun Hu HR => sum_error rnd u Hu HR K v S). Qed.
Print Assumptions C109_order.
(** the model adds them in one of these orders. *)
Theorem C109_model F rnd lm (K v : list R) : rounding F rnd -> integers F -> length v = length K -> any_order rnd (trapezia rnd K v) (np_trapz (N := QNum rnd lm) v K).
Proof. exact (fun RD HI => np_order F rnd lm RD HI K v). Qed.
Print Assumptions C109_model.
(** sigmav: relative error of n + e + 10 roundings; *)
Theorem C109_sigmav F rnd lm u e (c : columns RNum) (K v : list R) : rounding F rnd -> 0 <= u <= 1 / 100 -> relative u rnd -> accurate u e lm -> integers F ->
  getitem c "k" = Ok K -> increasing K -> length v = length K -> Forall (fun x => 0 <= x) v ->
  exists s, sigmav (N := QNum rnd lm) c (Ok v) = Ok s /\ let x := sqrt (trapz K v / (6 * PI ^ 2)) in Rabs (s - x) <= units u (length K + e + 10) * x.
Proof. exact (fun RD Hu HR HA HI => sigmav_error F rnd lm u e RD Hu HR HA HI c K v). Qed.
Print Assumptions C109_sigmav.
(** in whatever order the terms are added. *)
Theorem C109_sigmav_order F rnd lm u e (K v : list R) S : rounding F rnd -> 0 <= u <= 1 / 100 -> relative u rnd -> accurate u e lm -> integers F ->
  increasing K -> length v = length K -> Forall (fun x => 0 <= x) v -> any_order rnd (trapezia rnd K v) S ->
  let s := rnd (sqrt (rnd (rnd (rnd (rnd 1 / rnd 6) / q_pow lm (rnd PI) (rnd 2)) * S))) in let x := sqrt (trapz K v / (6 * PI ^ 2)) in
  Rabs (s - x) <= units u (length K + e + 10) * x.
Proof. exact (fun RD Hu HR HA HI => sigmav_order F rnd lm u e RD Hu HR HA HI K v S). Qed.
Print Assumptions C109_sigmav_order.
(** sigmar: n + 5 e + 32 roundings, relative to the integral in which the two terms of the transform of the sphere, which cancel for small k r, are taken with their sizes; *)
Theorem C109_sigmar F rnd lm u e (c : columns RNum) (K v : list R) r : rounding F rnd -> 0 <= u <= 1 / 100 -> relative u rnd -> accurate u e lm -> accurate_trig u e lm -> integers F ->
  getitem c "k" = Ok K -> increasing K -> length v = length K -> Forall (fun x => 0 <= x) v -> 0 < r -> (forall i, (i < length K)%nat -> 0 < at_ K i) ->
  exists s, sigmar (N := QNum rnd lm) c r (Ok v) = Ok s /\
  let integral W := trapz K (map (fun i => at_ v i * (W (at_ K i * r) * at_ K i) ^ 2) (seq 0 (length K))) / (2 * PI ^ 2) in let x := sqrt (integral tophat) in
  0 < x -> Rabs (s - x) <= units u (length K + 5 * e + 32) * (integral tophat_size / x).
Proof. exact (fun RD Hu HR HA HT HI => sigmar_error F rnd lm u e RD Hu HR HA HT HI c K v r). Qed.
Print Assumptions C109_sigmar.
(** in whatever order the terms are added. *)
Theorem C109_sigmar_order F rnd lm u e (K v : list R) r S : rounding F rnd -> 0 <= u <= 1 / 100 -> relative u rnd -> accurate u e lm -> accurate_trig u e lm -> integers F ->
  increasing K -> length v = length K -> Forall (fun x => 0 <= x) v -> 0 < r -> (forall i, (i < length K)%nat -> 0 < at_ K i) ->
  any_order rnd (trapezia rnd K (map (fun i => sigmar_row rnd lm r (at_ v i) (at_ K i)) (seq 0 (length K)))) S ->
  let s := rnd (sqrt (rnd (rnd (rnd (rnd 1 / rnd 2) / q_pow lm (rnd PI) (rnd 2)) * S))) in
  let integral W := trapz K (map (fun i => at_ v i * (W (at_ K i * r) * at_ K i) ^ 2) (seq 0 (length K))) / (2 * PI ^ 2) in let x := sqrt (integral tophat) in
  0 < x -> Rabs (s - x) <= units u (length K + 5 * e + 32) * (integral tophat_size / x).
Proof. exact (fun RD Hu HR HA HT HI => sigmar_order F rnd lm u e RD Hu HR HA HT HI K v r S). Qed.
Print Assumptions C109_sigmar_order.
(** (units (/ 2 ^ 53) n is below 1e-12 for n up to 5017: C105_figure.) *)
Lemma two_points_inc : increasing [PI / 2; PI].
Proof. intros [|[|i]] [|[|j]] H; cbn in *; try lia. pose proof PI_RGT_0. lra. Qed.
Example C109_ex : let c := [("k", [PI / 2; PI]); ("pk", [1; 1])]%string in exists s t,
  sigmav (N := QNum to_wide exact_libm) c (Ok [1; 1]) = Ok s /\ Rabs (s - sqrt (PI / 2 / (6 * PI ^ 2))) <= 1 / 10 ^ 12 * sqrt (PI / 2 / (6 * PI ^ 2)) /\
  sigmar (N := QNum to_wide exact_libm) c 1 (Ok [1; 1]) = Ok t /\ 0 < trapz [PI / 2; PI] (map (fun i => at_ [1; 1] i * (tophat (at_ [PI / 2; PI] i * 1) * at_ [PI / 2; PI] i) ^ 2) (seq 0 2)) / (2 * PI ^ 2).
Proof.
  intros c. destruct precision53 as [H1 H2]. pose proof u53 as H3. pose proof PI_RGT_0 as HP. assert (HA : accurate (/ 2 ^ 53) 0 exact_libm) by (apply exact_accurate; lra).
  assert (HT : accurate_trig (/ 2 ^ 53) 0 exact_libm) by (split; intros x; apply close_refl; lra). assert (V : Forall (fun x => 0 <= x) [1; 1]) by (repeat constructor; lra).
  destruct (C109_sigmav wide to_wide exact_libm (/ 2 ^ 53) 0 c [PI / 2; PI] [1; 1] H1 H3 H2 HA wide_integers eq_refl two_points_inc eq_refl V) as (s & E & B).
  destruct (C109_sigmar wide to_wide exact_libm (/ 2 ^ 53) 0 c [PI / 2; PI] [1; 1] 1 H1 H3 H2 HA HT wide_integers eq_refl two_points_inc eq_refl V ltac:(lra)) as (t & E' & _); [intros [|[|i]] Hi; cbn in *; lra || lia|].
  exists s, t. split; [exact E|]. split; [|split; [exact E'|]].
  - cbv zeta in B. replace (trapz [PI / 2; PI] [1; 1]) with (PI / 2) in B by (unfold trapz, at_; cbn; lra). eapply Rle_trans; [exact B|]. apply Rmult_le_compat_r; [apply sqrt_pos|]. apply units_figure. cbn. lia.
  - apply Rdiv_lt_0_compat; [|pose proof (pow_lt PI 2 HP); lra]. unfold trapz, at_. cbn [length Nat.sub rsum seq map nth].
    set (a := tophat (PI / 2 * 1)). set (b := tophat (PI * 1)). assert (A : 0 < a). { unfold a, tophat. rewrite Rmult_1_r, sin_PI2, cos_PI2. apply Rdiv_lt_0_compat; [lra|apply pow_lt; lra]. }
    assert (0 < (a * (PI / 2)) ^ 2) by (apply pow_lt, Rmult_lt_0_compat; lra). pose proof (pow2_ge_0 (b * PI)). nra.
Qed.
