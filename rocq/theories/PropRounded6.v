(** PropRounded6: C112, rounding in Bias1Loop.shotnoise.  Arithmetic and notions: SpecRounded.v, SpecRounded2.v, SpecRounded5.v; [window]: SpecPy.v (C53). *)
From Coq Require Import ZArith Reals Lra Lia List String.
From Verif Require Import Base Num Order Spec Common Registry PyTerms SpecPy SpecRounded SpecRounded2 SpecRounded5 ProofPy ProofPy6 ProofPy7 ProofRounded ProofRounded4 ProofRounded8 ProofRounded9 ProofRounded10 ProofRounded17.
Import ListNotations.
Local Open Scope R_scope.

(** Whatever the precision: between 0 and 1, exactly 1 from kmin to kmax, falling above kmin and rising below kmax, in whatever order the wavenumbers stand. *)
Theorem C112_shape F rnd lm (c : columns RNum) K kmin kmax : rounding F rnd -> monotone_exp lm -> getitem c "k" = Ok K -> 0 < kmin <= kmax ->
  exists w, shotnoise (N := QNum rnd lm) c kmin kmax = Ok w /\ length w = length K /\
    (forall i, (i < length K)%nat -> 0 <= at_ w i <= 1) /\
    (forall i, (i < length K)%nat -> kmin <= at_ K i <= kmax -> at_ w i = 1) /\
    (forall i j, (i < length K)%nat -> (j < length K)%nat -> kmin <= at_ K i <= at_ K j -> at_ w j <= at_ w i) /\
    (forall i j, (i < length K)%nat -> (j < length K)%nat -> 0 < at_ K i <= at_ K j -> at_ K j <= kmax -> at_ w i <= at_ w j).
Proof. exact (shotnoise_rounded F rnd lm c K kmin kmax). Qed.
Print Assumptions C112_shape.
(** The error: that of exp, and five roundings of the square of the ratio of the wavenumbers plus 1. *)
Theorem C112_error F rnd lm u e (c : columns RNum) K kmin kmax : rounding F rnd -> 0 <= u < 1 -> relative u rnd -> accurate u e lm -> getitem c "k" = Ok K -> 0 < kmin <= kmax ->
  exists w, shotnoise (N := QNum rnd lm) c kmin kmax = Ok w /\ length w = length K /\
    forall i, (i < length K)%nat -> 0 < at_ K i -> Rabs (at_ w i - window kmin kmax (at_ K i)) <= units u (e + 1) + units u 5 * (Rmax (at_ K i / kmax) (kmin / at_ K i) + 1) ^ 2.
Proof. exact (shotnoise_error F rnd lm u e c K kmin kmax). Qed.
Print Assumptions C112_error.

Lemma exact_monotone : monotone_exp exact_libm.
Proof. split; [exact exp_0|]. split; [intros x; left; apply exp_pos|exact exp_le]. Qed.
(** In doubles, gradual underflow included; and with 53 bits. *)
Example C112_ex : let c := [("k", [8; 1; 2; 4])]%string in exists w w',
  shotnoise (N := QNum to_double exact_libm) c 2 4 = Ok w /\ at_ w 2 = 1 /\ at_ w 3 = 1 /\ 0 <= at_ w 0 <= at_ w 3 /\ at_ w 1 <= at_ w 2 /\
  shotnoise (N := QNum to_wide exact_libm) c 2 4 = Ok w' /\ Rabs (at_ w' 0 - exp (- (1))) <= 10 / 10 ^ 12.
Proof.
  intros c. destruct (C112_shape double to_double exact_libm c [8; 1; 2; 4] 2 4 double_rounding exact_monotone eq_refl ltac:(lra)) as (w & E & _ & RG & ONE & FALL & RISE).
  destruct precision53 as [H1 H2]. pose proof u53 as H3. assert (HA : accurate (/ 2 ^ 53) 0 exact_libm) by (apply exact_accurate; lra).
  destruct (C112_error wide to_wide exact_libm (/ 2 ^ 53) 0 c [8; 1; 2; 4] 2 4 H1 ltac:(lra) H2 HA eq_refl ltac:(lra)) as (w' & E' & _ & B).
  exists w, w'. split; [exact E|]. split; [apply ONE; cbn; lia || lra|]. split; [apply ONE; cbn; lia || lra|]. split; [split; [apply RG; cbn; lia|apply FALL; cbn; lia || lra]|]. split; [apply RISE; cbn; lia || lra|]. split; [exact E'|].
  specialize (B 0%nat ltac:(cbn; lia) ltac:(cbn; lra)). change (at_ [8; 1; 2; 4] 0) with 8 in B. unfold window in B. rewrite (Rmax_left (8 / 4) 1), (Rmax_right (2 / 8) 1), (Rmax_left (8 / 4)) in B by lra.
  replace (- (1 - 1) ^ 2) with 0 in B by ring. replace (- (8 / 4 - 1) ^ 2) with (- (1)) in B by field. rewrite exp_0, Rmult_1_r in B. eapply Rle_trans; [exact B|].
  pose proof (units_figure 1 ltac:(apply Nat.leb_le; reflexivity)). pose proof (units_figure 5 ltac:(apply Nat.leb_le; reflexivity)). replace ((8 / 4 + 1) ^ 2) with 9 by field. change (0 + 1)%nat with 1%nat. lra.
Qed.
