(** PropShaped: C115, sigmav and sigmar of the A and B terms.  Notions: SpecShaped.v. *)
From Coq Require Import Reals ZArith List String Lia Lra Bool.
From Verif Require Import Base Num Common Registry PyTerms PyShaped Spec SpecPy SpecDamped SpecShaped ProofPy ProofPy6 ProofPy7 ProofDamped ProofShaped.
Import ListNotations.
Local Open Scope R_scope.

(** On n wavenumbers sigmav raises unless n is 2 or the number of components, *)
Theorem C115_sigmav_raises N cl (c : columns N) n D : one_dim cl = false -> complete cl c n -> n <> 2%nat -> n <> components cl -> sigmav_shaped cl (components cl) c D = Err (PyExc ValueError).
Proof. exact (sigmav_raises cl c n D). Qed.
Print Assumptions C115_sigmav_raises.
(** and sigmar unless n is the number of components, whatever the numbers. *)
Theorem C115_sigmar_raises N cl (c : columns N) n r D : one_dim cl = false -> complete cl c n -> n <> components cl -> sigmar_shaped cl (components cl) c r D = Err (PyExc ValueError).
Proof. exact (sigmar_raises cl c n r D). Qed.
Print Assumptions C115_sigmar_raises.
(** With as many wavenumbers as components, the i-th value is the integral over the components at the i-th wavenumber, as if they lay at the wavenumbers K, *)
Theorem C115_sigmav_rows cl (c : columns RNum) (D : R) K : one_dim cl = false -> complete cl c (components cl) -> getitem c "k" = Ok K ->
  sigmav_shaped (N := RNum) cl (components cl) c D =
  Ok (map (fun i => sqrt (trapz K (map (fun j => D ^ 4 * entry c "pk" (i * components cl + j)) (seq 0 (components cl))) / (6 * PI ^ 2))) (seq 0 (components cl))).
Proof. exact (sigmav_rows cl c D K). Qed.
Print Assumptions C115_sigmav_rows.
(** for sigmar too. *)
Theorem C115_sigmar_rows cl (c : columns RNum) (r D : R) K : one_dim cl = false -> complete cl c (components cl) -> getitem c "k" = Ok K ->
  sigmar_shaped (N := RNum) cl (components cl) c r D =
  Ok (map (fun i => sqrt (trapz K (map (fun j => D ^ 4 * entry c "pk" (i * components cl + j) * (tophat (at_ K j * r) * at_ K j) ^ 2) (seq 0 (components cl))) / (2 * PI ^ 2))) (seq 0 (components cl))).
Proof. exact (sigmar_rows cl c r D K). Qed.
Print Assumptions C115_sigmar_rows.
(** With two wavenumbers, sigmav integrates over the components with the step between the two. *)
Theorem C115_sigmav_two cl (c : columns RNum) (D k0 k1 : R) : one_dim cl = false -> complete cl c 2 -> getitem c "k" = Ok [k0; k1] ->
  sigmav_shaped (N := RNum) cl (components cl) c D =
  Ok (map (fun i => sqrt ((k1 - k0) * rsum (components cl - 1) (fun j => D ^ 4 * (entry c "pk" (i * components cl + S j) + entry c "pk" (i * components cl + j)) / 2) / (6 * PI ^ 2))) (seq 0 2)).
Proof. exact (sigmav_two cl c D k0 k1). Qed.
Print Assumptions C115_sigmav_two.
(** So sigmav does not give the integral of each component over the wavenumbers: it raises, *)
Theorem C115_refuted : ~ (forall cl (c : columns RNum) (K : list R) (D : R), one_dim cl = false -> complete cl c (List.length K) -> getitem c "k" = Ok K -> increasing K ->
  exists v, sigmav_shaped (N := RNum) cl (components cl) c D = Ok v).
Proof.
  intros H. set (K := map (fun i => INR i + 1) (seq 0 3)). destruct (H CA1 (filled CA1 3 ramp) K 1 eq_refl (filled_complete CA1 3 ramp) eq_refl (ramp_grid CA1 3 K eq_refl)) as (v & E).
  rewrite (C115_sigmav_raises RNum CA1 (filled CA1 3 ramp) 3 1) in E; [discriminate|reflexivity|apply (filled_complete CA1 3 ramp)|lia|cbn; lia].
Qed.
Print Assumptions C115_refuted.
(** or gives other values. *)
Theorem C115_values_refuted : ~ (forall (c : columns RNum) (K : list R) (D : R), complete CA1 c 5 -> getitem c "k" = Ok K -> increasing K ->
  exists v, sigmav_shaped (N := RNum) CA1 5 c D = Ok v /\ forall j, (j < 5)%nat -> nth j v 0 = component_sigmav CA1 c K D j).
Proof. exact sigmav_values. Qed.
Print Assumptions C115_values_refuted.
Example C115_ex : one_dim CB2 = false /\ complete CB2 (filled CB2 40 ramp) 40 /\ sigmar_shaped (N := RNum) CB2 9 (filled CB2 40 ramp) 8 1 = Err (PyExc ValueError) /\
  exists v, sigmar_shaped (N := RNum) CB2 9 (filled CB2 9 ramp) 8 1 = Ok v /\ List.length v = 9%nat.
Proof.
  split; [reflexivity|]. split; [apply (filled_complete CB2 40 ramp)|]. split.
  - apply (C115_sigmar_raises RNum CB2 (filled CB2 40 ramp) 40 8 1); [reflexivity|apply (filled_complete CB2 40 ramp)|cbn; lia].
  - eexists. split; [apply (C115_sigmar_rows CB2 (filled CB2 9 ramp) 8 1 (map (fun i => INR i + 1) (seq 0 9))); [reflexivity|apply (filled_complete CB2 9 ramp)|reflexivity]|]. rewrite map_length. reflexivity.
Qed.
