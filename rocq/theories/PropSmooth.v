(** PropSmooth: C118, sigmar and the radius.  Notions: SpecSmooth.v, SpecMethods.v. *)
From Coq Require Import Reals ZArith List String Lia Lra Bool.
From Verif Require Import Base Num Common Registry PyTerms PyMethods Spec SpecPy SpecMethods SpecSmooth SpecDefined ProofPy ProofPy7 ProofMethods ProofSmooth.
Import ListNotations.
Local Open Scope R_scope.

(** Smoothing over spheres reduces the variance, whatever the radius; *)
Theorem C118_smoothing cl (c : columns RNum) n (r D : R) g : complete cl c n -> suits g n -> offers cl g -> (forall K, getitem c "k" = Ok K -> increasing K) ->
  (forall i, (i < n)%nat -> 0 < entry c "k" i) -> (forall i, (i < n)%nat -> 0 <= spectrum_of cl c D g i) -> 0 < r ->
  exists s, sigmar_of (N := RNum) cl c r D g = Ok s /\ 0 <= s <= sqrt (unsmoothed (entry c "k") (spectrum_of cl c D g) n).
Proof. exact (smoothing cl c n r D g). Qed.
Print Assumptions C118_smoothing.
(** by little if the spheres are small: sigmar tends to the root of the variance without smoothing; *)
Theorem C118_small_spheres cl (c : columns RNum) n (r D : R) g : complete cl c n -> suits g n -> offers cl g -> (forall K, getitem c "k" = Ok K -> increasing K) ->
  (forall i, (i < n)%nat -> 0 < entry c "k" i) -> (forall i, (i < n)%nat -> 0 <= spectrum_of cl c D g i) -> 0 < r -> forall M, (forall i, (i < n)%nat -> entry c "k" i <= M) -> (M * r) ^ 2 <= 10 ->
  exists s, sigmar_of (N := RNum) cl c r D g = Ok s /\ (1 - (M * r) ^ 2 / 10) * sqrt (unsmoothed (entry c "k") (spectrum_of cl c D g) n) <= s.
Proof. exact (small_spheres cl c n r D g). Qed.
Print Assumptions C118_small_spheres.
(** in large spheres it falls at least as 1 / r: the displacements sigmav bound what crosses the surface. *)
Theorem C118_flow cl (c : columns RNum) n (r D : R) g : complete cl c n -> suits g n -> offers cl g -> (forall K, getitem c "k" = Ok K -> increasing K) ->
  (forall i, (i < n)%nat -> 0 < entry c "k" i) -> (forall i, (i < n)%nat -> 0 <= spectrum_of cl c D g i) -> 0 < r ->
  exists s v, sigmar_of (N := RNum) cl c r D g = Ok s /\ sigmav_of (N := RNum) cl c D g = Ok v /\ s <= 3 * sqrt 3 / 2 * (v / r).
Proof. exact (flow cl c n r D g). Qed.
Print Assumptions C118_flow.
(** The radius 0 itself is a division of 0 by 0: the limit is not taken. *)
Theorem C118_zero_refuted (c : columns ONum) (K v : list R) : getitem c "k" = Ok (os K) -> (2 <= List.length K)%nat -> List.length v = List.length K ->
  sigmar (N := ONum) c (Some 0) (Ok (os v)) = Ok None.
Proof. exact (zero_radius c K v). Qed.
Print Assumptions C118_zero_refuted.
Example C118_ex : let c := filled CLin 3 ramp in complete CLin c 3 /\ suits Omitted 3 /\ offers CLin Omitted /\ (forall K, getitem c "k" = Ok K -> increasing K) /\
  (forall i, (i < 3)%nat -> 0 < entry c "k" i <= 3) /\ (forall i, (i < 3)%nat -> 0 <= spectrum_of CLin c 2 Omitted i) /\ (3 * 1) ^ 2 <= 10.
Proof.
  intros c. split; [apply (filled_complete CLin 3 ramp)|]. split; [exact I|]. split; [reflexivity|]. split; [intros K HK; apply (ramp_grid CLin 3 K HK)|]. unfold c. split; [|split; [|lra]].
  - intros i Hi. rewrite filled_entry by (cbn; tauto || lia). unfold ramp. destruct i as [|[|[|i]]]; cbn; try lia; lra.
  - intros i Hi. cbn [spectrum_of]. rewrite filled_entry by (cbn; tauto || lia). unfold ramp. pose proof (pos_INR i). nra.
Qed.
