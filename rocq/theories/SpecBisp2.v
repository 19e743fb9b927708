(** SpecBisp2: the notions of PropBispectrum.v that name functions of the model. *)
From Coq Require Import Reals List.
From Verif Require Import Base Num Common Kernels Gamma2 Integrals Spec SpecPT SpecBispectrum ProofKernels.
Import ListNotations.
Local Open Scope R_scope.

Definition flag_of (theta : bool) : flag := if theta then THETA else DELTA.
(** The second and third order kernels as the code computes them.  PropKernels.v gives their values: those of
    perturbation theory away from the guard. *)
Definition K2c (t : bool) (p q : vector) : R := F2_sym_full (N := RNum) (flag_of t) (vec_of p) (vec_of q).
Definition K3c (t : bool) (p q r : vector) : R := F3_sym (N := RNum) (flag_of t) (vec_of p) (vec_of q) (vec_of r).
(** Tree level second-order propagator of the code (C24_tree: the kernel of perturbation theory). *)
Definition T2c (t : bool) (k1 k2 k3 : R) : R := gamma2_tree (N := RNum) (flag_of t) k1 k2 k3.
(** The lookup of the linear spectrum never fails. *)
Definition total_lookup (pkl : Pk RNum) (im : interpol) : Prop := forall k, exists v, find1 pkl im k = Ok v.
(** The propagator integral on the table g1 defines G1. *)
Definition propagator_is (g1 : glq RNum) (G1 : bool -> R -> R) : Prop := forall t k, exists g', gamma1_1loop g1 (flag_of t) k = Ok (G1 t k, g').
(** No partial sum of momenta inside a third order kernel is cut by the guard of F3 (guard_ok: some component is at
    least 3e-14). *)
Definition regular_momenta (q k0 k1 k2 : vector) : Prop :=
  forall s i j l, (s = q \/ s = vopp q) -> In (i, j, l) (orderings k0 k1 k2) ->
    j <> vzero /\ guard_ok i /\ guard_ok (vplus j i) /\ guard_ok (vplus j (vminus i s)) /\ guard_ok (vplus s j).
