(** SpecShaped: the integral of a component of the A and B terms over the wavenumbers (C115). *)
From Coq Require Import Reals List String.
From Verif Require Import Base Num Registry PyTerms Spec SpecPy.
Local Open Scope R_scope.
(** Components per wavenumber (5 for A, 9 for B) *)
Definition components (cl : pyclass) : nat := match cl with CA1 | CA2 => 5 | CB1 | CB2 => 9 | _ => 1 end.
(** sqrt (1 / (6 pi^2) int dk P_j(k)), by the trapezoidal rule on the wavenumbers K, for the component j and the growth factor D *)
Definition component_sigmav (cl : pyclass) (c : columns RNum) (K : list R) (D : R) (j : nat) : R :=
  sqrt (trapz K (map (fun i => D ^ 4 * entry c "pk" (i * components cl + j)) (seq 0 (length K))) / (6 * PI ^ 2)).
