(** SpecSmooth: the variance of the field which is not smoothed (C118). *)
From Coq Require Import Reals List.
From Verif Require Import Spec.
Local Open Scope R_scope.
(** 1 / (2 pi^2) int dk k^2 P(k), by the trapezoidal rule *)
Definition unsmoothed (k p : nat -> R) (n : nat) : R := trapz (map k (seq 0 n)) (map (fun i => p i * k i ^ 2) (seq 0 n)) / (2 * PI ^ 2).
