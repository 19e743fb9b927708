(** SpecRounded3: rounding in the interpolation of the tabulated spectra (C106). *)
From Coq Require Import ZArith Reals List.
From Verif Require Import Base Num Spec.
Local Open Scope R_scope.

(** How far k is from the points a .. b of a table, compared with the distances between these points: the distance from k to either of two
    points m places apart is at most [ratio m] times their distance. *)
Definition spread (K : list R) (k : R) (a b : nat) (ratio : nat -> R) : Prop :=
  forall j m, (a <= j)%nat -> (1 <= m)%nat -> (j + m <= b)%nat ->
    Rabs (k - at_ K j) <= ratio m * Rabs (at_ K j - at_ K (j + m)) /\ Rabs (k - at_ K (j + m)) <= ratio m * Rabs (at_ K j - at_ K (j + m)).
(** 2 ratio(1) ... 2 ratio(m) *)
Fixpoint amplification (ratio : nat -> R) (m : nat) : R :=
  match m with O => 1 | S m' => 2 * ratio m * amplification ratio m' end.
(** 1 + 2 ratio(1) + (2 ratio(1)) (2 ratio(2)) + ... up to m factors *)
Fixpoint growth (ratio : nat -> R) (m : nat) : R :=
  match m with O => 1 | S m' => growth ratio m' + amplification ratio m end.
