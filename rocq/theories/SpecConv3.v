(** SpecConv3: the A and B columns of a table close to a spectrum (C103). *)
From Coq Require Import Reals List ZArith.
From Coquelicot Require Import Coquelicot.
From Verif Require Import Base Num Common SpecPT SpecQuad SpecLoops SpecIntegrals SpecConv SpecConv2 SpecSamples.
Local Open Scope R_scope.

(** Q is within d of F on the range. *)
Definition close_on (qmin qmax : R) (Q F : R -> R) (d : R) : Prop := forall q, qmin <= q <= qmax -> Rabs (Q q - F q) <= d.
(** The part of the A terms integrated over all angles changes by at most C d when F changes by at most d, d up to one. *)
Definition stable_without (c : nat) (k qmin qmax : R) (F : R -> R) (C : R) : Prop :=
  forall Q d q, 0 <= d <= 1 -> close_on qmin qmax Q F d -> qmin <= q <= qmax -> Rabs (A_without Q c k (q / k) - A_without F c k (q / k)) <= C * d.
(** The components K of the B terms of the spectra Pd and Pt change by at most C d when the spectra do by at most d. *)
Definition stable_B (k qmin qmax : R) (Pd Pt : R -> R) (K : nat -> R -> R -> R) (C : R) : Prop :=
  forall Qd Qt d L x mu c, 0 <= d <= 1 -> close_on qmin qmax Qd Pd d -> close_on qmin qmax Qt Pt d -> region true (qmin / k) (qmax / k) x mu ->
    (forall nu, -1 <= nu <= 1 -> B_averaged Qd Qt L k x mu nu) -> (c < 12)%nat -> Rabs (L c - K c x mu) <= C * d.
(** Change of an A term of n nodes in q and m in the angle when the spectrum changes by d *)
Definition A_change (n m : Z) (k qmin qmax C C1 d : R) : R :=
  k ^ 3 / (4 * PI ^ 2) * (mode_change_bound n m 1 k qmin qmax (C * d) +
    (ln qmax - ln qmin) * (1 + 2 * (IZR n + 1 / 2) ^ 2 * (3 / 10 ^ 14)) * (qmax / k * (C1 * d))).
