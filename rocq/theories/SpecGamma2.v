(** SpecGamma2: notions used to state the properties of the second-order 1-loop kernels. *)
From Coq Require Import Reals.
Local Open Scope R_scope.

(** Sides of a triangle: the code passes k1 = |k1|, k2 = |k2| and k3 = |k1 + k2|. *)
Definition triangle (a b c : R) : Prop := a <= b + c /\ b <= a + c /\ c <= a + b.

(** The logarithms of the kernels are ln |(k-q)/(k+q)| and, with the ratio below,
    ln ((w-1)/(w+1))^2.  The regularised functions replace them by a truncated series when their
    argument 1 - (...)^2 is at most 1/10, and by 0 near their zeros; [smooth3] excludes both. *)
Definition smooth1 (k q : R) : Prop := 1 / 1000000 < Rabs ((k - q) / (k + q)) /\ 1 / 10 < 4 * k * q / ((k + q) * (k + q)).
Definition wratio (a b c q : R) : R :=
  sqrt (a * a * (b * b) - (a * a + b * b - c * c) * (q * q) + q * q * (q * q)) / (c * q).
Definition smooth2 (a b c q : R) : Prop :=
  1 / 100 < Rabs (wratio a b c q - 1) /\
  1 / 10 < 4 * wratio a b c q / ((1 + wratio a b c q) * (1 + wratio a b c q)).
Definition smooth3 (k1 k2 k3 q : R) : Prop :=
  smooth1 k1 q /\ smooth1 k2 q /\ smooth1 k3 q /\ smooth2 k1 k2 k3 q /\ smooth2 k1 k3 k2 q /\ smooth2 k2 k3 k1 q.
