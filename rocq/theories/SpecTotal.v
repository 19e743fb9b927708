(** SpecTotal: the error of a spectrum assembled from columns with errors (C102). *)
From Coq Require Import Reals.
Local Open Scope R_scope.

(** Error of exp (-f) (1 + f + D^2 g) for errors ef of f and e of g, and a bound of it *)
Definition propagator_err (D g e ef : R) : R := ef + D ^ 2 * (e + Rabs g * ef).
Definition propagator_max (D g : R) : R := 1 + D ^ 2 * Rabs g.
(** Error of SpecPy.regpt_1loop for errors es of the variance, e1 of the propagators ga and gb, ep of the linear spectrum P and e2 of the one-loop correction p22 *)
Definition regpt_1loop_err (D k ga gb P p22 es e1 ep e2 : R) : R :=
  let ef := D ^ 2 * k ^ 2 * es / 2 in let a := propagator_err D ga e1 ef in let b := propagator_err D gb e1 ef in
  D ^ 2 * (Rabs P * (a * (propagator_max D gb + b) + propagator_max D ga * b) + ep * ((propagator_max D ga + a) * (propagator_max D gb + b)))
  + D ^ 4 * (e2 + 2 * ef * Rabs p22).
