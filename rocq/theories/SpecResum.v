(** SpecResum: how far RegPT may be from standard perturbation theory (C119). *)
From Coq Require Import Reals.
Local Open Scope R_scope.
(** One propagator, of kernels g and g2 and with the exponent D^2 a of the damping, in units of D^4 to one loop and of D^6 to two loops *)
Definition gap_propagator_1loop (a g : R) : R := a ^ 2 / 2 + Rabs g * a.
Definition gap_propagator_2loop (a g g2 : R) : R := a ^ 3 / 6 + Rabs g * a ^ 2 / 2 + Rabs g2 * a.
(** The spectrum, in units of D^6 to one loop and of D^8 to two loops *)
Definition gap_1loop (D a ga gb P p22 : R) : R :=
  let ea := gap_propagator_1loop a ga in
  let eb := gap_propagator_1loop a gb in
  Rabs P * (Rabs ga * Rabs gb + (1 + D ^ 2 * Rabs ga) * eb + (1 + D ^ 2 * Rabs gb) * ea + D ^ 4 * (ea * eb)) + 2 * a * Rabs p22.
Definition gap_2loop (D a ga ga2 gb gb2 P tree2 tree1 loop2 gamma3 : R) : R :=
  let ea := gap_propagator_2loop a ga ga2 in
  let eb := gap_propagator_2loop a gb gb2 in
  Rabs P * (Rabs ga * Rabs gb2 + Rabs ga2 * Rabs gb + D ^ 2 * (Rabs ga2 * Rabs gb2)
            + (1 + D ^ 2 * Rabs ga + D ^ 4 * Rabs ga2) * eb + (1 + D ^ 2 * Rabs gb + D ^ 4 * Rabs gb2) * ea + D ^ 6 * (ea * eb))
  + a ^ 2 * Rabs tree2 + 2 * a * Rabs tree1 + Rabs loop2 + 2 * a * Rabs gamma3.
