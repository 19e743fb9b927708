(** SpecNoWiggle: the transfer function without wiggles of Eisenstein & Hu (1998), eqs. 26 and 28 to 31 (C110).
    Om, Ob: densities of matter and baryons; k in h/Mpc, the sound horizon in Mpc; T: temperature of the CMB in K. *)
From Coq Require Import Reals.
Local Open Scope R_scope.

Definition eh_alpha (Om Ob h : R) : R := 1 - 0.328 * ln (431 * (Om * h ^ 2)) * (Ob / Om) + 0.38 * ln (22.3 * (Om * h ^ 2)) * (Ob / Om) ^ 2.
Definition eh_horizon (Om Ob h : R) : R := 44.5 * ln (9.83 / (Om * h ^ 2)) / sqrt (1 + 10 * Rpower (Ob * h ^ 2) (3 / 4)).
Definition eh_gamma (Om Ob h k : R) : R := Om * h * (eh_alpha Om Ob h + (1 - eh_alpha Om Ob h) / (1 + (0.43 * (k * h) * eh_horizon Om Ob h) ^ 4)).
Definition eh_q (Om Ob h T k : R) : R := k * (T / 2.7) ^ 2 / eh_gamma Om Ob h k.
(** [e]: Euler's number as written in numpy *)
Definition eh_T0 (e q : R) : R := let L := ln (2 * e + 1.8 * q) in let C := 14.2 + 731 / (1 + 62.5 * q) in L / (L + C * q ^ 2).
Definition eh_transfer (e Om Ob h T k : R) : R := eh_T0 e (eh_q Om Ob h T k).
Definition numpy_e : R := 2.718281828459045.
(** A density given as Omega, or as omega = Omega h^2, or by default *)
Definition density (Omega omega : option R) (default h : R) : R := match Omega with Some x => x | None => (match omega with Some w => w | None => default end) / h ^ 2 end.
Definition or_default (o : option R) (d : R) : R := match o with Some x => x | None => d end.
Definition admissible (Om Ob h : R) : Prop := 0 < h /\ 0.045 <= Om * h ^ 2 <= 1 /\ 0 < Ob <= Om / 3.
