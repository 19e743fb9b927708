(** SpecKernels: closed formulas of the propagator kernels (Taruya et al. 2012, RegPT), used to
    state what the piecewise code approximates.  Nothing here refers to the model of the code. *)
From Coq Require Import Reals.
Local Open Scope R_scope.

(** One-loop propagator kernels, density and velocity divergence, times x. *)
Definition f_exact (x : R) : R :=
  (6 / x ^ 2 - 79 + 50 * x ^ 2 - 21 * x ^ 4
   + 3 / 2 * (1 / x - x) ^ 3 * (2 + 7 * x ^ 2) * ln (Rabs ((x - 1) / (x + 1)))) / 504 * x.
Definition g_exact (x : R) : R :=
  (6 / x ^ 2 - 41 + 2 * x ^ 2 - 3 * x ^ 4
   + 3 / 2 * (1 / x - x) ^ 3 * (2 + x ^ 2) * ln (Rabs ((x - 1) / (x + 1)))) / 168 * x.

(** Two-loop propagator: the asymptotic kernel beta as a function of y = |q1 - q2| / (q1 + q2). *)
Definition beta_exact_d (y : R) : R :=
  2 * (1 + y ^ 2) * (-11191 + 118054 * y ^ 2 - 18215 * y ^ 4 + 18215 * y ^ 8 - 118054 * y ^ 10 + 11191 * y ^ 12
                     + 120 * y ^ 4 * (3467 - 790 * y ^ 2 + 3467 * y ^ 4) * ln y) / (429975 * (y ^ 2 - 1) ^ 7).
Definition beta_exact_t (y : R) : R :=
  2 * (1 + y ^ 2) * (-54373 + 562162 * y ^ 2 - 408245 * y ^ 4 + 408245 * y ^ 8 - 562162 * y ^ 10 + 54373 * y ^ 12
                     + 120 * y ^ 4 * (14561 - 10690 * y ^ 2 + 14561 * y ^ 4) * ln y) / (4729725 * (y ^ 2 - 1) ^ 7).
