(** SpecLimits: notions used by PropLimits.v about the propagators on the largest and smallest scales. *)
From Coq Require Import ZArith Reals List String.
From Verif Require Import Base Num Common Kernels Registry Threads Spec SpecThreads SpecBisp2 ProofKernels SpecColumns.
Import ListNotations.
Local Open Scope R_scope.

(** Displacement variance (1 / 6 pi^2) int P dq, with the nodes q and the weights w of dq / q. *)
Definition displacement (P : R -> R) (g : glq RNum) : R := rsum (length (gq_q g)) (fun i => at_ (gq_w g) i * (at_ (gq_q g) i * P (at_ (gq_q g) i))) / (6 * PI ^ 2).
(** A sum over the nodes of |w P(q)| f(q) *)
Definition absolute_1 (P : R -> R) (g : glq RNum) (f : R -> R) : R :=
  rsum (length (gq_q g)) (fun i => Rabs (at_ (gq_w g) i * P (at_ (gq_q g) i)) * f (at_ (gq_q g) i)).
(** The same over two nodes, of |w w' P(q) P(q')| f(q, q') *)
Definition absolute_2 (P : R -> R) (g : glq RNum) (f : R -> R -> R) : R :=
  let q := at_ (gq_q g) in let w := at_ (gq_w g) in let n := length (gq_q g) in
  rsum n (fun i => rsum n (fun j => Rabs (w i * P (q i)) * Rabs (w j * P (q j)) * f (q i) (q j))).
(** Coefficient of the 1-loop propagator of perturbation theory for k -> 0: 61/210 k^2 for the density, 9/10 k^2 for the velocity divergence *)
Definition uv_coefficient (t : bool) : R := if t then 9 / 10 else 61 / 210.
(** 2-loop counterpart: the integral of beta(q1,q2) / (q1^2 + q2^2), beta being the function of |q1 - q2| / (q1 + q2) of C31 *)
Definition uv_2loop (t : bool) (P : R -> R) (g : glq RNum) : R :=
  double_sum P g (fun q1 q2 => beta (N := RNum) (flag_of t) q1 q2 / (q1 ^ 2 + q2 ^ 2)).
(** The propagator columns of a row of the two spectra with their fields (true: velocity divergence): 1-loop ones, and pairs of the
    1-loop and 2-loop ones *)
Definition columns_1 (d : driver) (v : list R) : list (bool * R) :=
  match d, v with
  | D_1loop a b, x :: y :: _ => [(is_theta a, x); (is_theta b, y)]
  | D_2loop a b, x :: _ :: y :: _ => [(is_theta a, x); (is_theta b, y)]
  | _, _ => []
  end.
Definition columns_2 (d : driver) (v : list R) : list (bool * (R * R)) :=
  match d, v with
  | D_2loop a b, x :: x2 :: y :: y2 :: _ => [(is_theta a, (x, x2)); (is_theta b, (y, y2))]
  | _, _ => []
  end.
