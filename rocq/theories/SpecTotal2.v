(** SpecTotal2: the bias spectra, and the error of the damped ones (C107). *)
From Coq Require Import Reals List String.
Import ListNotations.
Local Open Scope R_scope.

(** The names of the columns of SpecConv.bias_columns, in the same order *)
Definition bias_names : list string := ["pk_b2d"; "pk_bs2d"; "pk_b2t"; "pk_bs2t"; "pk_b22"; "pk_b2s2"; "pk_bs22"; "sigma3sq"]%string.
(** Error of SpecDamped.damped for errors es of the variance and e of the undamped spectrum x *)
Definition damped_err (D k x es e : R) : R := D ^ 4 * (e + 2 * (D ^ 2 * k ^ 2 * es / 2) * Rabs x).
(** Error of the product D^4 P x for errors ep of P and e of x *)
Definition product_err (D P x ep e : R) : R := D ^ 4 * (Rabs P * e + ep * (Rabs x + e)).
