(** Spec: the small vocabulary used to state properties.  Nothing here refers to the model of the
    code; it only uses the standard library. *)
From Coq Require Import Reals List ZArith.
Import ListNotations.
Local Open Scope R_scope.

(** A real polynomial, given by its coefficients in increasing degree. *)
Definition poly := list R.
Fixpoint peval (p : poly) (x : R) : R :=
  match p with [] => 0 | a :: q => a + x * peval q x end.

(** The i-th element of a list (0 <= i < length). *)
Definition at_ (l : list R) (i : nat) : R := nth i l 0.

(** Strictly increasing list of reals. *)
Definition increasing (l : list R) : Prop :=
  forall i j, (i < j < length l)%nat -> at_ l i < at_ l j.
(** Non-decreasing list of reals. *)
Definition ascending (l : list R) : Prop :=
  forall i j, (i <= j < length l)%nat -> at_ l i <= at_ l j.
(** All elements different. *)
Definition distinct (l : list R) : Prop :=
  forall i j, (i < length l)%nat -> (j < length l)%nat -> i <> j -> at_ l i <> at_ l j.

(** [p] goes through the points (xs_i, ys_i). *)
Definition through (p : poly) (xs ys : list R) : Prop :=
  forall i, (i < length xs)%nat -> peval p (at_ xs i) = at_ ys i.

(** Piecewise linear interpolant of the points (K_i, P_i); constant beyond the last one. *)
Fixpoint plin (K P : list R) (x : R) : R :=
  match K, P with
  | k0 :: ((k1 :: _) as K'), p0 :: ((p1 :: _) as P') =>
    if Rle_dec x k1 then p0 + (p1 - p0) * (x - k0) / (k1 - k0) else plin K' P' x
  | _, p0 :: _ => p0
  | _, [] => 0
  end.

(** Sum of f 0 .. f (n-1). *)
Fixpoint rsum (n : nat) (f : nat -> R) : R :=
  match n with O => 0 | S m => rsum m f + f m end.

(** Trapezoidal rule on the points (K_i, P_i) (numpy.trapz). *)
Definition trapz (K P : list R) : R :=
  rsum (length K - 1) (fun i => (at_ K (S i) - at_ K i) * (at_ P (S i) + at_ P i) / 2).
