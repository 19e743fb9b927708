(** SpecRounded: arithmetic in which the result of every operation is rounded (C76 to C78).  Nothing here refers to the
    functions of the code; only the record [Num] of the numbers they compute with is used. *)
From Coq Require Import ZArith Reals List Floats.
From Coquelicot Require Import Coquelicot.
From Verif Require Import Base Num Spec.
From Flocq Require Import Core BinarySingleNaN PrimFloat.
Import ListNotations.
Local Open Scope R_scope.

(** The C library functions of a rounded arithmetic: any functions. *)
Record libmR := mkLibmR { q_log : R -> R; q_exp : R -> R; q_cos : R -> R; q_sin : R -> R; q_pow : R -> R -> R }.

(** Reals in which each addition, subtraction, multiplication, division and square root, and each constant, is rounded by
    [rnd].  Change of sign, absolute value and comparisons are exact, as they are in IEEE arithmetic.  Simplification: there is no
    overflow, no NaN and no signed zero. *)
Definition QNum (rnd : R -> R) (lm : libmR) : Num :=
  mkNum R (fun x y => rnd (x + y)) (fun x y => rnd (x - y)) (fun x y => rnd (x * y)) (fun x y => rnd (x / y)) Ropp Rabs
    (fun x => rnd (R_sqrt.sqrt x)) (q_log lm) (q_exp lm) (q_cos lm) (q_sin lm) (q_pow lm) Rltb Rleb Reqbool
    (fun z => rnd (IZR z)) (fun m e => rnd (IZR m / IZR (10 ^ e))) (rnd PI).

(** A rounding to the numbers satisfying [F]: monotone, the identity on [F]; [F] contains 0 and 1 and is closed under change of
    sign; and the difference of two different numbers of [F] is not rounded to 0 (gradual underflow). *)
Record rounding (F : R -> Prop) (rnd : R -> R) : Prop := {
  r_in : forall x, F (rnd x);
  r_id : forall x, F x -> rnd x = x;
  r_mono : forall x y, x <= y -> rnd x <= rnd y;
  r_zero : F 0;
  r_one : F 1;
  r_opp : forall x, F x -> F (- x);
  r_sub : forall x y, F x -> F y -> rnd (x - y) = 0 -> x = y }.

(** The doubles: 53 bits, exponents from -1074, to nearest, ties to even (Flocq). *)
Definition double (x : R) : Prop := generic_format radix2 (FLT_exp (-1074) 53) x.
Definition to_double : R -> R := round radix2 (FLT_exp (-1074) 53) ZnearestE.

(** Numbers of 53 bits without bound on the exponent. *)
Definition wide (x : R) : Prop := generic_format radix2 (FLX_exp 53) x.
Definition to_wide : R -> R := round radix2 (FLX_exp 53) ZnearestE.

(** Every rounded result has a relative error of at most [u]. *)
Definition relative (u : R) (rnd : R -> R) : Prop := forall x, Rabs (rnd x - x) <= u * Rabs x.

(** [a] is [b] up to [n] factors between 1-u and 1/(1-u). *)
Definition close (u : R) (n : nat) (a b : R) : Prop := exists t, (1 - u) ^ n <= t <= / (1 - u) ^ n /\ a = b * t.

(** The running variance up to [kmax]: the integral of the piecewise linear interpolation of the table over its range below [kmax],
    divided by 6 pi^2. *)
Definition variance_of (K P : list R) (kmax e : R) : Prop :=
  (kmax < at_ K 0 -> e = 0) /\ (at_ K 0 <= kmax -> is_RInt (plin K P) (at_ K 0) (Rmin kmax (at_ K (length K - 1))) (e * (6 * PI ^ 2))).

(** The real number a finite double stands for. *)
Definition val (x : PrimFloat.float) : R := B2R (Prim2B x).
(** [r] is [p], or NaN.  (The comparison does not distinguish 0 and -0.) *)
Definition same_nan (p r : PrimFloat.float) : Prop := PrimFloat.eqb r p = true \/ PrimFloat.is_nan r = true.
