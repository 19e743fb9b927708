(** SpecRounded2: rounding in the assembly of the spectra (C105). *)
From Coq Require Import ZArith Reals List.
From Verif Require Import Base Num SpecRounded.
Local Open Scope R_scope.

(** The C library's exp, and pow with a natural exponent, are right up to e factors between 1-u and 1/(1-u). *)
Definition accurate (u : R) (e : nat) (lm : libmR) : Prop :=
  (forall x, close u e (q_exp lm x) (exp x)) /\ (forall x (n : nat), close u e (q_pow lm x (INR n)) (x ^ n)).
(** Small integers are numbers of the arithmetic. *)
Definition integers (F : R -> Prop) : Prop := forall n, (n <= 8)%nat -> F (INR n).
(** Relative size of an error of n factors between 1-u and 1/(1-u) *)
Definition units (u : R) (n : nat) : R := / (1 - u) ^ n - 1.
