(** SpecRounded5: what is asked of exp for the shape of the window of shotnoise (C112). *)
From Coq Require Import Reals.
From Verif Require Import SpecRounded.
Local Open Scope R_scope.

(** exp of the C library is 1 at 0, has no negative value and does not decrease. *)
Definition monotone_exp (lm : libmR) : Prop := q_exp lm 0 = 1 /\ (forall x, 0 <= q_exp lm x) /\ (forall x y, x <= y -> q_exp lm x <= q_exp lm y).
