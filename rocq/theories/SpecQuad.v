(** SpecQuad: vocabulary for the quadrature properties.  Nothing here refers to the model of the
    code; it uses Coquelicot's Riemann integral [is_RInt f a b v] (the integral of f from a to b
    exists and is v). *)
From Coq Require Import Reals List.
From Coquelicot Require Import Coquelicot.
From Verif Require Import Spec.
Import ListNotations.
Local Open Scope R_scope.

(** [p] is the Legendre polynomial of degree [n]: degree at most n, value 1 at 1, orthogonal on
    [-1,1] to every polynomial of smaller degree. *)
Definition is_legendre (n : nat) (p : poly) : Prop :=
  (length p <= S n)%nat /\ peval p 1 = 1 /\
  forall q : poly, (length q <= n)%nat -> is_RInt (fun x => peval q x * peval p x) (-1) 1 0.

(** Sum over i of ws_i * f(xs_i): the value of the quadrature rule (xs, ws) on f. *)
Definition quad (xs ws : list R) (f : R -> R) : R :=
  rsum (length xs) (fun i => at_ ws i * f (at_ xs i)).
