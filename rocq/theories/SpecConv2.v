(** SpecConv2: the integrals the columns of the 1-loop A terms stand for. *)
From Coq Require Import Reals List ZArith.
From Coquelicot Require Import Coquelicot.
From Verif Require Import Base Num Common SpecPT SpecQuad SpecLoops SpecIntegrals SpecConv.
Local Open Scope R_scope.

(** The terms in P(|k - q|) P(k) and P(|k - q|) P(q) of the tree-level expression for the A terms, at x = q / k and an angle *)
Definition A_with (P : R -> R) (c : nat) (k x mu : R) : R :=
  A_tree (wA x mu) (wtA x mu) c k x mu (P k) (P (k * x)) (P (k * sep x mu)) - A_tree (wA x mu) (wtA x mu) c k x mu (P k) (P (k * x)) 0.
(** The terms in P(k) P(q), integrated over all angles *)
Definition A_without (P : R -> R) (c : nat) (k x : R) : R := RInt (fun mu => A_tree (wA x mu) (wtA x mu) c k x mu (P k) (P (k * x)) 0) (-1) 1.
(** The first are integrated where |k - q| is in the range, the second over all q of the range. *)
Definition A_continuum (P : R -> R) (c : nat) (k qmin qmax : R) : R :=
  k ^ 3 / (4 * PI ^ 2) * (mode_integral false 1 k qmin qmax (A_with P c k) + RInt (fun s => exp s / k * A_without P c k (exp s / k)) (ln qmin) (ln qmax)).
(** Distance in ln q of the first and last of n nodes from the ends of the range *)
Definition end_gap (n : Z) (qmin qmax : R) : R := (ln qmax - ln qmin) * (11 / 4) / (IZR n + 1 / 2) ^ 2.
(** Error of the rules for the two parts and of the closed forms, for a spectrum bounded by MP *)
Definition A_bound (n m : Z) (k qmin qmax lam M lam1 M1 pk MP : R) : R :=
  k ^ 3 / (4 * PI ^ 2) * (mode_bound n m 1 k qmin qmax lam M + rule_error n (ln qmax - ln qmin) lam1 M1 +
    (ln qmax - ln qmin) * (1 + 2 * (IZR n + 1 / 2) ^ 2 * (3 / 10 ^ 14)) * (qmax / k * (Rabs pk * MP * (1 / 10 ^ 22)))).
