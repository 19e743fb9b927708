(** SpecRounded4: rounding in the trapezoidal sums of sigmav and sigmar (C109). *)
From Coq Require Import ZArith Reals List Permutation.
From Verif Require Import Base Num Spec SpecRounded SpecRounded2.
Import ListNotations.
Local Open Scope R_scope.

(** [s] is the sum of the numbers of the list, added in some order, by some bracketing, each addition of two sums being rounded (numpy adds pairwise). *)
Inductive any_order (rnd : R -> R) : list R -> R -> Prop :=
| ao_none : any_order rnd [] 0
| ao_one x : any_order rnd [x] x
| ao_add l l1 l2 a b : Permutation l (l1 ++ l2) -> l1 <> [] -> l2 <> [] -> any_order rnd l1 a -> any_order rnd l2 b -> any_order rnd l (rnd (a + b)).
(** The terms of the trapezoidal rule on the points (K_i, y_i), rounded *)
Definition trapezia (rnd : R -> R) (K y : list R) : list R :=
  map (fun i => rnd (rnd (rnd (at_ K (S i) - at_ K i) * rnd (at_ y (S i) + at_ y i)) / 2)) (seq 0 (length K - 1)).
(** The C library's sin and cos are right up to e factors between 1-u and 1/(1-u). *)
Definition accurate_trig (u : R) (e : nat) (lm : libmR) : Prop := (forall x, close u e (q_sin lm x) (sin x)) /\ (forall x, close u e (q_cos lm x) (cos x)).
(** The sizes of the two terms which cancel in the transform of a sphere, 3 (sin x - x cos x) / x^3, and of their changes with x *)
Definition tophat_size (x : R) : R := 3 * (2 + x) / x ^ 2.
(** The integrand of sigmar at the wavenumber k, where the spectrum is p, as computed (pyregpt.py:139-141) *)
Definition sigmar_row (rnd : R -> R) (lm : libmR) (r p k : R) : R :=
  let x := rnd (k * r) in let w := rnd (rnd (rnd 3 * rnd (q_sin lm x - rnd (x * q_cos lm x))) / q_pow lm x (rnd 3)) in let wk := rnd (w * k) in rnd (p * rnd (wk * wk)).
