(** SpecConv: integrals over ln q and the error of the rules which stand for them (C95). *)
From Coq Require Import ZArith Reals List.
From Coquelicot Require Import Coquelicot.
From Verif Require Import SpecPT SpecIntegrals SpecColumns.
Import ListNotations.
Local Open Scope R_scope.

(** Error of a rule of n nodes for a function bounded by M and lam-Lipschitz on an interval of length l *)
Definition rule_error (n : Z) (l lam M : R) : R := l * (lam * l / sqrt (2 * IZR n - 1) + 2 * (IZR n + 1 / 2) ^ 2 * (3 / 10 ^ 14) * M + lam * (l / 9 * (3 / 10 ^ 14))).
(** Error of the propagators of n nodes: that of the rule, for an integrand bounded by M1 and lam-Lipschitz in ln q, and that of the kernels where
    the code uses series, for a spectrum bounded by M *)
Definition propagator_bound (n : Z) (k qmin qmax lam M1 M : R) : R :=
  k ^ 3 / (2 * PI ^ 2) * (rule_error n (ln qmax - ln qmin) lam M1 + (ln qmax - ln qmin) * (1 + 2 * (IZR n + 1 / 2) ^ 2 * (3 / 10 ^ 14)) * (3 / 10 ^ 5 * M)).
Definition bounded_lipschitz (f : R -> R) (a b lam M : R) : Prop :=
  (forall s, a <= s <= b -> Rabs (f s) <= M) /\ (forall s t, a <= s <= b -> a <= t <= b -> Rabs (f s - f t) <= lam * Rabs (s - t)).
(** The perturbation-theory integral of a propagator over ln q *)
Definition exact_integral (P : R -> R) (t : bool) (k qmin qmax : R) : R :=
  k ^ 3 / (2 * PI ^ 2) * RInt (fun s => prop_exact t (exp s / k) * P (exp s)) (ln qmin) (ln qmax).

(** ** Integrals over q and the angle between k and q *)
(** Integral over the angles of [SpecIntegrals.allowed] at q = k x, for q and |k - q| between k u and k v *)
Definition angle_integral (half : bool) (u v : R) (f : R -> R -> R) (x : R) : R :=
  if Rlt_dec (mu_lo v x) (mu_hi half u x) then RInt (f x) (mu_lo v x) (mu_hi half u x) else 0.
(** Integral over ln q of x^p times the integral over the angles, x = q / k *)
Definition mode_integral (half : bool) (p : nat) (k qmin qmax : R) (f : R -> R -> R) : R :=
  RInt (fun s => (exp s / k) ^ p * angle_integral half (qmin / k) (qmax / k) f (exp s / k)) (ln qmin) (ln qmax).
(** f is bounded by M and lam-Lipschitz where it is integrated. *)
Definition region (half : bool) (u v x mu : R) : Prop := u <= x <= v /\ mu_lo v x <= mu <= mu_hi half u x.
Definition smooth (half : bool) (u v : R) (f : R -> R -> R) (lam M : R) : Prop :=
  (forall x mu, region half u v x mu -> Rabs (f x mu) <= M) /\
  (forall x mu y nu, region half u v x mu -> region half u v y nu -> Rabs (f x mu - f y nu) <= lam * (Rabs (x - y) + Rabs (mu - nu))).
(** Error with n nodes in q and m in the angle: of the rule in q, of that in the angle, and of the first and last node taken for the ends of the range *)
Definition mode_bound (n m : Z) (p : nat) (k qmin qmax lam M : R) : R :=
  let u := qmin / k in let v := qmax / k in let l := ln qmax - ln qmin in
  rule_error n l (2 * v ^ p * (INR p * M + v * (lam + M * ((1 + v ^ 2) / (2 * u ^ 2) + 1 / 2)))) (2 * v ^ p * M) +
  l * (1 + 2 * (IZR n + 1 / 2) ^ 2 * (3 / 10 ^ 14)) * (v ^ p * (rule_error m 2 lam M + M * (2 * v ^ 2 / u * (l * (11 / 4) / (IZR n + 1 / 2) ^ 2)))).
(** The integrals of perturbation theory the columns stand for: the one-loop correction, and the bias terms with their fields and regions *)
Definition gamma2_continuum (P : R -> R) (a b : bool) (k qmin qmax : R) : R := k ^ 3 / (2 * PI ^ 2) * mode_integral true 3 k qmin qmax (gamma2_integrand P a b k).
Definition bias_continuum (P : R -> R) (t : bias_term) (a half : bool) (k qmin qmax : R) : R :=
  k ^ 3 / (4 * PI ^ 2) * ((if half then 2 else 1) * mode_integral half 3 k qmin qmax (bias_integrand t P a k)).
(** Columns pk_b2d, pk_bs2d, pk_b2t, pk_bs2t, pk_b22, pk_b2s2, pk_bs22, sigma3sq *)
Definition bias_columns : list (bias_term * bool * bool) :=
  [(BiasB2, false, true); (BiasBS2, false, true); (BiasB2, true, true); (BiasBS2, true, true); (BiasB22, false, false); (BiasB2S2, false, false); (BiasBS22, false, false); (BiasSigma3, false, false)].
