(** SpecSamples: a table of samples of a smooth function (C97, C98, C99). *)
From Coq Require Import Reals List ZArith.
From Coquelicot Require Import Coquelicot.
From Verif Require Import Spec SpecConv.
Local Open Scope R_scope.

(** P 0 has the derivatives P 1, ..., P n on [a, b]. *)
Definition derivatives (P : nat -> R -> R) (n : nat) (a b : R) : Prop := forall j t, (j < n)%nat -> a <= t <= b -> is_derive (P j) t (P (S j) t).
(** The table (K, Pv) samples P 0 at increasing points at most h apart; the j-th derivative is bounded by M j up to the n-th. *)
Record samples (P : nat -> R -> R) (n : nat) (M : nat -> R) (h : R) (K Pv : list R) : Prop := {
  sm_length : length Pv = length K;
  sm_increasing : increasing K;
  sm_values : forall i, (i < length K)%nat -> at_ Pv i = P 0%nat (at_ K i);
  sm_spacing : forall i, (S i < length K)%nat -> at_ K (S i) - at_ K i <= h;
  sm_smooth : derivatives P n (at_ K 0) (at_ K (length K - 1));
  sm_bound : forall j t, (j <= n)%nat -> at_ K 0 <= t <= at_ K (length K - 1) -> Rabs (P j t) <= M j }.
(** Error of the polynomial through m samples (two to five), next to the point and at most three steps away *)
Definition poly_error (M : nat -> R) (h : R) (m : nat) : R :=
  match m with 2%nat => M 2%nat * h ^ 2 / 8 | 3%nat => M 3%nat * h ^ 3 / 12 | 4%nat => M 4%nat * h ^ 4 / 16 | _ => M 5%nat * h ^ 5 / 40 end.
(** Change of a sum over n nodes in q and m in the angle, of weight x^p, when the integrand changes by at most e *)
Definition mode_change_bound (n m : Z) (p : nat) (k qmin qmax e : R) : R :=
  (ln qmax - ln qmin) * (1 + 2 * (IZR n + 1 / 2) ^ 2 * (3 / 10 ^ 14)) * ((qmax / k) ^ p * (2 * (1 + 2 * (IZR m + 1 / 2) ^ 2 * (3 / 10 ^ 14)) * e)).
(** Change of a propagator of n nodes when the spectrum changes by at most d and the exact kernel is at most N *)
Definition propagator_change (n : Z) (k qmin qmax N d : R) : R :=
  k ^ 3 / (2 * PI ^ 2) * ((ln qmax - ln qmin) * (1 + 2 * (IZR n + 1 / 2) ^ 2 * (3 / 10 ^ 14)) * ((N + 3 / 10 ^ 5) * d)).
(** On the region, the integrand I of the spectrum F changes by at most C d when F changes by at most d on [qmin, qmax], d up to one. *)
Definition stable (half : bool) (k qmin qmax : R) (I : (R -> R) -> R -> R -> R) (F : R -> R) (C : R) : Prop :=
  forall Q d x mu, 0 <= d <= 1 -> (forall q, qmin <= q <= qmax -> Rabs (Q q - F q) <= d) -> region half (qmin / k) (qmax / k) x mu -> Rabs (I Q x mu - I F x mu) <= C * d.
