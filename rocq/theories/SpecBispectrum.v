(** SpecBispectrum: the 1-loop bispectrum, in the vocabulary of perturbation theory.  Nothing here refers to
    the model of the code. *)
From Coq Require Import Reals List.
From Verif Require Import Spec SpecPT.
Import ListNotations.
Local Open Scope R_scope.

Definition vminus (p q : vector) : vector := vplus p (vopp q).
(** A leg of the bispectrum: its momentum and its field (true: velocity divergence). *)
Definition leg := (vector * bool)%type.
Definition orderings {A} (x y z : A) : list (A * A * A) := [(x, y, z); (x, z, y); (y, x, z); (y, z, x); (z, x, y); (z, y, x)].
Definition sum_over {A} (f : A -> A -> A -> R) (l : list (A * A * A)) : R := fold_right (fun t s => let '(x, y, z) := t in f x y z + s) 0 l.
(** 1 when v is longer than the loop momentum q: the loop is labelled so that q is the shortest internal momentum. *)
Definition far (q v : vector) : R := if Rlt_dec (norm q) (norm v) then 1 else 0.

(** The contributions B_222 and B_321 of the loop momentum q, for second and third order kernels K2, K3
    and a power spectrum P. *)
Definition term222 (K2 : bool -> vector -> vector -> R) (P : R -> R) (q : vector) (x y z : leg) : R :=
  let u := vminus (fst x) q in
  let v := vplus (fst y) q in
  far q u * far q v * (K2 (snd x) u q * K2 (snd y) v (vopp q) * K2 (snd z) v u * (P (norm u) * P (norm q) * P (norm v))).
Definition term321 (K2 : bool -> vector -> vector -> R) (K3 : bool -> vector -> vector -> vector -> R) (P : R -> R) (s : vector) (x y z : leg) : R :=
  let u := vminus (fst x) s in
  far s u * (K3 (snd z) (fst y) u s * K2 (snd x) u s * (P (norm u) * P (norm s) * P (norm (fst y)))).
Definition loop222 K2 P (q : vector) (x y z : leg) : R := 4 / (2 * PI) ^ 3 * sum_over (term222 K2 P q) (orderings x y z).
Definition loop321 K2 K3 P (q : vector) (x y z : leg) : R :=
  6 / (2 * PI) ^ 3 * (sum_over (term321 K2 K3 P q) (orderings x y z) + sum_over (term321 K2 K3 P (vopp q)) (orderings x y z)).

(** The regularised bispectrum of the velocity divergence at p and of the fields b and c at k' and k (true:
    velocity divergence), from the regularised propagators G1 and G2 at the three sides, the linear spectrum
    at the three sides and the damping exponent E. *)
Definition reg_bispectrum (b c : bool) (G1p G1kp G1k : bool -> R) (G2_kp_k G2_p_k G2_p_kp : bool -> R) (Pp Pkp Pk E : R) : R :=
  2 * (G2_kp_k true * G1kp b * G1k c * Pkp * Pk
     + G2_p_k b * G1p true * G1k c * Pp * Pk
     + G2_p_kp c * G1p true * G1kp b * Pp * Pkp) * exp (- E).
(** Regularised propagators: standard ones corrected by the displacement variance s. *)
Definition reg_prop1 (on : bool) (k s g1 : R) : R := if on then 1 + k * k * s / 2 + g1 else 1.
Definition reg_prop2 (on : bool) (tree k s g2 : R) : R := if on then tree * (1 + k * k * s / 2) + g2 else tree.
(** The eight outputs of the first part for a triangle k, p, k': (b, c) = dd, td, dt, tt, then the same with p and k'
    exchanged.  on_p, on_kp, on_k: whether the loop corrections at p, k', k are added; S: displacement variance;
    G1: 1-loop propagator; T2, G2: tree and 1-loop second-order propagators of the side lengths. *)
Definition outputs_I (on_p on_kp on_k : bool) (P S : R -> R) (G1 : bool -> R -> R) (T2 G2 : bool -> R -> R -> R -> R) (k p kp : R) : list R :=
  let G1p t := reg_prop1 on_p p (S p) (G1 t p) in
  let G1kp t := reg_prop1 on_kp kp (S kp) (G1 t kp) in
  let G1k t := reg_prop1 on_k k (S k) (G1 t k) in
  let G2_kp_k t := reg_prop2 on_k (T2 t kp k p) p (S p) (G2 t kp k p) in
  let G2_p_k t := reg_prop2 on_k (T2 t p k kp) kp (S kp) (G2 t p k kp) in
  let G2_p_kp t := reg_prop2 on_k (T2 t p kp k) k (S k) (G2 t p kp k) in
  let E := (k * k * S k + p * p * S p + kp * kp * S kp) / 2 in
  let A b c := reg_bispectrum b c G1p G1kp G1k G2_kp_k G2_p_k G2_p_kp (P p) (P kp) (P k) E in
  let tA b c := reg_bispectrum b c G1kp G1p G1k G2_p_k G2_kp_k G2_p_kp (P kp) (P p) (P k) E in
  [A false false; A true false; A false true; A true true; tA false false; tA true false; tA false true; tA true true].

(** The vector of length r in the direction (theta, phi). *)
Definition polar (r theta phi : R) : vector := (r * sin theta * cos phi, r * sin theta * sin phi, r * cos theta).
(** Integrand of the two-loop propagator term: three internal momenta. *)
Definition gamma3_density (K3 : bool -> vector -> vector -> vector -> R) (P : R -> R) (a b : bool) (p q r : vector) : R :=
  K3 a p q r * K3 b p q r * P (norm p) * P (norm q) * P (norm r).
(** The list of outputs with the two halves exchanged. *)
Definition exchange (l : list R) : list R := skipn 4 l ++ firstn 4 l.
(** p and k' are on the same side of both switching thresholds, 1/100 (used for p) and 3/100 (used for k'), or k is
    below 1/100, where everything is switched off. *)
Definition same_thresholds (k p kp : R) : Prop := k < 1 / 100 \/ ((p < 1 / 100 \/ 3 / 100 <= p) /\ (kp < 1 / 100 \/ 3 / 100 <= kp)).
