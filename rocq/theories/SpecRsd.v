(** SpecRsd: the redshift-space corrections A(k, nu) and B(k, nu) of Taruya, Nishimichi & Saito (2010), eqs. 19 and 20, for a growth rate f and a line of sight n at cosine nu to k.
    q runs over all directions: its cosine mu to k, and its azimuth t. *)
From Coq Require Import Reals List ZArith.
From Coquelicot Require Import Coquelicot.
From Verif Require Import Spec SpecPT SpecIntegrals SpecConv.
Local Open Scope R_scope.

Definition average (g : R -> R) : R := RInt g 0 (2 * PI) / (2 * PI).
(** f times the squared cosine of p to the line of sight *)
Definition kaiser (f : R) (p n : vector) : R := f * (dot p n ^ 2 / dot p p).
(** Tree-level < theta(k1) [delta + f mu2^2 theta](k2) [delta + f mu3^2 theta](k3) > *)
Definition sigma_bispectrum (f : R) (n k1 k2 k3 : vector) (p1 p2 p3 : R) : R :=
  tree_bispectrum true false false k1 k2 k3 p1 p2 p3 + kaiser f k2 n * tree_bispectrum true true false k1 k2 k3 p1 p2 p3 +
  kaiser f k3 n * tree_bispectrum true false true k1 k2 k3 p1 p2 p3 + kaiser f k2 n * kaiser f k3 n * tree_bispectrum true true true k1 k2 k3 p1 p2 p3.
(** x^2 k nu f [q_z / q^2 B(q, k - q, -k) + (k - q)_z / (k - q)^2 B(k - q, q, -k)], averaged over the azimuth; pk, pq, pkq: linear power at k, q, |k - q| *)
Definition A_integrand (f nu k x mu pk pq pkq : R) : R :=
  average (fun t => let q := qphi k x mu t in let kq := kqphi k x mu t in let mk := vopp (kvec k) in let n := los nu in
    x ^ 2 * (k * nu * f * (coup1 q n * sigma_bispectrum f n q kq mk pq pkq pk + coup1 kq n * sigma_bispectrum f n kq q mk pkq pq pk))).
(** The integral over q of A_integrand, d^3q / (2 pi)^3 = k^3 x^3 dln q dmu dt / (8 pi^3). The terms in P(|k - q|) are integrated where |k - q| is in the range, the others over all angles. *)
Definition A_redshift (P : R -> R) (f nu k qmin qmax : R) : R :=
  k ^ 3 / (4 * PI ^ 2) * (mode_integral false 1 k qmin qmax (fun x mu => A_integrand f nu k x mu (P k) (P (k * x)) (P (k * sep x mu)) - A_integrand f nu k x mu (P k) (P (k * x)) 0) +
    RInt (fun s => exp s / k * RInt (fun mu => A_integrand f nu k (exp s / k) mu (P k) (P (k * (exp s / k))) 0) (-1) 1) (ln qmin) (ln qmax)).
(** F(p) = p_z / p^2 [P_dt(p) + f mu_p^2 P_tt(p)] *)
Definition velocity_power (f pd pt : R) (p n : vector) : R := coup1 p n * (pd + kaiser f p n * pt).
(** x^2 (k nu f)^2 F(q) F(k - q), averaged over the azimuth *)
Definition B_integrand (Pd Pt : R -> R) (f nu k x mu : R) : R :=
  average (fun t => let n := los nu in x ^ 2 * ((k * nu * f) ^ 2 *
    (velocity_power f (Pd (k * x)) (Pt (k * x)) (qphi k x mu t) n * velocity_power f (Pd (k * sep x mu)) (Pt (k * sep x mu)) (kqphi k x mu t) n))).
(** Its integral over q: twice that over the half where q is the shorter *)
Definition B_redshift (Pd Pt : R -> R) (f nu k qmin qmax : R) : R := k ^ 3 / (4 * PI ^ 2) * (2 * mode_integral true 1 k qmin qmax (B_integrand Pd Pt f nu k)).
