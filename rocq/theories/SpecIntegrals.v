(** SpecIntegrals: vocabulary for the mode-coupling integrals.  A mode k couples to q and k - q; lengths
    are in units of k, x = |q|/k, and mu is the cosine of the angle between k and q.  Nothing here refers
    to the model of the code. *)
From Coq Require Import Reals List.
From Coquelicot Require Import Coquelicot.
From Verif Require Import Spec SpecPT.
Import ListNotations.
Local Open Scope R_scope.

(** |k - q| / k *)
Definition sep (x mu : R) : R := sqrt (1 + x * x - 2 * mu * x).
(** The angles over which the integrals run at given x: |k - q|/k lies in the range [xmin,xmax] of the
    x, and for the integrals over one half of the plane q is the shorter of the two. *)
Definition allowed (half : bool) (xmin xmax x mu : R) : Prop :=
  -1 <= mu <= 1 /\ xmin <= sep x mu <= xmax /\ (half = true -> x <= sep x mu).
(** The ends of the allowed range. *)
Definition mu_lo (xmax x : R) : R := Rmax (-1) ((1 + x * x - xmax * xmax) / (2 * x)).
Definition mu_hi (half : bool) (xmin x : R) : R :=
  Rmin 1 ((1 + x * x - (if half then x * x else xmin * xmin)) / (2 * x)).

(** Quadrature of f over [lo,hi] with the rule (us, ws) of [-1,1]; zero for an empty range. *)
Definition muquad (us ws : list R) (lo hi : R) (f : R -> R) : R :=
  if Rlt_dec lo hi
  then rsum (length us) (fun j => (hi - lo) / 2 * at_ ws j * f (lo + (hi - lo) / 2 * (at_ us j + 1)))
  else 0.
(** Iterated quadrature of f x mu over the allowed region, x over the nodes xs with weights. *)
Definition itquad (half : bool) (xs : list R) (weight : nat -> R) (us ws : list R) (f : nat -> R -> R) : R :=
  rsum (length xs) (fun i => weight i *
    muquad us ws (mu_lo (at_ xs (length xs - 1)) (at_ xs i)) (mu_hi half (at_ xs 0) (at_ xs i)) (f i)).

(** The vectors: k along the third axis, q in the plane of the first and third. *)
Definition kvec (k : R) : vector := (0, 0, k).
Definition qvec (k x mu : R) : vector := (k * x * sqrt (1 - mu * mu), 0, k * x * mu).
Definition kqvec (k x mu : R) : vector := vplus (kvec k) (vopp (qvec k x mu)).

(** The same with q at azimuth phi about k, and a line of sight at cosine nu to k. *)
Definition qphi (k x mu phi : R) : vector :=
  (k * x * sqrt (1 - mu * mu) * cos phi, k * x * sqrt (1 - mu * mu) * sin phi, k * x * mu).
Definition kqphi (k x mu phi : R) : vector := vplus (kvec k) (vopp (qphi k x mu phi)).
Definition los (nu : R) : vector := (sqrt (1 - nu * nu), 0, nu).
(** Redshift-space couplings of a mode p: p_z/p^2 and p_z^3/p^4, p_z along the line of sight n. *)
Definition coup1 (p n : vector) : R := dot p n / dot p p.
Definition coup3 (p n : vector) : R := dot p n ^ 3 / (dot p p) ^ 2.

(** Tree-level bispectrum of the fields a, b, c (true: velocity divergence) at momenta k1+k2+k3=0, with
    the linear power p1, p2, p3 at their norms. *)
Definition tree_bispectrum (a b c : bool) (k1 k2 k3 : vector) (p1 p2 p3 : R) : R :=
  2 * (pt2 a k2 k3 * p2 * p3 + pt2 b k1 k3 * p1 * p3 + pt2 c k1 k2 * p1 * p2).

(** Kernels of the local bias expansion: S2(q,k-q) from the cosine, and the sigma3^2 weight D2. *)
Definition cosine (p q : vector) : R := dot p q / (norm p * norm q).
Definition tidal (c : R) : R := c ^ 2 - 1 / 3.
(** [f] has average [v] over the azimuth. *)
Definition azimuth_average (f : R -> R) (v : R) : Prop := is_RInt f 0 (2 * PI) (2 * PI * v).

(** Integrands of the 1-loop bias terms (McDonald & Roy 2009, Saito et al. 2014) for the field a: S2 is the
    tidal kernel of the cosine between q and k-q; the subtracted constants remove the k -> 0 limits. *)
Inductive bias_term := BiasB2 | BiasBS2 | BiasB22 | BiasB2S2 | BiasBS22 | BiasSigma3.
Definition bias_integrand (t : bias_term) (P : R -> R) (a : bool) (k x mu : R) : R :=
  let q := qvec k x mu in
  let kq := kqvec k x mu in
  let pq := P (norm q) in
  let pkq := P (norm kq) in
  let s2 := tidal (cosine q kq) in
  match t with
  | BiasB2 => pq * pkq * pt2 a q kq
  | BiasBS2 => pq * pkq * pt2 a q kq * s2
  | BiasB22 => pq * (pkq - pq) / 2
  | BiasB2S2 => - (pq * (2 / 3 * pq - pkq * s2) / 2)
  | BiasBS22 => - (pq * (4 / 9 * pq - pkq * s2 ^ 2) / 2)
  | BiasSigma3 => 105 / 16 * pq * (2 / 7 * (tidal (cosine (kvec k) q) - 2 / 3) * s2 + 8 / 63)
  end.

(** The redshift-space A integrand for tree-level bispectra: component c of the list
    (mu^2 f, mu^2 f^2, mu^4 f^2, mu^4 f^3, mu^6 f^3) for the linear power pk, pq, pkq at |k|, |q|, |k-q|.
    The weights are the azimuthal averages of C66_A: [wA n m], [wtA n m] multiplies the bispectrum in which q
    (or k-q) carries the extra velocity divergence, [n] = 1: the other one carries one too; [m]: power of mu. *)
Definition A_tree (wA wtA : nat -> R) (c : nat) (k x mu pk pq pkq : R) : R :=
  let q := qvec k x mu in
  let kq := kqvec k x mu in
  let mk := vopp (kvec k) in
  let bA b d := tree_bispectrum true b d q kq mk pq pkq pk in
  let btA b d := tree_bispectrum true b d kq q mk pkq pq pk in
  match c with
  | 0%nat => wA 0%nat * bA false false + wtA 0%nat * btA false false
  | 1%nat => wA 1%nat * bA true false + wtA 1%nat * btA true false
  | 2%nat => wA 2%nat * bA true false + wtA 2%nat * btA true false + wA 0%nat * bA false true + wtA 0%nat * btA false true
  | 3%nat => wA 1%nat * bA true true + wtA 1%nat * btA true true
  | _ => wA 2%nat * bA true true + wtA 2%nat * btA true true
  end.

(** Accuracy of the closed forms used for a smooth function of x = q/k: a series below 1e-4 and above 100,
    and no logarithm within 3e-14 of 1. *)
Definition series_tolerance (x : R) : R :=
  if Rlt_dec x (1 / 10000) then x ^ 10 / 100 else if Rlt_dec 100 x then 1 / (100 * x ^ 10)
  else if Rlt_dec (3 / 10 ^ 14) (Rabs (x - 1)) then 0 else 50 * Rabs (x - 1) ^ 2.

(** ** Integrands *)
(** Twice the product of the power spectra and of the two kernels. *)
Definition gamma2_integrand (P : R -> R) (a b : bool) (k x mu : R) : R :=
  2 * P (k * x) * P (k * sep x mu) * pt2 a (kqvec k x mu) (qvec k x mu) * pt2 b (kqvec k x mu) (qvec k x mu).
(** The three terms: tree x tree, tree x 1-loop (both ways), 1-loop x 1-loop. *)
Definition gamma2_1loop_integrand (P : R -> R) (G : bool -> R -> R -> R -> R) (a b : bool) (c : nat) (k x mu : R) : R :=
  let F t := pt2 t (kqvec k x mu) (qvec k x mu) in
  let L t := G t (k * sep x mu) (k * x) k in
  2 * P (k * x) * P (k * sep x mu) *
  match c with 0%nat => F a * F b | 1%nat => F a * L b + L a * F b | _ => L a * L b end.
(** Components of the redshift-space B terms: the coefficients of the powers of nu in the azimuthal averages
    of the products of couplings and spectra. *)
Definition B_averaged (Pd Pt : R -> R) (K : nat -> R) (k x mu nu : R) : Prop :=
  let q := qphi k x mu in
  let kq := kqphi k x mu in
  let n := los nu in
  let pre := (k * nu) ^ 2 * x ^ 2 in
  let dq := Pd (k * x) in let dkq := Pd (k * sep x mu) in let tq := Pt (k * x) in let tkq := Pt (k * sep x mu) in
  azimuth_average (fun t => pre * (coup1 (q t) n * dq * (coup1 (kq t) n * dkq))) (nu ^ 2 * K 0%nat + nu ^ 4 * K 4%nat) /\
  azimuth_average (fun t => pre * (coup3 (q t) n * tq * (coup1 (kq t) n * dkq))) (- (nu ^ 2 * K 1%nat + nu ^ 4 * K 5%nat + nu ^ 6 * K 8%nat)) /\
  azimuth_average (fun t => pre * (coup1 (q t) n * dq * (coup3 (kq t) n * tkq))) (- (nu ^ 2 * K 2%nat + nu ^ 4 * K 6%nat + nu ^ 6 * K 9%nat)) /\
  azimuth_average (fun t => pre * (coup3 (q t) n * tq * (coup3 (kq t) n * tkq))) (nu ^ 2 * K 3%nat + nu ^ 4 * K 7%nat + nu ^ 6 * K 10%nat + nu ^ 8 * K 11%nat).

(** ** Exchange of q and k - q *)
(** The coordinates of k - q as those of q: its length is sep x mu, and the cosine of its angle to k: *)
Definition mirror_mu (x mu : R) : R := (1 - x * mu) / sep x mu.
(** Redshift-space B: the component each of the twelve becomes under the exchange. *)
Definition B_mirror (c : nat) : nat :=
  match c with 1 => 2 | 2 => 1 | 5 => 6 | 6 => 5 | 8 => 9 | 9 => 8 | c => c end%nat.
