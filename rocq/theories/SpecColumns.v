(** SpecColumns: the contents of the columns of the six kinds of terms, as integrals of perturbation theory evaluated with given
    nodes and weights (C84, C85). *)
From Coq Require Import ZArith Reals List String.
From Coquelicot Require Import Coquelicot.
From Verif Require Import Base Num Common Kernels Gamma2 Integrals Registry Threads Spec SpecPT SpecIntegrals SpecLoops SpecBispectrum SpecBisp2 SpecThreads SpecDefined SpecKernels ProofKernels.
Import ListNotations.
Local Open Scope R_scope.

(** ** The redshift-space A terms *)
(** The twelve products of a weight (wA, wtA: SpecIntegrals) and of the bispectrum of the velocity divergence at q with the fields
    b, d at k-q and -k (B b d; true: velocity divergence), and with q and k-q exchanged (Bt). *)
Definition A_part (wA wtA : nat -> R) (B Bt : bool -> bool -> R) (c : nat) : R :=
  match c with
  | 0%nat => wA 0%nat * B false false | 1%nat => wA 1%nat * B true false | 2%nat => wA 2%nat * B true false
  | 3%nat => wA 0%nat * B false true | 4%nat => wA 1%nat * B true true | 5%nat => wA 2%nat * B true true
  | 6%nat => wtA 0%nat * Bt false false | 7%nat => wtA 1%nat * Bt true false | 8%nat => wtA 2%nat * Bt true false
  | 9%nat => wtA 0%nat * Bt false true | 10%nat => wtA 1%nat * Bt true true | _ => wtA 2%nat * Bt true true
  end.
(** The coefficients of (mu^2 f, mu^2 f^2, mu^4 f^2, mu^4 f^3, mu^6 f^3) collected from the twelve. *)
Definition A_five (I : nat -> R) (c : nat) : R :=
  match c with
  | 0%nat => I 0%nat + I 6%nat | 1%nat => I 1%nat + I 7%nat | 2%nat => I 2%nat + I 8%nat + I 3%nat + I 9%nat
  | 3%nat => I 4%nat + I 10%nat | _ => I 5%nat + I 11%nat
  end.
(** Position of the fields (b, d) in the lists of [outputs_I]. *)
Definition fields_at (b d : bool) : nat := ((if b then 1 else 0) + (if d then 2 else 0))%nat.
(** First part: integrand at |q| = k x and angle mu, for the outputs of [outputs_I] with the loop corrections
    switched on from q, k >= 1/100 and |k-q| >= 3/100. *)
Definition A_first (P S : R -> R) (G1 : bool -> R -> R) (G2 : bool -> R -> R -> R -> R) (k x mu : R) (c : nat) : R :=
  let q := k * x in let kq := k * sep x mu in
  let out := outputs_I (Rleb (1 / 100) q && Rleb (1 / 100) k) (Rleb (3 / 100) kq && Rleb (1 / 100) k) (Rleb (1 / 100) k) P S G1 T2c G2 k q kq in
  A_part (wA x mu) (wtA x mu) (fun b d => at_ out (fields_at b d)) (fun b d => at_ out (4 + fields_at b d)) c.
(** Damping exponent of a triangle k, p, kp. *)
Definition triangle_damping (S : R -> R) (k p kp : R) : R := (k ^ 2 * S k + p ^ 2 * S p + kp ^ 2 * S kp) / 2.
(** Second and third part: integrand at the outer momentum p (in the plane of the first and third axis) and the loop momentum q,
    on the half space |p| <= |k - p| and as long as the damping is above exp (-100). *)
Definition A_second (P S : R -> R) (k : R) (p q : vector) (c : nat) : R :=
  let kp := vminus (0, 0, k) p in let mk := (0, 0, - k) in
  let x := norm p / k in let mu := dot p (0, 0, 1) / norm p in
  let E := triangle_damping S k (norm p) (norm kp) in
  let B u v b d := loop222 K2c P q (u, true) (v, b) (mk, d) + loop321 K2c K3c P q (u, true) (v, b) (mk, d) in
  if Rle_dec (norm p) (norm kp) then if Rlt_dec E 100 then x * A_part (wA x mu) (wtA x mu) (B p kp) (B kp p) c * exp (- E) else 0 else 0.
(** The point of the hypercube of Suave is mapped to log p, mu, log q, theta, phi; volume element of this map, with dp = p dlogp left out
    (it is in the weights wA) and d^3q = q^3 sin theta dlogq dtheta dphi. *)
Definition A_outer (lmin lmax xx0 xx1 : R) : vector :=
  let p := exp (lmin + (lmax - lmin) * xx0) in let mu := -1 + 2 * xx1 in (p * sqrt (1 - mu * mu), 0, p * mu).
Definition A_loop (lmin lmax xx2 xx3 xx4 : R) : vector := polar (exp (lmin + (lmax - lmin) * xx2)) (xx3 * PI) (xx4 * 2 * PI).
Definition A_volume (lmin lmax xx2 xx3 : R) : R :=
  exp (lmin + (lmax - lmin) * xx2) ^ 3 * sin (xx3 * PI) * ((lmax - lmin) * 2) * ((lmax - lmin) * PI * (2 * PI)).

(** ** The columns of every run *)
(** 1-loop propagator: kernels of gamma1_1loop.c (C30: those of perturbation theory up to [prop_tolerance]), true: velocity divergence *)
Definition prop_kernel (t : bool) : R -> R := if t then kernel_gg (N := RNum) else kernel_ff (N := RNum).
Definition prop_exact (t : bool) : R -> R := if t then g_exact else f_exact.
Definition prop_tolerance (x : R) : R :=
  if Rlt_dec (Rabs (x - 1)) (1 / 100) then Rabs (x - 1) ^ 3 * (1 + Rabs (ln (Rabs (x - 1)))) else if Rlt_dec 10 x then 1 / (100 * x ^ 5) else 0.
(** Integral over q of a kernel f (q / k) and of P *)
Definition single_sum (P : R -> R) (g : glq RNum) (k : R) (f : R -> R) : R :=
  k ^ 3 / (2 * PI ^ 2) * rsum (length (gq_q g)) (fun i => at_ (gq_w g) i * (f (at_ (gq_q g) i / k) * P (at_ (gq_q g) i))).
(** 2-loop propagator: the kernel of gamma1_2loop.c (C31) over q1 and q2 *)
Definition double_sum (P : R -> R) (g : glq RNum) (f : R -> R -> R) : R :=
  let q := at_ (gq_q g) in let w := at_ (gq_w g) in let n := length (gq_q g) in
  rsum n (fun i => rsum n (fun j => w i * w j * (f (q i) (q j) * (q i ^ 3 * P (q i)) * (q j ^ 3 * P (q j))))) / (4 * PI ^ 4).
(** 1-loop vertex: the kernel of gamma2d_1loop.c, gamma2t_1loop.c over q *)
Definition vertex_sum (P : R -> R) (g : glq RNum) (f : R -> R) : R :=
  rsum (length (gq_q g)) (fun i => at_ (gq_w g) i * (at_ (gq_q g) i ^ 3 * P (at_ (gq_q g) i) * f (at_ (gq_q g) i))) / (2 * PI) ^ 3.
Definition vertex_kernel (t : bool) (k1 k2 k3 q : R) : R := match kernel_gamma2 (N := RNum) (flag_of t) k1 k2 k3 q with Ok v => v | Err _ => 0 end.
(** Nine coefficients of the B terms from the twelve averages *)
Definition B_nine (I : nat -> R) (c : nat) : R :=
  match c with
  | 0%nat => I 0%nat | 1%nat => - (I 1%nat + I 2%nat) | 2%nat => I 3%nat | 3%nat => I 4%nat | 4%nat => - (I 5%nat + I 6%nat)
  | 5%nat => I 7%nat | 6%nat => - (I 8%nat + I 9%nat) | 7%nat => I 10%nat | _ => I 11%nat
  end.
(** A number Suave returns for a function which is F in the unit cube *)
Definition integral_is {A} (suave : (list R -> res A) -> res A) (F : R -> R -> R -> R -> R -> A) (I : A) : Prop :=
  exists f, suave f = Ok I /\ forall x0 x1 x2 x3 x4, (forall x, In x [x0; x1; x2; x3; x4] -> 0 <= x <= 1) -> f [x0; x1; x2; x3; x4] = Ok (F x0 x1 x2 x3 x4).
(** Integrand of the 2-loop tree term at a point of the cube, for the range [qmin, qmax] *)
Definition gamma3_point (P : R -> R) (a b : bool) (k qmin qmax xx0 xx1 xx2 xx3 xx4 : R) : R :=
  let l := ln qmax - ln qmin in
  let pl := exp (ln qmin + l * xx0) in let ql := exp (ln qmin + l * xx3) in
  let p := polar pl (xx1 * PI) (xx2 * 2 * PI) in let q := polar ql (xx4 * PI) 0 in let r := vminus (vminus (0, 0, k) p) q in
  if Rle_dec qmin (norm r) then if Rle_dec (norm r) qmax then if Rle_dec (norm q) (norm r) then
    2 * (gamma3_density K3c P a b p q r * (pl ^ 3 * ql ^ 3 * sin (xx1 * PI) * sin (xx4 * PI) * (l * PI * (2 * PI)) ^ 2)) else 0 else 0 else 0.

Section Contents.
Variables (fuel : nat) (st : settings RNum) (suave1 : (list R -> res R) -> res R) (suave12 : (list R -> res (list R)) -> res (list R)).
Variables (pkl dt ptt : Pk RNum) (k : R).
Local Open Scope string_scope.
(** The tables made for the run *)
Definition the_q (x : string) : glq RNum := match new_q fuel st pkl x with Ok g => g | Err _ => mkGlq (N := RNum) 0 0 [] [] [] [] end.
Definition the_mu (x : string) : glmu RNum := match new_mu fuel st x with Ok m => m | Err _ => mkGlmu (N := RNum) 0 [] [] [] [] end.
(** The power spectrum of the run and its running displacement variance *)
Definition the_P : R -> R := lookup_of pkl POLY.
Definition the_S (q : R) : R := match sigmad2_1 (N := RNum) pkl (s_cutoff st "set_running_uvcutoff_bispectrum_1loop") q with Ok v => v | Err _ => 0 end.
(** Propagators and vertices *)
Definition prop1 (t : bool) (q : R) : R := single_sum the_P (the_q "gamma1_1loop_q") q (prop_kernel t).
Definition prop2 (t : bool) (q : R) : R :=
  double_sum the_P (the_q "gamma1_2loop_q") (fun q1 q2 => integ_gamma1_2loop (N := RNum) (flag_of t) q q1 q2) + prop1 t q ^ 2 / 2.
Definition vertex (t : bool) (k1 k2 k3 : R) : R :=
  vertex_sum the_P (the_q (if t then "gamma2t_1loop_q" else "gamma2d_1loop_q")) (vertex_kernel t k1 k2 k3).
(** Integrals over x = q / k and mu: on the half x <= |k - q| / k or on all angles, with the weights of the tables gq and m, times x^n *)
Definition mode_sum (half : bool) (n : nat) (gq gm : string) (f : R -> R -> R) : R :=
  itquad half (xs_of (the_q gq) k) (fun i => at_ (xs_of (the_q gq) k) i ^ n * at_ (gq_w (the_q gq)) i) (gm_muref (the_mu gm)) (gm_wref (the_mu gm))
    (fun i mu => f (at_ (xs_of (the_q gq) k) i) mu).
Definition bias_sum (t : bias_term) (a half : bool) : R :=
  k ^ 3 / (4 * PI ^ 2) * ((if half then 2 else 1) * mode_sum half 3 "bias_1loop_q" "bias_1loop_mu" (bias_integrand t the_P a k)).
(** What a row contains *)
Definition contents (d : driver) (v : list R) : Prop :=
  match d with
  | D_1loop a b =>
      v = [prop1 (is_theta a) k; prop1 (is_theta b) k;
           k ^ 3 / (2 * PI ^ 2) * mode_sum true 3 "gamma2_tree_q" "gamma2_tree_mu" (gamma2_integrand the_P (is_theta a) (is_theta b) k)]
  | D_2loop a b => exists qmin qmax I, q_range (s_prec st "gamma3_tree_q") pkl = Ok (qmin, qmax) /\
      integral_is suave1 (gamma3_point the_P (is_theta a) (is_theta b) k qmin qmax) I /\
      v = ([prop1 (is_theta a) k; prop2 (is_theta a) k; prop1 (is_theta b) k; prop2 (is_theta b) k] ++
           comps 3 (fun c => k ^ 3 / (2 * PI ^ 2) * mode_sum true 3 "gamma2_tree_q" "gamma2_tree_mu" (gamma2_1loop_integrand the_P vertex (is_theta a) (is_theta b) c k)) ++
           [6 * I / (2 * PI) ^ 6])%list
  | D_bias =>
      v = [bias_sum BiasB2 false true; bias_sum BiasBS2 false true; bias_sum BiasB2 true true; bias_sum BiasBS2 true true;
           bias_sum BiasB22 false false; bias_sum BiasB2S2 false false; bias_sum BiasBS22 false false; bias_sum BiasSigma3 false false]
  | D_A_1loop => let g := the_q "A_1loop_q" in let m := the_mu "A_1loop_mu" in
      exists err, v = comps 5 (fun c => k ^ 3 / (4 * PI ^ 2) *
        rsum (length (xs_of g k)) (fun i => let x := at_ (xs_of g k) i in
          let lo := mu_lo (at_ (xs_of g k) (length (xs_of g k) - 1)) x in let hi := mu_hi false (at_ (xs_of g k) 0) x in
          let A mu pkq := A_tree (wA x mu) (wtA x mu) c k x mu (the_P k) (the_P (k * x)) pkq in
          if Rlt_dec lo hi then x * at_ (gq_w g) i *
            (muquad (gm_muref m) (gm_wref m) lo hi (fun mu => A mu (the_P (k * sep x mu)) - A mu 0) + (RInt (fun mu => A mu 0) (-1) 1 + err c i)) else 0)) /\
        forall c i, (c < 5)%nat -> (i < length (xs_of g k))%nat -> let x := at_ (xs_of g k) i in Rabs (err c i) <= Rabs (the_P k * the_P (k * x)) * series_tolerance x
  | D_A_2loop => exists qmin qmax I, q_range (s_prec st "A_2loop_II_III_q") pkl = Ok (qmin, qmax) /\
      let l := ln qmin in let h := ln qmax in
      integral_is suave12 (fun x0 x1 x2 x3 x4 => comps 12 (fun c => A_second the_P the_S k (A_outer l h x0 x1) (A_loop l h x2 x3 x4) c * A_volume l h x2 x3)) I /\
      v = comps 5 (fun c => k ^ 3 / (2 * PI ^ 2) *
        A_five (fun n => mode_sum true 1 "A_2loop_I_q" "A_2loop_I_mu" (fun x mu => A_first the_P the_S prop1 vertex k x mu n) + at_ I n) c)
  | D_B => exists K : nat -> R -> R -> R -> R -> R -> R -> R,
      let Pd := lookup_of dt POLY in let Pt := lookup_of ptt POLY in let K' c x mu := K c (Pd (k * x)) (Pd (k * sep x mu)) (Pt (k * x)) (Pt (k * sep x mu)) x mu in
      (forall x mu nu, 0 < x -> -1 <= mu <= 1 -> -1 <= nu <= 1 -> 0 < sep x mu -> B_averaged Pd Pt (fun c => K' c x mu) k x mu nu) /\
      v = comps 9 (fun c => k ^ 3 / (2 * PI ^ 2) * B_nine (fun n => mode_sum true 1 "B_q" "B_mu" (K' n)) c)
  end.
(** The settings of a run: cubic interpolation everywhere, tables of a size the library accepts over a range of positive wavenumbers *)
Record regular_run (d : driver) : Prop := {
  rr_cubic : all_cubic st;
  rr_q : forall x, In x (q_tables_of d) -> (1 <= pr_n (s_prec st x) < 2 ^ 62)%Z /\ exists qmin qmax, q_range (s_prec st x) pkl = Ok (qmin, qmax) /\ 0 < qmin < qmax;
  rr_mu : forall x, In x (mu_tables_of d) -> rule_ok (s_prec st x) }.
End Contents.
(** A spectrum of at least two increasing wavenumbers *)
Definition two_points (pk : Pk RNum) : Prop := exists K P : list R, pk = mk_table (N := RNum) K P /\ length P = length K /\ (2 <= zlen K < 2 ^ 62)%Z /\ increasing K.
