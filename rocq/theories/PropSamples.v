(** PropSamples: properties C97, C98 and C99, a linear spectrum given as samples of a smooth function. *)
From Coq Require Import Reals Lra Lia List ZArith String.
From Coquelicot Require Import Coquelicot.
From Verif Require Import Base Num Common Kernels Integrals Registry Threads PyTerms Spec SpecPT SpecQuad SpecKernels SpecLoops SpecIntegrals SpecThreads SpecScratch SpecDefined SpecColumns SpecConv SpecPy SpecSamples
  ProofKernels ProofThreads8 ProofDefined12 ProofColumns4 ProofSamples3 ProofSamples5 ProofSamples6 ProofSamples7 ProofSamples8.
Import ListNotations.
Local Open Scope R_scope.

(** ** C97: a lookup converges to the sampled spectrum *)
(** The code interpolates through up to five samples around the bracketing one. The value differs from the spectrum by at most M h^m / 8, 12, 16 or 40 for m = 2, 3, 4, 5 points, h the largest step and M a bound of the m-th derivative. *)
Theorem C97_cubic P M h K Pv k : samples P 5 M h K Pv -> (2 <= zlen K < 2 ^ 62)%Z -> at_ K 0 <= k <= at_ K (length K - 1) ->
  exists i v, (i < length K)%nat /\ at_ K i <= k /\ ((S i < length K)%nat -> k < at_ K (S i)) /\
    find_pk (N := RNum) (mk_table (N := RNum) K Pv) [k] POLY = Ok [v] /\
    Rabs (v - P 0%nat k) <= poly_error M h (Nat.min (i + 2) (length K - 1) - (i - 2) + 1).
Proof. exact (sampled_poly P M h K Pv k). Qed.
Print Assumptions C97_cubic.
(** With three samples or more, at every wavenumber of the table *)
Theorem C97_all P M h K Pv d q : samples P 5 M h K Pv -> (3 <= zlen K < 2 ^ 62)%Z -> (forall m, (3 <= m <= 5)%nat -> poly_error M h m <= d) -> at_ K 0 <= q <= at_ K (List.length K - 1) ->
  Rabs (lookup_of (mk_table (N := RNum) K Pv) POLY q - P 0%nat q) <= d.
Proof. exact (lookup_near P M h K Pv d q). Qed.
Print Assumptions C97_all.
(** Linear interpolation is second order, except at the last wavenumber (C08). *)
Theorem C97_linear P M h K Pv k : samples P 2 M h K Pv -> (2 <= zlen K < 2 ^ 62)%Z -> at_ K 0 <= k < at_ K (length K - 1) ->
  exists v, find_pk (N := RNum) (mk_table (N := RNum) K Pv) [k] LIN = Ok [v] /\ Rabs (v - P 0%nat k) <= M 2%nat * h ^ 2 / 8.
Proof. exact (sampled_lin P M h K Pv k). Qed.
Print Assumptions C97_linear.
(** pk_interp of the Python classes, and the values given for wavenumbers outside the table *)
Theorem C97_pk_interp (c : columns RNum) P M h (K v : list R) k left right : getitem c "k" = Ok K -> samples P 2 M h K v -> (1 <= List.length K)%nat ->
  exists x, pk_interp (N := RNum) c k left right (Ok v) = Ok x /\ (k < at_ K 0 -> x = left) /\ (at_ K (List.length K - 1) < k -> x = right) /\
    (at_ K 0 <= k <= at_ K (List.length K - 1) -> Rabs (x - P 0%nat k) <= M 2%nat * h ^ 2 / 8).
Proof. exact (sampled_interp c P M h K v k left right). Qed.
Print Assumptions C97_pk_interp.
(** exp (-q) sampled on any regular grid: steps as small as one likes *)
Example C97_ex a h n m : 0 <= a -> 0 < h -> (1 <= n)%nat -> samples decay m (fun _ => 1) h (grid a h n) (map (fun t => exp (- t)) (grid a h n)).
Proof. exact (decay_samples a h n m). Qed.

(** ** C98: the variances converge to their integrals *)
(** The running variance up to k times the cutoff is the integral of the spectrum over 6 pi^2, up to the end of the table, to second order in the step. *)
Theorem C98_running P M h K Pv ks uv : samples P 2 M h K Pv -> (1 <= zlen K < 2 ^ 62)%Z -> ascending ks -> 0 <= uv ->
  exists vs, calc_running_sigmad2 (N := RNum) (mk_table (N := RNum) K Pv) ks uv = Ok vs /\
    Forall2 (fun k v => at_ K 0 <= k * uv -> let c := Rmin (k * uv) (at_ K (length K - 1)) in
      Rabs (v - RInt (P 0%nat) (at_ K 0) c / (6 * PI ^ 2)) <= (c - at_ K 0) * (M 2%nat * h ^ 2 / 8) / (6 * PI ^ 2)) ks vs.
Proof. exact (sampled_variance P M h K Pv ks uv). Qed.
Print Assumptions C98_running.
(** sigmav is the square root of the integral of the spectrum over 6 pi^2. *)
Theorem C98_sigmav (c : columns RNum) P M h (K v : list R) : getitem c "k" = Ok K -> samples P 2 M h K v -> (1 <= List.length K)%nat ->
  exists s, sigmav (N := RNum) c (Ok v) = Ok s /\
    Rabs (s - sqrt (RInt (P 0%nat) (at_ K 0) (at_ K (List.length K - 1)) / (6 * PI ^ 2))) <= sqrt ((at_ K (List.length K - 1) - at_ K 0) * (M 2%nat * h ^ 2 / 8) / (6 * PI ^ 2)).
Proof. exact (sampled_sigmav c P M h K v). Qed.
Print Assumptions C98_sigmav.
(** sigmar is the r.m.s. of the field in spheres of radius r: the integrand G = P(q) (W(q r) q)^2 has two derivatives, the second bounded by M 2. *)
Theorem C98_sigmar (c : columns RNum) r P M0 G M h (K v : list R) : getitem c "k" = Ok K -> samples P 0 M0 h K v -> (1 <= List.length K)%nat ->
  (forall q, at_ K 0 <= q <= at_ K (List.length K - 1) -> G 0%nat q = P 0%nat q * (tophat (q * r) * q) ^ 2) ->
  derivatives G 2 (at_ K 0) (at_ K (List.length K - 1)) -> (forall j t, (j <= 2)%nat -> at_ K 0 <= t <= at_ K (List.length K - 1) -> Rabs (G j t) <= M j) ->
  exists s, sigmar (N := RNum) c r (Ok v) = Ok s /\
    Rabs (s - sqrt (RInt (fun q => P 0%nat q * (tophat (q * r) * q) ^ 2) (at_ K 0) (at_ K (List.length K - 1)) / (2 * PI ^ 2))) <= sqrt ((at_ K (List.length K - 1) - at_ K 0) * (M 2%nat * h ^ 2 / 8) / (2 * PI ^ 2)).
Proof. exact (sampled_sigmar c r P M0 G M h K v). Qed.
Print Assumptions C98_sigmar.
Example C98_ex : (forall q, 0 < q -> sphere 0 q = q ^ 4 / 9 * (tophat (q * 1) * q) ^ 2) /\ derivatives sphere 2 1 3 /\ forall j t, (j <= 2)%nat -> 1 <= t <= 3 -> Rabs (sphere j t) <= sphere_bound j.
Proof. exact sphere_ex. Qed.
Example C98_grid_ex a h n : 0 <= a -> 0 < h -> (1 <= n)%nat -> samples decay 2 (fun _ => 1) h (grid a h n) (map (fun t => exp (- t)) (grid a h n)) /\ ascending [a; a + 1] /\
  getitem (N := RNum) [("k", grid a h n)]%string "k" = Ok (grid a h n).
Proof. intros Ha Hh Hn. split; [exact (decay_samples a h n 2 Ha Hh Hn)|]. split; [|reflexivity]. intros i j Hij. cbn [List.length] in Hij. destruct i as [|[|i]], j as [|[|j]]; try lia; cbn [at_ nth]; lra. Qed.

(** ** C99: the columns converge to the integrals over the sampled spectrum *)
(** The columns of the propagators differ from the integral of perturbation theory over the spectrum P 0 itself by the error of the rule, that of the series of the kernels and that of the table. *)
Theorem C99_propagators fuel st suave1 suave12 a b d pkl dt ptt ks ps ss vals ik qmin qmax lam M1 N delta P M h K Pv :
  samples P 5 M h K Pv -> (3 <= zlen K < 2 ^ 62)%Z -> (forall m, (3 <= m <= 5)%nat -> poly_error M h m <= delta) -> pkl = mk_table (N := RNum) K Pv -> at_ K 0 <= qmin -> qmax <= at_ K (List.length K - 1) ->
  d = D_1loop a b \/ d = D_2loop a b -> regular_run st pkl d ->
  let n := pr_n (s_prec st "gamma1_1loop_q") in let k := k_ (N := RNum) ks ik in
  q_range (N := RNum) (s_prec st "gamma1_1loop_q") pkl = Ok (qmin, qmax) -> 0 < qmin < qmax ->
  computes (N := RNum) fuel st suave1 suave12 d pkl dt ptt ks ps ss vals -> (0 <= ik < zlen ks)%Z -> 0 < k -> 0 <= lam ->
  (forall t, bounded_lipschitz (fun s => prop_exact t (exp s / k) * P 0%nat (exp s)) (ln qmin) (ln qmax) lam M1) -> (forall t q, qmin <= q <= qmax -> Rabs (prop_exact t (q / k)) <= N) ->
  let bound := propagator_bound n k qmin qmax lam M1 (M 0%nat) + propagator_change n k qmin qmax N delta in
  Rabs (at_ (vals ik) 0 - exact_integral (P 0%nat) (is_theta a) k qmin qmax) <= bound /\
  Rabs (at_ (vals ik) (match d with D_1loop _ _ => 1 | _ => 2 end) - exact_integral (P 0%nat) (is_theta b) k qmin qmax) <= bound.
Proof. exact (sampled_gamma1 fuel st suave1 suave12 a b d pkl dt ptt ks ps ss vals ik qmin qmax lam M1 N delta P M h K Pv). Qed.
Print Assumptions C99_propagators.
(** The one-loop correction: the bounds lam and B are those of the integrand of P 0, and C says how much it changes with the spectrum. *)
Theorem C99_one_loop fuel st suave1 suave12 a b d pkl dt ptt ks ps ss vals ik qmin qmax lam B C delta P M h K Pv :
  samples P 5 M h K Pv -> (3 <= zlen K < 2 ^ 62)%Z -> (forall m, (3 <= m <= 5)%nat -> poly_error M h m <= delta) -> 0 <= delta <= 1 ->
  pkl = mk_table (N := RNum) K Pv -> at_ K 0 <= qmin -> qmax <= at_ K (List.length K - 1) -> d = D_1loop a b \/ d = D_2loop a b -> regular_run st pkl d ->
  let n := pr_n (s_prec st "gamma2_tree_q") in let m := pr_n (s_prec st "gamma2_tree_mu") in let k := k_ (N := RNum) ks ik in
  q_range (N := RNum) (s_prec st "gamma2_tree_q") pkl = Ok (qmin, qmax) -> 0 < qmin < qmax ->
  computes (N := RNum) fuel st suave1 suave12 d pkl dt ptt ks ps ss vals -> (0 <= ik < zlen ks)%Z -> 0 < k -> 0 <= lam -> 0 <= B -> 0 <= C ->
  smooth true (qmin / k) (qmax / k) (gamma2_integrand (P 0%nat) (is_theta a) (is_theta b) k) lam B ->
  stable true k qmin qmax (fun F => gamma2_integrand F (is_theta a) (is_theta b) k) (P 0%nat) C ->
  Rabs (at_ (vals ik) (match d with D_1loop _ _ => 2 | _ => 4 end) - gamma2_continuum (P 0%nat) (is_theta a) (is_theta b) k qmin qmax) <=
    k ^ 3 / (2 * PI ^ 2) * (mode_bound n m 3 k qmin qmax lam B + mode_change_bound n m 3 k qmin qmax (C * delta)).
Proof. exact (sampled_gamma2 fuel st suave1 suave12 a b d pkl dt ptt ks ps ss vals ik qmin qmax lam B C delta P M h K Pv). Qed.
Print Assumptions C99_one_loop.
(** The eight columns of the bias terms *)
Theorem C99_bias fuel st suave1 suave12 pkl dt ptt ks ps ss vals ik qmin qmax lam B C delta P M h K Pv j t a half :
  samples P 5 M h K Pv -> (3 <= zlen K < 2 ^ 62)%Z -> (forall m, (3 <= m <= 5)%nat -> poly_error M h m <= delta) -> 0 <= delta <= 1 ->
  pkl = mk_table (N := RNum) K Pv -> at_ K 0 <= qmin -> qmax <= at_ K (List.length K - 1) -> regular_run st pkl D_bias ->
  let n := pr_n (s_prec st "bias_1loop_q") in let m := pr_n (s_prec st "bias_1loop_mu") in let k := k_ (N := RNum) ks ik in
  q_range (N := RNum) (s_prec st "bias_1loop_q") pkl = Ok (qmin, qmax) -> 0 < qmin < qmax ->
  computes (N := RNum) fuel st suave1 suave12 D_bias pkl dt ptt ks ps ss vals -> (0 <= ik < zlen ks)%Z -> 0 < k -> 0 <= lam -> 0 <= B -> 0 <= C -> nth_error bias_columns j = Some (t, a, half) ->
  smooth half (qmin / k) (qmax / k) (bias_integrand t (P 0%nat) a k) lam B -> stable half k qmin qmax (fun F => bias_integrand t F a k) (P 0%nat) C ->
  Rabs (at_ (vals ik) j - bias_continuum (P 0%nat) t a half k qmin qmax) <= k ^ 3 / (2 * PI ^ 2) * (mode_bound n m 3 k qmin qmax lam B + mode_change_bound n m 3 k qmin qmax (C * delta)).
Proof. exact (sampled_bias fuel st suave1 suave12 pkl dt ptt ks ps ss vals ik qmin qmax lam B C delta P M h K Pv j t a half). Qed.
Print Assumptions C99_bias.
(** Constants lam, B, C, N for every spectrum F with a bounded derivative; they do not depend on the table or on the numbers of nodes. *)
Theorem C99_constants (F F' : R -> R) D k qmin qmax : 0 < qmin -> qmin <= qmax -> 0 < k -> (forall q, qmin <= q <= qmax -> is_derive F q (F' q) /\ Rabs (F' q) <= D) ->
  (exists lam M1 N, 0 <= lam /\ forall t, bounded_lipschitz (fun s => prop_exact t (exp s / k) * F (exp s)) (ln qmin) (ln qmax) lam M1 /\ forall q, qmin <= q <= qmax -> Rabs (prop_exact t (q / k)) <= N) /\
  (forall half a b, exists lam B C, 0 <= lam /\ 0 <= B /\ 0 <= C /\ smooth half (qmin / k) (qmax / k) (gamma2_integrand F a b k) lam B /\ stable half k qmin qmax (fun Q => gamma2_integrand Q a b k) F C) /\
  (forall half t a, exists lam B C, 0 <= lam /\ 0 <= B /\ 0 <= C /\ smooth half (qmin / k) (qmax / k) (bias_integrand t F a k) lam B /\ stable half k qmin qmax (fun Q => bias_integrand t Q a k) F C).
Proof. exact (constants F F' D k qmin qmax). Qed.
Print Assumptions C99_constants.
(** The spectrum (1, 5), (2, 6), (3, 4) samples a polynomial; runs with it *)
Example C99_ex d gq : pk_three = mk_table (N := RNum) [1; 2; 3] [5; 6; 4] /\ samples quad 5 quad_bound 1 [1; 2; 3] [5; 6; 4] /\ (forall m, (3 <= m <= 5)%nat -> poly_error quad_bound 1 m <= 0) /\
  regular_run st_ex pk_three d /\ q_range (N := RNum) (s_prec st_ex gq) pk_three = Ok (1, 2) /\ (forall k, In k ks_ex -> 0 < k) /\
  exists ps ss vals, computes 2 st_ex suave1_ex suave12_ex d pk_three pk_three pk_three ks_ex ps ss vals.
Proof. destruct three_samples as (A1 & A2 & A3). destruct (columns_ex d) as (_ & B & _ & C & D). repeat (split; [assumption|]). split; [apply three_range|]. split; assumption. Qed.
Example C99_constants_ex q : 1 <= q <= 2 -> is_derive (quad 0) q (quad 1 q) /\ Rabs (quad 1 q) <= 4.
Proof. intros Hq. split; [apply quad_derive|]. cbn [quad]. apply Rabs_le. lra. Qed.
