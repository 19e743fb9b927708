(** PropQuad: the quadratures against the integrals they stand for, for every number of nodes (C95). *)
From Coq Require Import ZArith Reals Lra Lia List String.
From Coquelicot Require Import Coquelicot.
From Verif Require Import Base Num BaseFacts Common Integrals Registry Threads Spec SpecPT SpecQuad SpecThreads SpecScratch SpecDefined SpecKernels ProofKernels SpecIntegrals SpecLoops SpecColumns SpecConv LegendreSpec ProofThreads8 ProofDefined12
  ProofColumns4 ProofNewton7 ProofNewton8 ProofQuad ProofQuad2 ProofQuad3.
Import ListNotations.
Local Open Scope R_scope.

(** A rule of n nodes and any bounded Lipschitz function: the function has an integral, and the error of the rule is at most
    (length)^2 lam / sqrt (2 n - 1) and a term due to the tolerance of the Newton iteration. *)
Theorem C95_lipschitz fuel (xmin xmax : R) (x w : list R) n (f : R -> R) (M lam : R) : (1 <= n < 2 ^ 62)%Z -> zlen x = n -> zlen w = n -> xmin < xmax -> 0 <= lam ->
  (forall t, xmin <= t <= xmax -> Rabs (f t) <= M) -> (forall s t, xmin <= s <= xmax -> xmin <= t <= xmax -> Rabs (f s - f t) <= lam * Rabs (s - t)) ->
  forall x' w', nodes_weights_gauss_legendre (N := RNum) fuel xmin xmax x w n = Ok (x', w') ->
  ex_RInt f xmin xmax /\
  Rabs (rsum (List.length x') (fun i => at_ w' i * f (at_ x' i)) - RInt f xmin xmax) <=
    (xmax - xmin) * (lam * (xmax - xmin) / sqrt (2 * IZR n - 1) + 2 * (IZR n + 1 / 2) ^ 2 * (3 / 10 ^ 14) * M + lam * ((xmax - xmin) / 9 * (3 / 10 ^ 14))).
Proof. exact (gl_lipschitz fuel xmin xmax x w n f M lam). Qed.
Print Assumptions C95_lipschitz.

(** The tables over q: sums over the nodes are integrals over ln q between the ends of the range. *)
Theorem C95_radial fuel (p : precision RNum) pkl (g : glq RNum) qmin qmax F lam M : (1 <= pr_n p < 2 ^ 62)%Z ->
  init_gauss_legendre_q (N := RNum) fuel p pkl = Ok g -> q_range (N := RNum) p pkl = Ok (qmin, qmax) -> 0 < qmin < qmax -> 0 <= lam ->
  bounded_lipschitz (fun s => F (exp s)) (ln qmin) (ln qmax) lam M ->
  ex_RInt (fun s => F (exp s)) (ln qmin) (ln qmax) /\
  Rabs (rsum (List.length (gq_q g)) (fun i => at_ (gq_w g) i * F (at_ (gq_q g) i)) - RInt (fun s => F (exp s)) (ln qmin) (ln qmax)) <= rule_error (pr_n p) (ln qmax - ln qmin) lam M.
Proof. exact (fun Hn HI ER Hq Hl H => radial_rule fuel p pkl g qmin qmax F lam M Hn HI ER Hq Hl (proj1 H) (proj2 H)). Qed.
Print Assumptions C95_radial.

(** The integrand of the propagators is bounded and Lipschitz in ln q for every table and every k. *)
Theorem C95_integrand K Pv t k qmin qmax : List.length Pv = List.length K -> (2 <= zlen K < 2 ^ 62)%Z -> increasing K -> 0 < qmin -> qmin <= qmax -> at_ K 0 <= qmin -> qmax <= at_ K (List.length K - 1) -> 0 < k ->
  let P := lookup_of (mk_table (N := RNum) K Pv) POLY in
  exists lam M1 M, 0 <= lam /\ bounded_lipschitz (fun s => prop_exact t (exp s / k) * P (exp s)) (ln qmin) (ln qmax) lam M1 /\ forall q, qmin <= q <= qmax -> Rabs (P q) <= M.
Proof. exact (bounds_exist K Pv t k qmin qmax). Qed.
Print Assumptions C95_integrand.

(** The propagator computed is the integral of perturbation theory over the range, k^3 / (2 pi^2) times the integral over ln q of f (q / k) P (q),
    up to the error of the rule and of the series of the kernels. *)
Theorem C95_propagator fuel (p : precision RNum) pkl g t k qmin qmax lam M1 M : (1 <= pr_n p < 2 ^ 62)%Z -> q_range (N := RNum) p pkl = Ok (qmin, qmax) -> 0 < qmin < qmax -> 0 < k -> 0 <= lam ->
  init_gauss_legendre_q (N := RNum) fuel p pkl = Ok g -> let P := lookup_of pkl POLY in
  bounded_lipschitz (fun s => prop_exact t (exp s / k) * P (exp s)) (ln qmin) (ln qmax) lam M1 -> (forall q, qmin <= q <= qmax -> Rabs (P q) <= M) ->
  ex_RInt (fun s => prop_exact t (exp s / k) * P (exp s)) (ln qmin) (ln qmax) /\
  Rabs (single_sum P g k (prop_kernel t) - exact_integral P t k qmin qmax) <= propagator_bound (pr_n p) k qmin qmax lam M1 M.
Proof. exact (propagator_error fuel p pkl g t k qmin qmax lam M1 M). Qed.
Print Assumptions C95_propagator.

(** So are the columns gamma1a_1loop and gamma1b_1loop of every run of the 1-loop and 2-loop terms. *)
Theorem C95_columns fuel st suave1 suave12 a b d pkl dt ptt ks ps ss vals ik qmin qmax lam M1 M : two_points pkl -> d = D_1loop a b \/ d = D_2loop a b -> regular_run st pkl d ->
  let n := pr_n (s_prec st "gamma1_1loop_q") in let P := lookup_of pkl POLY in let k := k_ (N := RNum) ks ik in
  q_range (N := RNum) (s_prec st "gamma1_1loop_q") pkl = Ok (qmin, qmax) -> 0 < qmin < qmax ->
  computes (N := RNum) fuel st suave1 suave12 d pkl dt ptt ks ps ss vals -> (0 <= ik < zlen ks)%Z -> 0 < k -> 0 <= lam ->
  (forall t, bounded_lipschitz (fun s => prop_exact t (exp s / k) * P (exp s)) (ln qmin) (ln qmax) lam M1) -> (forall q, qmin <= q <= qmax -> Rabs (P q) <= M) ->
  Rabs (at_ (vals ik) 0 - exact_integral P (is_theta a) k qmin qmax) <= propagator_bound n k qmin qmax lam M1 M /\
  Rabs (at_ (vals ik) (match d with D_1loop _ _ => 1 | _ => 2 end) - exact_integral P (is_theta b) k qmin qmax) <= propagator_bound n k qmin qmax lam M1 M.
Proof. exact (gamma1_columns fuel st suave1 suave12 a b d pkl dt ptt ks ps ss vals ik qmin qmax lam M1 M). Qed.
Print Assumptions C95_columns.

(** Rules of any number of nodes over the spectrum (1, 5), (2, 6), (3, 4), between 1 and 2; and runs with it *)
Example C95_ex n t : (1 <= n < 2 ^ 62)%Z -> let p := mkPrec (N := RNum) n 1 2 POLY in let P := lookup_of pk_three POLY in
  q_range (N := RNum) p pk_three = Ok (1, 2) /\ (exists g, init_gauss_legendre_q (N := RNum) 7 p pk_three = Ok g) /\
  exists lam M1 M, 0 <= lam /\ bounded_lipschitz (fun s => prop_exact t (exp s / 1) * P (exp s)) (ln 1) (ln 2) lam M1 /\ forall q, 1 <= q <= 2 -> Rabs (P q) <= M.
Proof. exact (propagator_ex n t). Qed.
Example C95_runs_ex d : two_points pk_three /\ regular_run st_ex pk_three d /\ q_range (N := RNum) (s_prec st_ex "gamma1_1loop_q") pk_three = Ok (1, 2) /\ (forall k, In k ks_ex -> 0 < k) /\
  exists ps ss vals, computes 2 st_ex suave1_ex suave12_ex d pk_three pk_three pk_three ks_ex ps ss vals.
Proof. destruct (columns_ex d) as (A & B & _ & C & D). split; [exact A|]. split; [exact B|]. split; [apply three_range|]. split; assumption. Qed.
