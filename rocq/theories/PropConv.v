(** PropConv: property C96. *)
From Coq Require Import Reals Lra Lia List ZArith String.
From Coquelicot Require Import Coquelicot.
From Verif Require Import Base Num Common Kernels Integrals Registry Threads Spec SpecPT SpecQuad SpecLoops SpecIntegrals SpecThreads SpecScratch SpecDefined SpecColumns SpecConv ProofKernels ProofThreads8 ProofDefined12 ProofColumns4 ProofConv2 ProofConv3 ProofConv4.
Import ListNotations.
Local Open Scope R_scope.

(** The sum over the nodes in q and, at each of them, over the nodes in mu inside the region where |k - q| is in the range of the table is the integral over ln q and mu, for every integrand with the bounds lam and M. *)
Theorem C96_mode fuel fuel' (pq pm : precision RNum) pkl (g : glq RNum) (m : glmu RNum) half p k qmin qmax f lam M : (1 <= pr_n pq < 2 ^ 62)%Z -> (1 <= pr_n pm < 2 ^ 62)%Z ->
  init_gauss_legendre_q (N := RNum) fuel pq pkl = Ok g -> init_gauss_legendre_mu (N := RNum) fuel' pm = Ok m -> q_range (N := RNum) pq pkl = Ok (qmin, qmax) -> 0 < qmin < qmax -> 0 < k -> 0 <= lam -> 0 <= M ->
  smooth half (qmin / k) (qmax / k) f lam M ->
  ex_RInt (fun s => (exp s / k) ^ p * angle_integral half (qmin / k) (qmax / k) f (exp s / k)) (ln qmin) (ln qmax) /\
  Rabs (itquad half (xs_of g k) (fun i => at_ (xs_of g k) i ^ p * at_ (gq_w g) i) (gm_muref m) (gm_wref m) (fun i mu => f (at_ (xs_of g k) i) mu) - mode_integral half p k qmin qmax f) <=
    mode_bound (pr_n pq) (pr_n pm) p k qmin qmax lam M.
Proof. exact (mode_error fuel fuel' pq pm pkl g m half p k qmin qmax f lam M). Qed.
Print Assumptions C96_mode.

(** The integrands of the one-loop correction and of the bias terms have such bounds, for every table and every k. *)
Theorem C96_integrands K Pv k qmin qmax : List.length Pv = List.length K -> (2 <= zlen K < 2 ^ 62)%Z -> increasing K -> 0 < qmin -> qmin <= qmax -> at_ K 0 <= qmin -> qmax <= at_ K (List.length K - 1) -> 0 < k ->
  let P := lookup_of (mk_table (N := RNum) K Pv) POLY in
  (forall half a b, exists lam M, 0 <= lam /\ 0 <= M /\ smooth half (qmin / k) (qmax / k) (gamma2_integrand P a b k) lam M) /\
  (forall half t a, exists lam M, 0 <= lam /\ 0 <= M /\ smooth half (qmin / k) (qmax / k) (bias_integrand t P a k) lam M).
Proof. exact (smooth_exist K Pv k qmin qmax). Qed.
Print Assumptions C96_integrands.

(** The column pkcorr_gamma2_tree_tree of the 1-loop terms, and that of the 2-loop terms, is k^3 / (2 pi^2) times the integral of x^3 P(q) P(|k-q|) F_a F_b over the region, up to the error of the two rules. *)
Theorem C96_one_loop fuel st suave1 suave12 a b d pkl dt ptt ks ps ss vals ik qmin qmax lam M : two_points pkl -> d = D_1loop a b \/ d = D_2loop a b -> regular_run st pkl d ->
  let n := pr_n (s_prec st "gamma2_tree_q") in let m := pr_n (s_prec st "gamma2_tree_mu") in let P := lookup_of pkl POLY in let k := k_ (N := RNum) ks ik in
  q_range (N := RNum) (s_prec st "gamma2_tree_q") pkl = Ok (qmin, qmax) -> 0 < qmin < qmax ->
  computes (N := RNum) fuel st suave1 suave12 d pkl dt ptt ks ps ss vals -> (0 <= ik < zlen ks)%Z -> 0 < k -> 0 <= lam -> 0 <= M ->
  smooth true (qmin / k) (qmax / k) (gamma2_integrand P (is_theta a) (is_theta b) k) lam M ->
  Rabs (at_ (vals ik) (match d with D_1loop _ _ => 2 | _ => 4 end) - gamma2_continuum P (is_theta a) (is_theta b) k qmin qmax) <= k ^ 3 / (2 * PI ^ 2) * mode_bound n m 3 k qmin qmax lam M.
Proof. exact (gamma2_columns fuel st suave1 suave12 a b d pkl dt ptt ks ps ss vals ik qmin qmax lam M). Qed.
Print Assumptions C96_one_loop.

(** Each of the eight columns of the bias terms is its integral. *)
Theorem C96_bias fuel st suave1 suave12 pkl dt ptt ks ps ss vals ik qmin qmax lam M j t a half : two_points pkl -> regular_run st pkl D_bias ->
  let n := pr_n (s_prec st "bias_1loop_q") in let m := pr_n (s_prec st "bias_1loop_mu") in let P := lookup_of pkl POLY in let k := k_ (N := RNum) ks ik in
  q_range (N := RNum) (s_prec st "bias_1loop_q") pkl = Ok (qmin, qmax) -> 0 < qmin < qmax ->
  computes (N := RNum) fuel st suave1 suave12 D_bias pkl dt ptt ks ps ss vals -> (0 <= ik < zlen ks)%Z -> 0 < k -> 0 <= lam -> 0 <= M -> nth_error bias_columns j = Some (t, a, half) ->
  smooth half (qmin / k) (qmax / k) (bias_integrand t P a k) lam M ->
  Rabs (at_ (vals ik) j - bias_continuum P t a half k qmin qmax) <= k ^ 3 / (2 * PI ^ 2) * mode_bound n m 3 k qmin qmax lam M.
Proof. exact (bias_columns_error fuel st suave1 suave12 pkl dt ptt ks ps ss vals ik qmin qmax lam M j t a half). Qed.
Print Assumptions C96_bias.

(** The bound goes to zero with the numbers of nodes until the tolerance of the Newton iteration is felt. The spectrum (1, 5), (2, 6), (3, 4) between 1 and 2, at any k, and runs with it *)
Example C96_ex k : 0 < k -> let P := lookup_of pk_three POLY in
  (forall half a b, exists lam M, 0 <= lam /\ 0 <= M /\ smooth half (1 / k) (2 / k) (gamma2_integrand P a b k) lam M) /\
  (forall half t a, exists lam M, 0 <= lam /\ 0 <= M /\ smooth half (1 / k) (2 / k) (bias_integrand t P a k) lam M).
Proof. exact (conv_ex k 1 2 ltac:(lra) ltac:(lra) ltac:(lra)). Qed.
Example C96_runs_ex d gq : two_points pk_three /\ regular_run st_ex pk_three d /\ q_range (N := RNum) (s_prec st_ex gq) pk_three = Ok (1, 2) /\ (forall k, In k ks_ex -> 0 < k) /\
  exists ps ss vals, computes 2 st_ex suave1_ex suave12_ex d pk_three pk_three pk_three ks_ex ps ss vals.
Proof. destruct (columns_ex d) as (A & B & _ & C & D). split; [exact A|]. split; [exact B|]. split; [apply three_range|]. split; assumption. Qed.
