(** PropLimits: the propagator columns on the largest and on the smallest scales.  Notions: SpecLimits.v, SpecColumns.v ([the_q]: the
    quadrature table of a run, [the_P]: the linear spectrum).  Exact arithmetic. *)
From Coq Require Import ZArith Reals Lra Lia List Bool String.
From Verif Require Import Base Num BaseFacts Common Kernels Gamma2 Integrals Registry Threads Spec SpecPT SpecIntegrals SpecBisp2 SpecThreads SpecDefined SpecColumns SpecLimits
  ProofKernels ProofThreads8 ProofDefined12 ProofColumns4 ProofLimits3 ProofLimits4.
Import ListNotations.
Local Open Scope R_scope.
Local Open Scope string_scope.

(** ** C86: wavenumbers far below those of the integrals *)
(** The 1-loop columns are - 61/210 k^2 sigma^2 (density) and - 9/10 k^2 sigma^2 (velocity divergence) up to terms of order k^4. *)
Theorem C86_one_loop fuel (st : settings RNum) suave1 suave12 d pkl dt ptt ks ps ss vals ik t x : two_points pkl -> regular_run st pkl d ->
  computes fuel st suave1 suave12 d pkl dt ptt ks ps ss vals -> (0 <= ik < zlen ks)%Z -> let k := k_ (N := RNum) ks ik in let g := the_q fuel st pkl "gamma1_1loop_q" in let P := the_P pkl in
  0 < k -> In (t, x) (columns_1 d (vals ik)) -> (forall q, In q (gq_q g) -> 10 * k < q) ->
  Rabs (x + uv_coefficient t * k ^ 2 * displacement P g) <= k ^ 4 / (18 * PI ^ 2) * absolute_1 P g (fun q => 1 / q).
Proof. exact (fun HT HR HC Hi Hk => run_1_large fuel st suave1 suave12 d pkl dt ptt ks ps ss vals HT HR HC ik Hi Hk t x). Qed.
Print Assumptions C86_one_loop.
(** The 2-loop columns are half the squares of the 1-loop ones minus k^2 times the integral of beta, up to terms of order k^4 and the rounding of the
    constants of the fit (1e-15). *)
Theorem C86_two_loop fuel (st : settings RNum) suave1 suave12 d pkl dt ptt ks ps ss vals ik t x x2 : two_points pkl -> regular_run st pkl d ->
  computes fuel st suave1 suave12 d pkl dt ptt ks ps ss vals -> (0 <= ik < zlen ks)%Z -> let k := k_ (N := RNum) ks ik in let g := the_q fuel st pkl "gamma1_2loop_q" in let P := the_P pkl in
  0 < k -> In (t, (x, x2)) (columns_2 d (vals ik)) -> let b q1 q2 := Rabs (beta (N := RNum) (flag_of t) q1 q2) in
  Rabs (x2 - x ^ 2 / 2 + k ^ 2 * uv_2loop t P g) <=
  (k ^ 4 * absolute_2 P g (fun q1 q2 => (2 * b q1 q2 + 3 / 5) * (q1 * q2)) + k ^ 2 * / 10 ^ 15 * absolute_2 P g (fun q1 q2 => b q1 q2 * (q1 ^ 3 * q2 ^ 3 / (q1 ^ 2 + q2 ^ 2)))) / (4 * PI ^ 4).
Proof. exact (fun HT HR HC Hi Hk => run_2_large fuel st suave1 suave12 d pkl dt ptt ks ps ss vals HT HR HC ik Hi Hk t x x2). Qed.
Print Assumptions C86_two_loop.
(** The fitted kernel tends to beta: *)
Theorem C86_kernel a q1 q2 : 0 < q1 -> 0 < q2 -> let b := beta (N := RNum) a q1 q2 in
  Rabs (alpha (N := RNum) a q1 q2 - b) <= (2 * Rabs b + 3 / 5) * (1 / q1 ^ 2 + 1 / q2 ^ 2) + Rabs b / 10 ^ 15.
Proof. exact (alpha_far a q1 q2). Qed.
Print Assumptions C86_kernel.
(** ** C87: wavenumbers far above those of the integrals *)
(** The 1-loop columns are - k^2 sigma^2 / 2, the first term of exp (- k^2 sigma^2 / 2), up to a constant ... *)
Theorem C87_one_loop fuel (st : settings RNum) suave1 suave12 d pkl dt ptt ks ps ss vals ik t x : two_points pkl -> regular_run st pkl d ->
  computes fuel st suave1 suave12 d pkl dt ptt ks ps ss vals -> (0 <= ik < zlen ks)%Z -> let k := k_ (N := RNum) ks ik in let g := the_q fuel st pkl "gamma1_1loop_q" in let P := the_P pkl in
  0 < k -> In (t, x) (columns_1 d (vals ik)) -> (forall q, In q (gq_q g) -> 2 * q <= k) ->
  Rabs (x + k ^ 2 * displacement P g / 2) <= absolute_1 P g (fun q => q ^ 3) / (8 * PI ^ 2).
Proof. exact (fun HT HR HC Hi Hk => run_1_small fuel st suave1 suave12 d pkl dt ptt ks ps ss vals HT HR HC ik Hi Hk t x). Qed.
Print Assumptions C87_one_loop.
(** ... and the 2-loop columns, of order k^4, are half the squares of the 1-loop ones up to terms of order k^2. *)
Theorem C87_two_loop fuel (st : settings RNum) suave1 suave12 d pkl dt ptt ks ps ss vals ik t x x2 : two_points pkl -> regular_run st pkl d ->
  computes fuel st suave1 suave12 d pkl dt ptt ks ps ss vals -> (0 <= ik < zlen ks)%Z -> let k := k_ (N := RNum) ks ik in let g := the_q fuel st pkl "gamma1_2loop_q" in let P := the_P pkl in
  0 < k -> In (t, (x, x2)) (columns_2 d (vals ik)) -> let b q1 q2 := Rabs (beta (N := RNum) (flag_of t) q1 q2) in
  Rabs (x2 - x ^ 2 / 2) <= k ^ 2 * absolute_2 P g (fun q1 q2 => (5 * b q1 q2 + 3 / 5) * (q1 ^ 3 * q2 ^ 3 / (q1 ^ 2 + q2 ^ 2))) / (4 * PI ^ 4).
Proof. exact (fun HT HR HC Hi Hk => run_2_small fuel st suave1 suave12 d pkl dt ptt ks ps ss vals HT HR HC ik Hi Hk t x x2). Qed.
Print Assumptions C87_two_loop.
(** A run at k = 1/10 and k = 3 with all nodes between 1 and 3/2 meets the hypotheses of both. *)
Example C86_ex d : two_points pk_three /\ regular_run st_ex pk_three d /\ (forall q, In q (gq_q (the_q 2 st_ex pk_three "gamma1_1loop_q")) -> 10 * (1 / 10) < q /\ 2 * q <= 3) /\
  exists ps ss vals, computes 2 st_ex suave1_ex suave12_ex d pk_three pk_three pk_three [1 / 10; 3] ps ss vals.
Proof. exact (far_ex d). Qed.
