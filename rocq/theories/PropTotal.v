(** PropTotal: property C102. *)
From Coq Require Import Reals Lra Lia List ZArith String.
From Coquelicot Require Import Coquelicot.
From Verif Require Import Base Num Common Kernels Integrals Registry Threads PyTerms Spec SpecPT SpecQuad SpecLoops SpecIntegrals SpecThreads SpecScratch SpecDefined SpecColumns SpecConv SpecPy SpecScale SpecSym SpecSamples SpecTotal
  ProofKernels ProofThreads8 ProofDefined12 ProofColumns4 ProofSamples3 ProofSamples7 ProofSamples8 ProofTotal.
Import ListNotations.
Local Open Scope R_scope.

(** Spectrum1Loop.pk, of the columns left by run_terms with a linear spectrum given as samples of P 0, returns the RegPT spectrum of P 0: the propagators, the one-loop correction and the variance are
    the integrals of P 0, up to the errors of the quadrature rules, of the series of the kernels, of the interpolation and of the trapezoidal rule, propagated through the formula. *)
Theorem C102_total fuel st suave1 suave12 a b pkl dt ptt ks ps ss vals ik q1 q2 p1 p2 lam M1 N lam2 B C delta P M h K Pv D : let d := D_1loop a b in
  samples P 5 M h K Pv -> (3 <= zlen K < 2 ^ 62)%Z -> (forall m, (3 <= m <= 5)%nat -> poly_error M h m <= delta) -> 0 <= delta <= 1 -> (forall q, at_ K 0 <= q <= at_ K (List.length K - 1) -> 0 <= P 0%nat q) ->
  pkl = mk_table (N := RNum) K Pv -> regular_run st pkl d -> computes (N := RNum) fuel st suave1 suave12 d pkl dt ptt ks ps ss vals ->
  let n1 := pr_n (s_prec st "gamma1_1loop_q") in let n2 := pr_n (s_prec st "gamma2_tree_q") in let m := pr_n (s_prec st "gamma2_tree_mu") in let uv := s_cutoff st (cutoff_of d) in let k := k_ (N := RNum) ks ik in
  q_range (N := RNum) (s_prec st "gamma1_1loop_q") pkl = Ok (q1, q2) -> 0 < q1 < q2 -> at_ K 0 <= q1 -> q2 <= at_ K (List.length K - 1) ->
  q_range (N := RNum) (s_prec st "gamma2_tree_q") pkl = Ok (p1, p2) -> 0 < p1 < p2 -> at_ K 0 <= p1 -> p2 <= at_ K (List.length K - 1) ->
  ascending ks -> (0 <= ik < zlen ks)%Z -> 0 < k -> at_ K 0 <= k <= at_ K (List.length K - 1) -> 0 <= uv -> at_ K 0 <= k * uv ->
  0 <= lam -> (forall t, bounded_lipschitz (fun s => prop_exact t (exp s / k) * P 0%nat (exp s)) (ln q1) (ln q2) lam M1) -> (forall t q, q1 <= q <= q2 -> Rabs (prop_exact t (q / k)) <= N) ->
  0 <= lam2 -> 0 <= B -> 0 <= C -> smooth true (p1 / k) (p2 / k) (gamma2_integrand (P 0%nat) (is_theta a) (is_theta b) k) lam2 B -> stable true k p1 p2 (fun F => gamma2_integrand F (is_theta a) (is_theta b) k) (P 0%nat) C ->
  let c := Rmin (k * uv) (at_ K (List.length K - 1)) in
  let ga := exact_integral (P 0%nat) (is_theta a) k q1 q2 in let gb := exact_integral (P 0%nat) (is_theta b) k q1 q2 in let x := gamma2_continuum (P 0%nat) (is_theta a) (is_theta b) k p1 p2 in
  exists out, assembled d (columns_of d ks ps ss vals) D None = Ok out /\ List.length out = List.length ks /\
    Rabs (at_ out (Z.to_nat ik) - regpt_1loop D k (RInt (P 0%nat) (at_ K 0) c / (6 * PI ^ 2)) ga gb (P 0%nat k) x) <=
    regpt_1loop_err D k ga gb (P 0%nat k) x ((c - at_ K 0) * (M 2%nat * h ^ 2 / 8) / (6 * PI ^ 2)) (propagator_bound n1 k q1 q2 lam M1 (M 0%nat) + propagator_change n1 k q1 q2 N delta) delta
      (k ^ 3 / (2 * PI ^ 2) * (mode_bound n2 m 3 k p1 p2 lam2 B + mode_change_bound n2 m 3 k p1 p2 (C * delta))).
Proof. exact (total_error fuel st suave1 suave12 a b pkl dt ptt ks ps ss vals ik q1 q2 p1 p2 lam M1 N lam2 B C delta P M h K Pv D). Qed.
Print Assumptions C102_total.

(** The formula itself: errors of the variance, the propagators, the linear spectrum and the correction, for variances which are not negative *)
Theorem C102_formula D k s s' ga ga' gb gb' P P' x x' es e1 ep e2 : 0 <= s -> 0 <= s' -> Rabs (s - s') <= es -> Rabs (ga - ga') <= e1 -> Rabs (gb - gb') <= e1 -> Rabs (P - P') <= ep -> Rabs (x - x') <= e2 ->
  Rabs (regpt_1loop D k s ga gb P x - regpt_1loop D k s' ga' gb' P' x') <= regpt_1loop_err D k ga' gb' P' x' es e1 ep e2.
Proof. exact (regpt_close D k s s' ga ga' gb gb' P P' x x' es e1 ep e2). Qed.
Print Assumptions C102_formula.
(** The spectrum (1, 5), (2, 6), (3, 4) samples a positive polynomial, and is looked up without error; runs with it, with the cutoff k in the variance *)
Example C102_ex a b ik : (0 <= ik < zlen ks_ex)%Z -> let d := D_1loop a b in let k := k_ (N := RNum) ks_ex ik in
  pk_three = mk_table (N := RNum) [1; 2; 3] [5; 6; 4] /\ samples quad 5 quad_bound 1 [1; 2; 3] [5; 6; 4] /\ (forall m, (3 <= m <= 5)%nat -> poly_error quad_bound 1 m <= 0) /\
  (forall q, 1 <= q <= 3 -> 0 <= quad 0 q) /\ regular_run st_ex pk_three d /\ (forall x, q_range (N := RNum) (s_prec st_ex x) pk_three = Ok (1, 2)) /\ ascending ks_ex /\ 0 < k /\ 1 <= k <= 3 /\ s_cutoff st_ex (cutoff_of d) = 1 /\
  exists ps ss vals, computes 2 st_ex suave1_ex suave12_ex d pk_three pk_three pk_three ks_ex ps ss vals.
Proof.
  intros Hik d k. destruct three_samples as (A1 & A2 & A3). destruct (columns_ex d) as (_ & B & _ & C & D). split; [exact A1|]. split; [exact A2|]. split; [exact A3|].
  split; [intros q Hq; unfold quad; assert (H : 0 <= (q - 1) * (3 - q)) by (apply Rmult_le_pos; lra); lra|]. split; [exact B|]. split; [intros x; apply three_range|].
  assert (Hk : k = 1 \/ k = 2 \/ k = 3) by (unfold k, k_; unfold zlen in Hik; cbn [ks_ex List.length] in Hik; assert (ik = 0 \/ ik = 1 \/ ik = 2)%Z as [-> | [-> | ->]] by lia; cbn; auto).
  split; [intros i j Hij; cbn in Hij; destruct i as [|[|[|i]]]; destruct j as [|[|[|j]]]; try lia; cbn; lra|]. split; [lra|]. split; [lra|]. split; [reflexivity|exact D].
Qed.
(** The constants of the bounds exist for every differentiable spectrum (C99_constants), here with the slope of the polynomial *)
Example C102_constants_ex q : 1 <= q <= 2 -> is_derive (quad 0) q (quad 1 q) /\ Rabs (quad 1 q) <= 4.
Proof. intros Hq. split; [apply quad_derive|]. cbn [quad]. apply Rabs_le. lra. Qed.
Example C102_formula_ex : Rabs (1 - 2) <= 1 /\ Rabs (5 - 5) <= 0 /\ 0 < regpt_1loop_err 1 1 0 0 1 0 0 0 1 0.
Proof. unfold regpt_1loop_err, propagator_err, propagator_max. rewrite Rabs_R0, (Rabs_right 1) by lra. split; [apply Rabs_le; lra|]. split; [apply Rabs_le; lra|lra]. Qed.
