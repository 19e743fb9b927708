(** PropKernels: the properties C24, C25, C29-C32 of the coupling kernels and of the propagator
    kernels (src/kernels.c, src/gamma1_1loop.c, src/gamma1_2loop.c).  Model: Kernels.v.
    Vocabulary: SpecPT.v (vectors, the standard recursion), SpecKernels.v (closed formulas).
    [vec_of p] is the C array holding the vector [p], [is_theta a] tells which of F and G the
    flag selects; [yq q1 q2] is |q1-q2|/(q1+q2); [guard_ok p]: some component of [p] is at
    least 3e-14 (the cut-off of the code). *)
From Coq Require Import Reals Lra.
From Coquelicot Require Import Coquelicot.
From Verif Require Import Base Num BaseFacts Common Spec SpecPT SpecKernels Kernels.
From Verif Require Import Series ProofKernels ProofSeries ProofSeries2 ProofSeries3 ProofSeries4.
Import ListNotations.
Local Open Scope R_scope.

(** ** C24 *)
Theorem C24_recursion a p q : p <> vzero -> q <> vzero ->
  F2_sym_full (N := RNum) a (vec_of p) (vec_of q) = pt2 (is_theta a) p q.
Proof. exact (F2_full_pt a p q). Qed.
Print Assumptions C24_recursion.
Theorem C24_forms a p q (mu : R) : p <> vzero -> q <> vzero -> dot p q = norm p * norm q * mu ->
  F2_sym_fast (N := RNum) a (dot p p) (dot q q) (dot p q) = pt2 (is_theta a) p q /\
  F2_sym (N := RNum) a (norm p) (norm q) mu = pt2 (is_theta a) p q.
Proof.
  exact (fun Hp Hq E => conj (eq_trans (eq_sym (F2_full_val a p q)) (F2_full_pt a p q Hp Hq))
                             (eq_trans (F2_sym_val a p q mu Hp Hq E) (F2_full_pt a p q Hp Hq))).
Qed.
Print Assumptions C24_forms.
Example C24_ex : pt2 false (1, 0, 0) (0, 2, 0) = 5 / 7 /\ pt2 true (1, 0, 0) (1, 0, 0) = 2.
Proof. unfold pt2, pt_kernel_n. cbn [length]. rewrite !pt2u_val. unfold pt2u, mc_alpha, mc_beta. cbn. split; field. Qed.
Theorem C24_symmetric a p q :
  F2_sym_full (N := RNum) a (vec_of p) (vec_of q) = F2_sym_full (N := RNum) a (vec_of q) (vec_of p).
Proof. exact (F2_full_comm a p q). Qed.
Print Assumptions C24_symmetric.
Theorem C24_even a p q :
  F2_sym_full (N := RNum) a (vec_of (vopp p)) (vec_of (vopp q)) = F2_sym_full (N := RNum) a (vec_of p) (vec_of q).
Proof. exact (F2_full_even a p q). Qed.
Print Assumptions C24_even.
Theorem C24_scale a p q s : s <> 0 -> p <> vzero -> q <> vzero ->
  F2_sym_full (N := RNum) a (vec_of (vscal s p)) (vec_of (vscal s q)) = F2_sym_full (N := RNum) a (vec_of p) (vec_of q).
Proof. exact (F2_full_scale a p q s). Qed.
Print Assumptions C24_scale.
Theorem C24_rotation a f p q : isometry f ->
  F2_sym_full (N := RNum) a (vec_of (f p)) (vec_of (f q)) = F2_sym_full (N := RNum) a (vec_of p) (vec_of q).
Proof. exact (F2_full_isometry a f p q). Qed.
Print Assumptions C24_rotation.
Theorem C24_momentum a p : p <> vzero -> F2_sym_full (N := RNum) a (vec_of p) (vec_of (vopp p)) = 0.
Proof. exact (F2_full_cancel a p). Qed.
Print Assumptions C24_momentum.
Example C24_nonzero : ((1, 0, 0) : vector) <> vzero /\ ((0, 2, 0) : vector) <> vzero /\ isometry vopp.
Proof.
  split; [|split].
  - unfold vzero. intros H. injection H. lra.
  - unfold vzero. intros H. injection H. lra.
  - split; [intros; symmetry; apply vopp_plus|]. intros. rewrite dot_opp_l, dot_opp_r. ring.
Qed.

(** ** C25 *)
Theorem C25_recursion a p q r : p <> vzero -> q <> vzero -> r <> vzero ->
  guard_ok (vplus p q) -> guard_ok (vplus q r) -> guard_ok (vplus r p) -> guard_ok (vplus p (vplus q r)) ->
  F3_sym (N := RNum) a (vec_of p) (vec_of q) (vec_of r) = pt3 (is_theta a) p q r.
Proof. exact (F3_sym_pt a p q r). Qed.
Print Assumptions C25_recursion.
Theorem C25_permutation a p q r :
  F3_sym (N := RNum) a (vec_of p) (vec_of q) (vec_of r) = F3_sym (N := RNum) a (vec_of q) (vec_of p) (vec_of r) /\
  F3_sym (N := RNum) a (vec_of p) (vec_of q) (vec_of r) = F3_sym (N := RNum) a (vec_of q) (vec_of r) (vec_of p).
Proof. exact (F3_sym_perm a p q r). Qed.
Print Assumptions C25_permutation.
Theorem C25_even a p q r :
  F3_sym (N := RNum) a (vec_of (vopp p)) (vec_of (vopp q)) (vec_of (vopp r)) = F3_sym (N := RNum) a (vec_of p) (vec_of q) (vec_of r).
Proof. exact (F3_sym_even a p q r). Qed.
Print Assumptions C25_even.
Theorem C25_rotation a f p q r : isometry f -> p <> vzero -> q <> vzero -> r <> vzero ->
  (forall u, In u [vplus p q; vplus q r; vplus r p; vplus p (vplus q r)] -> guard_ok u /\ guard_ok (f u)) ->
  F3_sym (N := RNum) a (vec_of (f p)) (vec_of (f q)) (vec_of (f r)) = F3_sym (N := RNum) a (vec_of p) (vec_of q) (vec_of r).
Proof. exact (F3_sym_isometry a f p q r). Qed.
Print Assumptions C25_rotation.
(** Momentum conservation: no response at zero total momentum, as for the exact kernel. *)
Theorem C25_momentum a p q r : vplus p (vplus q r) = vzero ->
  F3_sym (N := RNum) a (vec_of p) (vec_of q) (vec_of r) = 0 /\ pt3 (is_theta a) p q r = 0.
Proof. exact (fun H => conj (F3_sym_zero a p q r H) (pt3_zero (is_theta a) p q r H)). Qed.
Print Assumptions C25_momentum.
Example C25_ex : guard_ok (vplus (1, 0, 0) (0, 1, 0)) /\ guard_ok (vplus (0, 1, 0) (0, 0, 1)) /\ guard_ok (vplus (0, 0, 1) (1, 0, 0))
  /\ guard_ok (vplus (1, 0, 0) (vplus (0, 1, 0) (0, 0, 1))).
Proof. cbn. repeat split; rewrite ?Rplus_0_l, ?Rplus_0_r, ?Rabs_R1, ?Rabs_R0; lra. Qed.

(** ** C29 *)
Theorem C29_exact a z : a = 2%nat \/ a = 4%nat \/ a = 6%nat -> 1 / 10 < z < 1 ->
  infinite_sum (fun n => z ^ (a + n) / INR (a + n)) (betafunc (N := RNum) (Z.of_nat a) z).
Proof. exact (betafunc_series a z). Qed.
Print Assumptions C29_exact.
Theorem C29_truncated a z v : (1 <= a)%nat -> 0 <= z <= 1 / 10 ->
  infinite_sum (fun n => z ^ (a + n) / INR (a + n)) v ->
  0 <= v - betafunc (N := RNum) (Z.of_nat a) z <= z ^ (a + 7) / (INR (a + 7) * (1 - z)).
Proof. exact (betafunc_small_error a z v). Qed.
Print Assumptions C29_truncated.
(** The series converges wherever it is used, so the two statements are not empty. *)
Theorem C29_converges a z : (1 <= a)%nat -> 0 <= z < 1 ->
  exists v, infinite_sum (fun n => z ^ (a + n) / INR (a + n)) v.
Proof. exact (fun Ha Hz => ex_intro _ _ (tail_series a z Ha Hz)). Qed.
Print Assumptions C29_converges.
Example C29_ex : betafunc (N := RNum) 2 (1 / 2) = ln 2 - 1 / 2.
Proof.
  etransitivity; [exact (betafunc_closed 2 (1 / 2) (or_introl eq_refl) ltac:(lra))|]. unfold lnsum. cbn.
  replace (1 - 1 / 2) with (/ 2) by field. rewrite ln_Rinv by lra. rewrite Ropp_involutive. field.
Qed.

(** ** C30 *)
Theorem C30_middle x : 1 / 100 <= Rabs (x - 1) -> 0 < x <= 10 ->
  kernel_ff (N := RNum) x = f_exact x /\ kernel_gg (N := RNum) x = g_exact x.
Proof. exact (fun H1 H2 => conj (kernel_ff_mid x H1 H2) (kernel_gg_mid x H1 H2)). Qed.
Print Assumptions C30_middle.
Theorem C30_near_one x : Rabs (x - 1) < 1 / 100 ->
  Rabs (kernel_ff (N := RNum) x - f_exact x) <= Rabs (x - 1) ^ 3 * (1 + Rabs (ln (Rabs (x - 1)))) /\
  Rabs (kernel_gg (N := RNum) x - g_exact x) <= Rabs (x - 1) ^ 3 * (1 + Rabs (ln (Rabs (x - 1)))).
Proof. exact (fun H => conj (kernel_ff_near x H) (kernel_gg_near x H)). Qed.
Print Assumptions C30_near_one.
Theorem C30_large x : 10 < x ->
  Rabs (kernel_ff (N := RNum) x - f_exact x) <= 1 / (100 * x ^ 5) /\
  Rabs (kernel_gg (N := RNum) x - g_exact x) <= 1 / (100 * x ^ 5).
Proof. exact (fun H => conj (kernel_ff_hi x H) (kernel_gg_hi x H)). Qed.
Print Assumptions C30_large.
Example C30_ex : 1 / 100 <= Rabs (2 - 1) /\ Rabs (1001 / 1000 - 1) < 1 / 100 /\ 10 < 11.
Proof. rewrite !Rabs_pos_eq by lra. lra. Qed.

(** ** C31 *)
Theorem C31_symmetric a (k q1 q2 : R) :
  beta (N := RNum) a q1 q2 = beta (N := RNum) a q2 q1 /\
  alpha (N := RNum) a q1 q2 = alpha (N := RNum) a q2 q1 /\
  integ_gamma1_2loop (N := RNum) a k q1 q2 = integ_gamma1_2loop (N := RNum) a k q2 q1.
Proof. exact (conj (beta_comm a q1 q2) (conj (alpha_comm a q1 q2) (integ_comm a k q1 q2))). Qed.
Print Assumptions C31_symmetric.
Theorem C31_scale a (s k q1 q2 : R) : 0 < s -> 0 < q1 -> 0 < q2 -> k <> 0 ->
  beta (N := RNum) a (s * q1) (s * q2) = beta (N := RNum) a q1 q2 /\
  integ_gamma1_2loop (N := RNum) a (s * k) (s * q1) (s * q2) = integ_gamma1_2loop (N := RNum) a k q1 q2.
Proof. exact (fun Hs H1 H2 Hk => conj (beta_scale a s q1 q2 Hs H1 H2) (integ_scale a s k q1 q2 (Rgt_not_eq _ _ Hs) Hk)). Qed.
Print Assumptions C31_scale.
Theorem C31_inversion y : 0 < y -> y <> 1 -> beta_exact_d (/ y) = beta_exact_d y /\ beta_exact_t (/ y) = beta_exact_t y.
Proof. exact (beta_exact_inv y). Qed.
Print Assumptions C31_inversion.
Theorem C31_middle q1 q2 : 0 < q1 -> 0 < q2 -> 1 / 100 <= yq q1 q2 <= 19 / 20 ->
  beta (N := RNum) DELTA q1 q2 = beta_exact_d (yq q1 q2) /\ beta (N := RNum) THETA q1 q2 = beta_exact_t (yq q1 q2).
Proof. exact (fun H1 H2 Hy => conj (beta_d_mid q1 q2 H1 H2 Hy) (beta_t_mid q1 q2 H1 H2 Hy)). Qed.
Print Assumptions C31_middle.
Theorem C31_equal_momenta q1 q2 : 0 < q1 -> 0 < q2 -> yq q1 q2 < 1 / 100 ->
  Rabs (beta (N := RNum) DELTA q1 q2 - beta_exact_d (yq q1 q2)) <= 3 * yq q1 q2 ^ 4 * (1 + Rabs (ln (yq q1 q2))) /\
  Rabs (beta (N := RNum) THETA q1 q2 - beta_exact_t (yq q1 q2)) <= 3 * yq q1 q2 ^ 4 * (1 + Rabs (ln (yq q1 q2))).
Proof. exact (fun H1 H2 Hy => conj (beta_d_zero q1 q2 H1 H2 Hy) (beta_t_zero q1 q2 H1 H2 Hy)). Qed.
Print Assumptions C31_equal_momenta.
Theorem C31_hierarchical_delta q1 q2 : 0 < q1 -> 0 < q2 -> 19 / 20 < yq q1 q2 ->
  Rabs (beta (N := RNum) DELTA q1 q2 - beta_exact_d (yq q1 q2)) <= (1 - yq q1 q2) ^ 5 / 50.
Proof. exact (beta_d_near q1 q2). Qed.
Print Assumptions C31_hierarchical_delta.
(** Every value of y in (0,1) is reached. *)
Example C31_ex y : 0 < y < 1 -> 0 < (1 - y) / (1 + y) /\ yq 1 ((1 - y) / (1 + y)) = y.
Proof. exact (fun H => conj (yq_pos y H) (yq_of y H)). Qed.

(** ** C32: with the flag theta the bound of [C31_hierarchical_delta] fails, even at the order just
    above the cubic term: the code is below the exact formula by more than 0.005 (1-y)^3. *)
Theorem C32_gap_refuted q1 q2 : 0 < q1 -> 0 < q2 -> 19 / 20 < yq q1 q2 ->
  beta (N := RNum) THETA q1 q2 <= beta_exact_t (yq q1 q2) - 5 / 1000 * (1 - yq q1 q2) ^ 3.
Proof. exact (beta_t_gap q1 q2). Qed.
Print Assumptions C32_gap_refuted.
Theorem C32_taylor_refuted C : exists q1 q2, 0 < q1 /\ 0 < q2 /\ 19 / 20 < yq q1 q2 /\
  C * (1 - yq q1 q2) ^ 4 < Rabs (beta (N := RNum) THETA q1 q2 - beta_exact_t (yq q1 q2)).
Proof. exact (beta_t_not_taylor C). Qed.
Print Assumptions C32_taylor_refuted.
(** With the opposite sign of the cubic coefficient it is the Taylor polynomial. *)
Theorem C32_corrected q1 q2 : 0 < q1 -> 0 < q2 -> 19 / 20 < yq q1 q2 ->
  Rabs (beta (N := RNum) THETA q1 q2 + 2 * 91912 / 33108075 * (1 - yq q1 q2) ^ 3 - beta_exact_t (yq q1 q2)) <= (1 - yq q1 q2) ^ 5 / 50.
Proof. exact (beta_t_near q1 q2). Qed.
Print Assumptions C32_corrected.
