(** PropGamma2: properties of the second-order 1-loop kernels and integrals of src/gamma2d_1loop.c
    and src/gamma2t_1loop.c.  Model: Gamma2.v, Gamma2dSrc.v, Gamma2tSrc.v.  Notions: SpecGamma2.v. *)
From Coq Require Import Reals Lra List.
From Verif Require Import Base Num BaseFacts Common Kernels GExpr Gamma2 Spec SpecGamma2 SpecTable ProofGamma2 ProofGamma2f ProofGamma2g.
Import ListNotations.
Local Open Scope R_scope.

(** ** C56: the kernels are total, dimensionless and (branch by branch) symmetric. *)

(** In every arithmetic, for all arguments: every read of a table of powers is inside the table. *)
Theorem C56_in_bounds N a (k1 k2 k3 q : T N) : exists r, kernel_gamma2 a k1 k2 k3 q = Ok r.
Proof. exact (kernel_gamma2_ok a k1 k2 k3 q). Qed.
Print Assumptions C56_in_bounds.
Theorem C56_integral_in_bounds N (g : glq N) a (k1 k2 k3 : T N) : table_ok g -> exists r, gamma2_1loop g a k1 k2 k3 = Ok r.
Proof. exact (gamma2_total g a k1 k2 k3). Qed.
Print Assumptions C56_integral_in_bounds.

(** Homogeneous of degree 0, on all triangles, whatever branch is taken ... *)
Theorem C56_scale a (s k1 k2 k3 q : R) : 0 < s -> 0 < k1 -> 0 < k2 -> 0 < k3 -> 0 < q -> triangle k1 k2 k3 ->
  kernel_gamma2 (N := RNum) a (s * k1) (s * k2) (s * k3) (s * q) = kernel_gamma2 (N := RNum) a k1 k2 k3 q.
Proof. exact (kernel_scale a s k1 k2 k3 q). Qed.
Print Assumptions C56_scale.
(** ... so the branch taken does not depend on the units ... *)
Theorem C56_branch_scale (s k1 k2 k3 q : R) : 0 < s ->
  g2_branch (N := RNum) (s * k1) (s * k2) (s * k3) (s * q) = g2_branch (N := RNum) k1 k2 k3 q.
Proof. exact (branch_scale s k1 k2 k3 q). Qed.
Print Assumptions C56_branch_scale.
(** ... and neither does the integral. *)
Theorem C56_integral_scale (g g' : glq RNum) a (s k1 k2 k3 : R) : 0 < s -> 0 < k1 -> 0 < k2 -> 0 < k3 -> triangle k1 k2 k3 ->
  table_ok g -> Forall (fun q => 0 < q) (gq_q g) -> rescaled s g g' ->
  gamma2_1loop g' a (s * k1) (s * k2) (s * k3) = gamma2_1loop g a k1 k2 k3.
Proof. exact (gamma2_covariant g g' a s k1 k2 k3). Qed.
Print Assumptions C56_integral_scale.
(** The integral is the weighted sum, linear in the power spectrum. *)
Theorem C56_integral_linear (g1 g2 g3 : glq RNum) (c1 c2 : R) a (k1 k2 k3 : R) : table_ok g1 -> table_ok g2 -> table_ok g3 ->
  same_nodes g1 g2 -> same_nodes g1 g3 ->
  (forall i, (i < length (gq_pk g1))%nat -> at_ (gq_pk g3) i = c1 * at_ (gq_pk g1) i + c2 * at_ (gq_pk g2) i) ->
  forall r1 r2, gamma2_1loop g1 a k1 k2 k3 = Ok r1 -> gamma2_1loop g2 a k1 k2 k3 = Ok r2 ->
  gamma2_1loop g3 a k1 k2 k3 = Ok (c1 * r1 + c2 * r2).
Proof. exact (gamma2_linear g1 g2 g3 c1 c2 a k1 k2 k3). Qed.
Print Assumptions C56_integral_linear.

(** Each of the six functions is symmetric in its first two arguments; the collapsed one where its
    square root is real. *)
Theorem C56_exchange a b (k1 k2 k3 q : R) : 0 < k1 -> 0 < k2 -> 0 < k3 -> 0 < q ->
  (b = BColl -> k1 <> q /\ k2 <> q /\ Rabs (k1 * k1 - k2 * k2) < q * q) ->
  g2_call (N := RNum) (g2_of a) b k1 k2 k3 q = g2_call (N := RNum) (g2_of a) b k2 k1 k3 q.
Proof. exact (g2_call_sym a b k1 k2 k3 q). Qed.
Print Assumptions C56_exchange.
(** The kernel is symmetric wherever both orders take the same branch ... *)
Theorem C56_exchange_same_branch a (k1 k2 k3 q : R) : 0 < k1 -> 0 < k2 -> 0 < k3 -> 0 < q -> triangle k1 k2 k3 ->
  g2_branch (N := RNum) k1 k2 k3 q = g2_branch (N := RNum) k2 k1 k3 q ->
  kernel_gamma2 (N := RNum) a k1 k2 k3 q = kernel_gamma2 (N := RNum) a k2 k1 k3 q.
Proof. exact (kernel_sym_same a k1 k2 k3 q). Qed.
Print Assumptions C56_exchange_same_branch.
(** ... but on some triangles they do not: the test for elongated triangles compares k3 with k1. *)
Theorem C56_branch_exchange_refuted : exists k1 k2 k3 q, 0 < k1 /\ 0 < k2 /\ 0 < k3 /\ 0 < q /\ triangle k1 k2 k3 /\
  g2_branch (N := RNum) k1 k2 k3 q = BExact /\ g2_branch (N := RNum) k2 k1 k3 q = BElongate.
Proof. exact branch_exchange. Qed.
Print Assumptions C56_branch_exchange_refuted.
Example C56_ex : triangle (1 / 100) 2 2 /\ triangle 3 4 5 /\ table_ok (mkGlq (N := RNum) 1 2 [1; 2] [1; 2] [1; 1] [5; 6]).
Proof. unfold triangle. repeat split; lra || reflexivity || discriminate. Qed.

(** ** C62: the exact and the regularised functions are two expressions of one function. *)
Theorem C62_regularised a (k1 k2 k3 q : R) : 0 < k1 -> 0 < k2 -> 0 < k3 -> 0 < q -> smooth3 k1 k2 k3 q ->
  g2_call (N := RNum) (g2_of a) BReg3rd k1 k2 k3 q = g2_call (N := RNum) (g2_of a) BExact k1 k2 k3 q.
Proof. exact (reg_exact a k1 k2 k3 q). Qed.
Print Assumptions C62_regularised.
Example C62_ex : smooth3 1 1 1 2.
Proof. exact smooth_ex. Qed.

(** ** C66: the 1-loop vertex is the quadrature, over all nodes, of q^3 P(q) times the kernel. *)
Theorem C66_gamma2_vertex (g : glq RNum) a k1 k2 k3 (G : R -> R) : table_ok g ->
  (forall q, In q (gq_q g) -> kernel_gamma2 (N := RNum) a k1 k2 k3 q = Ok (G q)) ->
  gamma2_1loop g a k1 k2 k3 = Ok (rsum (length (gq_q g)) (fun i => at_ (gq_w g) i * (at_ (gq_q g) i ^ 3 * at_ (gq_pk g) i * G (at_ (gq_q g) i))) / (2 * PI) ^ 3).
Proof. exact (gamma2_quadrature g a k1 k2 k3 G). Qed.
Print Assumptions C66_gamma2_vertex.
Example C66_vertex_ex : table_ok (mkGlq (N := RNum) 1 2 [1; 2] [1; 2] [1; 1] [5; 6]) /\ exists G, forall q, In q [1; 2] -> kernel_gamma2 (N := RNum) DELTA 3 4 5 q = Ok (G q).
Proof. split; [repeat split; reflexivity || discriminate|]. exists (g2k DELTA 3 4 5). intros q _. apply g2k_ok. Qed.
