(** ProofGamma2c: exchange symmetry of the second-order 1-loop kernels. *)
From Coq Require Import Reals Lra Lia List.
From Verif Require Import Base Num BaseFacts Common Kernels GExpr Gamma2dSrc Gamma2tSrc Gamma2 ProofSearch ProofKernels ProofGamma2 ProofGamma2b.
Import ListNotations.
Local Open Scope R_scope.

Lemma WFunc_comm k1 k2 k3 q : WFunc (N := RNum) k1 k2 k3 q = WFunc (N := RNum) k2 k1 k3 q.
Proof.
  unfold WFunc. rn.
  replace (k2 * k2 * (k1 * k1) + (- (k2 * k2) - k1 * k1 + k3 * k3) * (q * q) + q * q * (q * q))
    with (k1 * k1 * (k2 * k2) + (- (k1 * k1) - k2 * k2 + k3 * k3) * (q * q) + q * q * (q * q)) by ring.
  set (S := R_sqrt.sqrt _). f_equal. f_equal; [ring|f_equal; ring].
Qed.
Lemma big_beta_comm k1 k2 k3 q : big_beta (N := RNum) k1 k2 k3 q = big_beta (N := RNum) k2 k1 k3 q.
Proof. unfold big_beta. rn. rewrite (Rmult_comm (k1 * k1 - q * q)). reflexivity. Qed.

Ltac gexp := cbv [gden ev4 evC evE Z.to_nat Pos.to_nat Pos.iter_op Nat.add Z.eqb].
(** Name the square roots [s] occurring in the goal, however their arguments are written. *)
Ltac name_sqrt s :=
  repeat match goal with |- context [R_sqrt.sqrt ?b] =>
    replace (R_sqrt.sqrt b) with s by (unfold s; f_equal; ring) end.
(** The three square roots of the kernels. *)
Definition sq (a b c q : R) : R := R_sqrt.sqrt (a * a * (b * b) - (a * a + b * b - c * c) * (q * q) + q * q * (q * q)).
Lemma sq_comm a b c q : sq a b c q = sq b a c q.
Proof. unfold sq. f_equal. ring. Qed.
Lemma sq_nonneg a b c q : 0 <= sq a b c q.
Proof. apply sqrt_pos. Qed.
Ltac sqs k1 k2 k3 q :=
  repeat match goal with |- context [R_sqrt.sqrt ?b] =>
    first [ replace (R_sqrt.sqrt b) with (sq k1 k2 k3 q) by (unfold sq; f_equal; ring)
          | replace (R_sqrt.sqrt b) with (sq k1 k3 k2 q) by (unfold sq; f_equal; ring)
          | replace (R_sqrt.sqrt b) with (sq k2 k3 k1 q) by (unfold sq; f_equal; ring) ] end.
Ltac wfs k1 k2 k3 q :=
  rewrite ?pow_1;
  rewrite ?(WFunc_comm k2 k1), ?(WFunc_comm k3 k1), ?(WFunc_comm k3 k2),
    ?(big_beta_comm k2 k1), ?(big_beta_comm k3 k1), ?(big_beta_comm k3 k2).

Section Sym.
Variables k1 k2 k3 q : R.
Hypotheses (P1 : 0 < k1) (P2 : 0 < k2) (P3 : 0 < k3) (Pq : 0 < q).
Let H1 : k1 <> 0. Proof. lra. Qed.
Let H2 : k2 <> 0. Proof. lra. Qed.
Let H3 : k3 <> 0. Proof. lra. Qed.
Let Hq : q <> 0. Proof. lra. Qed.
Local Notation ev := (ev4 k1 k2 k3 q).
Local Notation ve := (ev4 k2 k1 k3 q).

(** Multiplies out a division by a square root, which need not be non-zero. *)
Ltac inv_sqs :=
  unfold Rdiv; rewrite ?Rinv_mult;
  generalize (/ sq k1 k2 k3 q) (/ sq k1 k3 k2 q) (/ sq k2 k3 k1 q); intros.
Ltac sides :=
  pose proof (Rmult_lt_0_compat _ _ P1 Pq); pose proof (Rmult_lt_0_compat _ _ P2 Pq); pose proof (Rmult_lt_0_compat _ _ P3 Pq);
  repeat split; try assumption;
  match goal with |- ?e <> 0 => pose proof (sq_nonneg k1 k2 k3 q); pose proof (sq_nonneg k1 k3 k2 q);
    pose proof (sq_nonneg k2 k3 k1 q); lra end.
Lemma d_exact_sym : gden ev g2d_exact = gden ve g2d_exact.
Proof.
  assert (E1 : gden ev g2d_exact_kernel1 = gden ve g2d_exact_kernel1)
    by (unfold g2d_exact_kernel1; gexp; field; auto).
  assert (E2 : gden ev g2d_exact_kernel2 = gden ve g2d_exact_kernel3)
    by (unfold g2d_exact_kernel2, g2d_exact_kernel3; gexp; field; auto).
  assert (E3 : gden ev g2d_exact_kernel3 = gden ve g2d_exact_kernel2)
    by (unfold g2d_exact_kernel2, g2d_exact_kernel3; gexp; field; auto).
  assert (E4 : gden ev g2d_exact_kernel4 = gden ve g2d_exact_kernel4)
    by (unfold g2d_exact_kernel4; gexp; field; auto).
  assert (E5 : gden ev g2d_exact_kernel5 = gden ve g2d_exact_kernel5).
  { unfold g2d_exact_kernel5. gexp. sqs k1 k2 k3 q. wfs k1 k2 k3 q. inv_sqs. field; auto. }
  unfold g2d_exact. cbn [gden]. rewrite E1, E2, E3, E4, E5. ring.
Qed.
Lemma d_highk_sym : gden ev g2d_highk = gden ve g2d_highk.
Proof. unfold g2d_highk. gexp. field; auto. Qed.
Lemma d_lowk_sym : gden ev g2d_lowk = gden ve g2d_lowk.
Proof. unfold g2d_lowk. gexp. field; auto. Qed.
Lemma den_sym : gden ev g2_reg3rd_den = gden ve g2_reg3rd_den.
Proof. unfold g2_reg3rd_den. gexp. ring. Qed.
Lemma d_polys_sym : gdsum ev g2d_reg3rd_polys = gdsum ve g2d_reg3rd_polys.
Proof.
  unfold g2d_reg3rd_polys. cbn [gdsum]. repeat (apply f_equal2; [solve [cbv delta [g2d_reg3rd_poly0
   g2d_reg3rd_poly1 g2d_reg3rd_poly2 g2d_reg3rd_poly3 g2d_reg3rd_poly4 g2d_reg3rd_poly5 g2d_reg3rd_poly6 g2d_reg3rd_poly7
   g2d_reg3rd_poly8 g2d_reg3rd_poly9 g2d_reg3rd_poly10 g2d_reg3rd_poly11 g2d_reg3rd_poly12]; gexp; ring]|]). reflexivity.
Qed.
Lemma d_betas_sym : gdsum ev g2d_reg3rd_betas = gdsum ve g2d_reg3rd_betas.
Proof.
  assert (E0 : gden ev g2d_reg3rd_beta0 = gden ve g2d_reg3rd_beta0).
  { unfold g2d_reg3rd_beta0. gexp. sqs k1 k2 k3 q. inv_sqs. field. sides. }
  assert (E1 : gden ev g2d_reg3rd_beta1 = gden ve g2d_reg3rd_beta2)
    by (unfold g2d_reg3rd_beta1, g2d_reg3rd_beta2; gexp; field; auto).
  assert (E2 : gden ev g2d_reg3rd_beta2 = gden ve g2d_reg3rd_beta1)
    by (unfold g2d_reg3rd_beta1, g2d_reg3rd_beta2; gexp; field; auto).
  assert (E3 : gden ev g2d_reg3rd_beta3 = gden ve g2d_reg3rd_beta3)
    by (unfold g2d_reg3rd_beta3; gexp; field; auto).
  assert (E4 : gden ev g2d_reg3rd_beta4 = gden ve g2d_reg3rd_beta4).
  { unfold g2d_reg3rd_beta4. gexp. wfs k1 k2 k3 q. field; auto. }
  unfold g2d_reg3rd_betas. cbn [gdsum]. rewrite E0, E1, E2, E3, E4. ring.
Qed.
Lemma t_exact_sym : gden ev g2t_exact = gden ve g2t_exact.
Proof.
  assert (E1 : gden ev g2t_exact_kernel1 = gden ve g2t_exact_kernel1)
    by (unfold g2t_exact_kernel1; gexp; field; auto).
  assert (E2 : gden ev g2t_exact_kernel2 = gden ve g2t_exact_kernel3)
    by (unfold g2t_exact_kernel2, g2t_exact_kernel3; gexp; field; auto).
  assert (E3 : gden ev g2t_exact_kernel3 = gden ve g2t_exact_kernel2)
    by (unfold g2t_exact_kernel2, g2t_exact_kernel3; gexp; field; auto).
  assert (E4 : gden ev g2t_exact_kernel4 = gden ve g2t_exact_kernel4)
    by (unfold g2t_exact_kernel4; gexp; field; auto).
  assert (E5 : gden ev g2t_exact_kernel5 + gden ev g2t_exact_kernel6 = gden ve g2t_exact_kernel5 + gden ve g2t_exact_kernel6).
  { unfold g2t_exact_kernel5, g2t_exact_kernel6. gexp. sqs k1 k2 k3 q. wfs k1 k2 k3 q. inv_sqs. field; auto. }
  unfold g2t_exact. cbn [gden]. rewrite Rplus_assoc, E1, E2, E3, E4, E5. ring.
Qed.
Lemma t_highk_sym : gden ev g2t_highk = gden ve g2t_highk.
Proof.
  unfold g2t_highk. gexp. change (IZR 4) with (IZR (Z.of_nat 4)). rewrite !Rpow_nat. field; auto.
Qed.
Lemma t_lowk_sym : gden ev g2t_lowk = gden ve g2t_lowk.
Proof. unfold g2t_lowk. gexp. field; auto. Qed.
Lemma t_polys_sym : gdsum ev g2t_reg3rd_polys = gdsum ve g2t_reg3rd_polys.
Proof.
  unfold g2t_reg3rd_polys. cbn [gdsum]. repeat (apply f_equal2; [solve [cbv delta [g2t_reg3rd_poly0
   g2t_reg3rd_poly1 g2t_reg3rd_poly2 g2t_reg3rd_poly3 g2t_reg3rd_poly4 g2t_reg3rd_poly5 g2t_reg3rd_poly6 g2t_reg3rd_poly7
   g2t_reg3rd_poly8 g2t_reg3rd_poly9 g2t_reg3rd_poly10 g2t_reg3rd_poly11 g2t_reg3rd_poly12 g2t_reg3rd_poly13 g2t_reg3rd_poly14
   g2t_reg3rd_poly15 g2t_reg3rd_poly16]; gexp; ring]|]). reflexivity.
Qed.
Lemma t_betas_sym : gdsum ev g2t_reg3rd_betas = gdsum ve g2t_reg3rd_betas.
Proof.
  assert (E0 : gden ev g2t_reg3rd_beta0 = gden ve g2t_reg3rd_beta0).
  { unfold g2t_reg3rd_beta0. gexp. sqs k1 k2 k3 q. inv_sqs. field. sides. }
  assert (E1 : gden ev g2t_reg3rd_beta1 = gden ve g2t_reg3rd_beta2)
    by (unfold g2t_reg3rd_beta1, g2t_reg3rd_beta2; gexp; field; auto).
  assert (E2 : gden ev g2t_reg3rd_beta2 = gden ve g2t_reg3rd_beta1)
    by (unfold g2t_reg3rd_beta1, g2t_reg3rd_beta2; gexp; field; auto).
  assert (E3 : gden ev g2t_reg3rd_beta3 = gden ve g2t_reg3rd_beta3)
    by (unfold g2t_reg3rd_beta3; gexp; field; auto).
  assert (E4 : gden ev g2t_reg3rd_beta4 = gden ve g2t_reg3rd_beta4).
  { unfold g2t_reg3rd_beta4. gexp. wfs k1 k2 k3 q. field; auto. }
  unfold g2t_reg3rd_betas. cbn [gdsum]. rewrite E0, E1, E2, E3, E4. ring.
Qed.
End Sym.
