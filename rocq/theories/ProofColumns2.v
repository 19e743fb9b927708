(** ProofColumns2: values of the propagators and vertices, and of every row. *)
From Coq Require Import ZArith Reals Lra Lia List Bool String.
From Coquelicot Require Import Coquelicot.
From Verif Require Import Base Num BaseFacts Common Kernels Gamma2 Integrals Registry Threads Spec SpecPT SpecIntegrals SpecLoops SpecScratch SpecBispectrum SpecBisp2 Sums ProofSearch ProofKernels SpecKernels ProofGL ProofGL2
  ProofIntegrals ProofIntegrals2 ProofIntegrals9 ProofIntegrals10 ProofBispectrum ProofBispectrum2 ProofScratch2 ProofScratch3 ProofSeries ProofSeries2 ProofGamma2g SpecTable SpecThreads SpecDefined SpecColumns ProofColumns.
Import ListNotations.
Local Open Scope R_scope.

(** ** Propagators and vertices *)
Lemma gamma1_1loop_val P (g : glq RNum) t k : q_table P g -> exists g', gamma1_1loop (N := RNum) g (flag_of t) k = Ok (single_sum P g k (prop_kernel t), g').
Proof.
  intros [Hn [Hq [Hx [Hw [Hp [_ Hi]]]]]]. destruct (update_q_val g k (nZ RNum 0) ltac:(lia) Hq Hx) as [g' [E [A1 [A2 [A3 [A4 [A5 [A6 A7]]]]]]]].
  exists g'. unfold gamma1_1loop. rewrite E. cbn [bind]. rn_in A7. change (T RNum) with R in *.
  rewrite (for_sum (gq_nq g') _ (fun i => prop_kernel t (znth 0 (gq_q g) i / k) * P (znth 0 (gq_q g) i) * znth 0 (gq_w g) i)).
  - cbn [bind]. apply f_equal. apply f_equal2; [|reflexivity]. rn. unfold single_sum. rewrite A2.
        replace (Z.to_nat (gq_nq g)) with (length (gq_q g)) by (unfold zlen in Hq; change (T RNum) with R in *; lia).
    rewrite (rsum_ext _ _ (fun i => at_ (gq_w g) i * (prop_kernel t (at_ (gq_q g) i / k) * P (at_ (gq_q g) i)))).
    2: { intros i Hii. unfold znth. rewrite Nat2Z.id. unfold at_. ring. }
    set (s := rsum _ _). replace (2 * PI ^ 2) with (2 * PI * PI) by ring. unfold Rdiv. ring.
  - lia.
  - intros i acc Hii. rewrite A5, A4. rewrite !(rd_ok (A := R) 0) by lia. cbn [bind]. rewrite A7 by lia. pose proof (proj2 (Hi i ltac:(lia))) as Hpi. change (T RNum) with R in *. rewrite Hpi.
    destruct t; reflexivity.
Qed.
Lemma gamma1_2loop_val P (g : glq RNum) t k : q_table P g -> exists g', gamma1_2loop (N := RNum) g (flag_of t) k =
  Ok (double_sum P g (fun q1 q2 => integ_gamma1_2loop (N := RNum) (flag_of t) k q1 q2), g').
Proof.
  intros [Hn [Hq [Hx [Hw [Hp [_ Hi]]]]]]. destruct (update_q_val g k (nZ RNum 0) ltac:(lia) Hq Hx) as [g' [E [A1 [A2 [A3 [A4 [A5 [A6 A7]]]]]]]].
  exists g'. unfold gamma1_2loop. rewrite E. cbn [bind]. change (T RNum) with R in *. rewrite A1, A2, A3, A4, A5.
  set (K := fun q1 q2 => integ_gamma1_2loop (N := RNum) (flag_of t) k q1 q2).
  set (q := at_ (gq_q g)). set (w := at_ (gq_w g)).
  rewrite (for_sum (gq_nq g) _ (fun i => let i := Z.to_nat i in rsum (length (gq_q g)) (fun j => w i * w j * (K (q i) (q j) * (q i ^ 3 * P (q i)) * (q j ^ 3 * P (q j)))))).
  - cbn [bind]. apply f_equal. apply f_equal2; [|reflexivity]. rn. unfold double_sum.
    replace (Z.to_nat (gq_nq g)) with (length (gq_q g)) by (unfold zlen in Hq; change (T RNum) with R in *; lia). rewrite Rplus_0_l. rewrite power_R by lia. f_equal.
    apply rsum_ext. intros i _. rewrite Nat2Z.id. reflexivity.
  - lia.
  - intros i acc Hii. rewrite !(rd_ok (A := R) 0) by lia. cbn [bind].
    rewrite (for_sum (gq_nq g) _ (fun j => znth 0 (gq_w g) j * K (znth 0 (gq_q g) i) (znth 0 (gq_q g) j) * P (znth 0 (gq_q g) j) * (znth 0 (gq_q g) i ^ 3 * znth 0 (gq_q g) j ^ 3))).
    + cbn [bind]. rn. apply f_equal. f_equal. rewrite Rplus_0_l, (proj2 (Hi i ltac:(lia))).
      replace (Z.to_nat (gq_nq g)) with (length (gq_q g)) by (unfold zlen in Hq; change (T RNum) with R in *; lia).
      cbn zeta. rewrite Rmult_assoc, (Rmult_comm (rsum _ _)), <- Rmult_assoc, <- rsum_scal. apply rsum_ext. intros j _.
      unfold znth. rewrite Nat2Z.id. fold (at_ (gq_q g) (Z.to_nat i)) (at_ (gq_q g) j) (at_ (gq_w g) (Z.to_nat i)) (at_ (gq_w g) j). unfold q, w. ring.
    + lia.
    + intros j acc2 Hj. rewrite !(rd_ok (A := R) 0) by lia. cbn [bind]. rewrite (proj2 (Hi j ltac:(lia))). apply f_equal. rn. fold (K (znth 0 (gq_q g) i) (znth 0 (gq_q g) j)). ring.
Qed.
Lemma gamma2_1loop_val P (g : glq RNum) t k1 k2 k3 : q_table P g -> table_ok g -> gamma2_1loop (N := RNum) g (flag_of t) k1 k2 k3 = Ok (vertex_sum P g (vertex_kernel t k1 k2 k3)).
Proof.
  intros Hg HT. rewrite (gamma2_quadrature g (flag_of t) k1 k2 k3 (vertex_kernel t k1 k2 k3) HT).
  - apply f_equal. unfold vertex_sum. f_equal. apply rsum_ext. intros i Hi. destruct Hg as [Hn [Hq [_ [_ [_ [_ H]]]]]].
    specialize (H (Z.of_nat i) ltac:(unfold zlen in Hq; change (T RNum) with R in *; lia)). unfold znth in H. rewrite Nat2Z.id in H. unfold at_. rewrite (proj2 H). reflexivity.
  - intros q _. unfold vertex_kernel. rewrite g2k_ok. reflexivity.
Qed.
(** The kernels of gamma1_1loop.c *)
Lemma prop_close t x : 0 < x -> Rabs (prop_kernel t x - prop_exact t x) <= prop_tolerance x.
Proof.
  intros Hx. unfold prop_tolerance. destruct (Rlt_dec _ _) as [H|H].
  - destruct t; [apply kernel_gg_near|apply kernel_ff_near]; exact H.
  - destruct (Rlt_dec 10 x) as [H'|H'].
    + destruct t; [apply kernel_gg_hi|apply kernel_ff_hi]; exact H'.
    + right. apply Rnot_lt_le in H, H'. destruct t; cbn [prop_kernel prop_exact]; [rewrite kernel_gg_mid by lra|rewrite kernel_ff_mid by lra]; rewrite Rminus_eq_0; apply Rabs_R0.
Qed.
Lemma rsum_minus n (f g : nat -> R) : rsum n (fun i => f i - g i) = rsum n f - rsum n g.
Proof. induction n as [|n IH]; cbn; [ring|rewrite IH; ring]. Qed.
Lemma rsum_abs_le n (f g : nat -> R) : (forall i, (i < n)%nat -> Rabs (f i) <= g i) -> Rabs (rsum n f) <= rsum n g.
Proof.
  intros H. induction n as [|n IH]; cbn; [rewrite Rabs_R0; lra|].
  eapply Rle_trans; [apply Rabs_triang|]. apply Rplus_le_compat; [apply IH; intros; apply H; lia|apply H; lia].
Qed.
Lemma single_close P (g : glq RNum) k t : 0 < k -> (forall q, In q (gq_q g) -> 0 < q) ->
  Rabs (single_sum P g k (prop_kernel t) - single_sum P g k (prop_exact t)) <=
  k ^ 3 / (2 * PI ^ 2) * rsum (length (gq_q g)) (fun i => Rabs (at_ (gq_w g) i * P (at_ (gq_q g) i)) * prop_tolerance (at_ (gq_q g) i / k)).
Proof.
  intros Hk Hq. unfold single_sum. rewrite <- Rmult_minus_distr_l, <- rsum_minus, Rabs_mult.
  assert (F : 0 < k ^ 3 / (2 * PI ^ 2)) by (pose proof PI_RGT_0; apply Rdiv_lt_0_compat; [now apply pow_lt|]; assert (0 < PI ^ 2) by (now apply pow_lt); lra).
  rewrite (Rabs_pos_eq (k ^ 3 / _)) by lra. apply Rmult_le_compat_l; [lra|]. apply rsum_abs_le. intros i Hi.
  set (w := at_ (gq_w g) i). set (q := at_ (gq_q g) i). assert (Hq0 : 0 < q) by (apply Hq, nth_In, Hi).
  replace (w * (prop_kernel t (q / k) * P q) - w * (prop_exact t (q / k) * P q)) with (w * P q * (prop_kernel t (q / k) - prop_exact t (q / k))) by ring.
  rewrite Rabs_mult. apply Rmult_le_compat_l; [apply Rabs_pos|]. apply prop_close. now apply Rdiv_lt_0_compat.
Qed.
