(** ProofGamma2g: the integral gamma2d_1loop, gamma2t_1loop. *)
From Coq Require Import Reals Lra Lia List.
From Verif Require Import Base Num BaseFacts Common Kernels GExpr Gamma2dSrc Gamma2tSrc Gamma2 Spec SpecGamma2 SpecTable Sums ProofSearch ProofKernels
  ProofGamma2 ProofGamma2b ProofGamma2f.
Import ListNotations.
Local Open Scope R_scope.

Lemma gamma2_total {N} (g : glq N) a k1 k2 k3 : table_ok g -> exists r, gamma2_1loop g a k1 k2 k3 = Ok r.
Proof.
  intros [Hn [Hq [Hw Hp]]]. unfold gamma2_1loop.
  match goal with |- context [for_ 0 (gq_nq g) ?b ?s] => destruct (for_total (gq_nq g) b (fun _ => True) s) as [x [E _]] end;
    [exact Hn|exact I| |rewrite E; cbn [bind]; eauto].
  intros i s Hi _. rewrite (rd_ok s) by lia. cbn [bind]. rewrite (rd_ok s) by lia. cbn [bind].
  destruct (kernel_gamma2_ok a k1 k2 k3 (znth s (gq_q g) i)) as [r ->]. cbn [bind].
  rewrite (rd_ok s) by lia. cbn [bind]. eauto.
Qed.
Definition okv (r : res R) : R := match r with Ok x => x | Err _ => 0 end.
(** Value of the kernel. *)
Definition g2k (a : flag) (k1 k2 k3 q : R) : R := okv (kernel_gamma2 (N := RNum) a k1 k2 k3 q).
Lemma g2k_ok a k1 k2 k3 q : kernel_gamma2 (N := RNum) a k1 k2 k3 q = Ok (g2k a k1 k2 k3 q).
Proof. unfold g2k. destruct (kernel_gamma2_ok (N := RNum) a k1 k2 k3 q) as [r E]. rewrite E. reflexivity. Qed.
Lemma gamma2_sum (g : glq RNum) a k1 k2 k3 : table_ok g ->
  gamma2_1loop g a k1 k2 k3 = Ok (rsum (Z.to_nat (gq_nq g)) (fun i =>
    at_ (gq_w g) i * at_ (gq_q g) i ^ 3 * at_ (gq_pk g) i * g2k a k1 k2 k3 (at_ (gq_q g) i)) / (8 * PI ^ 3)).
Proof.
  intros [Hn [Hq [Hw Hp]]]. unfold gamma2_1loop.
  rewrite (for_sum (gq_nq g) _ (fun i => znth 0 (gq_w g) i * g2k a k1 k2 k3 (znth 0 (gq_q g) i) * znth 0 (gq_q g) i
    * znth 0 (gq_q g) i * znth 0 (gq_q g) i * znth 0 (gq_pk g) i)); [|exact Hn|].
  - cbn [bind]. apply (f_equal (@Ok R)). rn. rewrite Rplus_0_l. f_equal; [|ring].
    apply rsum_ext. intros i Hi. unfold znth, at_. rewrite Nat2Z.id. ring.
  - intros i acc Hi. rewrite !(rd_ok (A := T RNum) 0) by lia. cbn [bind]. rewrite g2k_ok. reflexivity.
Qed.

Lemma at_map (f : R -> R) l i : f 0 = 0 -> at_ (map f l) i = f (at_ l i).
Proof. intros H. unfold at_. rewrite <- H at 1. apply map_nth. Qed.
Lemma gamma2_covariant (g g' : glq RNum) a s k1 k2 k3 : 0 < s -> 0 < k1 -> 0 < k2 -> 0 < k3 -> triangle k1 k2 k3 ->
  table_ok g -> Forall (fun q => 0 < q) (gq_q g) -> rescaled s g g' ->
  gamma2_1loop g' a (s * k1) (s * k2) (s * k3) = gamma2_1loop g a k1 k2 k3.
Proof.
  intros Hs P1 P2 P3 Ht Hg Hq [En [Ew [Eq Ep]]].
  assert (Hg' : table_ok g').
  { destruct Hg as [H1 [H2 [H3 H4]]]. unfold table_ok. rewrite En, Ew, Eq, Ep. unfold zlen. rewrite !map_length. auto. }
  rewrite !gamma2_sum by assumption. apply (f_equal (@Ok R)). f_equal. rewrite En. apply rsum_ext. intros i Hi.
  rewrite Ew, Eq, Ep, !at_map by (unfold Rdiv; ring).
  assert (Hqi : 0 < at_ (gq_q g) i).
  { rewrite Forall_forall in Hq. apply Hq. unfold at_. apply nth_In. destruct Hg as [H1 [H2 _]]. unfold zlen in H2. change (T RNum) with R in *. lia. }
  unfold g2k. rewrite kernel_scale by assumption. field. lra.
Qed.
Lemma gamma2_linear (g1 g2 g3 : glq RNum) c1 c2 a k1 k2 k3 : table_ok g1 -> table_ok g2 -> table_ok g3 ->
  same_nodes g1 g2 -> same_nodes g1 g3 ->
  (forall i, (i < length (gq_pk g1))%nat -> at_ (gq_pk g3) i = c1 * at_ (gq_pk g1) i + c2 * at_ (gq_pk g2) i) ->
  forall r1 r2, gamma2_1loop g1 a k1 k2 k3 = Ok r1 -> gamma2_1loop g2 a k1 k2 k3 = Ok r2 ->
  gamma2_1loop g3 a k1 k2 k3 = Ok (c1 * r1 + c2 * r2).
Proof.
  intros T1 T2 T3 [N2 [Q2 W2]] [N3 [Q3 W3]] HP r1 r2. rewrite !gamma2_sum by assumption. intros E1 E2. assert (Oi : forall x y : R, Ok x = Ok y -> x = y) by congruence. apply Oi in E1. apply Oi in E2. rewrite <- E1, <- E2. clear E1 E2 Oi.
  apply (f_equal (@Ok R)). rewrite N2, N3, Q2, Q3, W2, W3. unfold Rdiv. generalize (/ (8 * PI ^ 3)). intros d. rewrite <- !Rmult_assoc, <- Rmult_plus_distr_r. f_equal.
  rewrite <- !rsum_scal, <- rsum_plus. apply rsum_ext. intros i Hi. rewrite HP; [ring|]. destruct T1 as [_ [_ [_ Hp]]]. unfold zlen in Hp. change (T RNum) with R in *. lia.
Qed.

Lemma gamma2_quadrature (g : glq RNum) a k1 k2 k3 (G : R -> R) : table_ok g ->
  (forall q, In q (gq_q g) -> kernel_gamma2 (N := RNum) a k1 k2 k3 q = Ok (G q)) ->
  gamma2_1loop g a k1 k2 k3 = Ok (rsum (length (gq_q g)) (fun i => at_ (gq_w g) i * (at_ (gq_q g) i ^ 3 * at_ (gq_pk g) i * G (at_ (gq_q g) i))) / (2 * PI) ^ 3).
Proof.
  intros HT HG. rewrite gamma2_sum by exact HT. destruct HT as [Hn [Hq _]]. apply (f_equal (@Ok R)). change (T RNum) with R in *.
  replace (Z.to_nat (gq_nq g)) with (length (gq_q g)) by (unfold zlen in Hq; change (T RNum) with R in *; lia). f_equal; [|ring].
  apply rsum_ext. intros i Hi. pose proof (HG (at_ (gq_q g) i) (nth_In _ _ Hi)) as E. rewrite g2k_ok in E. assert (Oi : forall x y : R, Ok x = Ok y -> x = y) by congruence. apply Oi in E. rewrite E. ring.
Qed.
