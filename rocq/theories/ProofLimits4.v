(** ProofLimits4: the limits in the columns of a run. *)
From Coq Require Import ZArith Reals Lra Lia List Bool String Psatz.
From Verif Require Import Base Num BaseFacts Common Kernels Gamma2 Integrals Registry Threads Spec SpecPT SpecIntegrals SpecLoops SpecScratch SpecBispectrum SpecBisp2 Sums ProofSearch ProofKernels ProofGL ProofGL2
  SpecTable SpecThreads SpecDefined SpecColumns ProofCommon2 ProofThreads8 ProofProcess30 ProofDefined12 ProofColumns2 ProofColumns3 ProofColumns4 SpecLimits ProofLimits ProofLimits2 ProofLimits3.
Import ListNotations.
Local Open Scope R_scope.

Lemma node_pos fuel (st : settings RNum) pkl d x : regular_run st pkl d -> In x (q_tables_of d) -> forall q, In q (gq_q (the_q fuel st pkl x)) -> 0 < q.
Proof.
  intros HR Hx q. unfold the_q. destruct (new_q fuel st pkl x) as [g|u] eqn:E; [|contradiction]. destruct (rr_q _ _ _ HR x Hx) as [B _].
  destruct (init_q_inv fuel (s_prec st x) pkl g (nZ RNum 0) ltac:(lia) E) as (qm & qM & l & _ & _ & _ & _ & _ & Z1 & _ & _ & V & _). intros Hq.
  apply In_nth with (d := nZ RNum 0) in Hq. destruct Hq as (i & Hi & <-). specialize (V (Z.of_nat i) ltac:(unfold zlen in Z1; lia)). unfold znth in V. rewrite Nat2Z.id in V. rewrite V. apply exp_pos.
Qed.
Section Run.
Variables (fuel : nat) (st : settings RNum) (suave1 : (list R -> res R) -> res R) (suave12 : (list R -> res (list R)) -> res (list R)).
Variables (d : driver) (pkl dt ptt : Pk RNum) (ks : list R) (ps ss : list R) (vals : Z -> list R).
Hypotheses (HT : two_points pkl) (HR : regular_run st pkl d) (HC : computes fuel st suave1 suave12 d pkl dt ptt ks ps ss vals).
Variable (ik : Z).
Hypotheses (Hi : (0 <= ik < zlen ks)%Z) (Hk : 0 < k_ (N := RNum) ks ik).
Let k := k_ (N := RNum) ks ik.
Lemma column_1_val t x : In (t, x) (columns_1 d (vals ik)) -> x = prop1 fuel st pkl t k /\ In "gamma1_1loop_q"%string (q_tables_of d).
Proof.
  intros H. destruct d as [a b|a b| | | |]; try contradiction.
  - pose proof (run_contents fuel st suave1 suave12 (D_1loop a b) pkl dt ptt ks ps ss vals HT ltac:(discriminate) HR HC ik Hi Hk) as C. cbn [contents] in C. rewrite C in H. cbn [columns_1 In] in H.
    split; [|cbn; tauto]. destruct H as [H|[H|[]]]; inversion H; reflexivity.
  - pose proof (run_contents fuel st suave1 suave12 (D_2loop a b) pkl dt ptt ks ps ss vals HT ltac:(discriminate) HR HC ik Hi Hk) as C. cbn [contents] in C. destruct C as (qm & qM & I & _ & _ & C). rewrite C in H. cbn [columns_1 In app] in H.
    split; [|cbn; tauto]. destruct H as [H|[H|[]]]; inversion H; reflexivity.
Qed.
Lemma column_2_val t x x2 : In (t, (x, x2)) (columns_2 d (vals ik)) -> x = prop1 fuel st pkl t k /\ x2 = prop2 fuel st pkl t k /\ In "gamma1_2loop_q"%string (q_tables_of d).
Proof.
  intros H. destruct d as [a b|a b| | | |]; try contradiction.
  pose proof (run_contents fuel st suave1 suave12 (D_2loop a b) pkl dt ptt ks ps ss vals HT ltac:(discriminate) HR HC ik Hi Hk) as C. cbn [contents] in C. destruct C as (qm & qM & I & _ & _ & C). rewrite C in H. cbn [columns_2 In app] in H.
  destruct H as [H|[H|[]]]; inversion H; (split; [reflexivity|split; [reflexivity|cbn; tauto]]).
Qed.
Let g1 := the_q fuel st pkl "gamma1_1loop_q".
Let g2 := the_q fuel st pkl "gamma1_2loop_q".
Let P := the_P pkl.
Lemma run_1_large t x : In (t, x) (columns_1 d (vals ik)) -> (forall q, In q (gq_q g1) -> 10 * k < q) ->
  Rabs (x + uv_coefficient t * k ^ 2 * displacement P g1) <= k ^ 4 / (18 * PI ^ 2) * absolute_1 P g1 (fun q => 1 / q).
Proof. intros H Hq. destruct (column_1_val t x H) as [-> _]. exact (one_loop_large t P g1 k Hk Hq). Qed.
Lemma run_1_small t x : In (t, x) (columns_1 d (vals ik)) -> (forall q, In q (gq_q g1) -> 2 * q <= k) ->
  Rabs (x + k ^ 2 * displacement P g1 / 2) <= absolute_1 P g1 (fun q => q ^ 3) / (8 * PI ^ 2).
Proof.
  intros H Hq. destruct (column_1_val t x H) as [-> I]. apply (one_loop_small t P g1 k Hk). intros q J. split; [exact (node_pos fuel st pkl d _ HR I q J)|exact (Hq q J)].
Qed.
Lemma run_2_large t x x2 : In (t, (x, x2)) (columns_2 d (vals ik)) -> let b q1 q2 := Rabs (beta (N := RNum) (flag_of t) q1 q2) in
  Rabs (x2 - x ^ 2 / 2 + k ^ 2 * uv_2loop t P g2) <=
  (k ^ 4 * absolute_2 P g2 (fun q1 q2 => (2 * b q1 q2 + 3 / 5) * (q1 * q2)) + k ^ 2 * / 10 ^ 15 * absolute_2 P g2 (fun q1 q2 => b q1 q2 * (q1 ^ 3 * q2 ^ 3 / (q1 ^ 2 + q2 ^ 2)))) / (4 * PI ^ 4).
Proof.
  intros H b. destruct (column_2_val t x x2 H) as (-> & -> & I). unfold prop2. unfold Rminus at 1. rewrite Rplus_assoc, Rplus_assoc, <- (Rplus_assoc (prop1 _ _ _ _ _ ^ 2 / 2)), Rplus_opp_r, Rplus_0_l.
  exact (two_loop_large t P g2 k Hk (node_pos fuel st pkl d _ HR I)).
Qed.
Lemma run_2_small t x x2 : In (t, (x, x2)) (columns_2 d (vals ik)) -> let b q1 q2 := Rabs (beta (N := RNum) (flag_of t) q1 q2) in
  Rabs (x2 - x ^ 2 / 2) <= k ^ 2 * absolute_2 P g2 (fun q1 q2 => (5 * b q1 q2 + 3 / 5) * (q1 ^ 3 * q2 ^ 3 / (q1 ^ 2 + q2 ^ 2))) / (4 * PI ^ 4).
Proof.
  intros H b. destruct (column_2_val t x x2 H) as (-> & -> & I). unfold prop2. unfold Rminus at 1. rewrite Rplus_assoc, Rplus_opp_r, Rplus_0_r.
  exact (two_loop_small t P g2 k Hk (node_pos fuel st pkl d _ HR I)).
Qed.
End Run.

(** ** A run on large and small scales *)
Definition ks_far : list R := [1 / 10; 3].
Lemma far_node x : forall q, In q (gq_q (the_q 2 st_ex pk_three x)) -> 1 < q <= 3 / 2.
Proof.
  intros q. unfold the_q. destruct (three_q x) as [g E]. rewrite E. destruct (init_q_inv 2 (s_prec st_ex x) pk_three g (nZ RNum 0) ltac:(cbn; lia) E) as (qm & qM & l & R1 & R2 & _ & _ & _ & Z1 & Z2 & _ & V & _).
  assert (Rg : q_range (s_prec st_ex x) pk_three = Ok (1, 2)%R) by (unfold q_range; cbn [st_ex s_prec pr_min pr_max]; rn; rewrite !(proj2 (Rleb_false _ _)) by lra; reflexivity).
  rewrite Rg in R1. inversion R1; subst qm qM. cbn [st_ex s_prec pr_n] in R2, Z1, Z2, V. change (repeat (nZ RNum 0) (Z.to_nat 1)) with [0%R] in R2. rewrite (proj1 (gl_one 0 _ _ 0 0)) in R2. inversion R2 as [[L W]]. clear R2 W.
  intros Hq. destruct (gq_q g) as [|q0 [|q1 r]] eqn:G; [contradiction| |cbn in Z1; unfold zlen in Z1; cbn in Z1; lia]. specialize (V 0%Z ltac:(lia)). rewrite <- L in V. cbn in V. destruct Hq as [<-|[]]. rewrite V. rn. change (IZR 1) with 1. rewrite ln_1.
  assert (E2 : exp ((ln 2 + 0) / 2) * exp ((ln 2 + 0) / 2) = 2) by (rewrite <- exp_plus; replace ((ln 2 + 0) / 2 + (ln 2 + 0) / 2) with (ln 2) by field; apply exp_ln; lra).
  pose proof (exp_pos ((ln 2 + 0) / 2)). split; nra.
Qed.
Lemma far_ex d : two_points pk_three /\ regular_run st_ex pk_three d /\ (forall q, In q (gq_q (the_q 2 st_ex pk_three "gamma1_1loop_q")) -> 10 * (1 / 10) < q /\ 2 * q <= 3) /\
  exists ps ss vals, computes 2 st_ex suave1_ex suave12_ex d pk_three pk_three pk_three ks_far ps ss vals.
Proof.
  split; [exact three_points|]. split; [apply three_regular|]. split; [intros q Hq; pose proof (far_node _ q Hq); lra|].
  assert (L : lin_table pk_three) by (repeat split; cbn; lia).
  apply (values_at st_ex [1; 2; 3] [5; 6; 4] L); [|intros _; split; exact L].
  split; [split; reflexivity|intros; reflexivity|intros; reflexivity].
Qed.
