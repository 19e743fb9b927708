(** ProofSamples2: the lookups of the library in a table of samples. *)
From Coq Require Import Reals Lra Lia List ZArith Factorial.
From Coquelicot Require Import Coquelicot.
From Verif Require Import Base Num Common Spec Poly SpecLoops SpecSamples ProofCommon2 ProofSamples.
Import ListNotations.
Local Open Scope R_scope.

Lemma split_bound d e h : 0 <= d -> 0 <= e -> d + e <= h -> d * e <= h ^ 2 / 4.
Proof. intros. assert (d * e <= ((d + e) / 2) ^ 2) by (pose proof (pow2_ge_0 (d - e)); lra). assert ((d + e) ^ 2 <= h ^ 2) by (apply pow_incr; lra). lra. Qed.
Lemma mid_bound x a b h : a <= x <= b -> b - a <= h -> Rabs ((x - a) * (x - b)) <= h ^ 2 / 4.
Proof. intros H L. rewrite Rabs_mult, (Rabs_right (x - a)), (Rabs_left1 (x - b)) by lra. apply split_bound; lra. Qed.
Lemma abs_mul x y c d : Rabs x <= c -> Rabs y <= d -> Rabs (x * y) <= c * d.
Proof. intros. rewrite Rabs_mult. apply Rmult_le_compat; try apply Rabs_pos; assumption. Qed.
Lemma near x y r : x - y <= r -> y - x <= r -> Rabs (x - y) <= r.
Proof. intros. apply Rabs_le. lra. Qed.
Lemma scale_bound M0 D w F c : 0 < F -> Rabs D <= M0 -> Rabs w <= c * F -> Rabs (D / F * w) <= M0 * c.
Proof.
  intros HF HD Hw. replace (D / F * w) with (D * (w / F)) by (field; lra). apply abs_mul; [exact HD|]. unfold Rdiv. rewrite Rabs_mult, (Rabs_right (/ F)) by (apply Rle_ge, Rlt_le, Rinv_0_lt_compat, HF).
  apply (Rle_div_l (Rabs w) c F HF). exact Hw.
Qed.
(** Number of points used where the query lies between the points i and i+1 of n *)
Lemma product_bound K h i x M0 D (M : nat -> R) : increasing K -> (forall j, (S j < length K)%nat -> at_ K (S j) - at_ K j <= h) -> (2 <= length K)%nat -> (i < length K)%nat ->
  at_ K i <= x -> ((S i < length K)%nat -> x < at_ K (S i)) -> x <= at_ K (length K - 1) ->
  let a := (i - 2)%nat in let b := Nat.min (i + 2) (length K - 1) in let m := (b - a + 1)%nat in
  M0 = M m -> Rabs D <= M0 -> Rabs (D / INR (fact m) * prod (fun j => at_ K (a + j)) m x) <= poly_error M h m.
Proof.
  intros HI HS H2 Hi L1 L2 L3 a b m -> HD. assert (Hh : 0 <= h) by (pose proof (HS 0%nat ltac:(lia)); pose proof (HI 0%nat 1%nat ltac:(lia)); lra).
  assert (HM : 0 <= M m) by (eapply Rle_trans; [apply Rabs_pos|exact HD]).
  destruct (Nat.eq_dec (S i) (length K)) as [E|Ne].
  - assert (x = at_ K i) as -> by (replace (length K - 1)%nat with i in L3 by lia; lra).
    assert (Z : prod (fun j => at_ K (a + j)) m (at_ K i) = 0).
    { pose proof (prod_node (fun j => at_ K (a + j)) m (i - a)%nat ltac:(subst m b a; lia)) as Z. cbv beta in Z. replace (a + (i - a))%nat with i in Z by (subst a; lia). exact Z. }
    rewrite Z, Rmult_0_r, Rabs_R0. pose proof (pow_le h 2 Hh). pose proof (pow_le h 3 Hh).
    assert (m = 2%nat \/ m = 3%nat) as [Em|Em] by (subst m b a; lia); rewrite Em in *; cbn [poly_error]; apply Rdiv_le_0_compat; try lra; apply Rmult_le_pos; assumption.
  - specialize (L2 ltac:(lia)). pose proof (HS i ltac:(lia)) as S1. pose proof (mid_bound x (at_ K i) (at_ K (S i)) h ltac:(lra) S1) as MB.
    assert (Ge : forall j, (i + j < length K)%nat -> (2 <= j)%nat -> (j <= 2)%nat -> Rabs (x - at_ K (i + j)) <= 2 * h).
    { intros j Hj J1 J2. assert (j = 2%nat) as -> by lia. pose proof (HS (S i) ltac:(lia)) as S2. replace (i + 2)%nat with (S (S i)) in * by lia. pose proof (HI (S i) (S (S i)) ltac:(lia)). apply near; lra. }
    assert (Bm1 : (1 <= i)%nat -> Rabs (x - at_ K (i - 1)) <= 2 * h).
    { intros H. pose proof (HS (i - 1)%nat ltac:(lia)) as S2. replace (S (i - 1)) with i in S2 by lia. pose proof (HI (i - 1)%nat i ltac:(lia)). apply near; lra. }
    assert (Bm2 : (2 <= i)%nat -> Rabs (x - at_ K (i - 2)) <= 3 * h).
    { intros H. pose proof (HS (i - 1)%nat ltac:(lia)) as S2. pose proof (HS (i - 2)%nat ltac:(lia)) as S3. replace (S (i - 1)) with i in S2 by lia. replace (S (i - 2)) with (i - 1)%nat in S3 by lia.
      pose proof (HI (i - 2)%nat i ltac:(lia)). apply near; lra. }
    assert (P3 : 0 <= h ^ 3) by (apply pow_le, Hh). assert (P4 : 0 <= h ^ 4) by (apply pow_le, Hh). assert (P5 : 0 <= h ^ 5) by (apply pow_le, Hh).
    destruct i as [|[|i]].
    + assert (m = 2%nat \/ m = 3%nat /\ (3 <= length K)%nat) as [Em|[Em L]] by (subst m b a; lia); rewrite Em in *; subst a; cbn [Nat.sub Nat.add poly_error prod].
      * unfold Rdiv at 2. replace (M 2%nat * h ^ 2 * / 8) with (M 2%nat * (h ^ 2 / 8)) by field. apply scale_bound; [apply INR_fact_lt_0|exact HD|].
        replace (1 * (x - at_ K 0) * (x - at_ K 1)) with ((x - at_ K 0) * (x - at_ K 1)) by ring. cbn [fact Nat.add Nat.mul INR]. eapply Rle_trans; [exact MB|]. cbn. lra.
      * replace (M 3%nat * h ^ 3 / 12) with (M 3%nat * (h ^ 3 / 12)) by field. apply scale_bound; [apply INR_fact_lt_0|exact HD|].
        replace (1 * (x - at_ K 0) * (x - at_ K 1) * (x - at_ K 2)) with ((x - at_ K 0) * (x - at_ K 1) * (x - at_ K 2)) by ring.
        eapply Rle_trans; [apply abs_mul; [exact MB|exact (Ge 2%nat ltac:(lia) ltac:(lia) ltac:(lia))]|]. cbn. lra.
    + assert (m = 3%nat /\ length K = 3%nat \/ m = 4%nat /\ (4 <= length K)%nat) as [[Em L]|[Em L]] by (subst m b a; lia); rewrite Em in *; subst a; cbn [Nat.sub Nat.add poly_error prod] in *.
      * replace (M 3%nat * h ^ 3 / 12) with (M 3%nat * (h ^ 3 / 12)) by field. apply scale_bound; [apply INR_fact_lt_0|exact HD|].
        replace (1 * (x - at_ K 0) * (x - at_ K 1) * (x - at_ K 2)) with ((x - at_ K 0) * ((x - at_ K 1) * (x - at_ K 2))) by ring.
        eapply Rle_trans; [apply abs_mul; [exact (Bm1 ltac:(lia))|exact MB]|]. cbn. lra.
      * replace (M 4%nat * h ^ 4 / 16) with (M 4%nat * (h ^ 4 / 16)) by field. apply scale_bound; [apply INR_fact_lt_0|exact HD|].
        replace (1 * (x - at_ K 0) * (x - at_ K 1) * (x - at_ K 2) * (x - at_ K 3)) with ((x - at_ K 0) * ((x - at_ K 1) * (x - at_ K 2)) * (x - at_ K 3)) by ring.
        eapply Rle_trans; [apply abs_mul; [apply abs_mul; [exact (Bm1 ltac:(lia))|exact MB]|exact (Ge 2%nat ltac:(lia) ltac:(lia) ltac:(lia))]|]. cbn. lra.
    + replace (S (S i) - 1)%nat with (S i) in Bm1 by lia. replace (S (S i) - 2)%nat with i in Bm2 by lia. specialize (Bm1 ltac:(lia)). specialize (Bm2 ltac:(lia)).
      assert (Ea : a = i) by (subst a; lia).
      assert (m = 4%nat \/ m = 5%nat /\ (i + 4 < length K)%nat) as [Em|[Em L]] by (subst m b a; lia); rewrite Em in *; rewrite Ea; cbn [poly_error prod];
      replace (i + 0)%nat with i by lia; replace (i + 1)%nat with (S i) by lia; replace (i + 2)%nat with (S (S i)) by lia; replace (i + 3)%nat with (S (S (S i))) by lia.
      * replace (M 4%nat * h ^ 4 / 16) with (M 4%nat * (h ^ 4 / 16)) by field. apply scale_bound; [apply INR_fact_lt_0|exact HD|].
        replace (1 * (x - at_ K i) * (x - at_ K (S i)) * (x - at_ K (S (S i))) * (x - at_ K (S (S (S i))))) with ((x - at_ K i) * (x - at_ K (S i)) * ((x - at_ K (S (S i))) * (x - at_ K (S (S (S i)))))) by ring.
        eapply Rle_trans; [apply abs_mul; [apply abs_mul; [exact Bm2|exact Bm1]|exact MB]|]. cbn. lra.
      * replace (i + 4)%nat with (S (S i) + 2)%nat by lia. replace (M 5%nat * h ^ 5 / 40) with (M 5%nat * (h ^ 5 / 40)) by field. apply scale_bound; [apply INR_fact_lt_0|exact HD|].
        replace (1 * (x - at_ K i) * (x - at_ K (S i)) * (x - at_ K (S (S i))) * (x - at_ K (S (S (S i)))) * (x - at_ K (S (S i) + 2)))
          with ((x - at_ K i) * (x - at_ K (S i)) * ((x - at_ K (S (S i))) * (x - at_ K (S (S (S i))))) * (x - at_ K (S (S i) + 2))) by ring.
        eapply Rle_trans; [apply abs_mul; [apply abs_mul; [apply abs_mul; [exact Bm2|exact Bm1]|exact MB]|exact (Ge 2%nat ltac:(lia) ltac:(lia) ltac:(lia))]|]. cbn. lra.
Qed.
