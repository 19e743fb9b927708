(** ProofSamples3: lookups, running variances and integrals over a table of samples against the function sampled. *)
From Coq Require Import Reals Lra Lia List ZArith Factorial.
From Coquelicot Require Import Coquelicot.
From Verif Require Import Base Num BaseFacts Common Spec Poly SpecSamples ProofSigma ProofCommon3 ProofCommon2 ProofSamples ProofSamples2.
Import ListNotations.
Local Open Scope R_scope.

Lemma inc_le K i j : increasing K -> (i <= j < length K)%nat -> at_ K i <= at_ K j.
Proof. intros HI H. destruct (Nat.eq_dec i j) as [->|]; [lra|]. apply Rlt_le, HI. lia. Qed.
Lemma sampled_poly P M h K Pv k : samples P 5 M h K Pv -> (2 <= zlen K < 2 ^ 62)%Z -> at_ K 0 <= k <= at_ K (length K - 1) ->
  exists i v, (i < length K)%nat /\ at_ K i <= k /\ ((S i < length K)%nat -> k < at_ K (S i)) /\
    find_pk (N := RNum) (mk_table (N := RNum) K Pv) [k] POLY = Ok [v] /\
    Rabs (v - P 0%nat k) <= poly_error M h (Nat.min (i + 2) (length K - 1) - (i - 2) + 1).
Proof.
  intros [SL SI SV SS SD SB] HB Hk. destruct (poly_value K Pv k SL HB SI Hk) as (i & p & Hi & H1 & H2 & Lp & Hp & E). exists i, (peval p k). repeat split; try assumption.
  set (a := (i - 2)%nat) in *. set (b := Nat.min (i + 2) (length K - 1)) in *. set (m := (b - a + 1)%nat) in *.
  assert (HL : (2 <= length K)%nat) by (unfold zlen in HB; lia).
  assert (Hm : (1 <= m <= 5)%nat) by (subst m b a; lia).
  assert (Ez : (a + (m - 1) = b)%nat) by (subst m b a; lia).
  destruct (interpolation_error P m (fun j => at_ K (a + j)) p k (at_ K 0) (at_ K (length K - 1))) as (c & Hc & EE).
  - lia.
  - intros j Hj. apply SI. subst m b a. lia.
  - apply (inc_le K); [exact SI|]. subst a. lia.
  - rewrite Ez. apply (inc_le K); [exact SI|]. subst b. lia.
  - intros j t Hj Ht. apply SD; [lia|exact Ht].
  - exact Lp.
  - intros j Hj. rewrite Hp by (subst m b a; lia). apply SV. subst m b a. lia.
  - rewrite Ez. split.
    + replace (a + 0)%nat with a by lia. apply (Rle_trans _ (at_ K i)); [apply inc_le; [exact SI|subst a; lia]|exact H1].
    + destruct (Nat.eq_dec (S i) (length K)) as [El|Ne].
      * replace b with (length K - 1)%nat by (subst b; lia). apply Hk.
      * apply (Rle_trans _ (at_ K (S i))); [apply Rlt_le, H2; lia|]. apply inc_le; [exact SI|subst b; lia].
  - rewrite Rabs_minus_sym, EE. apply (product_bound K h i k (M m) (P m c) M); try assumption; try reflexivity; try lra. apply SB; [lia|exact Hc].
Qed.
Lemma bracket (K : list R) x : (2 <= length K)%nat -> at_ K 0 <= x <= at_ K (length K - 1) -> exists i, (S i < length K)%nat /\ at_ K i <= x <= at_ K (S i).
Proof.
  intros H2 Hx. assert (G : forall r, (r < length K)%nat -> (1 <= r)%nat -> x <= at_ K r -> exists i, (S i < length K)%nat /\ at_ K i <= x <= at_ K (S i)).
  { induction r as [|r IH]; intros Hr H1 L; [lia|]. destruct (Rle_dec (at_ K r) x) as [A|A]; [exists r; repeat split; try lia; assumption|].
    destruct r as [|r]; [lra|]. apply IH; [lia|lia|lra]. }
  apply (G (length K - 1)%nat); [lia|lia|lra].
Qed.
Lemma lin_at P M h K Pv i x : samples P 2 M h K Pv -> (S i < length K)%nat -> at_ K i <= x <= at_ K (S i) ->
  Rabs (at_ Pv i + (at_ Pv (S i) - at_ Pv i) * (x - at_ K i) / (at_ K (S i) - at_ K i) - P 0%nat x) <= M 2%nat * h ^ 2 / 8.
Proof.
  intros [SL SI SV SS SD SB] Hi Hx. pose proof (SI i (S i) ltac:(lia)) as HL.
  set (s := (at_ Pv (S i) - at_ Pv i) / (at_ K (S i) - at_ K i)). set (p := [at_ Pv i - s * at_ K i; s]).
  assert (Ep : forall t, peval p t = at_ Pv i + s * (t - at_ K i)) by (intros t; unfold p; cbn; ring).
  destruct (interpolation_error P 2 (fun j => at_ K (i + j)) p x (at_ K 0) (at_ K (length K - 1))) as (c & Hc & EE).
  - lia.
  - intros j Hj. apply SI. lia.
  - apply (inc_le K); [exact SI|lia].
  - apply (inc_le K); [exact SI|lia].
  - exact SD.
  - cbn. lia.
  - intros j Hj. rewrite Ep. assert (j = 0%nat \/ j = 1%nat) as [-> | ->] by lia.
    + replace (i + 0)%nat with i by lia. rewrite SV by lia. ring.
    + replace (i + 1)%nat with (S i) by lia. rewrite <- (SV (S i)) by lia. unfold s. field. lra.
  - cbn [Nat.sub]. replace (i + 0)%nat with i by lia. replace (i + 1)%nat with (S i) by lia. exact Hx.
  - replace (at_ Pv i + (at_ Pv (S i) - at_ Pv i) * (x - at_ K i) / (at_ K (S i) - at_ K i)) with (peval p x) by (rewrite Ep; unfold s; field; lra).
    rewrite Rabs_minus_sym, EE. replace (M 2%nat * h ^ 2 / 8) with (M 2%nat * (h ^ 2 / 8)) by field.
    apply scale_bound; [apply INR_fact_lt_0|apply SB; [lia|exact Hc]|].
    cbn [prod]. replace (i + 0)%nat with i by lia. replace (i + 1)%nat with (S i) by lia.
    replace (1 * (x - at_ K i) * (x - at_ K (S i))) with ((x - at_ K i) * (x - at_ K (S i))) by ring.
    eapply Rle_trans; [apply (mid_bound _ _ _ h Hx), SS, Hi|]. cbn. lra.
Qed.
Lemma plin_at K Pv i x : length Pv = length K -> increasing K -> (S i < length K)%nat -> at_ K i <= x <= at_ K (S i) ->
  plin K Pv x = at_ Pv i + (at_ Pv (S i) - at_ Pv i) * (x - at_ K i) / (at_ K (S i) - at_ K i).
Proof.
  intros SL SI Hi Hx. pose proof (plin_chord_gen x K Pv SL SI (Z.of_nat i) ltac:(lia) ltac:(unfold zlen; lia)) as H. unfold znth in H.
  rewrite Nat2Z.id in H. replace (Z.to_nat (Z.of_nat i + 1)) with (S i) in H by lia. exact (H Hx).
Qed.
Lemma plin_error P M h K Pv x : samples P 2 M h K Pv -> (2 <= length K)%nat -> at_ K 0 <= x <= at_ K (length K - 1) -> Rabs (plin K Pv x - P 0%nat x) <= M 2%nat * h ^ 2 / 8.
Proof.
  intros S H2 Hx. destruct (bracket K x H2 Hx) as (i & Hi & Hb). rewrite (plin_at K Pv i x (sm_length _ _ _ _ _ _ S) (sm_increasing _ _ _ _ _ _ S) Hi Hb). apply (lin_at P M h K Pv i x S Hi Hb).
Qed.
Lemma sampled_lin P M h K Pv k : samples P 2 M h K Pv -> (2 <= zlen K < 2 ^ 62)%Z -> at_ K 0 <= k < at_ K (length K - 1) ->
  exists v, find_pk (N := RNum) (mk_table (N := RNum) K Pv) [k] LIN = Ok [v] /\ Rabs (v - P 0%nat k) <= M 2%nat * h ^ 2 / 8.
Proof.
  intros S HB Hk. exists (plin K Pv k). split; [apply lin_value; [apply S|exact HB|apply S|exact Hk]|]. apply plin_error; [exact S|unfold zlen in HB; lia|lra].
Qed.
(** Integrals *)
Lemma smooth_int P n a b : (1 <= n)%nat -> derivatives P n a b -> a <= b -> ex_RInt (P 0%nat) a b.
Proof.
  intros Hn HD Hab. apply (ex_RInt_continuous (V := R_CompleteNormedModule)). intros z Hz. rewrite Rmin_left, Rmax_right in Hz by exact Hab.
  apply @ex_derive_continuous. exists (P 1%nat z). apply HD; [lia|exact Hz].
Qed.
Lemma int_error P M h K Pv b v : samples P 2 M h K Pv -> (1 <= length K)%nat -> at_ K 0 <= b <= at_ K (length K - 1) -> is_RInt (plin K Pv) (at_ K 0) b v ->
  ex_RInt (P 0%nat) (at_ K 0) b /\ Rabs (v - RInt (P 0%nat) (at_ K 0) b) <= (b - at_ K 0) * (M 2%nat * h ^ 2 / 8).
Proof.
  intros S H1 Hb HV. assert (EX : ex_RInt (P 0%nat) (at_ K 0) b).
  { apply (smooth_int P 2); [lia| |lra]. intros j t Hj Ht. apply (sm_smooth _ _ _ _ _ _ S); [exact Hj|lra]. }
  split; [exact EX|]. destruct (le_lt_dec 2 (length K)) as [H2|H2].
  - pose proof (is_RInt_minus _ _ _ _ _ _ HV (RInt_correct _ _ _ EX)) as HM.
    pose proof (is_RInt_unique _ _ _ _ HM) as U.
    refine (Rle_trans _ _ _ (Req_le _ _ (f_equal Rabs (eq_sym U))) _). apply (abs_RInt_le_const (fun x => minus (plin K Pv x) (P 0%nat x))); [lra|exact (ex_intro _ _ HM)|].
    intros t Ht. apply (plin_error P M h K Pv t S H2). lra.
  - assert (EK : (length K - 1 = 0)%nat) by lia. rewrite EK in Hb. assert (b = at_ K 0) as -> by lra.
    pose proof (is_RInt_unique _ _ _ _ HV) as U. rewrite RInt_point in U. rewrite RInt_point, <- U. unfold zero. cbn. rewrite !Rminus_diag_eq, Rabs_R0 by reflexivity. lra.
Qed.
Lemma trapz_int K Pv : length Pv = length K -> (1 <= length K)%nat -> increasing K -> is_RInt (plin K Pv) (at_ K 0) (at_ K (length K - 1)) (trapz K Pv).
Proof.
  intros HL H1 HI. pose proof (is_RInt_trap K Pv HL HI (length K - 1) ltac:(unfold zlen; lia)) as H. rewrite trapR_trapz in H. fold (trapz K Pv) in H.
  unfold znth in H. rewrite Nat2Z.id in H. replace (trapz K Pv) with (2 * trapz K Pv / 2) by field. exact H.
Qed.
Lemma sampled_trapz P M h K Pv : samples P 2 M h K Pv -> (1 <= length K)%nat ->
  ex_RInt (P 0%nat) (at_ K 0) (at_ K (length K - 1)) /\
  Rabs (trapz K Pv - RInt (P 0%nat) (at_ K 0) (at_ K (length K - 1))) <= (at_ K (length K - 1) - at_ K 0) * (M 2%nat * h ^ 2 / 8).
Proof.
  intros S H1. apply (int_error P M h K Pv _ _ S H1); [|apply trapz_int; [apply S|exact H1|apply S]]. split; [apply inc_le; [apply S|lia]|lra].
Qed.
Lemma sampled_variance P M h K Pv ks uv : samples P 2 M h K Pv -> (1 <= zlen K < 2 ^ 62)%Z -> ascending ks -> 0 <= uv ->
  exists vs, calc_running_sigmad2 (N := RNum) (mk_table (N := RNum) K Pv) ks uv = Ok vs /\
    Forall2 (fun k v => at_ K 0 <= k * uv -> let c := Rmin (k * uv) (at_ K (length K - 1)) in
      Rabs (v - RInt (P 0%nat) (at_ K 0) c / (6 * PI ^ 2)) <= (c - at_ K 0) * (M 2%nat * h ^ 2 / 8) / (6 * PI ^ 2)) ks vs.
Proof.
  intros S HB HA Hu. destruct (sigmad2_final K Pv ks uv ltac:(apply S) HB ltac:(apply S) HA Hu) as (vs & E & F). exists vs. split; [exact E|].
  eapply Forall2_imp; [|exact F]. intros k v [_ G] Hk c. specialize (G Hk). fold c in G. assert (H1 : (1 <= length K)%nat) by (unfold zlen in HB; lia).
  assert (Hc : at_ K 0 <= c <= at_ K (length K - 1)).
  { split; [|apply Rmin_r]. apply Rmin_glb; [exact Hk|]. apply inc_le; [apply S|lia]. }
  destruct (int_error P M h K Pv c _ S H1 Hc G) as (_ & B). assert (Pp : 0 < 6 * PI ^ 2) by (pose proof PI_RGT_0; apply Rmult_lt_0_compat; [lra|apply pow_lt; lra]).
  replace (v - RInt (P 0%nat) (at_ K 0) c / (6 * PI ^ 2)) with ((v * (6 * PI ^ 2) - RInt (P 0%nat) (at_ K 0) c) / (6 * PI ^ 2)) by (field; apply PI_neq0).
  unfold Rdiv at 1. rewrite Rabs_mult, (Rabs_right (/ _)) by (apply Rle_ge, Rlt_le, Rinv_0_lt_compat, Pp).
  apply Rmult_le_compat_r; [apply Rlt_le, Rinv_0_lt_compat, Pp|exact B].
Qed.
