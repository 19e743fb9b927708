(** ProofSamples7: sigmav, sigmar and pk_interp of a sampled spectrum. *)
From Coq Require Import Reals Lra Lia List ZArith String.
From Coquelicot Require Import Coquelicot.
From Verif Require Import Base Num BaseFacts Common Registry PyTerms Spec SpecPy SpecSamples ProofCommon2 ProofPy ProofPy2 ProofPy4 ProofPy6 ProofSamples3.
Import ListNotations.
Local Open Scope R_scope.

Lemma sqrt_dist a b : Rabs (sqrt a - sqrt b) <= sqrt (Rabs (a - b)).
Proof.
  assert (W : forall x y, x <= y -> Rabs (sqrt x - sqrt y) <= sqrt (Rabs (x - y))).
  { intros x y H. pose proof (sqrt_le_1_alt x y H) as H1. rewrite (Rabs_left1 (x - y)), (Rabs_left1 (sqrt x - sqrt y)) by lra.
    destruct (Rle_dec 0 x) as [Px|Nx].
    - pose proof (sqrt_pos x) as A. pose proof (sqrt_pos y) as B. pose proof (sqrt_pos (- (x - y))) as C.
      apply Rsqr_incr_0_var; [|exact C]. rewrite Rsqr_sqrt by lra. unfold Rsqr. pose proof (sqrt_sqrt x Px) as E1. pose proof (sqrt_sqrt y ltac:(lra)) as E2.
      set (p := sqrt x) in *. set (q := sqrt y) in *. nra.
    - rewrite (sqrt_neg_0 x) by lra. replace (- (0 - sqrt y)) with (sqrt y) by ring. apply sqrt_le_1_alt. lra. }
  destruct (Rle_dec a b) as [H|H]; [apply W, H|]. rewrite (Rabs_minus_sym (sqrt a)), (Rabs_minus_sym a). apply W. lra.
Qed.
Lemma sqrt_close a b e : Rabs (a - b) <= e -> Rabs (sqrt a - sqrt b) <= sqrt e.
Proof. intros H. eapply Rle_trans; [apply sqrt_dist|]. apply sqrt_le_1_alt, H. Qed.
Lemma scaled_close c x y e : 0 < c -> Rabs (x - y) <= e -> Rabs (x / c - y / c) <= e / c.
Proof.
  intros Hc H. replace (x / c - y / c) with ((x - y) * / c) by (field; lra). pose proof (Rinv_0_lt_compat c Hc). rewrite Rabs_mult, (Rabs_right (/ c)) by lra. apply Rmult_le_compat_r; lra.
Qed.
Lemma sampled_sigmav (c : columns RNum) P M h (K v : list R) : getitem c "k" = Ok K -> samples P 2 M h K v -> (1 <= List.length K)%nat ->
  exists s, sigmav (N := RNum) c (Ok v) = Ok s /\
    Rabs (s - sqrt (RInt (P 0%nat) (at_ K 0) (at_ K (List.length K - 1)) / (6 * PI ^ 2))) <= sqrt ((at_ K (List.length K - 1) - at_ K 0) * (M 2%nat * h ^ 2 / 8) / (6 * PI ^ 2)).
Proof.
  intros HK HS H1. pose proof (sm_length _ _ _ _ _ _ HS) as HL. unfold sigmav. cbn [bind]. rewrite HK. cbn [bind]. change (T RNum) with R in *. rewrite HL, Nat.eqb_refl.
  eexists. split; [reflexivity|]. rewrite (np_trapz_val v K HL). destruct (sampled_trapz P M h K v HS H1) as (_ & B). rn. pows.
  assert (Hp : 0 < 6 * PI ^ 2) by (pose proof PI_RGT_0; nra).
  match goal with |- Rabs (sqrt ?x - _) <= _ => replace x with (trapz K v / (6 * PI ^ 2)) by (field; apply PI_neq0) end.
  apply sqrt_close. exact (scaled_close _ _ _ _ Hp B).
Qed.
(** G is P(q) (W(q r) q)^2, with its two derivatives. *)
Lemma sampled_sigmar (c : columns RNum) r P M0 G M h (K v : list R) : getitem c "k" = Ok K -> samples P 0 M0 h K v -> (1 <= List.length K)%nat ->
  (forall q, at_ K 0 <= q <= at_ K (List.length K - 1) -> G 0%nat q = P 0%nat q * (tophat (q * r) * q) ^ 2) ->
  derivatives G 2 (at_ K 0) (at_ K (List.length K - 1)) -> (forall j t, (j <= 2)%nat -> at_ K 0 <= t <= at_ K (List.length K - 1) -> Rabs (G j t) <= M j) ->
  exists s, sigmar (N := RNum) c r (Ok v) = Ok s /\
    Rabs (s - sqrt (RInt (fun q => P 0%nat q * (tophat (q * r) * q) ^ 2) (at_ K 0) (at_ K (List.length K - 1)) / (2 * PI ^ 2))) <= sqrt ((at_ K (List.length K - 1) - at_ K 0) * (M 2%nat * h ^ 2 / 8) / (2 * PI ^ 2)).
Proof.
  intros HK HS H1 HG HD HM. pose proof (sm_length _ _ _ _ _ _ HS) as HL. unfold sigmar. rewrite HK. cbn [bind]. change (T RNum) with R in *.
  rewrite (elementwise_ok (N := RNum) _ _ (List.length K)); [|discriminate|intros d [<-|[<-|[]]]; [exact HL|reflexivity]]. cbn [bind].
  eexists. split; [reflexivity|]. set (y := map _ _). change (T RNum) with R in *.
  assert (Ly : List.length y = List.length K) by (unfold y; rewrite map_length, seq_length; reflexivity).
  assert (Vy : forall i, (i < List.length K)%nat -> at_ y i = G 0%nat (at_ K i)).
  { intros i Hi. assert (Hr : at_ K 0 <= at_ K i <= at_ K (List.length K - 1)) by (split; (apply inc_le; [exact (sm_increasing _ _ _ _ _ _ HS)|change (T RNum) with R in *; lia])).
    rewrite HG by exact Hr. rewrite <- (sm_values _ _ _ _ _ _ HS i Hi). unfold y, at_ at 1. set (f := fun i0 : nat => _). rewrite (nth_indep _ 0 (f 0%nat)) by (rewrite map_length, seq_length; exact Hi). rewrite map_nth, seq_nth by exact Hi.
    unfold f. cbn [map Nat.add]. rn. fold (at_ v i) (at_ K i). unfold tophat. pows. unfold Rdiv. ring. }
  assert (HSG : samples G 2 M h K y).
  { destruct HS as [SL SI SV SS SD SB]. split; assumption. }
  rewrite (np_trapz_val y K Ly). destruct (sampled_trapz G M h K y HSG H1) as (_ & B). rn. pows.
  assert (Hp : 0 < 2 * PI ^ 2) by (pose proof PI_RGT_0; nra).
  match goal with |- Rabs (sqrt ?x - _) <= _ => replace x with (trapz K y / (2 * PI ^ 2)) by (field; apply PI_neq0) end.
  apply sqrt_close. pose proof (scaled_close _ _ _ _ Hp B) as B2.
  assert (EI : RInt (G 0%nat) (at_ K 0) (at_ K (List.length K - 1)) = RInt (fun q => P 0%nat q * (tophat (q * r) * q) ^ 2) (at_ K 0) (at_ K (List.length K - 1))).
  { apply RInt_ext. intros q Hq. apply HG. assert (at_ K 0 <= at_ K (List.length K - 1)) by (apply inc_le; [exact (sm_increasing _ _ _ _ _ _ HS)|change (T RNum) with R in *; lia]). rewrite Rmin_left, Rmax_right in Hq by assumption. destruct Hq as [Q1 Q2]. split; apply Rlt_le; assumption. }
  refine (Rle_trans _ _ _ (Req_le _ _ (f_equal (fun a => Rabs (trapz K y / (2 * PI ^ 2) - a / (2 * PI ^ 2))) (eq_sym EI))) B2).
Qed.
Lemma sampled_interp (c : columns RNum) P M h (K v : list R) k left right : getitem c "k" = Ok K -> samples P 2 M h K v -> (1 <= List.length K)%nat ->
  exists x, pk_interp (N := RNum) c k left right (Ok v) = Ok x /\ (k < at_ K 0 -> x = left) /\ (at_ K (List.length K - 1) < k -> x = right) /\
    (at_ K 0 <= k <= at_ K (List.length K - 1) -> Rabs (x - P 0%nat k) <= M 2%nat * h ^ 2 / 8).
Proof.
  intros HK HS H1. pose proof (sm_length _ _ _ _ _ _ HS) as HL. pose proof (sm_increasing _ _ _ _ _ _ HS) as HI. unfold pk_interp. cbn [bind]. rewrite HK. cbn [bind]. change (T RNum) with R in *. rewrite HL, Nat.eqb_refl.
  destruct (interp_spec K v left right HI HL H1) as (A & B & C & E). eexists. split; [reflexivity|]. split; [apply A|]. split; [intros H; apply B; rewrite <- Nat.sub_1_r; exact H|].
  intros Hk. destruct (Nat.eq_dec (List.length K) 1) as [E1|Ne].
  - rewrite E1 in Hk. cbn in Hk. assert (k = at_ K 0) as -> by lra. rewrite (C 0%nat) by lia. rewrite (sm_values _ _ _ _ _ _ HS) by lia. rewrite Rminus_eq_0, Rabs_R0.
    assert (0 <= M 2%nat) by (eapply Rle_trans; [apply Rabs_pos|apply (sm_bound _ _ _ _ _ _ HS 2%nat (at_ K 0)); [lia|rewrite E1; cbn; lra]]). pose proof (pow2_ge_0 h). nra.
  - destruct (bracket K k ltac:(lia) Hk) as (i & Hi & Hb). rewrite (E i k Hi Hb). pose proof (lin_at P M h K v i k HS Hi Hb) as L.
    refine (Rle_trans _ _ _ (Req_le _ _ (f_equal (fun a => Rabs (a - P 0%nat k)) _)) L). unfold Rdiv. ring.
Qed.
