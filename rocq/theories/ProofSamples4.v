(** ProofSamples4: the integrals change little when the spectrum does. *)
From Coq Require Import Reals Lra Lia List ZArith.
From Coquelicot Require Import Coquelicot.
From Verif Require Import Base Num BaseFacts Common Kernels Integrals Spec SpecPT SpecKernels SpecLoops SpecIntegrals SpecColumns SpecConv ProofIntegrals ProofIntegrals2 ProofIntegrals5 ProofQuad ProofQuad2 ProofConv ProofConv2 ProofConv3 SpecSamples.
Import ListNotations.
Local Open Scope R_scope.

Section Stable.
Variables (half : bool) (u v k : R) (P : R -> R).
Hypothesis (Hu : 0 < u) (Huv : u <= v) (Hk : 0 < k) (HP : lip (k * u) (k * v) P).
Let D := region half u v.
Definition near_P (Q : R -> R) (d : R) : Prop := forall q, k * u <= q <= k * v -> Rabs (Q q - P q) <= d.
(** F P is bounded on the region and changes by at most C d when P does by at most d. *)
Definition stab (F : (R -> R) -> R -> R -> R) : Prop := exists C M, 0 <= C /\ 0 <= M /\ (forall x m, D x m -> Rabs (F P x m) <= M) /\
  forall Q d x m, 0 <= d <= 1 -> near_P Q d -> D x m -> Rabs (F Q x m - F P x m) <= C * d.
Lemma stab_ext F G : (forall Q x m, D x m -> F Q x m = G Q x m) -> stab F -> stab G.
Proof.
  intros E (C & M & HC & HM & B & S). exists C, M. repeat split; try assumption.
  - intros x m H. rewrite <- E by exact H. apply B, H.
  - intros Q d x m Hd Hn H. rewrite <- !E by exact H. apply S; assumption.
Qed.
Lemma stab_fixed f : lip2 D f -> stab (fun _ => f).
Proof.
  intros (lam & M & _ & HM & B & _). exists 0, M. repeat split; try lra; try assumption. intros. rewrite Rminus_diag_eq, Rabs_R0 by reflexivity. lra.
Qed.
Lemma stab_const c : stab (fun _ _ _ => c).
Proof. apply (stab_fixed (fun _ _ => c)). apply lip2_const. Qed.
Lemma stab_plus F G : stab F -> stab G -> stab (fun Q x m => F Q x m + G Q x m).
Proof.
  intros (C & M & HC & HM & B & S) (C' & M' & HC' & HM' & B' & S'). exists (C + C'), (M + M'). repeat split; try lra.
  - intros x m H. eapply Rle_trans; [apply Rabs_triang|]. apply Rplus_le_compat; [apply B, H|apply B', H].
  - intros Q d x m Hd Hn H. replace (F Q x m + G Q x m - (F P x m + G P x m)) with ((F Q x m - F P x m) + (G Q x m - G P x m)) by ring.
    eapply Rle_trans; [apply Rabs_triang|]. rewrite Rmult_plus_distr_r. apply Rplus_le_compat; [apply S|apply S']; assumption.
Qed.
Lemma stab_mult F G : stab F -> stab G -> stab (fun Q x m => F Q x m * G Q x m).
Proof.
  intros (C & M & HC & HM & B & S) (C' & M' & HC' & HM' & B' & S'). exists (C * (M' + C') + M * C'), (M * M').
  pose proof (Rmult_le_pos _ _ HM HC') as P1. pose proof (Rmult_le_pos _ _ HC (Rplus_le_le_0_compat _ _ HM' HC')) as P2. repeat split; [lra|apply Rmult_le_pos; assumption| |].
  - intros x m H. rewrite Rabs_mult. apply Rmult_le_compat; try apply Rabs_pos; [apply B, H|apply B', H].
  - intros Q d x m Hd Hn H. specialize (S Q d x m Hd Hn H). specialize (S' Q d x m Hd Hn H). specialize (B x m H). specialize (B' x m H).
    replace (F Q x m * G Q x m - F P x m * G P x m) with ((F Q x m - F P x m) * (G P x m + (G Q x m - G P x m)) + F P x m * (G Q x m - G P x m)) by ring.
    eapply Rle_trans; [apply Rabs_triang|]. rewrite !Rabs_mult.
    assert (E1 : Rabs (G P x m + (G Q x m - G P x m)) <= M' + C').
    { eapply Rle_trans; [apply Rabs_triang|]. apply Rplus_le_compat; [exact B'|]. eapply Rle_trans; [exact S'|]. rewrite <- (Rmult_1_r C') at 2. apply Rmult_le_compat_l; lra. }
    replace ((C * (M' + C') + M * C') * d) with (C * d * (M' + C') + M * (C' * d)) by ring.
    apply Rplus_le_compat; apply Rmult_le_compat; try apply Rabs_pos; assumption.
Qed.
Lemma kD x : u <= x <= v -> k * u <= k * x <= k * v.
Proof. intros H. split; apply Rmult_le_compat_l; lra. Qed.
Lemma P_pos : exists M, 0 <= M /\ forall q, k * u <= q <= k * v -> Rabs (P q) <= M.
Proof.
  destruct HP as (lam & M & _ & B & _). exists M. split; [|exact B]. eapply Rle_trans; [apply Rabs_pos|apply (B (k * u))]. split; [lra|]. apply Rmult_le_compat_l; lra.
Qed.
Lemma stab_Px : stab (fun Q x _ => Q (k * x)).
Proof.
  destruct P_pos as (M & HM & B). exists 1, M. repeat split; try lra.
  - intros x m H. destruct (in_region D half u v Hu (fun _ _ H => H) x m H) as (R1 & R2 & R3). apply B, kD, R1.
  - intros Q d x m Hd Hn H. destruct (in_region D half u v Hu (fun _ _ H => H) x m H) as (R1 & R2 & R3). rewrite Rmult_1_l. apply Hn, kD, R1.
Qed.
Lemma stab_Ps : stab (fun Q x m => Q (k * sep x m)).
Proof.
  destruct P_pos as (M & HM & B). exists 1, M. repeat split; try lra.
  - intros x m H. destruct (in_region D half u v Hu (fun _ _ H => H) x m H) as (R1 & R2 & R3). apply B, kD, R3.
  - intros Q d x m Hd Hn H. destruct (in_region D half u v Hu (fun _ _ H => H) x m H) as (R1 & R2 & R3). rewrite Rmult_1_l. apply Hn, kD, R3.
Qed.
Let HD : forall x m, D x m -> region half u v x m := fun _ _ H => H.
Lemma stab_gamma2 a b : stab (fun Q => gamma2_integrand Q a b k).
Proof.
  unfold gamma2_integrand. apply stab_mult; [|apply (stab_fixed (fun x mu => pt2 b (kqvec k x mu) (qvec k x mu))); exact (lip2_pt2 D half u v Hu Huv HD b k Hk)].
  apply stab_mult; [|apply (stab_fixed (fun x mu => pt2 a (kqvec k x mu) (qvec k x mu))); exact (lip2_pt2 D half u v Hu Huv HD a k Hk)].
  apply stab_mult; [|exact stab_Ps]. apply stab_mult; [apply stab_const|exact stab_Px].
Qed.
Lemma stab_bias t a : stab (fun Q => bias_integrand t Q a k).
Proof.
  pose proof stab_Px as L1. pose proof stab_Ps as L2. pose proof (lip2_pt2 D half u v Hu Huv HD a k Hk) as L3. pose proof (lip2_cosine D half u v Hu Huv HD k Hk) as L4. pose proof (lip2_m D half u v Hu HD) as L5.
  assert (LT : lip2 D (fun x m => cosine (qvec k x m) (kqvec k x m) ^ 2 + - (1 / 3))) by (apply lip2_plus; [exact (lip2_pow D _ 2 L4)|apply lip2_const]).
  apply stab_fixed in L3, LT, L5.
  set (T := fun (_ : R -> R) x m => cosine (qvec k x m) (kqvec k x m) ^ 2 + - (1 / 3)) in LT.
  set (A := fun (Q : R -> R) x (_ : R) => Q (k * x)) in L1. set (B := fun (Q : R -> R) x m => Q (k * sep x m)) in L2. set (K := fun (_ : R -> R) x m => pt2 a (kqvec k x m) (qvec k x m)) in L3.
  assert (E : forall (Q : R -> R) x m, D x m -> norm (qvec k x m) = k * x /\ norm (kqvec k x m) = k * sep x m /\ cosine (kvec k) (qvec k x m) = m /\ pt2 a (qvec k x m) (kqvec k x m) = K Q x m /\ tidal (cosine (qvec k x m) (kqvec k x m)) = T Q x m).
  { intros Q x m H. destruct (in_region D half u v Hu HD x m H) as (R1 & R2 & R3). rewrite norm_q, norm_kq, cosine_k_q by lra. repeat split. apply pt2_comm. }
  destruct t.
  - apply (stab_ext (fun Q x m => A Q x m * B Q x m * K Q x m)); [intros Q x m H; destruct (E Q x m H) as (E1 & E2 & E3 & E4 & E5); unfold bias_integrand; rewrite E1, E2, E4; reflexivity|].
    repeat (first [assumption|apply stab_mult|apply stab_const]).
  - apply (stab_ext (fun Q x m => A Q x m * B Q x m * K Q x m * T Q x m)); [intros Q x m H; destruct (E Q x m H) as (E1 & E2 & E3 & E4 & E5); unfold bias_integrand; rewrite E1, E2, E4, E5; reflexivity|].
    repeat (first [assumption|apply stab_mult|apply stab_const]).
  - apply (stab_ext (fun Q x m => A Q x m * (B Q x m + (-1) * A Q x m) * (1 / 2))); [intros Q x m H; destruct (E Q x m H) as (E1 & E2 & E3 & E4 & E5); unfold bias_integrand; rewrite E1, E2; unfold A, B; field|].
    repeat (first [assumption|apply stab_mult|apply stab_plus|apply stab_const]).
  - apply (stab_ext (fun Q x m => (- 1 / 2) * (A Q x m * (2 / 3 * A Q x m + (-1) * (B Q x m * T Q x m))))); [intros Q x m H; destruct (E Q x m H) as (E1 & E2 & E3 & E4 & E5); unfold bias_integrand; cbn zeta; rewrite E5, E1, E2; unfold A, B; field|].
    repeat (first [assumption|apply stab_mult|apply stab_plus|apply stab_const]).
  - apply (stab_ext (fun Q x m => (- 1 / 2) * (A Q x m * (4 / 9 * A Q x m + (-1) * (B Q x m * (T Q x m * T Q x m)))))); [intros Q x m H; destruct (E Q x m H) as (E1 & E2 & E3 & E4 & E5); unfold bias_integrand; cbn zeta; rewrite E5, E1, E2; unfold A, B; field|].
    repeat (first [assumption|apply stab_mult|apply stab_plus|apply stab_const]).
  - set (Mu := fun (_ : R -> R) (_ : R) (m : R) => m) in L5.
    apply (stab_ext (fun Q x m => 105 / 16 * A Q x m * (2 / 7 * ((Mu Q x m * Mu Q x m + - (1)) * T Q x m) + 8 / 63))); [intros Q x m H; destruct (E Q x m H) as (E1 & E2 & E3 & E4 & E5); unfold bias_integrand; cbn zeta; rewrite E5, E1, E3; unfold A, Mu, tidal; field|].
    repeat (first [assumption|apply stab_mult|apply stab_plus|apply stab_const]).
Qed.
End Stable.
