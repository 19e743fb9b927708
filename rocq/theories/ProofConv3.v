(** ProofConv3: the integrands of the one-loop and bias terms are bounded and Lipschitz where they are integrated. *)
From Coq Require Import Reals Lra Lia List ZArith String.
From Coquelicot Require Import Coquelicot.
From Verif Require Import Base Num BaseFacts Common Kernels Integrals Registry Threads Spec SpecPT SpecQuad SpecKernels SpecLoops SpecIntegrals SpecThreads SpecDefined SpecColumns SpecConv Poly ProofSearch ProofGL ProofGL2 ProofCommon2
  ProofIntegrals ProofIntegrals2 ProofIntegrals5 ProofNewton6 ProofNewton7 ProofQuad ProofQuad2 ProofQuad3 ProofConv ProofConv2.
Import ListNotations.
Local Open Scope R_scope.

Section Region.
Variable D : R -> R -> Prop.
Definition lip2 (f : R -> R -> R) : Prop := exists lam M, 0 <= lam /\ 0 <= M /\ (forall x m, D x m -> Rabs (f x m) <= M) /\
  (forall x m y n, D x m -> D y n -> Rabs (f x m - f y n) <= lam * (Rabs (x - y) + Rabs (m - n))).
Lemma dist_pos x y m n : 0 <= Rabs (x - y) + Rabs (m - n).
Proof. pose proof (Rabs_pos (x - y)). pose proof (Rabs_pos (m - n)). lra. Qed.
Lemma lip2_ext f g : (forall x m, D x m -> f x m = g x m) -> lip2 f -> lip2 g.
Proof.
  intros H (l & M & A & B & C & E). exists l, M. split; [exact A|]. split; [exact B|]. split; [intros x m Hm; rewrite <- H by exact Hm; apply C, Hm|].
  intros x m y n H1 H2. rewrite <- !H by assumption. apply E; assumption.
Qed.
Lemma lip2_const c : lip2 (fun _ _ => c).
Proof.
  exists 0, (Rabs c). split; [lra|]. split; [apply Rabs_pos|]. split; [intros; lra|]. intros. rewrite Rminus_eq_0, Rabs_R0. lra.
Qed.
Lemma lip2_plus f g : lip2 f -> lip2 g -> lip2 (fun x m => f x m + g x m).
Proof.
  intros (l1 & M1 & A1 & B1 & C1 & E1) (l2 & M2 & A2 & B2 & C2 & E2). exists (l1 + l2), (M1 + M2). split; [lra|]. split; [lra|]. split.
  - intros x m H. eapply Rle_trans; [apply Rabs_triang|]. specialize (C1 x m H). specialize (C2 x m H). lra.
  - intros x m y n H1 H2. replace (f x m + g x m - (f y n + g y n)) with ((f x m - f y n) + (g x m - g y n)) by ring. eapply Rle_trans; [apply Rabs_triang|]. specialize (E1 x m y n H1 H2). specialize (E2 x m y n H1 H2). lra.
Qed.
Lemma lip2_mult f g : lip2 f -> lip2 g -> lip2 (fun x m => f x m * g x m).
Proof.
  intros (l1 & M1 & A1 & B1 & C1 & E1) (l2 & M2 & A2 & B2 & C2 & E2). exists (l1 * M2 + l2 * M1), (M1 * M2).
  split; [pose proof (Rmult_le_pos _ _ A1 B2); pose proof (Rmult_le_pos _ _ A2 B1); lra|]. split; [apply Rmult_le_pos; assumption|]. split.
  - intros x m H. rewrite Rabs_mult. apply Rmult_le_compat; try apply Rabs_pos; auto.
  - intros x m y n H1 H2. replace (f x m * g x m - f y n * g y n) with ((f x m - f y n) * g x m + (g x m - g y n) * f y n) by ring. eapply Rle_trans; [apply Rabs_triang|]. rewrite !Rabs_mult.
    pose proof (Rmult_le_compat _ _ _ _ (Rabs_pos _) (Rabs_pos _) (E1 x m y n H1 H2) (C2 x m H1)) as X1. pose proof (Rmult_le_compat _ _ _ _ (Rabs_pos _) (Rabs_pos _) (E2 x m y n H1 H2) (C1 y n H2)) as X2. lra.
Qed.
Lemma lip2_pow f n : lip2 f -> lip2 (fun x m => f x m ^ n).
Proof. intros H. induction n as [|n IH]; cbn [pow]; [apply lip2_const|]. apply lip2_mult; assumption. Qed.
Lemma lip2_comp c d h f : lip2 f -> (forall x m, D x m -> c <= f x m <= d) -> c <= d -> lip c d h -> lip2 (fun x m => h (f x m)).
Proof.
  intros (l1 & M1 & A1 & B1 & C1 & E1) HR Hcd (l2 & M2 & A2 & B2 & E2). exists (l2 * l1), M2. split; [apply Rmult_le_pos; assumption|].
  split; [eapply Rle_trans; [apply Rabs_pos|apply (B2 c); lra]|]. split; [intros x m H; apply B2, HR, H|].
  intros x m y n H1 H2. eapply Rle_trans; [apply E2; apply HR; assumption|]. rewrite Rmult_assoc. apply Rmult_le_compat_l; [exact A2|]. apply E1; assumption.
Qed.
Variables (half : bool) (u v : R).
Hypothesis (Hu : 0 < u) (Huv : u <= v) (HD : forall x m, D x m -> region half u v x m).
Lemma in_region x m : D x m -> u <= x <= v /\ -1 <= m <= 1 /\ u <= sep x m <= v.
Proof.
  intros H. destruct (HD x m H) as (H1 & H2). apply (allowed_iff half u v x m Hu H1) in H2. destruct H2 as (A & B & _). auto.
Qed.
Lemma lip2_x : lip2 (fun x _ => x).
Proof.
  exists 1, v. split; [lra|]. split; [lra|]. split; [intros x m H; apply in_region in H; rewrite Rabs_right; lra|]. intros x m y n _ _. pose proof (Rabs_pos (m - n)). lra.
Qed.
Lemma lip2_m : lip2 (fun _ m => m).
Proof.
  exists 1, 1. split; [lra|]. split; [lra|]. split; [intros x m H; apply in_region in H; apply Rabs_le; lra|]. intros x m y n _ _. pose proof (Rabs_pos (x - y)). lra.
Qed.
Lemma lip_sqrt a b : 0 < a -> a <= b -> lip a b sqrt.
Proof.
  intros Ha Hab. apply (lip_derive a b sqrt (fun t => / (2 * sqrt t)) (/ (2 * sqrt a))); [exact Hab|apply Rlt_le, Rinv_0_lt_compat; pose proof (sqrt_lt_R0 a Ha); lra|].
  intros t Ht. pose proof (sqrt_lt_R0 a Ha) as A. pose proof (sqrt_le_1 a t ltac:(lra) ltac:(lra) ltac:(lra)) as B. split; [auto_derive; [lra|field; lra]|].
  rewrite Rabs_right by (apply Rle_ge, Rlt_le, Rinv_0_lt_compat; lra). apply Rinv_le_contravar; lra.
Qed.
Lemma lip2_X : lip2 (fun x m => 1 + x * x - 2 * m * x).
Proof.
  apply (lip2_ext (fun x m => (1 + x * x) + (-2) * (m * x))); [intros; ring|].
  apply lip2_plus; [apply lip2_plus; [apply lip2_const|apply lip2_mult; apply lip2_x]|]. apply lip2_mult; [apply lip2_const|]. apply lip2_mult; [apply lip2_m|apply lip2_x].
Qed.
Lemma X_range x m : D x m -> u * u <= 1 + x * x - 2 * m * x <= v * v.
Proof. intros H. destruct (in_region x m H) as (A & B & C). rewrite <- sep_sq by lra. split; apply Rmult_le_compat; lra. Qed.
Lemma lip2_sep : lip2 sep.
Proof. unfold sep. apply (lip2_comp (u * u) (v * v) sqrt _ lip2_X X_range); [nra|]. apply lip_sqrt; nra. Qed.
Lemma lip2_ix : lip2 (fun x _ => / x).
Proof. apply (lip2_comp u v Rinv _ lip2_x); [intros x m H; apply in_region in H; apply H|exact Huv|]. apply lip_inv; lra. Qed.
Lemma lip2_isep : lip2 (fun x m => / sep x m).
Proof. apply (lip2_comp u v Rinv _ lip2_sep); [intros x m H; apply in_region in H; apply H|exact Huv|]. apply lip_inv; lra. Qed.
(** The kernel and the cosine between q and k - q, in units of k *)
Lemma lip2_pt2 t k : 0 < k -> lip2 (fun x m => pt2 t (kqvec k x m) (qvec k x m)).
Proof.
  intros Hk. apply (lip2_ext (fun x m => (if t then 3 else 5) / 7 + (x * m + (-1) * (x * x)) * ((/ sep x m) ^ 2 + (/ x) ^ 2) * (1 / 2) + (if t then 4 else 2) / 7 * ((x * m + (-1) * (x * x)) ^ 2 * ((/ sep x m) ^ 2 * (/ x) ^ 2)))).
  - intros x m H. destruct (in_region x m H) as (A & B & C). rewrite pt2_kq_q by lra. unfold f2v. assert (E : 1 + x * x - 2 * m * x = sep x m ^ 2) by (rewrite <- sep_sq by lra; ring).
    rewrite E. destruct t; field; lra.
  - assert (L1 : lip2 (fun x m => x * m + -1 * (x * x))).
    { apply lip2_plus; [apply lip2_mult; [apply lip2_x|apply lip2_m]|]. apply lip2_mult; [apply lip2_const|]. apply lip2_mult; apply lip2_x. }
    pose proof (lip2_pow _ 2 lip2_isep) as L2. pose proof (lip2_pow _ 2 lip2_ix) as L3.
    apply lip2_plus; [apply lip2_plus; [apply lip2_const|]|].
    + apply lip2_mult; [|apply lip2_const]. apply lip2_mult; [exact L1|]. apply lip2_plus; assumption.
    + apply lip2_mult; [apply lip2_const|]. apply lip2_mult; [exact (lip2_pow _ 2 L1)|]. apply lip2_mult; assumption.
Qed.
Lemma lip2_cosine k : 0 < k -> lip2 (fun x m => cosine (qvec k x m) (kqvec k x m)).
Proof.
  intros Hk. apply (lip2_ext (fun x m => (m + (-1) * x) * / sep x m)).
  - intros x m H. destruct (in_region x m H) as (A & B & C). rewrite cosine_q_kq by lra.
    replace (k * k - k * sep x m * (k * sep x m) - k * x * (k * x)) with (k * k * (1 - sep x m * sep x m - x * x)) by ring. rewrite sep_sq by lra. field. lra.
  - apply lip2_mult; [|exact lip2_isep]. apply lip2_plus; [apply lip2_m|]. apply lip2_mult; [apply lip2_const|apply lip2_x].
Qed.
Variables (P : R -> R) (k : R).
Hypothesis (Hk : 0 < k) (HP : lip (k * u) (k * v) P).
Lemma kuv : k * u <= k * v.
Proof. apply Rmult_le_compat_l; lra. Qed.
Lemma lip2_Px : lip2 (fun x _ => P (k * x)).
Proof.
  apply (lip2_comp (k * u) (k * v) P (fun x _ => k * x)); [apply lip2_mult; [apply lip2_const|apply lip2_x]| |exact kuv|exact HP].
  intros x m H. apply in_region in H. split; apply Rmult_le_compat_l; lra.
Qed.
Lemma lip2_Ps : lip2 (fun x m => P (k * sep x m)).
Proof.
  apply (lip2_comp (k * u) (k * v) P (fun x m => k * sep x m)); [apply lip2_mult; [apply lip2_const|apply lip2_sep]| |exact kuv|exact HP].
  intros x m H. apply in_region in H. split; apply Rmult_le_compat_l; lra.
Qed.
Lemma lip2_gamma2 a b : lip2 (gamma2_integrand P a b k).
Proof.
  unfold gamma2_integrand. apply lip2_mult; [|exact (lip2_pt2 b k Hk)]. apply lip2_mult; [|exact (lip2_pt2 a k Hk)]. apply lip2_mult; [|exact lip2_Ps]. apply lip2_mult; [apply lip2_const|exact lip2_Px].
Qed.
Lemma lip2_bias t a : lip2 (bias_integrand t P a k).
Proof.
  pose proof lip2_Px as L1. pose proof lip2_Ps as L2. pose proof (lip2_pt2 a k Hk) as L3. pose proof (lip2_cosine k Hk) as L4. pose proof lip2_m as L5.
  assert (LT : lip2 (fun x m => cosine (qvec k x m) (kqvec k x m) ^ 2 + - (1 / 3))) by (apply lip2_plus; [exact (lip2_pow _ 2 L4)|apply lip2_const]).
  set (T := fun x m => cosine (qvec k x m) (kqvec k x m) ^ 2 + - (1 / 3)) in LT.
  set (A := fun x (_ : R) => P (k * x)) in L1. set (B := fun x m => P (k * sep x m)) in L2. set (K := fun x m => pt2 a (kqvec k x m) (qvec k x m)) in L3.
  assert (Q : forall x m, D x m -> norm (qvec k x m) = k * x /\ norm (kqvec k x m) = k * sep x m /\ cosine (kvec k) (qvec k x m) = m /\ pt2 a (qvec k x m) (kqvec k x m) = K x m /\ tidal (cosine (qvec k x m) (kqvec k x m)) = T x m).
  { intros x m H. destruct (in_region x m H) as (R1 & R2 & R3). rewrite norm_q, norm_kq, cosine_k_q by lra. repeat split. apply pt2_comm. }
  destruct t.
  - apply (lip2_ext (fun x m => A x m * B x m * K x m)); [intros x m H; destruct (Q x m H) as (E1 & E2 & E3 & E4 & E5); unfold bias_integrand; rewrite E1, E2, E4; reflexivity|].
    repeat (first [assumption|apply lip2_mult|apply lip2_const]).
  - apply (lip2_ext (fun x m => A x m * B x m * K x m * T x m)); [intros x m H; destruct (Q x m H) as (E1 & E2 & E3 & E4 & E5); unfold bias_integrand; rewrite E1, E2, E4, E5; reflexivity|].
    repeat (first [assumption|apply lip2_mult|apply lip2_const]).
  - apply (lip2_ext (fun x m => A x m * (B x m + (-1) * A x m) * (1 / 2))); [intros x m H; destruct (Q x m H) as (E1 & E2 & E3 & E4 & E5); unfold bias_integrand; rewrite E1, E2; unfold A, B; field|].
    repeat (first [assumption|apply lip2_mult|apply lip2_plus|apply lip2_const]).
  - apply (lip2_ext (fun x m => (- 1 / 2) * (A x m * (2 / 3 * A x m + (-1) * (B x m * T x m))))); [intros x m H; destruct (Q x m H) as (E1 & E2 & E3 & E4 & E5); unfold bias_integrand; cbn zeta; rewrite E5, E1, E2; unfold A, B; field|].
    repeat (first [assumption|apply lip2_mult|apply lip2_plus|apply lip2_const]).
  - apply (lip2_ext (fun x m => (- 1 / 2) * (A x m * (4 / 9 * A x m + (-1) * (B x m * (T x m * T x m)))))); [intros x m H; destruct (Q x m H) as (E1 & E2 & E3 & E4 & E5); unfold bias_integrand; cbn zeta; rewrite E5, E1, E2; unfold A, B; field|].
    repeat (first [assumption|apply lip2_mult|apply lip2_plus|apply lip2_const]).
  - set (Mu := fun (_ : R) (m : R) => m) in L5.
    apply (lip2_ext (fun x m => 105 / 16 * A x m * (2 / 7 * ((Mu x m * Mu x m + - (1)) * T x m) + 8 / 63))); [intros x m H; destruct (Q x m H) as (E1 & E2 & E3 & E4 & E5); unfold bias_integrand; cbn zeta; rewrite E5, E1, E3; unfold A, Mu, tidal; field|].
    repeat (first [assumption|apply lip2_mult|apply lip2_plus|apply lip2_const]).
Qed.
End Region.
Lemma smooth_lip2 half u v f : lip2 (region half u v) f -> exists lam M, 0 <= lam /\ 0 <= M /\ smooth half u v f lam M.
Proof. intros (lam & M & A & B & C & E). exists lam, M. split; [exact A|]. split; [exact B|]. split; assumption. Qed.
(** Every table has such bounds. *)
Lemma lookup_lip K Pv k qmin qmax : List.length Pv = List.length K -> (2 <= zlen K < 2 ^ 62)%Z -> increasing K -> at_ K 0 <= qmin -> qmax <= at_ K (List.length K - 1) -> 0 < k ->
  lip (k * (qmin / k)) (k * (qmax / k)) (lookup_of (mk_table (N := RNum) K Pv) POLY).
Proof.
  intros HL HB HI H0 H1 Hk. replace (k * (qmin / k)) with qmin by (field; lra). replace (k * (qmax / k)) with qmax by (field; lra).
  apply (lip_sub (at_ K 0) (at_ K (List.length K - 1))); [exact H0|exact H1|]. exact (lip_lookup K Pv HL HB HI).
Qed.
Lemma smooth_exist K Pv k qmin qmax : List.length Pv = List.length K -> (2 <= zlen K < 2 ^ 62)%Z -> increasing K -> 0 < qmin -> qmin <= qmax -> at_ K 0 <= qmin -> qmax <= at_ K (List.length K - 1) -> 0 < k ->
  let P := lookup_of (mk_table (N := RNum) K Pv) POLY in
  (forall half a b, exists lam M, 0 <= lam /\ 0 <= M /\ smooth half (qmin / k) (qmax / k) (gamma2_integrand P a b k) lam M) /\
  (forall half t a, exists lam M, 0 <= lam /\ 0 <= M /\ smooth half (qmin / k) (qmax / k) (bias_integrand t P a k) lam M).
Proof.
  intros HL HB HI Hq Hqq H0 H1 Hk P. pose proof (lookup_lip K Pv k qmin qmax HL HB HI H0 H1 Hk) as LP.
  assert (Hu : 0 < qmin / k) by (apply Rdiv_lt_0_compat; lra). assert (Huv : qmin / k <= qmax / k) by (unfold Rdiv; apply Rmult_le_compat_r; [apply Rlt_le, Rinv_0_lt_compat|]; lra).
  split; intros; apply smooth_lip2.
  - apply (lip2_gamma2 _ half (qmin / k) (qmax / k)); auto.
  - apply (lip2_bias _ half (qmin / k) (qmax / k)); auto.
Qed.
