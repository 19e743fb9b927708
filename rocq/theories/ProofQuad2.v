(** ProofQuad2: the integrand of the propagator is Lipschitz. *)
From Coq Require Import Reals Lra Lia List ZArith.
From Coquelicot Require Import Coquelicot.
From Verif Require Import Base Num BaseFacts Common Integrals Spec SpecPT SpecQuad SpecKernels SpecLoops SpecIntegrals SpecThreads SpecDefined SpecColumns Poly ProofSearch ProofFindPk ProofCommon2 ProofQuad.
Import ListNotations.
Local Open Scope R_scope.

Lemma lip_ext a b f g : (forall t, a <= t <= b -> f t = g t) -> lip a b f -> lip a b g.
Proof.
  intros H (lam & M & Hl & HM & HL). exists lam, M. split; [exact Hl|]. split; [intros t Ht; rewrite <- H by exact Ht; apply HM, Ht|].
  intros s t Hs Ht. rewrite <- !H by assumption. apply HL; assumption.
Qed.
Lemma lip_const a b c : lip a b (fun _ => c).
Proof. exists 0, (Rabs c). split; [lra|]. split; [intros; lra|]. intros s t _ _. rewrite Rminus_eq_0, Rabs_R0. lra. Qed.
Lemma lip_id a b : lip a b (fun t => t).
Proof.
  exists 1, (Rmax (Rabs a) (Rabs b)). split; [lra|]. split; [|intros s t _ _; lra].
  intros t Ht. pose proof (Rmax_l (Rabs a) (Rabs b)). pose proof (Rmax_r (Rabs a) (Rabs b)).
  pose proof (Rle_abs b). pose proof (Rle_abs (- a)) as Ha. rewrite Rabs_Ropp in Ha. apply Rabs_le. lra.
Qed.
Lemma lip_plus a b f g : lip a b f -> lip a b g -> lip a b (fun t => f t + g t).
Proof.
  intros (l1 & M1 & H1 & B1 & L1) (l2 & M2 & H2 & B2 & L2). exists (l1 + l2), (M1 + M2). split; [lra|]. split.
  - intros t Ht. eapply Rle_trans; [apply Rabs_triang|]. specialize (B1 t Ht). specialize (B2 t Ht). lra.
  - intros s t Hs Ht. replace (f s + g s - (f t + g t)) with ((f s - f t) + (g s - g t)) by ring. eapply Rle_trans; [apply Rabs_triang|]. specialize (L1 s t Hs Ht). specialize (L2 s t Hs Ht). lra.
Qed.
Lemma lip_mult a b f g : lip a b f -> lip a b g -> lip a b (fun t => f t * g t).
Proof.
  intros (l1 & M1 & H1 & B1 & L1) (l2 & M2 & H2 & B2 & L2). destruct (Rle_dec a b) as [Hab|Hab].
  2:{ exists 0, 0. split; [lra|]. split; [intros t Ht; exfalso; lra|]. intros s t Hs; exfalso; lra. }
  assert (P1 : 0 <= M1) by (eapply Rle_trans; [apply Rabs_pos|apply (B1 a); lra]). assert (P2 : 0 <= M2) by (eapply Rle_trans; [apply Rabs_pos|apply (B2 a); lra]).
  exists (l1 * M2 + l2 * M1), (M1 * M2). split; [pose proof (Rmult_le_pos _ _ H1 P2); pose proof (Rmult_le_pos _ _ H2 P1); lra|]. split.
  - intros t Ht. rewrite Rabs_mult. apply Rmult_le_compat; try apply Rabs_pos; auto.
  - intros s t Hs Ht. replace (f s * g s - f t * g t) with ((f s - f t) * g s + (g s - g t) * f t) by ring. eapply Rle_trans; [apply Rabs_triang|]. rewrite !Rabs_mult.
    pose proof (L1 s t Hs Ht) as A1. pose proof (L2 s t Hs Ht) as A2. pose proof (B2 s Hs) as A3. pose proof (B1 t Ht) as A4.
    pose proof (Rmult_le_compat _ _ _ _ (Rabs_pos _) (Rabs_pos _) A1 A3) as C1. pose proof (Rmult_le_compat _ _ _ _ (Rabs_pos _) (Rabs_pos _) A2 A4) as C2. lra.
Qed.
Lemma lip_comp a b c d f g : lip a b g -> (forall t, a <= t <= b -> c <= g t <= d) -> lip c d f -> lip a b (fun t => f (g t)).
Proof.
  intros (l1 & M1 & H1 & B1 & L1) HG (l2 & M2 & H2 & B2 & L2). exists (l2 * l1), M2. split; [apply Rmult_le_pos; assumption|]. split.
  - intros t Ht. apply B2, HG, Ht.
  - intros s t Hs Ht. eapply Rle_trans; [apply L2; apply HG; assumption|]. rewrite Rmult_assoc. apply Rmult_le_compat_l; [exact H2|]. apply L1; assumption.
Qed.
Lemma lip_derive a b f df lam : a <= b -> 0 <= lam -> (forall t, a <= t <= b -> is_derive f t (df t) /\ Rabs (df t) <= lam) -> lip a b f.
Proof.
  intros Hab Hl H. assert (L : lip_on a b f lam).
  { intros s t Hs Ht. destruct (MVT_gen f t s df) as (c & Hc & E).
    - intros x Hx. apply H. unfold Rmin, Rmax in Hx. destruct (Rle_dec t s); lra.
    - intros x Hx. apply continuity_pt_filterlim. apply (ex_derive_continuous (K := R_AbsRing) (V := R_NormedModule) f x). exists (df x). apply H. unfold Rmin, Rmax in Hx. destruct (Rle_dec t s); lra.
    - rewrite E, Rabs_mult. apply Rmult_le_compat_r; [apply Rabs_pos|]. apply H. unfold Rmin, Rmax in Hc. destruct (Rle_dec t s); lra. }
  exists lam, (Rabs (f a) + lam * (b - a)). split; [exact Hl|]. split; [|exact L]. intros t Ht.
  pose proof (L t a Ht ltac:(lra)) as A. rewrite (Rabs_right (t - a)) in A by lra.
  replace (f t) with ((f t - f a) + f a) by ring. eapply Rle_trans; [apply Rabs_triang|]. assert (lam * (t - a) <= lam * (b - a)) by (apply Rmult_le_compat_l; lra). lra.
Qed.
Lemma lip_glue a b c f : a <= b <= c -> lip a b f -> lip b c f -> lip a c f.
Proof.
  intros Habc (l1 & M1 & H1 & B1 & L1) (l2 & M2 & H2 & B2 & L2). exists (Rmax l1 l2), (Rmax M1 M2).
  pose proof (Rmax_l l1 l2) as X1. pose proof (Rmax_r l1 l2) as X2. pose proof (Rmax_l M1 M2) as X3. pose proof (Rmax_r M1 M2) as X4. split; [lra|]. split.
  - intros t Ht. destruct (Rle_dec t b) as [Hb|Hb]; [specialize (B1 t ltac:(lra)); lra|specialize (B2 t ltac:(lra)); lra].
  - assert (W : forall s t, a <= s -> s <= t -> t <= c -> Rabs (f s - f t) <= Rmax l1 l2 * (t - s)).
    { intros s t Hs Hst Ht. destruct (Rle_dec t b) as [Hb|Hb].
      - eapply Rle_trans; [apply L1; lra|]. rewrite Rabs_minus_sym, Rabs_right by lra. apply Rmult_le_compat_r; lra.
      - destruct (Rle_dec b s) as [Hb'|Hb'].
        + eapply Rle_trans; [apply L2; lra|]. rewrite Rabs_minus_sym, Rabs_right by lra. apply Rmult_le_compat_r; lra.
        + replace (f s - f t) with ((f s - f b) + (f b - f t)) by ring. eapply Rle_trans; [apply Rabs_triang|].
          pose proof (L1 s b ltac:(lra) ltac:(lra)) as A1. pose proof (L2 b t ltac:(lra) ltac:(lra)) as A2. rewrite (Rabs_minus_sym s b), (Rabs_right (b - s)) in A1 by lra.
          rewrite (Rabs_minus_sym b t), (Rabs_right (t - b)) in A2 by lra.
          assert (l1 * (b - s) <= Rmax l1 l2 * (b - s)) by (apply Rmult_le_compat_r; lra). assert (l2 * (t - b) <= Rmax l1 l2 * (t - b)) by (apply Rmult_le_compat_r; lra).
          lra. }
    intros s t Hs Ht. destruct (Rle_dec s t) as [Hst|Hst].
    + rewrite (Rabs_minus_sym s t), (Rabs_right (t - s)) by lra. apply W; lra.
    + rewrite (Rabs_minus_sym (f s)), (Rabs_right (s - t)) by lra. apply W; lra.
Qed.
Lemma lip_sub a b c d f : a <= c -> d <= b -> lip a b f -> lip c d f.
Proof. intros Hc Hd (lam & M & Hl & HM & HL). exists lam, M. split; [exact Hl|]. split; [intros; apply HM; lra|]. intros s t Hs Ht. apply HL; lra. Qed.
Lemma lip_pow a b f n : lip a b f -> lip a b (fun t => f t ^ n).
Proof. intros H. induction n as [|n IH]; cbn [pow]; [apply lip_const|]. apply lip_mult; assumption. Qed.
Lemma lip_peval a b (p : poly) : lip a b (peval p).
Proof. induction p as [|c p IH]; cbn [peval]; [apply lip_const|]. apply lip_plus; [apply lip_const|]. apply lip_mult; [apply lip_id|exact IH]. Qed.
Lemma lip_inv a b : 0 < a -> a <= b -> lip a b (fun t => / t).
Proof.
  intros Ha Hab. apply (lip_derive a b _ (fun t => - / t ^ 2) (/ a ^ 2)); [exact Hab|apply Rlt_le, Rinv_0_lt_compat, pow_lt, Ha|].
  intros t Ht. split; [auto_derive; [lra|field; lra]|]. rewrite Rabs_Ropp, Rabs_right by (apply Rle_ge, Rlt_le, Rinv_0_lt_compat, pow_lt; lra).
  apply Rinv_le_contravar; [apply pow_lt, Ha|]. apply pow_incr. lra.
Qed.
Lemma lip_exp a b : a <= b -> lip a b exp.
Proof.
  intros Hab. apply (lip_derive a b exp exp (exp b)); [exact Hab|apply Rlt_le, exp_pos|]. intros t Ht. split; [apply is_derive_exp|].
  rewrite Rabs_right by (apply Rle_ge, Rlt_le, exp_pos). destruct (Req_dec t b) as [->|]; [lra|]. apply Rlt_le, exp_increasing. lra.
Qed.
Lemma lip_ln a b : 0 < a -> a <= b -> lip a b ln.
Proof.
  intros Ha Hab. apply (lip_derive a b ln (fun t => / t) (/ a)); [exact Hab|apply Rlt_le, Rinv_0_lt_compat, Ha|].
  intros t Ht. split; [apply is_derive_ln; lra|]. rewrite Rabs_right by (apply Rle_ge, Rlt_le, Rinv_0_lt_compat; lra). apply Rinv_le_contravar; lra.
Qed.
(** y^3 ln |y| *)
Definition cubelog (y : R) : R := y ^ 3 * ln (Rabs y).
Lemma ln_small y : 0 < y <= 1 -> 0 <= - ln y <= / y.
Proof.
  intros Hy. split.
  - destruct (Req_dec y 1) as [->|]; [rewrite ln_1; lra|]. assert (ln y < ln 1) by (apply ln_increasing; lra). rewrite ln_1 in *. lra.
  - rewrite <- ln_Rinv by lra. assert (0 < / y) by (apply Rinv_0_lt_compat; lra). pose proof (exp_ineq1_le (ln (/ y))) as H1. rewrite exp_ln in H1 by assumption. lra.
Qed.
Lemma yln y Y : 0 < y <= Y -> 1 <= Y -> y * Rabs (ln y) <= Y * Y + 1.
Proof.
  intros Hy HY. destruct (Rle_dec y 1) as [H1|H1].
  - pose proof (ln_small y ltac:(lra)) as [A B]. rewrite Rabs_left1 by lra. apply (Rmult_le_compat_l y) in B; [|lra]. rewrite Rinv_r in B by lra. nra.
  - assert (0 <= ln y). { assert (ln 1 < ln y) by (apply ln_increasing; lra). rewrite ln_1 in *. lra. }
    rewrite Rabs_right by lra. assert (ln y <= y). { pose proof (exp_ineq1_le (ln y)) as H2. rewrite exp_ln in H2 by lra. lra. } nra.
Qed.
Lemma cubelog_derive y : is_derive cubelog y (if Req_EM_T y 0 then 0 else 3 * y ^ 2 * ln (Rabs y) + y ^ 2).
Proof.
  destruct (Req_EM_T y 0) as [->|Hy].
  - apply is_derive_Reals. intros eps He. assert (Hd : 0 < Rmin eps 1) by (apply Rmin_glb_lt; lra). exists (mkposreal _ Hd). intros h Hh Hlt. cbn in Hlt.
    pose proof (Rmin_l eps 1). pose proof (Rmin_r eps 1). unfold cubelog. rewrite Rplus_0_l. replace ((h ^ 3 * ln (Rabs h) - 0 ^ 3 * ln (Rabs 0)) / h - 0) with (h ^ 2 * ln (Rabs h)) by (field; exact Hh).
    assert (Hp : 0 < Rabs h) by (apply Rabs_pos_lt; exact Hh). pose proof (ln_small (Rabs h) ltac:(lra)) as [A B].
    rewrite <- (pow2_abs h), Rabs_mult, (Rabs_right (Rabs h ^ 2)) by (apply Rle_ge, pow2_ge_0). rewrite (Rabs_left1 (ln (Rabs h))) by lra.
    apply (Rmult_le_compat_l (Rabs h ^ 2)) in B; [|apply pow2_ge_0]. replace (Rabs h ^ 2 * / Rabs h) with (Rabs h) in B by (field; lra). lra.
  - unfold cubelog. auto_derive; [split; [exact Hy|split; [apply Rabs_pos_lt; exact Hy|exact I]]|]. 
    assert (Hs : sign y * / Rabs y = / y).
    { destruct (Rlt_dec y 0) as [Hn|Hn]; [rewrite sign_eq_m1, Rabs_left by lra; field; lra|]. rewrite sign_eq_1, Rabs_right by lra. ring. }
    transitivity (3 * y ^ 2 * ln (Rabs y) + y ^ 3 * (sign y * / Rabs y)); [ring|]. rewrite Hs. field. exact Hy.
Qed.
Lemma lip_cubelog a b : a <= b -> lip a b cubelog.
Proof.
  intros Hab. set (Y := Rmax 1 (Rmax (Rabs a) (Rabs b))). assert (HY : 1 <= Y) by apply Rmax_l.
  apply (lip_derive a b cubelog (fun y => if Req_EM_T y 0 then 0 else 3 * y ^ 2 * ln (Rabs y) + y ^ 2) (3 * Y * (Y * Y + 1) + Y ^ 2)); [exact Hab|nra|].
  intros t Ht. split; [apply cubelog_derive|]. destruct (Req_EM_T t 0) as [->|Hn]; [rewrite Rabs_R0; nra|].
  assert (Hp : 0 < Rabs t) by (apply Rabs_pos_lt; exact Hn).
  assert (HT : Rabs t <= Y). { unfold Y. pose proof (Rmax_r 1 (Rmax (Rabs a) (Rabs b))). pose proof (Rmax_l (Rabs a) (Rabs b)). pose proof (Rmax_r (Rabs a) (Rabs b)).
    pose proof (Rle_abs b). pose proof (Rle_abs (- a)) as Ha. rewrite Rabs_Ropp in Ha. apply Rabs_le. lra. }
  eapply Rle_trans; [apply Rabs_triang|]. apply Rplus_le_compat.
  - rewrite !Rabs_mult, (Rabs_right 3), (Rabs_right (t ^ 2)) by (try lra; apply Rle_ge, pow2_ge_0). rewrite <- (pow2_abs t).
    pose proof (yln (Rabs t) Y ltac:(lra) HY) as A. pose proof (Rabs_pos (ln (Rabs t))). set (l := Rabs (ln (Rabs t))) in *. set (u := Rabs t) in *.
    replace (3 * u ^ 2 * l) with (3 * u * (u * l)) by ring. apply Rmult_le_compat; nra.
  - rewrite Rabs_right by (apply Rle_ge, pow2_ge_0). rewrite <- (pow2_abs t). apply pow_incr. lra.
Qed.
(** The exact kernels *)
Lemma ln_ratio x : 0 < x -> (x - 1) ^ 3 * ln (Rabs ((x - 1) / (x + 1))) = cubelog (x - 1) + (-1) * ((x - 1) ^ 3 * ln (x + 1)).
Proof.
  intros Hx. unfold cubelog. destruct (Req_dec x 1) as [->|H]; [replace (1 - 1) with 0 by ring; rewrite pow_ne_zero by discriminate; ring|].
  unfold Rdiv. rewrite Rabs_mult, (Rabs_right (/ (x + 1))) by (apply Rle_ge, Rlt_le, Rinv_0_lt_compat; lra).
  rewrite ln_mult, ln_Rinv; [ring|lra|apply Rabs_pos_lt; lra|apply Rinv_0_lt_compat; lra].
Qed.
Ltac lips := repeat first [assumption | apply lip_const | apply lip_id | apply lip_plus | apply lip_mult | apply lip_pow].
Lemma lip_rest a b : 0 < a -> a <= b -> lip a b (fun x => cubelog (x - 1) + (-1) * ((x - 1) ^ 3 * ln (x + 1))).
Proof.
  intros Ha Hab. apply lip_plus.
  - apply (lip_comp a b (a - 1) (b - 1) cubelog (fun x => x - 1)); [unfold Rminus; lips|intros; lra|apply lip_cubelog; lra].
  - apply lip_mult; [apply lip_const|]. apply lip_mult; [apply lip_pow; unfold Rminus; lips|].
    apply (lip_comp a b (a + 1) (b + 1) ln (fun x => x + 1)); [lips|intros; lra|apply lip_ln; lra].
Qed.
Lemma lip_exact t a b : 0 < a -> a <= b -> lip a b (prop_exact t).
Proof.
  intros Ha Hab. pose proof (lip_rest a b Ha Hab) as HR. pose proof (lip_inv a b Ha Hab) as HI. set (rest := fun x => cubelog (x - 1) + (-1) * ((x - 1) ^ 3 * ln (x + 1))) in *.
  destruct t; unfold prop_exact.
  - apply (lip_ext a b (fun x => (6 * (/ x) ^ 2 + -41 + 2 * x ^ 2 + (-3) * x ^ 4 + (-3 / 2) * (x + 1) ^ 3 * (/ x) ^ 3 * (2 + x ^ 2) * rest x) * / 168 * x)); [|lips].
    intros x Hx. unfold rest, g_exact. rewrite <- ln_ratio by lra. field. lra.
  - apply (lip_ext a b (fun x => (6 * (/ x) ^ 2 + -79 + 50 * x ^ 2 + (-21) * x ^ 4 + (-3 / 2) * (x + 1) ^ 3 * (/ x) ^ 3 * (2 + 7 * x ^ 2) * rest x) * / 504 * x)); [|lips].
    intros x Hx. unfold rest, f_exact. rewrite <- ln_ratio by lra. field. lra.
Qed.
(** The interpolated spectrum, between the first and the last tabulated wavenumber *)
Section Lookup.
Variables (K P : list R).
Hypothesis (HL : length P = length K) (HB : (2 <= zlen K < 2 ^ 62)%Z) (HI : increasing K).
Let F := lookup_of (mk_table (N := RNum) K P) POLY.
Lemma window_unique i (p q : poly) : let a := (i - 2)%nat in let b := Nat.min (i + 2) (length K - 1) in (i < length K)%nat ->
  (length p <= b - a + 1)%nat -> (length q <= b - a + 1)%nat ->
  (forall j, (a <= j <= b)%nat -> peval p (at_ K j) = at_ P j) -> (forall j, (a <= j <= b)%nat -> peval q (at_ K j) = at_ P j) -> forall x, peval p x = peval q x.
Proof.
  intros a b Hi Hp Hq Tp Tq. assert (Hab : (a <= b /\ b < length K)%nat) by (unfold a, b; lia).
  set (n := (b - a + 1)%nat) in *. assert (N1 : forall l j, (j < n)%nat -> at_ (map (at_ l) (seq a n)) j = at_ l (a + j)).
  { intros l j Hj. unfold at_ at 1. rewrite (nth_indep _ 0 (at_ l 0)) by (rewrite map_length, seq_length; exact Hj). rewrite map_nth, seq_nth by exact Hj. reflexivity. }
  apply (interpolant_unique (map (at_ K) (seq a n)) (map (at_ P) (seq a n))); rewrite ?map_length, ?seq_length; try assumption.
  - intros j j' Hj Hj' Hne. rewrite map_length, seq_length in Hj, Hj'. rewrite !N1 by assumption.
    destruct (Nat.lt_ge_cases j j') as [H|H]; [assert (at_ K (a + j) < at_ K (a + j')) by (apply HI; lia); lra|]. assert (at_ K (a + j') < at_ K (a + j)) by (apply HI; lia). lra.
  - intros j Hj. rewrite map_length, seq_length in Hj. rewrite !N1 by exact Hj. apply Tp. lia.
  - intros j Hj. rewrite map_length, seq_length in Hj. rewrite !N1 by exact Hj. apply Tq. lia.
Qed.
Lemma F_of k v : find_pk (N := RNum) (mk_table (N := RNum) K P) [k] POLY = Ok [v] -> F k = v.
Proof. intros E. unfold F, lookup_of, find1. change (T RNum) with R in *. rewrite E. reflexivity. Qed.
Lemma K_mono i j : (i <= j)%nat -> (j < length K)%nat -> at_ K i <= at_ K j.
Proof. intros H1 H2. destruct (Nat.eq_dec i j) as [->|]; [lra|]. left. apply HI. lia. Qed.
Lemma piece i : (S i < length K)%nat -> exists p : poly, forall k, at_ K i <= k <= at_ K (S i) -> F k = peval p k.
Proof.
  intros Hi. assert (HN : (2 <= length K)%nat) by (unfold zlen in HB; lia).
  destruct (poly_value K P (at_ K i) HL HB HI ltac:(split; apply K_mono; lia)) as (i0 & p & Hi0 & A1 & A2 & Lp & Tp & _).
  assert (i0 = i) as ->. { destruct (lt_eq_lt_dec i0 i) as [[H|H]|H]; [|exact H|].
    - specialize (A2 ltac:(lia)). pose proof (K_mono (S i0) i ltac:(lia) ltac:(lia)). lra.
    - pose proof (HI i i0 ltac:(lia)). lra. }
  exists p. intros k Hk.
  destruct (poly_value K P k HL HB HI) as (i1 & q & Hi1 & B1 & B2 & Lq & Tq & E).
  { pose proof (K_mono 0 i ltac:(lia) ltac:(lia)). pose proof (K_mono (S i) (length K - 1) ltac:(lia) ltac:(lia)). lra. }
  rewrite (F_of k _ E). destruct (Req_dec k (at_ K (S i))) as [->|Hne].
  - assert (i1 = S i) as ->. { destruct (lt_eq_lt_dec i1 (S i)) as [[H|H]|H]; [|exact H|].
      - specialize (B2 ltac:(lia)). pose proof (K_mono (S i1) (S i) ltac:(lia) ltac:(lia)). lra.
      - pose proof (HI (S i) i1 ltac:(lia)). lra. }
    rewrite Tq, Tp by lia. reflexivity.
  - assert (i1 = i) as ->. { destruct (lt_eq_lt_dec i1 i) as [[H|H]|H]; [|exact H|].
      - specialize (B2 ltac:(lia)). pose proof (K_mono (S i1) i ltac:(lia) ltac:(lia)). lra.
      - pose proof (K_mono (S i) i1 ltac:(lia) ltac:(lia)). lra. }
    apply (window_unique i q p Hi1 Lq Lp Tq Tp).
Qed.
Lemma lip_upto i : (i < length K)%nat -> lip (at_ K 0) (at_ K i) F.
Proof.
  induction i as [|i IH]; intros Hi.
  - exists 0, (Rabs (F (at_ K 0))). split; [lra|]. split; [intros t Ht; replace t with (at_ K 0) by lra; lra|]. intros s t Hs Ht. replace s with (at_ K 0) by lra. replace t with (at_ K 0) by lra. rewrite Rminus_eq_0, Rabs_R0. lra.
  - apply (lip_glue _ (at_ K i)); [split; apply K_mono; lia|apply IH; lia|]. destruct (piece i Hi) as (p & Hp). apply (lip_ext _ _ (peval p)); [intros t Ht; symmetry; apply Hp, Ht|apply lip_peval].
Qed.
Lemma lip_lookup : lip (at_ K 0) (at_ K (length K - 1)) F.
Proof. apply lip_upto. unfold zlen in HB. lia. Qed.
End Lookup.
Lemma exp_le x y : x <= y -> exp x <= exp y.
Proof. intros [H| ->]; [left; apply exp_increasing, H|lra]. Qed.
(** The integrand over s = ln q *)
Lemma lip_integrand K P t k qmin qmax : length P = length K -> (2 <= zlen K < 2 ^ 62)%Z -> increasing K -> 0 < qmin <= qmax -> at_ K 0 <= qmin -> qmax <= at_ K (length K - 1) -> 0 < k ->
  lip (ln qmin) (ln qmax) (fun s => prop_exact t (exp s / k) * lookup_of (mk_table (N := RNum) K P) POLY (exp s)).
Proof.
  intros HL HB HI Hq H0 H1 Hk.
  assert (Hl : ln qmin <= ln qmax) by (destruct (Req_dec qmin qmax) as [->|]; [lra|left; apply ln_increasing; lra]).
  assert (HE : forall s, ln qmin <= s <= ln qmax -> qmin <= exp s <= qmax).
  { intros s [A B]. rewrite <- (exp_ln qmin), <- (exp_ln qmax) by lra. split; apply exp_le; assumption. }
  apply lip_mult.
  - apply (lip_comp _ _ (qmin / k) (qmax / k) (prop_exact t) (fun s => exp s / k)).
    + apply lip_mult; [apply lip_exp; exact Hl|apply lip_const].
    + intros s Hs. specialize (HE s Hs). assert (0 < / k) by (apply Rinv_0_lt_compat; exact Hk). unfold Rdiv. split; apply Rmult_le_compat_r; lra.
    + apply lip_exact; [apply Rdiv_lt_0_compat; lra|]. apply Rmult_le_compat_r; [apply Rlt_le, Rinv_0_lt_compat; exact Hk|lra].
  - apply (lip_comp _ _ qmin qmax (lookup_of (mk_table (N := RNum) K P) POLY) exp); [apply lip_exp; exact Hl|exact HE|].
    apply (lip_sub (at_ K 0) (at_ K (length K - 1))); [exact H0|exact H1|]. apply lip_lookup; assumption.
Qed.
