(** ProofNewton: the phase of the Legendre polynomials.  In the angle, sqrt(sin t) P_n(cos t) oscillates a little faster than
    with frequency n + 1/2; this locates the zeros. *)
From Coq Require Import Reals Lra Lia List.
From Coquelicot Require Import Coquelicot.
From Verif Require Import Spec Poly Legendre LegendreRoots.
Local Open Scope R_scope.

(** Monotone functions *)
Lemma derive_incr (f df : R -> R) a b : a <= b -> (forall t, a <= t <= b -> is_derive f t (df t)) ->
  (forall t, a <= t <= b -> 0 <= df t) -> f a <= f b.
Proof.
  intros Hab Hd Hp. destruct (MVT_gen f a b df) as [c [Hc E]].
  - intros t Ht. apply Hd. rewrite Rmin_left, Rmax_right in Ht by lra. lra.
  - intros t Ht. rewrite Rmin_left, Rmax_right in Ht by lra. apply continuity_pt_filterlim.
    apply (ex_derive_continuous f t). exists (df t). apply Hd; exact Ht.
  - rewrite Rmin_left, Rmax_right in Hc by lra. assert (0 <= df c * (b - a)) by (apply Rmult_le_pos; [apply Hp; exact Hc|lra]). lra.
Qed.
Lemma derive_const (f : R -> R) a b : a <= b -> (forall t, a <= t <= b -> is_derive f t 0) -> f a = f b.
Proof.
  intros Hab Hd. apply Rle_antisym.
  - apply (derive_incr f (fun _ => 0)); [exact Hab|exact Hd|intros; lra].
  - apply Ropp_le_cancel. apply (derive_incr (fun t => - f t) (fun _ => 0)); [exact Hab| |intros; lra].
    intros t Ht. auto_derive; [exists 0; exact (Hd t Ht)|]. rewrite (is_derive_unique (fun x : R => f x) t 0 (Hd t Ht)). ring.
Qed.

Section Phase.
Variable n : nat.
Hypothesis Hn : (1 <= n)%nat.
Let m : R := INR n + 1 / 2.
Lemma m_ge : 3 / 2 <= m.
Proof. unfold m. assert (1 <= INR n) by (change 1 with (INR 1); apply le_INR; lia). lra. Qed.

(** Legendre's equation *)
Definition W (x : R) : R := (1 - x * x) * DL n x.
Lemma derive_W x : is_derive W x (- (INR n * (INR n + 1)) * L n x).
Proof.
  unfold W. destruct n as [|j] eqn:E; [lia|].
  apply (is_derive_ext (fun x => INR (S j) * (L j x - x * L (S j) x))).
  { intros t. pose proof (leg_slope j t). lra. }
  pose proof (is_derive_L j x) as H1. pose proof (is_derive_L (S j) x) as H2.
  assert (HH : is_derive (fun x => INR (S j) * (L j x - x * L (S j) x)) x (INR (S j) * (DL j x - (1 * L (S j) x + x * DL (S j) x)))).
  { apply (is_derive_scal (fun x => L j x - x * L (S j) x) x (INR (S j)) (DL j x - (1 * L (S j) x + x * DL (S j) x))).
    apply (is_derive_minus (L j) (fun x => x * L (S j) x) x (DL j x) (1 * L (S j) x + x * DL (S j) x) H1).
    apply is_derive_xmul; exact H2. }
  replace (- (INR (S j) * (INR (S j) + 1)) * L (S j) x) with (INR (S j) * (DL j x - (1 * L (S j) x + x * DL (S j) x))); [exact HH|].
  destruct (leg_AB j x) as [HA _]. replace (DL j x) with (x * DL (S j) x - INR (S j) * L (S j) x) by lra. ring.
Qed.

Definition p (t : R) : R := L n (cos t).
Definition v (t : R) : R := cos t / (2 * sin t) * p t - W (cos t) / sin t.
Definition kap (t : R) : R := cos t / (2 * sin t).
Definition Q (t : R) : R := m * m + / (4 * (sin t * sin t)).
Lemma derive_p t : sin t <> 0 -> is_derive p t (v t - kap t * p t).
Proof.
  intros Hs. unfold p.
  assert (is_derive (fun t => L n (cos t)) t (- sin t * DL n (cos t))).
  { apply (is_derive_comp (L n) cos t (DL n (cos t)) (- sin t)); [apply is_derive_L|]. auto_derive; [exact I|ring]. }
  replace (v t - kap t * L n (cos t)) with (- sin t * DL n (cos t)); [exact H|].
  unfold v, kap, p, W. replace (1 - cos t * cos t) with (sin t * sin t) by (pose proof (sin2_cos2 t); unfold Rsqr in *; lra).
  field. exact Hs.
Qed.
Lemma derive_v t : sin t <> 0 -> is_derive v t (- Q t * p t - kap t * v t).
Proof.
  intros Hs.
  assert (HW : is_derive (fun t => W (cos t)) t (- sin t * (- (INR n * (INR n + 1)) * L n (cos t)))).
  { apply (is_derive_comp W cos t (- (INR n * (INR n + 1)) * L n (cos t)) (- sin t)); [apply derive_W|]. auto_derive; [exact I|ring]. }
  assert (Hk : is_derive kap t (- / (2 * (sin t * sin t)))).
  { unfold kap. auto_derive; [lra|]. replace (- sin t * (2 * sin t)) with (- (2 * (sin t * sin t))) by ring.
    pose proof (sin2_cos2 t) as E. unfold Rsqr in E. field_simplify; [|lra|lra].
    replace (- (2 * sin t ^ 2) - 2 * cos t ^ 2) with (- 2 * (sin t * sin t + cos t * cos t)) by ring. try rewrite E.
    field_simplify_eq; [|lra]. nra. }
  assert (Hi : is_derive (fun t => / sin t) t (- cos t / (sin t * sin t))).
  { auto_derive; [exact Hs|]. field. exact Hs. }
  pose proof (derive_p t Hs) as Hp.
  assert (H : is_derive v t ((- / (2 * (sin t * sin t)) * p t + kap t * (v t - kap t * p t)) - (- sin t * (- (INR n * (INR n + 1)) * L n (cos t)) * / sin t + W (cos t) * (- cos t / (sin t * sin t))))).
  { unfold v at 1. apply (is_derive_minus (fun t => kap t * p t) (fun t => W (cos t) * / sin t) t).
    - apply (is_derive_mult kap p t _ _ Hk Hp Rmult_comm).
    - apply (is_derive_mult (fun t => W (cos t)) (fun t => / sin t) t _ _ HW Hi Rmult_comm). }
  replace (- Q t * p t - kap t * v t) with ((- / (2 * (sin t * sin t)) * p t + kap t * (v t - kap t * p t)) - (- sin t * (- (INR n * (INR n + 1)) * L n (cos t)) * / sin t + W (cos t) * (- cos t / (sin t * sin t)))); [exact H|].
  unfold Q, v, kap, p, m. set (P := L n (cos t)). set (w := W (cos t)). set (s := sin t) in *. set (c := cos t).
  assert (E : c * c = 1 - s * s) by (pose proof (sin2_cos2 t) as E; unfold Rsqr in E; unfold c, s; lra).
  clearbody P w. clearbody s c.
  assert (G : forall X, X = 0 -> X = 0) by auto.
  apply Rminus_diag_uniq.
  replace (_ - _) with ((c * c - (1 - s * s)) * (P / (4 * (s * s)))); [rewrite E; ring|]. field. exact Hs.
Qed.

Definition Rr (t : R) : R := v t * v t + m * m * (p t * p t).
Lemma simple_root x : -1 < x < 1 -> L n x = 0 -> DL n x <> 0.
Proof.
  intros Hx Hz HD. destruct n as [|j] eqn:E; [lia|]. pose proof (CD_root j x Hz) as H. pose proof (CD_pos j x). rewrite HD in H. lra.
Qed.
Lemma Rr_pos t : 0 < sin t -> 0 < Rr t.
Proof.
  intros Hs. pose proof m_ge. unfold Rr.
  destruct (Req_dec (p t) 0) as [E|E].
  - assert (v t <> 0).
    { unfold v. rewrite E. intros HV. assert (HW : W (cos t) = 0).
      { replace (W (cos t)) with (- sin t * (cos t / (2 * sin t) * 0 - W (cos t) / sin t)) by (field; lra). rewrite HV; ring. }
      unfold W in HW. replace (1 - cos t * cos t) with (sin t * sin t) in HW by (pose proof (sin2_cos2 t); unfold Rsqr in *; lra).
      apply Rmult_integral in HW. destruct HW as [HW|HW]; [nra|].
      revert HW. apply simple_root; [|exact E]. pose proof (sin2_cos2 t) as HE. unfold Rsqr in HE. split; nra. }
    assert (0 < v t * v t) by nra. rewrite E. lra.
  - assert (0 < p t * p t) by nra. assert (0 <= v t * v t) by nra. assert (0 < m * m) by nra. nra.
Qed.
Lemma derive_Rr t : sin t <> 0 -> is_derive Rr t (2 * v t * (- Q t * p t - kap t * v t) + 2 * (m * m) * p t * (v t - kap t * p t)).
Proof.
  intros Hs. pose proof (derive_p t Hs) as Hp. pose proof (derive_v t Hs) as Hv. unfold Rr.
  set (dp := v t - kap t * p t) in *. set (dv := - Q t * p t - kap t * v t) in *.
  auto_derive; [split; [exists dv; exact Hv|split; [exists dv; exact Hv|split; [exists dp; exact Hp|split; [exists dp; exact Hp|exact I]]]]|].
  rewrite (is_derive_unique (fun x : R => v x) t dv Hv), (is_derive_unique (fun x : R => p x) t dp Hp). ring.
Qed.

(** The speed of the phase, and the phase *)
Definition speed (t : R) : R := m + m * ((p t * p t) / (4 * (sin t * sin t)) / Rr t).
Lemma speed_bounds t : 0 < sin t -> m <= speed t <= m + / (4 * m) * / (sin t * sin t).
Proof.
  intros Hs. pose proof m_ge. pose proof (Rr_pos t Hs). unfold speed. assert (0 < sin t * sin t) by nra.
  assert (0 <= p t * p t) by nra. split.
  - assert (0 <= p t * p t / (4 * (sin t * sin t)) / Rr t).
    { apply Rmult_le_pos; [apply Rmult_le_pos; [lra|]|]; left; apply Rinv_0_lt_compat; lra. } nra.
  - assert (m * m * (p t * p t) <= Rr t) by (unfold Rr; nra).
    assert (p t * p t / Rr t <= / (m * m)).
    { apply Rmult_le_reg_r with (m * m); [nra|]. rewrite Rinv_l by nra.
      apply Rmult_le_reg_r with (Rr t); [lra|]. replace (p t * p t / Rr t * (m * m) * Rr t) with (m * m * (p t * p t)) by (field; lra). lra. }
    apply Rplus_le_compat_l.
    replace (m * (p t * p t / (4 * (sin t * sin t)) / Rr t)) with (m / 4 * / (sin t * sin t) * (p t * p t / Rr t)) by (field; split; [lra|nra]).
    replace (/ (4 * m) * / (sin t * sin t)) with (m / 4 * / (sin t * sin t) * / (m * m)) by (field; split; nra).
    apply Rmult_le_compat_l; [|exact H4]. apply Rmult_le_pos; [lra|]. left; apply Rinv_0_lt_compat; lra.
Qed.
Lemma cont_p t : 0 < sin t -> continuous p t.
Proof. intros Hs. apply (ex_derive_continuous p t). exists (v t - kap t * p t). apply derive_p; lra. Qed.
Lemma speed_continuous t : 0 < sin t -> continuous speed t.
Proof.
  intros Hs. apply (ex_derive_continuous speed t). unfold speed.
  pose proof (Rr_pos t Hs). auto_derive.
  repeat split; try exact I; try (eexists; apply derive_p; lra); try (eexists; apply derive_Rr; lra); try lra.
  nra.
Qed.
Variable psi0 : R.
Definition psi (t : R) : R := psi0 + RInt speed (PI / 2) t.
Lemma sin_in t : 0 < t < PI -> 0 < sin t.
Proof. intros [H1 H2]. apply sin_gt_0; assumption. Qed.
Lemma derive_psi t : 0 < t < PI -> is_derive psi t (speed t).
Proof.
  intros Ht. pose proof PI_RGT_0 as HPI.
  assert (H : is_derive (fun t => RInt speed (PI / 2) t) t (speed t)).
  { apply (is_derive_RInt speed (fun t => RInt speed (PI / 2) t) (PI / 2) t).
    - apply (locally_interval _ t 0 PI); [apply Ht|apply Ht|]. intros y Hy1 Hy2. cbn in Hy1, Hy2.
      apply (RInt_correct (V := R_CompleteNormedModule)). apply (ex_RInt_continuous (V := R_CompleteNormedModule)).
      intros z Hz. apply speed_continuous, sin_in. revert Hz. unfold Rmin, Rmax. destruct (Rle_dec (PI / 2) y); lra.
    - apply speed_continuous, sin_in, Ht. }
  unfold psi. apply (is_derive_ext (fun t => RInt speed (PI / 2) t + psi0)); [intros y; apply Rplus_comm|].
  replace (speed t) with (speed t + 0) by ring. apply (is_derive_plus (fun t => RInt speed (PI / 2) t) (fun _ => psi0) t (speed t) 0 H).
  apply (is_derive_const psi0 t).
Qed.
Lemma psi_mid : psi (PI / 2) = psi0.
Proof. unfold psi. rewrite RInt_point. unfold zero; cbn. ring. Qed.

(** sqrt(sin t) P_n(cos t) = r sin psi, its derivative m r cos psi *)
Definition Aa (t : R) : R := p t * cos (psi t) - v t / m * sin (psi t).
Lemma Aa_ratio t : 0 < t < PI -> is_derive (fun t => Aa t * Aa t / Rr t) t 0.
Proof.
  intros Ht. pose proof (sin_in t Ht) as Hs. pose proof m_ge. pose proof (Rr_pos t Hs) as HR.
  pose proof (derive_p t ltac:(lra)) as Hp. pose proof (derive_v t ltac:(lra)) as Hv. pose proof (derive_psi t Ht) as Hy.
  pose proof (derive_Rr t ltac:(lra)) as Hr.
  set (dp := v t - kap t * p t) in *. set (dv := - Q t * p t - kap t * v t) in *. set (dr := 2 * v t * dv + 2 * (m * m) * p t * dp) in *.
  unfold Aa. auto_derive.
  { repeat split; try exact I; try (exists dp; exact Hp); try (exists dv; exact Hv); try (exists (speed t); exact Hy); try (exists dr; exact Hr); lra. }
  rewrite (is_derive_unique (fun x : R => v x) t dv Hv), (is_derive_unique (fun x : R => p x) t dp Hp),
    (is_derive_unique (fun x : R => psi x) t (speed t) Hy), (is_derive_unique (fun x : R => Rr x) t dr Hr).
  unfold dr, dp, dv, speed, Q in *. fold m.
  set (cs := cos (psi t)). set (sn := sin (psi t)). clearbody cs sn.
  replace (/ (4 * (sin t * sin t))) with ((/ (sin t * sin t)) / 4) by (field; nra).
  replace (p t * p t / (4 * (sin t * sin t)) / Rr t) with (p t * p t * (/ (sin t * sin t)) / 4 / Rr t) by (field; split; [lra|nra]).
  set (z := / (sin t * sin t)). clearbody z. set (k := kap t). clearbody k.
  assert (ER : Rr t = v t * v t + m * m * (p t * p t)) by reflexivity.
  set (P := p t) in *. set (V := v t) in *. set (RR := Rr t) in *. clearbody P V RR. clear Hp Hv Hy Hr dp dv dr.
  subst RR. field. lra.
Qed.
Hypothesis Hmid : p (PI / 2) * cos psi0 - v (PI / 2) / m * sin psi0 = 0.
Lemma Aa_zero t : 0 < t < PI -> Aa t = 0.
Proof.
  intros Ht. pose proof PI_RGT_0 as HPI. pose proof (Rr_pos t (sin_in t Ht)) as HR.
  assert (E0 : Aa (PI / 2) * Aa (PI / 2) / Rr (PI / 2) = 0).
  { unfold Aa. rewrite psi_mid, Hmid. unfold Rdiv. ring. }
  assert (E : Aa t * Aa t / Rr t = 0).
  { rewrite <- E0. destruct (Rle_dec t (PI / 2)) as [H|H].
    - apply (derive_const (fun t => Aa t * Aa t / Rr t)); [exact H|]. intros x Hx. apply Aa_ratio. lra.
    - symmetry. apply (derive_const (fun t => Aa t * Aa t / Rr t)); [lra|]. intros x Hx. apply Aa_ratio. lra. }
  assert (E2 : Aa t * Aa t = 0) by (replace (Aa t * Aa t) with (Aa t * Aa t / Rr t * Rr t) by (field; lra); rewrite E; ring).
  apply Rmult_integral in E2. tauto.
Qed.
Lemma root_psi t : 0 < t < PI -> (L n (cos t) = 0 <-> sin (psi t) = 0).
Proof.
  intros Ht. pose proof (Aa_zero t Ht) as HA. pose proof (Rr_pos t (sin_in t Ht)) as HR. pose proof m_ge as Hm.
  change (L n (cos t)) with (p t). unfold Aa in HA. unfold Rr in HR.
  pose proof (sin2_cos2 (psi t)) as Esc. unfold Rsqr in Esc. split; intros E.
  - rewrite E in HA, HR. assert (Hv : v t <> 0) by (intros Hv; rewrite Hv in HR; lra).
    assert (H0 : v t * sin (psi t) = 0) by (replace (v t * sin (psi t)) with (- m * (0 * cos (psi t) - v t / m * sin (psi t))) by (field; lra); rewrite HA; ring).
    apply Rmult_integral in H0. tauto.
  - rewrite E in HA, Esc. assert (H0 : p t * cos (psi t) = 0) by lra. apply Rmult_integral in H0. destruct H0 as [H0|H0]; [exact H0|].
    rewrite H0 in Esc. lra.
Qed.
Lemma psi_incr a b : 0 < a -> a <= b -> b < PI -> m * (b - a) <= psi b - psi a.
Proof.
  intros Ha Hab Hb.
  assert (psi a - m * a <= psi b - m * b); [|lra].
  apply (derive_incr (fun t => psi t - m * t) (fun t => speed t - m)); [exact Hab| |].
  - intros t Ht. pose proof (derive_psi t ltac:(lra)) as H. auto_derive; [exists (speed t); exact H|].
    rewrite (is_derive_unique (fun x : R => psi x) t (speed t) H). ring.
  - intros t Ht. pose proof (speed_bounds t (sin_in t ltac:(lra))). lra.
Qed.
Lemma psi_upper a b : 0 < a -> a <= b -> b < PI ->
  psi b - psi a <= m * (b - a) + / (4 * m) * (cos a / sin a - cos b / sin b).
Proof.
  intros Ha Hab Hb. pose proof m_ge as Hm.
  assert (m * a - / (4 * m) * (cos a / sin a) - psi a <= m * b - / (4 * m) * (cos b / sin b) - psi b); [|lra].
  apply (derive_incr (fun t => m * t - / (4 * m) * (cos t / sin t) - psi t) (fun t => m + / (4 * m) * / (sin t * sin t) - speed t)); [exact Hab| |].
  - intros t Ht. pose proof (derive_psi t ltac:(lra)) as H. pose proof (sin_in t ltac:(lra)) as Hs.
    auto_derive; [split; [lra|split; [exists (speed t); exact H|exact I]]|].
    rewrite (is_derive_unique (fun x : R => psi x) t (speed t) H). fold m.
    pose proof (sin2_cos2 t) as E. unfold Rsqr in E.
    assert (E1 : / (sin t * sin t) = 1 + cos t * cos t * / (sin t * sin t)).
    { replace (cos t * cos t) with (1 - sin t * sin t) by lra. field. lra. }
    set (z := / (sin t * sin t)) in *. replace (m + / (4 * m) * z - speed t) with (m + / (4 * m) * (1 + cos t * cos t * z) - speed t) by (rewrite <- E1; reflexivity).
    replace (1 * - sin t * / sin t) with (-1) by (field; lra). ring.
  - intros t Ht. pose proof (speed_bounds t (sin_in t ltac:(lra))). lra.
Qed.
Lemma psi_continuous t : 0 < t < PI -> continuity_pt psi t.
Proof.
  intros Ht. apply continuity_pt_filterlim. apply (ex_derive_continuous psi t). exists (speed t). apply derive_psi; exact Ht.
Qed.
End Phase.
