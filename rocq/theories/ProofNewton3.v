(** ProofNewton3: Newton's method started a little above a zero of a Legendre polynomial. *)
From Coq Require Import Reals Lra Lia List.
From Coquelicot Require Import Coquelicot.
From Verif Require Import Spec Poly Legendre LegendreRoots ProofNewton ProofNewton2.
Local Open Scope R_scope.

(** [b] is a starting point for the zero [r]. *)
Definition start (n : nat) (r b : R) : Prop :=
  0 <= r <= b /\ b < 1 /\ L n r = 0 /\ (forall x, r < x <= b -> L n x <> 0) /\
  4 * (fr n * fr n) * (b - r) <= r /\ (b - r) * 9 <= 1 - b * b /\ 9 <= 4 * (fr n * fr n) * (1 - b * b).

Lemma start_guess n ii : (2 * ii + 1 <= n)%nat -> exists t, phi n ii <= t <= PI / 2 /\
  t - phi n ii <= / (4 * (fr n * fr n)) * (cos t / sin t) /\ start n (cos t) (cos (phi n ii)).
Proof.
  intros H. assert (Hn : (1 <= n)%nat) by lia. destruct (guess n ii H) as [t [Ht [HL [Hd Hu]]]].
  pose proof (phi_range n ii H) as Hr. pose proof PI_RGT_0 as HP. pose proof (fr_ge n Hn) as Hf. pose proof (phi_sin n ii H) as Hs.
  exists t. split; [exact Ht|]. split; [exact Hd|].
  pose proof (sin_in t ltac:(lra)) as Hst. pose proof (sin_in (phi n ii) ltac:(lra)) as Hsp.
  assert (H0 : 0 <= cos t) by (apply cos_ge_0; lra).
  assert (H1 : cos t <= cos (phi n ii)).
  { destruct (Req_dec (phi n ii) t) as [E|E]; [rewrite E; lra|]. left. apply cos_decreasing_1; lra. }
  pose proof (sin2_cos2 (phi n ii)) as E2. unfold Rsqr in E2.
  assert (Hb : cos (phi n ii) < 1) by nra.
  assert (HM : cos (phi n ii) - cos t <= sin t * (t - phi n ii)).
  { assert (cos t + sin t * (t - t) >= cos (phi n ii) + sin t * (phi n ii - t)); [|lra].
    apply Rle_ge. apply (derive_incr (fun u => cos u + sin t * (u - t)) (fun u => sin t - sin u)); [lra| |].
    - intros u Hu'. auto_derive; [exact I|ring].
    - intros u Hu'. assert (sin u <= sin t); [|lra].
      destruct (Req_dec u t) as [E|E]; [rewrite E; lra|]. left. apply sin_increasing_1; lra. }
  assert (Hff : 0 < 4 * (fr n * fr n)) by nra.
  assert (H4 : 4 * (fr n * fr n) * (cos (phi n ii) - cos t) <= cos t).
  { apply Rle_trans with (4 * (fr n * fr n) * (sin t * (t - phi n ii))); [apply Rmult_le_compat_l; lra|].
    apply Rle_trans with (4 * (fr n * fr n) * (sin t * (/ (4 * (fr n * fr n)) * (cos t / sin t)))).
    - apply Rmult_le_compat_l; [lra|]. apply Rmult_le_compat_l; lra.
    - right. field. split; lra. }
  assert (Es : 1 - cos (phi n ii) * cos (phi n ii) = sin (phi n ii) * sin (phi n ii)) by lra.
  assert (H9 : 9 <= 4 * (fr n * fr n) * (sin (phi n ii) * sin (phi n ii))).
  { replace (4 * (fr n * fr n) * (sin (phi n ii) * sin (phi n ii))) with (4 * ((fr n * sin (phi n ii)) * (fr n * sin (phi n ii)))) by ring. nra. }
  split; [lra|]. split; [exact Hb|]. split; [exact HL|]. split; [|split; [exact H4|split; [|rewrite Es; exact H9]]].
  - intros x Hx. pose proof (Hu (acos x)) as Hu'. rewrite cos_acos in Hu' by lra. apply Hu'.
    pose proof (acos_bound x) as Hb'. assert (Ec : cos (acos x) = x) by (apply cos_acos; lra). split.
    + destruct (Rle_dec (phi n ii) (acos x)) as [HH|HH]; [exact HH|exfalso].
      assert (cos (phi n ii) < cos (acos x)) by (apply cos_decreasing_1; lra). lra.
    + destruct (Rlt_dec (acos x) t) as [HH|HH]; [exact HH|exfalso].
      assert (cos (acos x) <= cos t); [|lra].
      destruct (Req_dec t (acos x)) as [E|E]; [rewrite <- E; lra|]. left; apply cos_decreasing_1; lra.
  - rewrite Es. apply Rmult_le_reg_l with (4 * (fr n * fr n)); [lra|]. nra.
Qed.

Section Newton.
Variables (n : nat) (r b : R).
Hypothesis Hn : (1 <= n)%nat.
Hypothesis HS : start n r b.
Let sg := L n b.
Let NN := INR n * (INR n + 1).

Lemma NN_fr : 0 < NN < fr n * fr n.
Proof. unfold NN, fr. assert (1 <= INR n) by (change 1 with (INR 1); apply le_INR; lia). nra. Qed.
Lemma same_sign x : r < x <= b -> 0 < sg * L n x.
Proof.
  intros Hx. destruct HS as [H0 [H1 [HL [Hu _]]]].
  assert (Hb : L n b <> 0) by (apply Hu; lra). assert (Hx0 : L n x <> 0) by (apply Hu; exact Hx).
  destruct (Rlt_dec 0 (sg * L n x)) as [H|H]; [exact H|exfalso].
  assert (H2 : L n x * L n b < 0).
  { unfold sg in H. assert (L n b * L n x <> 0) by (apply Rmult_integral_contrapositive_currified; assumption). lra. }
  destruct (Req_dec x b) as [E|E].
  { rewrite E in H2. nra. }
  destruct (ivt_root (L n) x b (L_continuous n) ltac:(lra) H2) as [z [Hz1 Hz2]]. apply (Hu z); [lra|exact Hz2].
Qed.
Lemma same_sign0 x : r <= x <= b -> 0 <= sg * L n x.
Proof.
  intros Hx. destruct (Req_dec r x) as [E|E].
  - destruct HS as [_ [_ [HL _]]]. rewrite <- E, HL. lra.
  - left. apply same_sign. lra.
Qed.
Definition G (x : R) : R := (x - r) * W n x - (1 - x * x) * L n x.
Lemma derive_G x : is_derive G x (L n x * (2 * x - NN * (x - r))).
Proof.
  pose proof (derive_W n Hn x) as HW. pose proof (is_derive_L n x) as HL. unfold G.
  set (dw := - (INR n * (INR n + 1)) * L n x) in *.
  auto_derive; [split; [exists dw; exact HW|split; [exists (DL n x); exact HL|exact I]]|].
  rewrite (is_derive_unique (fun x : R => W n x) x dw HW), (is_derive_unique (fun x : R => L n x) x (DL n x) HL).
  unfold dw, NN, W. ring.
Qed.
Lemma slope_factor x : r <= x <= b -> 0 <= 2 * x - NN * (x - r) <= 2 * x.
Proof.
  intros Hx. destruct HS as [H0 [H1 [_ [_ [H4 _]]]]]. pose proof NN_fr as HN.
  assert (NN * (x - r) <= fr n * fr n * (b - r)) by (apply Rmult_le_compat; lra).
  assert (0 <= NN * (x - r)) by (apply Rmult_le_pos; lra). lra.
Qed.
Lemma G_pos x : r <= x <= b -> 0 <= sg * G x.
Proof.
  intros Hx. destruct HS as [H0 [H1 [HL _]]].
  replace 0 with (sg * G r) by (unfold G; rewrite HL; ring).
  apply (derive_incr (fun x => sg * G x) (fun x => sg * (L n x * (2 * x - NN * (x - r))))); [lra| |].
  - intros t Ht. apply (is_derive_scal G t sg). apply derive_G.
  - intros t Ht. rewrite <- Rmult_assoc. apply Rmult_le_pos; [apply same_sign0; lra|]. apply slope_factor; lra.
Qed.
Lemma one_minus x : r <= x <= b -> 0 < 1 - b * b <= 1 - x * x.
Proof. intros Hx. destruct HS as [H0 [H1 _]]. nra. Qed.
(** P/P' lies between 0 and the distance to the zero *)
Lemma slope_ge x : r <= x <= b -> sg * L n x <= (x - r) * (sg * DL n x).
Proof.
  intros Hx. pose proof (G_pos x Hx) as H. pose proof (one_minus x Hx) as H1. unfold G, W in H.
  apply Rmult_le_reg_l with (1 - x * x); [lra|].
  replace (sg * ((x - r) * ((1 - x * x) * DL n x) - (1 - x * x) * L n x)) with ((1 - x * x) * ((x - r) * (sg * DL n x)) - (1 - x * x) * (sg * L n x)) in H by ring. lra.
Qed.
Lemma slope_pos x : r < x <= b -> 0 < sg * DL n x.
Proof.
  intros Hx. pose proof (slope_ge x ltac:(lra)) as H. pose proof (same_sign x Hx) as H1.
  apply Rmult_lt_reg_l with (x - r); [lra|]. lra.
Qed.
Lemma slope_nz x : r <= x <= b -> DL n x <> 0.
Proof.
  intros Hx. destruct (Req_dec r x) as [E|E].
  - destruct HS as [H0 [H1 [HL _]]]. apply (simple_root n Hn); [lra|]. rewrite <- E; exact HL.
  - pose proof (slope_pos x ltac:(lra)) as H. intros E0. rewrite E0 in H. lra.
Qed.
Lemma L_mono x y : r <= x -> x <= y -> y <= b -> sg * L n x <= sg * L n y.
Proof.
  intros Hx Hxy Hy. destruct (Req_dec r x) as [E|E].
  { rewrite <- E. destruct HS as [_ [_ [HL _]]]. rewrite HL, Rmult_0_r. apply same_sign0; lra. }
  apply (derive_incr (fun x => sg * L n x) (fun x => sg * DL n x)); [exact Hxy| |].
  - intros t Ht. apply (is_derive_scal (L n) t sg). apply is_derive_L.
  - intros t Ht. left. apply slope_pos; lra.
Qed.
Lemma G_upper x : r <= x <= b -> sg * G x <= 2 * x * (sg * L n x) * (x - r).
Proof.
  intros Hx. destruct HS as [H0 [H1 [HL _]]].
  assert (2 * x * (sg * L n x) * (r - r) - sg * G r <= 2 * x * (sg * L n x) * (x - r) - sg * G x).
  - apply (derive_incr (fun y => 2 * x * (sg * L n x) * (y - r) - sg * G y) (fun y => 2 * x * (sg * L n x) - sg * (L n y * (2 * y - NN * (y - r))))); [lra| |].
    + intros t Ht. pose proof (derive_G t) as HG. set (dg := L n t * (2 * t - NN * (t - r))) in *.
      auto_derive; [exists dg; exact HG|]. rewrite (is_derive_unique (fun x : R => G x) t dg HG). unfold sg. ring.
    + intros t Ht. pose proof (slope_factor t ltac:(lra)) as H3. pose proof (L_mono t x ltac:(lra) ltac:(lra) ltac:(lra)) as H4.
      pose proof (same_sign0 t ltac:(lra)) as H5.
      assert (sg * L n t * (2 * t - NN * (t - r)) <= sg * L n x * (2 * x)) by (apply Rmult_le_compat; lra). lra.
  - assert (E : sg * G r = 0) by (unfold G; rewrite HL; ring). rewrite E in *. lra.
Qed.

(** One step *)
Definition step (x : R) : R := L n x / DL n x.
Definition kk : R := 2 / (1 - b * b).
Lemma step_bounds x : r <= x <= b -> 0 <= step x <= x - r /\ x - step x - r <= kk * (x - r) * step x.
Proof.
  intros Hx. unfold step. destruct (Req_dec r x) as [E|E].
  { destruct HS as [_ [_ [HL _]]]. rewrite <- E, HL. unfold Rdiv. rewrite Rmult_0_l. lra. }
  assert (Hx' : r < x <= b) by lra. destruct HS as [H0 [H1 _]].
  pose proof (slope_pos x Hx') as HD. pose proof (same_sign x Hx') as HLp. pose proof (slope_ge x Hx) as Hge.
  pose proof (one_minus x Hx) as Ho. pose proof (G_upper x Hx) as HG.
  assert (Hsg : sg <> 0) by (intros E0; rewrite E0 in HD; lra). assert (HD0 : DL n x <> 0) by (apply slope_nz; exact Hx).
  set (l := sg * L n x) in *. set (d := sg * DL n x) in *.
  assert (Ed : L n x / DL n x = l / d) by (unfold l, d; field; split; assumption). rewrite Ed.
  assert (Hl : 0 <= l / d) by (apply Rmult_le_pos; [lra|left; apply Rinv_0_lt_compat; exact HD]).
  assert (EL : l / d * d = l) by (field; lra).
  split; [split; [exact Hl|]|].
  - apply Rmult_le_reg_r with d; [exact HD|]. rewrite EL. exact Hge.
  - assert (EG : sg * G x = (1 - x * x) * d * (x - l / d - r)) by (unfold G, W, l, d; field; split; assumption).
    rewrite EG in HG. unfold kk.
    apply Rmult_le_reg_l with ((1 - x * x) * d); [apply Rmult_lt_0_compat; lra|]. eapply Rle_trans; [exact HG|].
    set (q := l / d) in *. clearbody q. rewrite <- EL.
    replace ((1 - x * x) * d * (2 / (1 - b * b) * (x - r) * q)) with ((1 - x * x) / (1 - b * b) * (2 * (q * d) * (x - r))) by (field; lra).
    replace (2 * x * (q * d) * (x - r)) with (x * (2 * (q * d) * (x - r))) by ring.
    apply Rmult_le_compat_r.
    + apply Rmult_le_pos; [|lra]. rewrite EL. lra.
    + apply Rle_trans with 1; [lra|]. apply Rmult_le_reg_r with (1 - b * b); [lra|]. unfold Rdiv. rewrite Rmult_assoc, Rinv_l by lra. lra.
Qed.
Lemma kk_ge : 2 <= kk.
Proof.
  destruct HS as [H0 [H1 _]]. unfold kk. apply Rmult_le_reg_r with (1 - b * b); [nra|]. unfold Rdiv. rewrite Rmult_assoc, Rinv_l by nra. nra.
Qed.
Lemma kk_start : kk * (b - r) <= 2 / 9.
Proof.
  destruct HS as [H0 [H1 [_ [_ [_ [H5 _]]]]]]. unfold kk. apply Rmult_le_reg_r with (1 - b * b); [nra|].
  replace (2 / (1 - b * b) * (b - r) * (1 - b * b)) with (2 * (b - r)) by (field; nra). lra.
Qed.
Lemma kk_fr : kk <= 8 / 9 * (fr n * fr n).
Proof.
  destruct HS as [H0 [H1 [_ [_ [_ [_ H6]]]]]]. unfold kk. apply Rmult_le_reg_r with (1 - b * b); [nra|].
  unfold Rdiv at 1. rewrite Rmult_assoc, Rinv_l by nra. lra.
Qed.
Lemma step_in x : r <= x <= b -> r <= x - step x <= b.
Proof. intros Hx. pose proof (step_bounds x Hx). lra. Qed.

(** What is left after a short step *)
Lemma step_small x e : r <= x <= b -> step x <= e ->
  x - r <= 11 / 9 * step x /\ x - step x - r <= 2 / 9 * e /\ x - step x - r <= 88 / 81 * (fr n * fr n) * (e * e).
Proof.
  intros Hx He. destruct (step_bounds x Hx) as [[Hs0 Hs1] Hs2]. pose proof kk_ge as Hk. pose proof kk_start as Hks. pose proof kk_fr as Hkf.
  set (s := step x) in *.
  assert (Hkx : kk * (x - r) <= 2 / 9) by (apply Rle_trans with (kk * (b - r)); [apply Rmult_le_compat_l; lra|exact Hks]).
  assert (H1 : kk * (x - r) * s <= 2 / 9 * s) by (apply Rmult_le_compat_r; lra).
  assert (H2 : x - r <= 11 / 9 * s) by lra.
  split; [exact H2|]. split; [lra|].
  eapply Rle_trans; [exact Hs2|].
  replace (kk * (x - r) * s) with (kk * ((x - r) * s)) by ring.
  apply Rle_trans with (8 / 9 * (fr n * fr n) * (11 / 9 * (e * e))); [|right; field].
  apply Rmult_le_compat; [lra|apply Rmult_le_pos; lra|exact Hkf|].
  apply Rle_trans with (11 / 9 * s * s); [apply Rmult_le_compat_r; lra|].
  rewrite Rmult_assoc. apply Rmult_le_compat_l; [lra|]. apply Rmult_le_compat; lra.
Qed.

(** The weight *)
Definition En (x : R) : R := W n x * DL n x + NN * (L n x * L n x).
Lemma derive_En x : x * x <> 1 -> is_derive En x (2 * x * (DL n x * DL n x)).
Proof.
  intros Hx. pose proof (derive_W n Hn x) as HW. pose proof (is_derive_L n x) as HL.
  assert (HD : is_derive (DL n) x ((2 * x * DL n x - NN * L n x) / (1 - x * x))).
  { apply (is_derive_ext_loc (fun x => W n x / (1 - x * x))).
    - assert (Hd : 0 < Rabs (1 - x * x)) by (apply Rabs_pos_lt; lra).
      assert (Hc : continuous (fun x => 1 - x * x) x) by (apply (ex_derive_continuous (fun x : R => 1 - x * x)); auto_derive; exact I).
      pose proof (Hc (fun y => y <> 0)) as Hc'.
      assert (HH : locally x (fun y => 1 - y * y <> 0)).
      { apply Hc'. exists (mkposreal _ Hd). intros y Hy E0. rewrite E0 in Hy. unfold ball in Hy; cbn in Hy. unfold AbsRing_ball, abs, minus, plus, opp in Hy; cbn in Hy.
        rewrite Rplus_0_l, Rabs_Ropp in Hy. lra. }
      revert HH. apply filter_imp. intros y Hy. change (W n y / (1 - y * y) = DL n y). unfold W. field. exact Hy.
    - set (dw := - (INR n * (INR n + 1)) * L n x) in *.
      auto_derive; [split; [exists dw; exact HW|split; [lra|exact I]]|].
      rewrite (is_derive_unique (fun x : R => W n x) x dw HW). unfold dw, W, NN. field. lra. }
  unfold En. set (dw := - (INR n * (INR n + 1)) * L n x) in *. set (dd := (2 * x * DL n x - NN * L n x) / (1 - x * x)) in *.
  auto_derive; [split; [exists dw; exact HW|split; [exists dd; exact HD|split; [exists (DL n x); exact HL|split; [exists (DL n x); exact HL|exact I]]]]|].
  rewrite (is_derive_unique (fun x : R => W n x) x dw HW), (is_derive_unique (fun x : R => L n x) x (DL n x) HL), (is_derive_unique (fun x : R => DL n x) x dd HD).
  unfold dd, dw, W, NN. field. lra.
Qed.
Lemma En_lower x : r <= x <= b -> En r <= En x.
Proof.
  intros Hx. destruct HS as [H0 [H1 _]].
  apply (derive_incr En (fun x => 2 * x * (DL n x * DL n x))); [lra| |].
  - intros t Ht. apply derive_En. nra.
  - intros t Ht. apply Rmult_le_pos; [lra|]. apply Rle_0_sqr.
Qed.
Lemma En_pos x : 0 <= x <= b -> 0 <= En x /\ 2 * x * (DL n x * DL n x) <= kk * En x.
Proof.
  intros Hx. destruct HS as [H0 [H1 _]]. pose proof NN_fr as HN. assert (Ho : 0 < 1 - b * b <= 1 - x * x) by nra.
  unfold En, W. pose proof (Rle_0_sqr (DL n x)) as Q1. pose proof (Rle_0_sqr (L n x)) as Q2. unfold Rsqr in *.
  set (d2 := DL n x * DL n x) in *. set (l2 := L n x * L n x) in *.
  replace ((1 - x * x) * DL n x * DL n x) with ((1 - x * x) * d2) by (unfold d2; ring).
  assert (A1 : 0 <= NN * l2) by (apply Rmult_le_pos; lra).
  assert (A2 : (1 - b * b) * d2 <= (1 - x * x) * d2) by (apply Rmult_le_compat_r; lra).
  assert (A3 : 0 <= (1 - b * b) * d2) by (apply Rmult_le_pos; lra).
  split; [lra|]. unfold kk. apply Rmult_le_reg_r with (1 - b * b); [lra|].
  replace (2 / (1 - b * b) * ((1 - x * x) * d2 + NN * l2) * (1 - b * b)) with (2 * ((1 - x * x) * d2 + NN * l2)) by (field; lra).
  assert (A4 : x * ((1 - b * b) * d2) <= 1 * ((1 - b * b) * d2)) by (apply Rmult_le_compat_r; lra). lra.
Qed.
Lemma En_upper x : r <= x <= b -> En x * (1 - kk * (x - r)) <= En r.
Proof.
  intros Hx. destruct HS as [H0 [H1 _]]. pose proof kk_ge as Hk. pose proof kk_start as Hks.
  assert (- (En r * (1 - kk * (r - r))) <= - (En x * (1 - kk * (x - r)))).
  - apply (derive_incr (fun y => - (En y * (1 - kk * (y - r)))) (fun y => - (2 * y * (DL n y * DL n y) * (1 - kk * (y - r)) - kk * En y))); [lra| |].
    + intros t Ht. pose proof (derive_En t ltac:(nra)) as HE. set (de := 2 * t * (DL n t * DL n t)) in *.
      auto_derive; [exists de; exact HE|]. rewrite (is_derive_unique (fun x : R => En x) t de HE). ring.
    + intros t Ht. destruct (En_pos t ltac:(lra)) as [P1 P2].
      assert (0 <= kk * (t - r)) by (apply Rmult_le_pos; lra).
      assert (kk * (t - r) <= kk * (b - r)) by (apply Rmult_le_compat_l; lra).
      assert (0 <= 2 * t * (DL n t * DL n t)) by (apply Rmult_le_pos; [lra|apply Rle_0_sqr]).
      assert (2 * t * (DL n t * DL n t) * (1 - kk * (t - r)) <= 2 * t * (DL n t * DL n t) * 1) by (apply Rmult_le_compat_l; lra). lra.
  - replace (r - r) with 0 in H by ring. lra.
Qed.
Lemma weight_err x e : r <= x <= b -> step x <= e ->
  let C := (1 - (x - step x) * (x - step x)) * DL n x * DL n x in
  0 < C /\ Rabs ((1 - r * r) * DL n r * DL n r - C) <= 2 * (fr n * fr n) * e * C.
Proof.
  intros Hx He C. destruct (step_bounds x Hx) as [[Hs0 Hs1] _]. destruct (step_small x e Hx He) as [Hs2 _].
  pose proof kk_ge as Hk. pose proof kk_start as Hks. pose proof kk_fr as Hkf. pose proof NN_fr as HN.
  destruct HS as [H0 [H1 [HL _]]]. pose proof (slope_nz x Hx) as Hnz. pose proof (En_lower x Hx) as HE1. pose proof (En_upper x Hx) as HE2.
  pose proof (one_minus x Hx) as Ho. pose proof (one_minus (x - step x) ltac:(lra)) as Ho'.
  assert (Er : En r = (1 - r * r) * DL n r * DL n r) by (unfold En, W; rewrite HL; ring). rewrite <- Er.
  assert (ELs : L n x = step x * DL n x) by (unfold step; field; exact Hnz).
  assert (Ex : En x = (1 - x * x) * (DL n x * DL n x) + NN * (step x * step x) * (DL n x * DL n x)) by (unfold En, W; rewrite ELs; ring).
  assert (Hd2 : 0 < DL n x * DL n x) by (apply Rsqr_pos_lt; exact Hnz).
  set (d2 := DL n x * DL n x) in *. set (s := step x) in *. set (z := x - s) in *.
  assert (EC : C = (1 - z * z) * d2) by (unfold C, d2; ring). clearbody C. clearbody s.
  assert (HC : 0 < C) by (rewrite EC; apply Rmult_lt_0_compat; lra).
  split; [exact HC|].
  assert (Ekk : kk * (1 - b * b) = 2) by (unfold kk; field; lra).
  assert (Hks' : kk * s <= 2 / 9) by (apply Rle_trans with (kk * (b - r)); [apply Rmult_le_compat_l; lra|exact Hks]).
  assert (Hks0 : 0 <= kk * s) by (apply Rmult_le_pos; lra).
  assert (Hkt : kk * (x - r) <= 11 / 9 * (kk * s)) by (replace (11 / 9 * (kk * s)) with (kk * (11 / 9 * s)) by ring; apply Rmult_le_compat_l; lra).
  assert (Hkt0 : 0 <= kk * (x - r)) by (apply Rmult_le_pos; lra).
  assert (Hfe : kk * s <= 8 / 9 * (fr n * fr n) * e) by (apply Rmult_le_compat; lra).
  assert (Hss : 0 <= s * s) by (apply Rmult_le_pos; lra).
  apply Rabs_le. split.
  - (* C is not much larger *)
    assert (A1 : 1 - z * z <= (1 - x * x) * (1 + kk * s)).
    { assert (s * 2 <= kk * s * (1 - x * x)).
      { rewrite <- Ekk. replace (s * (kk * (1 - b * b))) with (kk * s * (1 - b * b)) by ring. apply Rmult_le_compat_l; lra. }
      assert (x * x - z * z <= s * 2) by (unfold z; replace (x * x - (x - s) * (x - s)) with (s * (2 * x - s)) by ring; apply Rmult_le_compat_l; lra).
      lra. }
    assert (A2 : C <= (1 + kk * s) * En x).
    { rewrite EC, Ex. assert ((1 - z * z) * d2 <= (1 - x * x) * (1 + kk * s) * d2) by (apply Rmult_le_compat_r; lra).
      assert (0 <= (1 + kk * s) * (NN * (s * s) * d2)).
      { apply Rmult_le_pos; [lra|]. apply Rmult_le_pos; [|lra]. apply Rmult_le_pos; lra. }
      lra. }
    assert (A3 : C * (1 - kk * (x - r)) <= (1 + kk * s) * En r).
    { apply Rle_trans with ((1 + kk * s) * En x * (1 - kk * (x - r))); [apply Rmult_le_compat_r; lra|].
      rewrite Rmult_assoc. apply Rmult_le_compat_l; lra. }
    assert (A4 : C * (1 - kk * (x - r) - kk * s) <= En r).
    { apply Rmult_le_reg_l with (1 + kk * s); [lra|]. eapply Rle_trans; [|exact A3].
      replace ((1 + kk * s) * (C * (1 - kk * (x - r) - kk * s))) with (C * ((1 + kk * s) * (1 - kk * (x - r) - kk * s))) by ring.
      apply Rmult_le_compat_l; [lra|]. assert (0 <= kk * s * (kk * (x - r) + kk * s)) by (apply Rmult_le_pos; lra). lra. }
    assert (A5 : C * (kk * (x - r) + kk * s) <= C * (2 * (fr n * fr n) * e)).
    { apply Rmult_le_compat_l; [lra|]. assert (0 <= fr n * fr n * e) by (apply Rmult_le_pos; lra). lra. }
    lra.
  - (* nor much smaller *)
    assert (B1 : NN * (s * s) * d2 <= fr n * fr n * e * (1 / 9) * C).
    { rewrite EC.
      assert (B2 : s * 2 <= 2 / 9 * (1 - z * z)).
      { rewrite <- Ekk. replace (s * (kk * (1 - b * b))) with (kk * s * (1 - b * b)) by ring. apply Rmult_le_compat; lra. }
      assert (B3 : NN * s <= fr n * fr n * e) by (apply Rmult_le_compat; lra).
      replace (NN * (s * s) * d2) with (NN * s * s * d2) by ring.
      replace (fr n * fr n * e * (1 / 9) * ((1 - z * z) * d2)) with (fr n * fr n * e * (1 / 9 * (1 - z * z)) * d2) by ring.
      apply Rmult_le_compat_r; [lra|]. apply Rmult_le_compat; [apply Rmult_le_pos; lra|lra|exact B3|lra]. }
    assert (B4 : (1 - x * x) * d2 <= C) by (rewrite EC; apply Rmult_le_compat_r; [lra|]; unfold z; nra).
    assert (0 <= fr n * fr n * e * C) by (apply Rmult_le_pos; [apply Rmult_le_pos; lra|lra]). lra.
Qed.
End Newton.
