(** ProofNewton2: the starting points of nodes_weights_gauss_legendre and the zeros they lead to. *)
From Coq Require Import Reals Ranalysis5 Lra Lia List.
From Coquelicot Require Import Coquelicot.
From Verif Require Import Spec Poly Legendre LegendreRoots ProofNewton.
Local Open Scope R_scope.

(** Jordan's inequality *)
Lemma sin_tcos t : 0 <= t <= PI -> t * cos t <= sin t.
Proof.
  intros [H0 H1].
  assert (sin 0 - 0 * cos 0 <= sin t - t * cos t); [|rewrite sin_0 in *; lra].
  apply (derive_incr (fun t => sin t - t * cos t) (fun t => t * sin t)); [exact H0| |].
  - intros x Hx. auto_derive; [exact I|ring].
  - intros x Hx. apply Rmult_le_pos; [lra|]. apply sin_ge_0; lra.
Qed.
Lemma jordan t : 0 < t <= PI / 2 -> t <= PI / 2 * sin t.
Proof.
  intros [H0 H1]. pose proof PI_RGT_0 as HP.
  assert (H : - (sin t / t) <= - (sin (PI / 2) / (PI / 2))).
  { apply (derive_incr (fun t => - (sin t / t)) (fun t => (sin t - t * cos t) / (t * t))); [exact H1| |].
    - intros x Hx. auto_derive; [lra|]. field. lra.
    - intros x Hx. pose proof (sin_tcos x ltac:(lra)). apply Rmult_le_pos; [lra|]. left; apply Rinv_0_lt_compat; nra. }
  rewrite sin_PI2 in H. assert (H2 : 1 / (PI / 2) <= sin t / t) by lra.
  apply Rmult_le_reg_r with (1 / (PI / 2) * / t).
  { apply Rmult_lt_0_compat; [apply Rdiv_lt_0_compat; lra|apply Rinv_0_lt_compat; lra]. }
  replace (t * (1 / (PI / 2) * / t)) with (1 / (PI / 2)) by (field; lra).
  replace (PI / 2 * sin t * (1 / (PI / 2) * / t)) with (sin t / t) by (field; lra). exact H2.
Qed.

(** The frequency, the starting angles *)
Definition fr (n : nat) : R := INR n + 1 / 2.
Definition phi (n ii : nat) : R := PI * (INR ii + 75 / 100) / fr n.
Lemma fr_ge n : (1 <= n)%nat -> 3 / 2 <= fr n.
Proof. intros H. apply (m_ge n H). Qed.
Lemma phi_fr n ii : (1 <= n)%nat -> fr n * phi n ii = PI * (INR ii + 3 / 4).
Proof. intros H. pose proof (fr_ge n H). unfold phi. field. lra. Qed.
Lemma phi_range n ii : (2 * ii + 1 <= n)%nat -> 0 < phi n ii <= PI / 2.
Proof.
  intros H. pose proof (fr_ge n ltac:(lia)) as Hf. pose proof PI_RGT_0 as HP. pose proof (phi_fr n ii ltac:(lia)) as E.
  assert (H1 : 2 * INR ii + 1 <= INR n).
  { apply le_INR in H. rewrite plus_INR, mult_INR in H. cbn in H. lra. }
  pose proof (pos_INR ii). split.
  - apply Rmult_lt_reg_l with (fr n); [lra|]. rewrite E, Rmult_0_r. apply Rmult_lt_0_compat; lra.
  - apply Rmult_le_reg_l with (fr n); [lra|]. rewrite E. unfold fr. nra.
Qed.
Lemma phi_sin n ii : (2 * ii + 1 <= n)%nat -> 3 / 2 <= fr n * sin (phi n ii).
Proof.
  intros H. pose proof (fr_ge n ltac:(lia)) as Hf. pose proof PI_RGT_0 as HP. pose proof (phi_fr n ii ltac:(lia)) as E.
  pose proof (jordan _ (phi_range n ii H)) as HJ. pose proof (pos_INR ii).
  apply Rmult_le_reg_l with (PI / 2); [lra|].
  apply Rle_trans with (fr n * phi n ii); [rewrite E; nra|].
  replace (PI / 2 * (fr n * sin (phi n ii))) with (fr n * (PI / 2 * sin (phi n ii))) by ring.
  apply Rmult_le_compat_l; lra.
Qed.

Definition psi_0 (n : nat) : R := if Nat.even n then PI / 2 else 0.
Lemma DL_parity n x : DL n (- x) = - (-1) ^ n * DL n x.
Proof.
  assert (H1 : is_derive (fun x => L n (- x)) x (- DL n (- x))).
  { apply (is_derive_ext (fun x => L n (Ropp x))); [reflexivity|].
    replace (- DL n (- x)) with (-1 * DL n (- x)) by ring.
    apply (is_derive_comp (L n) Ropp x (DL n (- x)) (-1)); [apply is_derive_L|]. auto_derive; [exact I|ring]. }
  assert (H2 : is_derive (fun x => L n (- x)) x ((-1) ^ n * DL n x)).
  { apply (is_derive_ext (fun x => (-1) ^ n * L n x)); [intros; symmetry; apply L_parity|].
    apply (is_derive_scal (L n) x ((-1) ^ n) (DL n x)). apply is_derive_L. }
  pose proof (is_derive_unique _ _ _ H1) as E1. pose proof (is_derive_unique _ _ _ H2) as E2. lra.
Qed.
Lemma psi_0_ok n : (1 <= n)%nat -> p n (PI / 2) * cos (psi_0 n) - v n (PI / 2) / (INR n + 1 / 2) * sin (psi_0 n) = 0.
Proof.
  intros Hn. pose proof (fr_ge n Hn) as Hf. unfold fr in Hf. unfold psi_0. destruct (Nat.even n) eqn:E.
  - rewrite cos_PI2, sin_PI2. unfold v. rewrite cos_PI2, sin_PI2. unfold W.
    apply Nat.even_spec in E. destruct E as [k ->]. pose proof (DL_parity (2 * k) 0) as H.
    rewrite pow_1_even, Ropp_0 in H. assert (E0 : DL (2 * k) 0 = 0) by lra. rewrite E0. unfold Rdiv. ring.
  - rewrite cos_0, sin_0. assert (Ho : Nat.Odd n) by (apply Nat.odd_spec; unfold Nat.odd; rewrite E; reflexivity).
    destruct Ho as [k ->]. unfold p. rewrite cos_PI2. pose proof (L_parity (2 * k + 1) 0) as H.
    replace (2 * k + 1)%nat with (S (2 * k)) in * by lia. rewrite pow_1_odd, Ropp_0 in H. lra.
Qed.
Definition target (n ii : nat) : R := psi_0 n - PI * ((INR n - 1) / 2 - INR ii).
Lemma target_sin n ii : sin (target n ii) = 0.
Proof.
  apply sin_eq_0_1. unfold target, psi_0. destruct (Nat.even n) eqn:E.
  - apply Nat.even_spec in E. destruct E as [k ->]. exists (1 + Z.of_nat ii - Z.of_nat k)%Z.
    rewrite minus_IZR, plus_IZR, <- !INR_IZR_INZ, mult_INR. cbn [INR]. field.
  - assert (Ho : Nat.Odd n) by (apply Nat.odd_spec; unfold Nat.odd; rewrite E; reflexivity).
    destruct Ho as [k ->]. exists (Z.of_nat ii - Z.of_nat k)%Z.
    rewrite minus_IZR, <- !INR_IZR_INZ, plus_INR, mult_INR. cbn [INR]. field.
Qed.
Lemma IVT_le (f : R -> R) a b y : a <= b -> (forall x, a <= x <= b -> continuity_pt f x) -> f a <= y <= f b -> exists x, a <= x <= b /\ f x = y.
Proof.
  intros Hab Hc [H1 H2].
  destruct (Req_dec (f a) y) as [E|N1]; [exists a; split; [lra|exact E]|].
  destruct (Req_dec (f b) y) as [E|N2]; [exists b; split; [lra|exact E]|].
  destruct (Req_dec a b) as [E|N3]; [subst; lra|].
  destruct (IVT_interv (fun x => f x - y) a b) as [x [Hx1 Hx2]].
  - intros x Hx. apply continuity_pt_minus; [apply Hc; exact Hx|]. apply continuity_pt_const. intros ? ?; reflexivity.
  - lra.
  - lra.
  - lra.
  - exists x. split; [exact Hx1|lra].
Qed.

Lemma cot_decr a b : 0 < a -> a <= b -> b < PI -> cos b / sin b <= cos a / sin a.
Proof.
  intros Ha Hab Hb.
  assert (- (cos a / sin a) <= - (cos b / sin b)); [|lra].
  apply (derive_incr (fun t => - (cos t / sin t)) (fun t => / (sin t * sin t))); [exact Hab| |].
  - intros t Ht. pose proof (sin_in t ltac:(lra)) as Hs. auto_derive; [lra|].
    assert (E1 : / (sin t * sin t) = 1 + cos t * cos t * / (sin t * sin t)).
    { pose proof (sin2_cos2 t) as E. unfold Rsqr in E. replace (cos t * cos t) with (1 - sin t * sin t) by lra. field. lra. }
    transitivity (1 + cos t * cos t * / (sin t * sin t)); [field; lra|symmetry; exact E1].
  - intros t Ht. pose proof (sin_in t ltac:(lra)) as Hs. left. apply Rinv_0_lt_compat. nra.
Qed.
Lemma phi_cot n ii : (2 * ii + 1 <= n)%nat -> 0 <= cos (phi n ii) / sin (phi n ii) <= 2 / 3 * fr n.
Proof.
  intros H. pose proof (phi_range n ii H) as Hr. pose proof PI_RGT_0 as HP. pose proof (sin_in (phi n ii) ltac:(lra)) as Hs.
  pose proof (phi_sin n ii H) as Hf. pose proof (fr_ge n ltac:(lia)) as Hf0.
  assert (0 <= cos (phi n ii)) by (apply cos_ge_0; lra). pose proof (COS_bound (phi n ii)). split.
  - apply Rmult_le_pos; [assumption|]. left; apply Rinv_0_lt_compat; exact Hs.
  - apply Rmult_le_reg_r with (sin (phi n ii)); [exact Hs|]. unfold Rdiv at 1. rewrite Rmult_assoc, Rinv_l by lra. lra.
Qed.

(** Each starting angle lies a little before the angle of a zero, and no other zero lies between them. *)
Lemma guess n ii : (2 * ii + 1 <= n)%nat -> exists t, phi n ii <= t <= PI / 2 /\ L n (cos t) = 0 /\
  t - phi n ii <= / (4 * (fr n * fr n)) * (cos t / sin t) /\
  (forall u, phi n ii <= u < t -> L n (cos u) <> 0).
Proof.
  intros H. assert (Hn : (1 <= n)%nat) by lia. pose proof (phi_range n ii H) as Hr. pose proof PI_RGT_0 as HP.
  pose proof (fr_ge n Hn) as Hf. pose proof (phi_fr n ii Hn) as Ep. pose proof (phi_cot n ii H) as Hc.
  set (P0 := psi_0 n). set (f := psi n P0).
  assert (H1 : 2 * INR ii + 1 <= INR n).
  { pose proof H as H'. apply le_INR in H'. rewrite plus_INR, mult_INR in H'. cbn in H'. lra. }
  assert (Em : f (PI / 2) = P0) by (apply psi_mid).
  assert (Et : fr n * (PI / 2 - phi n ii) = P0 - target n ii).
  { rewrite Rmult_minus_distr_l, Ep. unfold target, fr. fold P0. field. }
  assert (Hlo : fr n * (PI / 2 - phi n ii) <= f (PI / 2) - f (phi n ii)) by (apply psi_incr; [exact Hn|lra|lra|lra]).
  assert (Hhi : f (PI / 2) - f (phi n ii) <= fr n * (PI / 2 - phi n ii) + / (4 * fr n) * (cos (phi n ii) / sin (phi n ii) - cos (PI / 2) / sin (PI / 2)))
    by (apply psi_upper; [exact Hn|lra|lra|lra]).
  rewrite cos_PI2, sin_PI2 in Hhi. unfold Rdiv in Hhi at 4. rewrite Rmult_0_l, Rminus_0_r in Hhi.
  rewrite Em, Et in *.
  destruct (IVT_le f (phi n ii) (PI / 2) (target n ii)) as [t [Ht Ft]]; [lra| | |].
  - intros x Hx. apply psi_continuous; [exact Hn|lra].
  - rewrite Em. split; [lra|]. assert (0 <= fr n * (PI / 2 - phi n ii)) by (apply Rmult_le_pos; lra). lra.
  - exists t. split; [exact Ht|]. pose proof (sin_in t ltac:(lra)) as Hs. split; [|split].
    + apply (root_psi n Hn P0 (psi_0_ok n Hn) t ltac:(lra)). fold f. rewrite Ft. apply target_sin.
    + assert (Hu : f (PI / 2) - f t <= fr n * (PI / 2 - t) + / (4 * fr n) * (cos t / sin t - cos (PI / 2) / sin (PI / 2)))
        by (apply psi_upper; [exact Hn|lra|lra|lra]).
      rewrite cos_PI2, sin_PI2 in Hu. unfold Rdiv in Hu at 4. rewrite Rmult_0_l, Rminus_0_r in Hu.
      rewrite Em, Ft, <- Et in Hu. apply Rmult_le_reg_l with (fr n); [lra|].
      replace (fr n * (/ (4 * (fr n * fr n)) * (cos t / sin t))) with (/ (4 * fr n) * (cos t / sin t)) by (field; lra).
      lra.
    + intros u Hu HL. apply (root_psi n Hn P0 (psi_0_ok n Hn) u ltac:(lra)) in HL. fold f in HL.
      assert (Hlt : fr n * (t - u) <= f t - f u) by (apply psi_incr; [exact Hn|lra|lra|lra]).
      assert (Hul : fr n * (u - phi n ii) <= f u - f (phi n ii)) by (apply psi_incr; [exact Hn|lra|lra|lra]).
      assert (0 < fr n * (t - u)) by (apply Rmult_lt_0_compat; lra).
      assert (0 <= fr n * (u - phi n ii)) by (apply Rmult_le_pos; lra).
      assert (Hq : / (4 * fr n) * (cos (phi n ii) / sin (phi n ii)) <= 1 / 6).
      { apply Rle_trans with (/ (4 * fr n) * (2 / 3 * fr n)); [apply Rmult_le_compat_l; [left; apply Rinv_0_lt_compat; lra|lra]|].
        right. field. lra. }
      assert (Hd : 0 < f t - f u <= 1 / 6) by lra.
      assert (HS : 0 < sin (f t - f u)) by (apply sin_gt_0; [lra|pose proof PI2_3_2; lra]).
      rewrite sin_minus, HL, Ft, target_sin in HS. lra.
Qed.
