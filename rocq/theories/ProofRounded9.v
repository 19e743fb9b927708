(** ProofRounded9: errors relative to the sum of the sizes of the terms, and the rounded assembly of the spectra. *)
From Coq Require Import ZArith Lia Reals Lra Psatz List Bool String.
From Verif Require Import Base Num BaseFacts Order Spec Common Registry PyTerms SpecPy SpecRounded SpecRounded2 ProofRounded4 ProofRounded8 ProofPy ProofPy2.
From Flocq Require Import Core.
Import ListNotations.
Local Open Scope R_scope.

Section Within.
Context (u : R) (Hu : 0 <= u < 1).
Notation r n := (/ (1 - u) ^ n).
(** a is b up to n roundings, relative to m. *)
Definition within (n : nat) (a b m : R) : Prop := Rabs b <= m /\ Rabs (a - b) <= units u n * m.
Lemma units_pos n : 0 <= units u n.
Proof. unfold units. pose proof (vni u Hu n). lra. Qed.
Lemma units_mono n m : (n <= m)%nat -> units u n <= units u m.
Proof.
  intros H. unfold units. replace m with (n + (m - n))%nat by lia. rewrite pow_add, Rinv_mult. pose proof (vni u Hu n). pose proof (vni u Hu (m - n)). nra.
Qed.
Lemma w_close n a b : close u n a b -> within n a b (Rabs b).
Proof.
  intros (t & [A B] & ->). split; [lra|]. replace (b * t - b) with ((t - 1) * b) by ring. rewrite Rabs_mult. apply Rmult_le_compat_r; [apply Rabs_pos|].
  destruct (vn u Hu n) as [V1 V2]. unfold units. set (v := (1 - u) ^ n) in *. assert (I : 1 - v <= / v - 1). { assert (E : v * / v = 1) by (apply Rinv_r; lra). assert (0 < / v) by (apply Rinv_0_lt_compat; lra). nra. }
  apply Rabs_le. lra.
Qed.
Lemma w_close' n a b : close u n a b -> 0 <= b -> within n a b b.
Proof. intros H Hb. rewrite <- (Rabs_right b) at 2 by lra. apply w_close, H. Qed.
Lemma w_weak n n' a b m : within n a b m -> (n <= n')%nat -> within n' a b m.
Proof. intros [A B] H. split; [exact A|]. eapply Rle_trans; [exact B|]. apply Rmult_le_compat_r; [|apply units_mono, H]. eapply Rle_trans; [apply Rabs_pos|exact A]. Qed.
Lemma w_size n a b m : within n a b m -> 0 <= m /\ Rabs a <= r n * m.
Proof.
  intros [A B]. assert (M : 0 <= m) by (eapply Rle_trans; [apply Rabs_pos|exact A]). split; [exact M|]. replace a with (b + (a - b)) by ring. eapply Rle_trans; [apply Rabs_triang|]. unfold units in B. lra.
Qed.
Lemma w_add n a b m c d m' : within n a b m -> within n c d m' -> within n (a + c) (b + d) (m + m').
Proof.
  intros [A B] [C D]. split; [eapply Rle_trans; [apply Rabs_triang|lra]|]. replace (a + c - (b + d)) with ((a - b) + (c - d)) by ring. eapply Rle_trans; [apply Rabs_triang|]. lra.
Qed.
Lemma w_mul n n' a b m c d m' : within n a b m -> within n' c d m' -> within (n + n') (a * c) (b * d) (m * m').
Proof.
  intros H H'. destruct (w_size _ _ _ _ H) as [M S]. destruct (w_size _ _ _ _ H') as [M' S']. destruct H as [A B]. destruct H' as [C D]. split; [rewrite Rabs_mult; apply Rmult_le_compat; try apply Rabs_pos; assumption|].
  replace (a * c - b * d) with ((a - b) * c + b * (c - d)) by ring. eapply Rle_trans; [apply Rabs_triang|]. rewrite !Rabs_mult.
  assert (T1 : Rabs (a - b) * Rabs c <= units u n * m * (r n' * m')) by (apply Rmult_le_compat; try apply Rabs_pos; assumption).
  assert (T2 : Rabs b * Rabs (c - d) <= m * (units u n' * m')) by (apply Rmult_le_compat; try apply Rabs_pos; assumption).
  replace (units u (n + n') * (m * m')) with (units u n * m * (r n' * m') + m * (units u n' * m')); [lra|]. unfold units. rewrite pow_add, Rinv_mult. ring.
Qed.
Context (rnd : R -> R) (HR : relative u rnd).
Lemma w_rnd n a b m : within n a b m -> within (S n) (rnd a) b m.
Proof.
  intros H. destruct (w_size _ _ _ _ H) as [M S]. destruct H as [A B]. split; [exact A|]. pose proof (HR a) as E. replace (rnd a - b) with ((rnd a - a) + (a - b)) by ring. eapply Rle_trans; [apply Rabs_triang|].
  assert (T : u * Rabs a <= u * (r n * m)) by (apply Rmult_le_compat_l; lra). unfold units in *. change (Datatypes.S n) with (1 + n)%nat. rewrite pow_add, Rinv_mult, pow_1.
  assert (I : 1 + u <= / (1 - u)). { apply Rmult_le_reg_r with (1 - u); [lra|]. rewrite Rinv_l by lra. nra. }
  pose proof (vni u Hu n) as V. assert (P : 0 <= r n * m) by (apply Rmult_le_pos; lra). assert (Q : (1 + u) * (r n * m) <= / (1 - u) * (r n * m)) by (apply Rmult_le_compat_r; assumption). lra.
Qed.
Lemma w_rnd_add n a b m c d m' k : within n a b m -> within n c d m' -> k = S n -> within k (rnd (a + c)) (b + d) (m + m').
Proof. intros H H' ->. apply w_rnd, w_add; assumption. Qed.
Lemma w_rnd_mul n n' a b m c d m' k : within n a b m -> within n' c d m' -> k = S (n + n') -> within k (rnd (a * c)) (b * d) (m * m').
Proof. intros H H' ->. apply w_rnd, w_mul; assumption. Qed.
Lemma w_exact a : within 0 a a (Rabs a).
Proof. split; [lra|]. rewrite Rminus_eq_0, Rabs_R0. apply Rmult_le_pos; [apply units_pos|apply Rabs_pos]. Qed.
End Within.

(** exp of an argument with n roundings *)
Lemma exp_close u n m a b : 0 <= u <= 1 / 100 -> (n <= 8)%nat -> close u n a b -> INR (S n) * Rabs b <= INR m -> close u m (exp a) (exp b).
Proof.
  intros Hu Hn (t & [A B] & ->) Hm. assert (Hu1 : 0 <= u < 1) by lra. exists (exp (b * (t - 1))). split; [|rewrite <- exp_plus; f_equal; ring].
  destruct (vn u Hu1 n) as [V1 V2]. pose proof (bern_gen u n ltac:(lra)) as BG.
  assert (N8 : 0 <= INR n <= 8). { split; [apply pos_INR|]. replace 8 with (INR 8) by (cbn; lra). apply le_INR, Hn. }
  assert (T : Rabs (t - 1) <= INR (S n) * u).
  { rewrite S_INR. set (N := INR n) in *. set (v := (1 - u) ^ n) in *. assert (Nu : 0 <= N * u) by (apply Rmult_le_pos; lra).
    assert (E : v * / v = 1) by (apply Rinv_r; lra). assert (Pv : 0 < / v) by (apply Rinv_0_lt_compat; lra).
    assert (Q : N * (N + 1) * u <= 1) by nra. assert (H : / v <= 1 + (N + 1) * u).
    { apply Rmult_le_reg_l with v; [lra|]. rewrite E. apply (Rle_trans _ ((1 - N * u) * (1 + (N + 1) * u))); [nra|]. apply Rmult_le_compat_r; [nra|lra]. }
    apply Rabs_le. split; [|lra]. nra. }
  assert (X : Rabs (b * (t - 1)) <= INR m * u).
  { rewrite Rabs_mult. eapply Rle_trans; [apply Rmult_le_compat_l; [apply Rabs_pos|exact T]|]. replace (Rabs b * (INR (S n) * u)) with (INR (S n) * Rabs b * u) by ring. apply Rmult_le_compat_r; lra. }
  assert (EM : (1 - u) ^ m <= exp (- (INR m * u))).
  { assert (G : forall j, exp (- (INR j * u)) = exp (- u) ^ j).
    { induction j as [|j IH]; [cbn [INR pow]; rewrite Rmult_0_l, Ropp_0; apply exp_0|]. rewrite S_INR. cbn [pow]. rewrite <- IH, <- exp_plus. f_equal. ring. }
    rewrite G. apply pow_incr. split; [lra|]. pose proof (exp_ineq1_le (- u)). lra. }
  destruct (vn u Hu1 m) as [W1 W2]. assert (X' : - (INR m * u) <= b * (t - 1) <= INR m * u) by (unfold Rabs in X; destruct (Rcase_abs _) in X; lra). clear X. rename X' into X. split.
  - eapply Rle_trans; [exact EM|]. destruct (Rle_lt_or_eq_dec _ _ (proj1 X)) as [H|H]; [left; apply exp_increasing, H|right; rewrite H; reflexivity].
  - apply (Rle_trans _ (exp (INR m * u))); [destruct (Rle_lt_or_eq_dec _ _ (proj2 X)) as [H|H]; [left; apply exp_increasing, H|right; rewrite H; reflexivity]|].
    rewrite <- (Rinv_inv (exp (INR m * u))), <- exp_Ropp. apply Rinv_le; assumption.
Qed.

Section Rows.
Context (F : R -> Prop) (rnd : R -> R) (lm : libmR) (u : R) (e m : nat).
Hypotheses (RD : rounding F rnd) (Hu : 0 <= u <= 1 / 100) (HR : relative u rnd) (HA : accurate u e lm) (HI : integers F).
Let Hu1 : 0 <= u < 1. Proof. lra. Qed.
Notation Q := (QNum rnd lm).
Lemma int_id n : (n <= 8)%nat -> rnd (INR n) = INR n.
Proof. intros H. apply (r_id _ _ RD), HI, H. Qed.
Lemma pow_close_ (x : R) n : (n <= 8)%nat -> close u e (q_pow lm x (rnd (IZR (Z.of_nat n)))) (x ^ n).
Proof. intros H. rewrite <- INR_IZR_INZ, int_id by exact H. apply HA. Qed.
Lemma half_close : close u 1 (rnd (IZR 5 / IZR (10 ^ 1))) (1 / 2).
Proof. replace (1 / 2) with (IZR 5 / IZR (10 ^ 1)) by (cbn; lra). apply rnd_close; assumption. Qed.
(** The damping exponent as the Python and as the C code compute it *)
Lemma factor_close (k D s : R) : close u 6 (rnd (rnd (rnd (IZR 5 / IZR (10 ^ 1)) * rnd (rnd (k * D) * rnd (k * D))) * s)) (damping D k s).
Proof.
  replace (damping D k s) with (1 / 2 * ((k * D) * (k * D)) * s) by (unfold damping; field).
  assert (A : close u 1 (rnd (k * D)) (k * D)) by (apply rnd_close; assumption).
  assert (B : close u 3 (rnd (rnd (k * D) * rnd (k * D))) (k * D * (k * D))) by (apply rnd_step; [assumption|assumption|]; exact (close_mul u Hu1 1 1 _ _ _ _ A A)).
  assert (C : close u 5 (rnd (rnd (IZR 5 / IZR (10 ^ 1)) * rnd (rnd (k * D) * rnd (k * D)))) (1 / 2 * (k * D * (k * D)))) by (apply rnd_step; [assumption|assumption|]; exact (close_mul u Hu1 1 3 _ _ _ _ half_close B)).
  apply rnd_step; [assumption|assumption|]. exact (close_mul u Hu1 5 0 _ _ _ _ C (close_refl u Hu1 0 s)).
Qed.
Lemma factor_close_C (k s : R) : close u 6 (rnd (rnd (rnd (rnd (IZR 5 / IZR (10 ^ 1)) * k) * k) * s)) (damping 1 k s).
Proof.
  replace (damping 1 k s) with (1 / 2 * k * k * s) by (unfold damping; field). apply close_weaken with 4%nat; [assumption| |lia].
  apply rnd_step; [assumption|assumption|]. apply (close_mul u Hu1 3 0 _ _ _ _); [|apply close_refl; assumption]. apply rnd_step; [assumption|assumption|]. apply (close_mul u Hu1 2 0 _ _ _ _); [|apply close_refl; assumption].
  apply rnd_step; [assumption|assumption|]. apply (close_mul u Hu1 1 0 _ _ _ _); [|apply close_refl; assumption]. apply half_close.
Qed.
Lemma close_opp n a b : close u n a b -> close u n (- a) (- b).
Proof. intros (t & H & ->). exists t. split; [exact H|ring]. Qed.
Section Factor.
Variables (fc f : R).
Hypotheses (HF : close u 6 fc f) (Hf : 0 <= f) (Hm : 16 * f <= INR m).
Lemma exp1_close : close u (e + m) (q_exp lm (- fc)) (exp (- f)).
Proof.
  apply close_trans with (exp (- fc)); [assumption|apply HA|]. apply (exp_close u 6); [assumption|lia|apply close_opp, HF|]. rewrite Rabs_Ropp, Rabs_right by lra. cbn [INR]. lra.
Qed.
Lemma exp2_close : close u (e + m) (q_exp lm (rnd (- rnd 2 * fc))) (exp (- (2 * f))).
Proof.
  apply close_trans with (exp (rnd (- rnd 2 * fc))); [assumption|apply HA|]. apply (exp_close u 7); [assumption|lia| |].
  - change 2 with (INR 2). rewrite int_id by lia. apply rnd_step; [assumption|assumption|]. change (INR 2) with 2. rewrite <- Ropp_mult_distr_l. apply close_opp. exact (close_mul u Hu1 0 6 _ _ _ _ (close_refl u Hu1 0 2) HF).
  - rewrite Rabs_Ropp, Rabs_right by lra. cbn [INR]. lra.
Qed.
Lemma one_close : rnd 1 = 1.
Proof. apply (r_id _ _ RD), (r_one _ _ RD). Qed.
Lemma onef_within : within u 7 (rnd (rnd 1 + fc)) (1 + f) (1 + f).
Proof.
  rewrite one_close. apply (w_rnd_add u Hu1 rnd HR 6 1 1 1 fc f f); [|apply w_close'; assumption|reflexivity].
  apply w_weak with 0%nat; [assumption| |lia]. rewrite <- (Rabs_right 1) at 3 by lra. apply w_exact; assumption.
Qed.
End Factor.

Lemma abs_pow2 D n : 0 <= D -> Rabs (D ^ n) = D ^ n.
Proof. intros H. apply Rabs_right, Rle_ge, pow_le, H. Qed.
(** One propagator factor at one loop: D exp(-f) (1 + f + D^2 g) *)
Section Spectra.
Variables (D k s : R).
Hypotheses (HD : 0 <= D) (Hs : 0 <= s).
Let f := damping D k s.
Hypotheses (Hm : 16 * f <= INR m).
Lemma f_pos : 0 <= f.
Proof. unfold f, damping. apply Rmult_le_pos; [|lra]. apply Rmult_le_pos; [|exact Hs]. apply Rmult_le_pos; apply pow2_ge_0. Qed.
Let fc := rnd (rnd (rnd (IZR 5 / IZR (10 ^ 1)) * rnd (rnd (k * D) * rnd (k * D))) * s).
Let HF : close u 6 fc f. Proof. apply factor_close. Qed.
Let pw n := q_pow lm D (rnd (IZR (Z.of_nat n))).
Lemma pw_within n : (n <= 8)%nat -> within u e (pw n) (D ^ n) (D ^ n).
Proof. intros H. apply w_close'; [assumption|apply pow_close_, H|apply pow_le, HD]. Qed.
Lemma ex_within : within u (e + m) (q_exp lm (- fc)) (exp (- f)) (exp (- f)).
Proof. apply w_close'; [assumption|apply (exp1_close fc f HF f_pos Hm)|left; apply exp_pos]. Qed.
Lemma ex2_within : within u (e + m) (q_exp lm (rnd (- rnd 2 * fc))) (exp (- (2 * f))) (exp (- (2 * f))).
Proof. apply w_close'; [assumption|apply (exp2_close fc f HF f_pos Hm)|left; apply exp_pos]. Qed.
Lemma D_within : within u 0 D D D.
Proof. rewrite <- (Rabs_right D) at 3 by lra. apply w_exact; assumption. Qed.
Ltac mul x y := refine (w_rnd_mul u Hu1 rnd HR x y _ _ _ _ _ _ _ _ _ _); [| |lia].
Ltac add x := refine (w_rnd_add u Hu1 rnd HR x _ _ _ _ _ _ _ _ _ _); [| |lia].
Ltac weak x := apply w_weak with x; [assumption| |lia].
Lemma propagator_within ga : within u (2 * e + m + 10) (rnd (rnd (D * q_exp lm (- fc)) * rnd (rnd (rnd 1 + fc) + rnd (pw 2 * ga)))) (D * propagator_1loop D f ga) (D * propagator_1loop D f (Rabs ga)).
Proof.
  unfold propagator_1loop. rewrite <- !Rmult_assoc. mul (e + m + 1)%nat (e + 8)%nat.
  - mul 0%nat (e + m)%nat; [apply D_within|apply ex_within].
  - add (e + 7)%nat; [weak 7%nat; apply onef_within; [exact HF|apply f_pos]|]. weak (e + 1)%nat. mul e 0%nat; [apply pw_within; lia|apply w_exact; assumption].
Qed.
Lemma row_1loop_within ga gb pl ptt : within u (4 * e + 2 * m + 23) (pk_1loop_row (N := Q) D [k; s; ga; gb; pl; ptt]) (regpt_1loop D k s ga gb pl ptt) (regpt_1loop D k s (Rabs ga) (Rabs gb) (Rabs pl) (Rabs ptt)).
Proof.
  change (pk_1loop_row (N := Q) D [k; s; ga; gb; pl; ptt]) with
    (rnd (rnd (rnd (rnd (rnd (D * q_exp lm (- fc)) * rnd (rnd (rnd 1 + fc) + rnd (pw 2 * ga))) * rnd (rnd (D * q_exp lm (- fc)) * rnd (rnd (rnd 1 + fc) + rnd (pw 2 * gb)))) * pl) + rnd (rnd (pw 4 * q_exp lm (rnd (- rnd 2 * fc))) * ptt))).
  unfold regpt_1loop. fold f. cbv zeta.
  replace (D ^ 2 * pl * propagator_1loop D f ga * propagator_1loop D f gb) with (D * propagator_1loop D f ga * (D * propagator_1loop D f gb) * pl) by ring.
  replace (D ^ 2 * Rabs pl * propagator_1loop D f (Rabs ga) * propagator_1loop D f (Rabs gb)) with (D * propagator_1loop D f (Rabs ga) * (D * propagator_1loop D f (Rabs gb)) * Rabs pl) by ring.
  add (4 * e + 2 * m + 22)%nat.
  - mul (4 * e + 2 * m + 21)%nat 0%nat; [|apply w_exact; assumption]. mul (2 * e + m + 10)%nat (2 * e + m + 10)%nat; apply propagator_within.
  - weak (2 * e + m + 2)%nat. mul (2 * e + m + 1)%nat 0%nat; [|apply w_exact; assumption]. mul e (e + m)%nat; [apply pw_within; lia|apply ex2_within].
Qed.
Lemma half_within : within u 1 (rnd (IZR 5 / IZR (10 ^ 1))) (1 / 2) (1 / 2).
Proof. apply w_close'; [assumption|apply half_close|lra]. Qed.
Lemma fc_within : within u 6 fc f f.
Proof. apply w_close'; [assumption|exact HF|apply f_pos]. Qed.
Lemma onef' : within u 7 (rnd (rnd 1 + fc)) (1 + f) (1 + f).
Proof. apply onef_within; [exact HF|apply f_pos]. Qed.
Lemma propagator2_within ga ga2 : within u (2 * e + m + 20)
  (rnd (rnd (D * q_exp lm (- fc)) * rnd (rnd (rnd (rnd (rnd 1 + fc) + rnd (rnd (IZR 5 / IZR (10 ^ 1)) * rnd (fc * fc))) + rnd (rnd (pw 2 * ga) * rnd (rnd 1 + fc))) + rnd (pw 4 * ga2))))
  (D * propagator_2loop D f ga ga2) (D * propagator_2loop D f (Rabs ga) (Rabs ga2)).
Proof.
  unfold propagator_2loop. rewrite <- !Rmult_assoc. mul (e + m + 1)%nat (e + 18)%nat.
  - mul 0%nat (e + m)%nat; [apply D_within|apply ex_within].
  - add (e + 17)%nat; [|weak (e + 1)%nat; mul e 0%nat; [apply pw_within; lia|apply w_exact; assumption]].
    add (e + 16)%nat; [weak 16%nat|weak (e + 9)%nat].
    + add 15%nat; [weak 7%nat; apply onef'|]. replace (f ^ 2 / 2) with (1 / 2 * (f * f)) by field. mul 1%nat 13%nat; [apply half_within|]. mul 6%nat 6%nat; apply fc_within.
    + mul (e + 1)%nat 7%nat; [|apply onef']. mul e 0%nat; [apply pw_within; lia|apply w_exact; assumption].
Qed.
Lemma row_2loop_within ga ga2 gb gb2 pl ptt t1 oo g3 : within u (4 * e + 2 * m + 44) (pk_2loop_row (N := Q) D [k; s; ga; ga2; gb; gb2; pl; ptt; t1; oo; g3]) (regpt_2loop D k s ga ga2 gb gb2 pl ptt t1 oo g3)
  (regpt_2loop D k s (Rabs ga) (Rabs ga2) (Rabs gb) (Rabs gb2) (Rabs pl) (Rabs ptt) (Rabs t1) (Rabs oo) (Rabs g3)).
Proof.
  pose (reg g g2 := rnd (rnd (D * q_exp lm (- fc)) * rnd (rnd (rnd (rnd (rnd 1 + fc) + rnd (rnd (IZR 5 / IZR (10 ^ 1)) * rnd (fc * fc))) + rnd (rnd (pw 2 * g) * rnd (rnd 1 + fc))) + rnd (pw 4 * g2)))).
  change (pk_2loop_row (N := Q) D [k; s; ga; ga2; gb; gb2; pl; ptt; t1; oo; g3]) with
    (rnd (rnd (rnd (rnd (reg ga ga2 * reg gb gb2) * pl) +
      rnd (rnd (pw 4 * q_exp lm (rnd (- rnd 2 * fc))) * rnd (rnd (rnd (ptt * rnd (rnd (rnd 1 + fc) * rnd (rnd 1 + fc))) + rnd (rnd (t1 * pw 2) * rnd (rnd 1 + fc))) + rnd (oo * pw 4)))) +
      rnd (rnd (pw 6 * q_exp lm (rnd (- rnd 2 * fc))) * g3))).
  unfold regpt_2loop. fold f. cbv zeta.
  replace (D ^ 2 * pl * propagator_2loop D f ga ga2 * propagator_2loop D f gb gb2) with (D * propagator_2loop D f ga ga2 * (D * propagator_2loop D f gb gb2) * pl) by ring.
  replace (D ^ 2 * Rabs pl * propagator_2loop D f (Rabs ga) (Rabs ga2) * propagator_2loop D f (Rabs gb) (Rabs gb2)) with (D * propagator_2loop D f (Rabs ga) (Rabs ga2) * (D * propagator_2loop D f (Rabs gb) (Rabs gb2)) * Rabs pl) by ring.
  replace (ptt * (1 + f) ^ 2 + D ^ 2 * t1 * (1 + f) + D ^ 4 * oo) with (ptt * ((1 + f) * (1 + f)) + t1 * D ^ 2 * (1 + f) + oo * D ^ 4) by ring.
  replace (Rabs ptt * (1 + f) ^ 2 + D ^ 2 * Rabs t1 * (1 + f) + D ^ 4 * Rabs oo) with (Rabs ptt * ((1 + f) * (1 + f)) + Rabs t1 * D ^ 2 * (1 + f) + Rabs oo * D ^ 4) by ring.
  assert (PE : forall n, (n <= 8)%nat -> within u (2 * e + m + 1) (rnd (pw n * q_exp lm (rnd (- rnd 2 * fc)))) (D ^ n * exp (- (2 * f))) (D ^ n * exp (- (2 * f)))).
  { intros n Hn. mul e (e + m)%nat; [apply pw_within, Hn|apply ex2_within]. }
  add (4 * e + 2 * m + 43)%nat; [add (4 * e + 2 * m + 42)%nat|].
  - mul (4 * e + 2 * m + 41)%nat 0%nat; [|apply w_exact; assumption]. mul (2 * e + m + 20)%nat (2 * e + m + 20)%nat; apply propagator2_within.
  - weak (3 * e + m + 20)%nat. mul (2 * e + m + 1)%nat (e + 18)%nat; [apply PE; lia|]. add (e + 17)%nat; [add (e + 16)%nat; [weak 16%nat|weak (e + 9)%nat]|weak (e + 1)%nat].
    + mul 0%nat 15%nat; [apply w_exact; assumption|]. mul 7%nat 7%nat; apply onef'.
    + mul (e + 1)%nat 7%nat; [|apply onef']. mul 0%nat e; [apply w_exact; assumption|apply pw_within; lia].
    + mul 0%nat e; [apply w_exact; assumption|apply pw_within; lia].
  - weak (2 * e + m + 2)%nat. mul (2 * e + m + 1)%nat 0%nat; [apply PE; lia|apply w_exact; assumption].
Qed.
(** A damped bias spectrum: no difference is formed, so that the error is relative to the value. *)
Lemma damped_close (x : R) : close u (3 * e + m + 17)
  (rnd (rnd (pw 4 * rnd (q_exp lm (rnd (- rnd 2 * fc)) * q_pow lm (rnd (rnd 1 + fc)) (rnd 2))) * x)) (D ^ 4 * (exp (- (2 * f)) * (1 + f) ^ 2) * x).
Proof.
  assert (P4 : close u e (pw 4) (D ^ 4)) by (apply pow_close_; lia).
  assert (C1 : close u 7 (rnd (rnd 1 + fc)) (1 + f)).
  { rewrite one_close. apply rnd_step; [assumption|assumption|]. apply close_add; [assumption|apply close_refl; assumption|exact HF|lra|apply f_pos]. }
  assert (P2 : close u (e + 14) (q_pow lm (rnd (rnd 1 + fc)) (rnd 2)) ((1 + f) ^ 2)).
  { apply close_trans with (rnd (rnd 1 + fc) ^ 2); [assumption|exact (pow_close_ _ 2 ltac:(lia))|]. cbn [pow]. rewrite !Rmult_1_r. exact (close_mul u Hu1 7 7 _ _ _ _ C1 C1). }
  assert (R1 : close u (2 * e + m + 15) (rnd (q_exp lm (rnd (- rnd 2 * fc)) * q_pow lm (rnd (rnd 1 + fc)) (rnd 2))) (exp (- (2 * f)) * (1 + f) ^ 2)).
  { apply (rnd_step' u Hu1 rnd HR ((e + m) + (e + 14))); [|lia]. apply close_mul; [assumption|apply (exp2_close fc f HF f_pos Hm)|exact P2]. }
  apply (rnd_step' u Hu1 rnd HR (3 * e + m + 16 + 0)); [|lia]. apply close_mul; [assumption| |apply close_refl; assumption].
  apply (rnd_step' u Hu1 rnd HR (e + (2 * e + m + 15))); [|lia]. apply close_mul; assumption.
Qed.
End Spectra.
(** The C assembly, without growth factor *)
Section SpectraC.
Variables (k s : R).
Hypotheses (Hs : 0 <= s).
Let f := damping 1 k s.
Hypotheses (Hm : 16 * f <= INR m).
Let Hf : 0 <= f. Proof. apply f_pos; lra. Qed.
Let fc := rnd (rnd (rnd (rnd (IZR 5 / IZR (10 ^ 1)) * k) * k) * s).
Let HF : close u 6 fc f. Proof. apply factor_close_C. Qed.
Ltac mul x y := refine (w_rnd_mul u Hu1 rnd HR x y _ _ _ _ _ _ _ _ _ _); [| |lia].
Ltac add x := refine (w_rnd_add u Hu1 rnd HR x _ _ _ _ _ _ _ _ _ _); [| |lia].
Ltac weak x := apply w_weak with x; [assumption| |lia].
Let ex := q_exp lm (- fc).
Lemma exC_within : within u (e + m) ex (exp (- f)) (exp (- f)).
Proof. apply w_close'; [assumption|apply (exp1_close fc f HF Hf Hm)|left; apply exp_pos]. Qed.
Lemma exCC_within : within u (2 * e + 2 * m + 1) (rnd (ex * ex)) (exp (- (2 * f))) (exp (- (2 * f))).
Proof. replace (exp (- (2 * f))) with (exp (- f) * exp (- f)) by (rewrite <- exp_plus; f_equal; ring). mul (e + m)%nat (e + m)%nat; apply exC_within. Qed.
Lemma onefC : within u 7 (rnd (rnd 1 + fc)) (1 + f) (1 + f).
Proof. apply onef_within; [exact HF|exact Hf]. Qed.
Lemma fcC : within u 6 fc f f.
Proof. apply w_close'; [assumption|exact HF|exact Hf]. Qed.
Lemma pow1_ n : 1 ^ n = 1. Proof. apply pow1. Qed.
Lemma c_row_1loop_within ga gb pl ptt : within u (2 * e + 2 * m + 23) (c_spectrum_1loop_row (N := Q) k s ga gb pl ptt) (regpt_1loop 1 k s ga gb pl ptt) (regpt_1loop 1 k s (Rabs ga) (Rabs gb) (Rabs pl) (Rabs ptt)).
Proof.
  pose (reg g := rnd (ex * rnd (rnd (rnd 1 + fc) + g))).
  change (c_spectrum_1loop_row (N := Q) k s ga gb pl ptt) with (rnd (rnd (rnd (reg ga * reg gb) * pl) + rnd (rnd (ex * ex) * ptt))).
  assert (RG : forall g, within u (e + m + 9) (reg g) (propagator_1loop 1 f g) (propagator_1loop 1 f (Rabs g))).
  { intros g. unfold propagator_1loop. rewrite !pow1_, !Rmult_1_l. mul (e + m)%nat 8%nat; [apply exC_within|]. add 7%nat; [apply onefC|weak 0%nat; apply w_exact; assumption]. }
  unfold regpt_1loop. fold f. cbv zeta. rewrite !pow1_, !Rmult_1_l.
  replace (pl * propagator_1loop 1 f ga * propagator_1loop 1 f gb) with (propagator_1loop 1 f ga * propagator_1loop 1 f gb * pl) by ring.
  replace (Rabs pl * propagator_1loop 1 f (Rabs ga) * propagator_1loop 1 f (Rabs gb)) with (propagator_1loop 1 f (Rabs ga) * propagator_1loop 1 f (Rabs gb) * Rabs pl) by ring.
  add (2 * e + 2 * m + 22)%nat; [weak (2 * e + 2 * m + 20)%nat|weak (2 * e + 2 * m + 2)%nat].
  - mul (2 * e + 2 * m + 19)%nat 0%nat; [|apply w_exact; assumption]. mul (e + m + 9)%nat (e + m + 9)%nat; apply RG.
  - mul (2 * e + 2 * m + 1)%nat 0%nat; [apply exCC_within|apply w_exact; assumption].
Qed.
Lemma c_row_2loop_within ga ga2 gb gb2 pl ptt t1 oo g3 : within u (2 * e + 2 * m + 44) (c_spectrum_2loop_row (N := Q) k s ga ga2 gb gb2 pl ptt t1 oo g3) (regpt_2loop 1 k s ga ga2 gb gb2 pl ptt t1 oo g3)
  (regpt_2loop 1 k s (Rabs ga) (Rabs ga2) (Rabs gb) (Rabs gb2) (Rabs pl) (Rabs ptt) (Rabs t1) (Rabs oo) (Rabs g3)).
Proof.
  pose (reg g g2 := rnd (ex * rnd (rnd (rnd (rnd (rnd 1 + fc) + rnd (rnd (rnd (IZR 5 / IZR (10 ^ 1)) * fc) * fc)) + rnd (g * rnd (rnd 1 + fc))) + g2))).
  change (c_spectrum_2loop_row (N := Q) k s ga ga2 gb gb2 pl ptt t1 oo g3) with
    (rnd (rnd (rnd (rnd (reg ga ga2 * reg gb gb2) * pl) + rnd (rnd (ex * ex) * rnd (rnd (rnd (rnd (ptt * rnd (rnd 1 + fc)) * rnd (rnd 1 + fc)) + rnd (t1 * rnd (rnd 1 + fc))) + oo))) + rnd (rnd (ex * ex) * g3))).
  assert (RG : forall g g2, within u (e + m + 19) (reg g g2) (propagator_2loop 1 f g g2) (propagator_2loop 1 f (Rabs g) (Rabs g2))).
  { intros g g2. unfold propagator_2loop. rewrite !pow1_, !Rmult_1_l. mul (e + m)%nat 18%nat; [apply exC_within|]. add 17%nat; [|weak 0%nat; apply w_exact; assumption].
    add 16%nat; [|weak 8%nat; mul 0%nat 7%nat; [apply w_exact; assumption|apply onefC]]. add 15%nat; [weak 7%nat; apply onefC|]. replace (f ^ 2 / 2) with (1 / 2 * f * f) by field. mul 8%nat 6%nat; [|apply fcC].
    mul 1%nat 6%nat; [apply half_within; lra|apply fcC]. }
  unfold regpt_2loop. fold f. cbv zeta. rewrite !pow1_, !Rmult_1_l.
  replace (pl * propagator_2loop 1 f ga ga2 * propagator_2loop 1 f gb gb2) with (propagator_2loop 1 f ga ga2 * propagator_2loop 1 f gb gb2 * pl) by ring.
  replace (Rabs pl * propagator_2loop 1 f (Rabs ga) (Rabs ga2) * propagator_2loop 1 f (Rabs gb) (Rabs gb2)) with (propagator_2loop 1 f (Rabs ga) (Rabs ga2) * propagator_2loop 1 f (Rabs gb) (Rabs gb2) * Rabs pl) by ring.
  replace (ptt * (1 + f) ^ 2) with (ptt * (1 + f) * (1 + f)) by ring. replace (Rabs ptt * (1 + f) ^ 2) with (Rabs ptt * (1 + f) * (1 + f)) by ring.
  add (2 * e + 2 * m + 43)%nat; [add (2 * e + 2 * m + 42)%nat; [weak (2 * e + 2 * m + 40)%nat|weak (2 * e + 2 * m + 20)%nat]|weak (2 * e + 2 * m + 2)%nat].
  - mul (2 * e + 2 * m + 39)%nat 0%nat; [|apply w_exact; assumption]. mul (e + m + 19)%nat (e + m + 19)%nat; apply RG.
  - mul (2 * e + 2 * m + 1)%nat 18%nat; [apply exCC_within|]. add 17%nat; [|weak 0%nat; apply w_exact; assumption]. add 16%nat; [|weak 8%nat; mul 0%nat 7%nat; [apply w_exact; assumption|apply onefC]].
    mul 8%nat 7%nat; [|apply onefC]. mul 0%nat 7%nat; [apply w_exact; assumption|apply onefC].
  - mul (2 * e + 2 * m + 1)%nat 0%nat; [apply exCC_within|apply w_exact; assumption].
Qed.
End SpectraC.
End Rows.
