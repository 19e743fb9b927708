(** ProofTotal: the 1-loop spectrum assembled from the columns of a run against the RegPT formula of the sampled spectrum. *)
From Coq Require Import Reals Lra Lia List ZArith String.
From Coquelicot Require Import Coquelicot.
From Verif Require Import Base Num BaseFacts Common Kernels Integrals Registry Threads PyTerms Spec SpecPT SpecQuad SpecKernels SpecLoops SpecIntegrals SpecThreads SpecScratch SpecDefined SpecColumns SpecConv SpecPy SpecScale SpecSym SpecSamples SpecTotal
  ProofKernels ProofCommon3 ProofScratch3 ProofPy ProofPy2 ProofPositive2 ProofQuad2 ProofSamples3 ProofSamples5 ProofSamples6.
Import ListNotations.
Local Open Scope R_scope.

Lemma slope_le (h h' : R -> R) L : 0 <= L -> (forall t, 0 <= t -> is_derive h t (h' t) /\ Rabs (h' t) <= L) -> forall f g, 0 <= f -> 0 <= g -> Rabs (h f - h g) <= L * Rabs (f - g).
Proof.
  intros HL H f g Hf Hg. destruct (MVT_gen h g f h') as (c & Hc & E).
  - intros x Hx. apply H. pose proof (Rmin_glb g f 0 ltac:(lra) ltac:(lra)). lra.
  - intros x Hx. apply continuity_pt_filterlim. apply (ex_derive_continuous h x). exists (h' x). apply H. pose proof (Rmin_glb g f 0 ltac:(lra) ltac:(lra)). lra.
  - rewrite E, Rabs_mult. apply Rmult_le_compat_r; [apply Rabs_pos|]. apply H. pose proof (Rmin_glb g f 0 ltac:(lra) ltac:(lra)). lra.
Qed.
Lemma exp_neg_le f : 0 <= f -> exp (- f) <= 1.
Proof. intros H. rewrite <- exp_0. apply exp_le. lra. Qed.
Lemma exp_neg_lin f : 0 <= f -> exp (- f) * (1 + f) <= 1.
Proof. intros H. pose proof (exp_ineq1_le f). pose proof (exp_pos (- f)). replace 1 with (exp (- f) * exp f) at 2 by (rewrite <- exp_plus, Rplus_opp_l; apply exp_0). apply Rmult_le_compat_l; lra. Qed.
Lemma exp_lip1 f g : 0 <= f -> 0 <= g -> Rabs (exp (- f) - exp (- g)) <= Rabs (f - g).
Proof.
  intros Hf Hg. rewrite <- (Rmult_1_l (Rabs (f - g))). apply (slope_le (fun t => exp (- t)) (fun t => - exp (- t))); [lra| |assumption|assumption]. intros t Ht. split; [auto_derive; [exact I|ring]|].
  rewrite Rabs_Ropp, Rabs_right by (apply Rle_ge, Rlt_le, exp_pos). apply exp_neg_le, Ht.
Qed.
Lemma exp_lip2 f g : 0 <= f -> 0 <= g -> Rabs (exp (- (2 * f)) - exp (- (2 * g))) <= 2 * Rabs (f - g).
Proof.
  intros Hf Hg. replace (2 * Rabs (f - g)) with (Rabs (2 * f - 2 * g)); [apply exp_lip1; lra|]. replace (2 * f - 2 * g) with (2 * (f - g)) by ring. rewrite Rabs_mult, Rabs_right; lra.
Qed.
Lemma exp_lip_lin f g : 0 <= f -> 0 <= g -> Rabs (exp (- f) * (1 + f) - exp (- g) * (1 + g)) <= Rabs (f - g).
Proof.
  intros Hf Hg. rewrite <- (Rmult_1_l (Rabs (f - g))). apply (slope_le (fun t => exp (- t) * (1 + t)) (fun t => - (t * exp (- t)))); [lra| |assumption|assumption].
  intros t Ht. split; [auto_derive; [exact I|ring]|]. rewrite Rabs_Ropp. pose proof (exp_neg_lin t Ht). pose proof (exp_pos (- t)). rewrite Rabs_right; nra.
Qed.
Lemma propagator_close D f f' g g' e ef : 0 <= f -> 0 <= f' -> Rabs (f - f') <= ef -> Rabs (g - g') <= e ->
  Rabs (propagator_1loop D f g - propagator_1loop D f' g') <= propagator_err D g' e ef /\ Rabs (propagator_1loop D f' g') <= propagator_max D g'.
Proof.
  intros Hf Hf' E1 E2. unfold propagator_1loop, propagator_err, propagator_max. pose proof (pow2_ge_0 D) as HD. set (d := D ^ 2) in *. split.
  - replace (exp (- f) * (1 + f + d * g) - exp (- f') * (1 + f' + d * g')) with ((exp (- f) * (1 + f) - exp (- f') * (1 + f')) + d * (exp (- f) * (g - g') + g' * (exp (- f) - exp (- f')))) by ring.
    eapply Rle_trans; [apply Rabs_triang|]. apply Rplus_le_compat; [eapply Rle_trans; [apply exp_lip_lin; assumption|exact E1]|].
    rewrite Rabs_mult, (Rabs_right d) by lra. apply Rmult_le_compat_l; [exact HD|]. eapply Rle_trans; [apply Rabs_triang|]. apply Rplus_le_compat.
    + rewrite Rabs_mult, (Rabs_right (exp (- f))) by (apply Rle_ge, Rlt_le, exp_pos). pose proof (exp_neg_le f Hf). pose proof (Rabs_pos (g - g')). pose proof (exp_pos (- f)). nra.
    + rewrite Rabs_mult. apply Rmult_le_compat_l; [apply Rabs_pos|]. eapply Rle_trans; [apply exp_lip1; assumption|exact E1].
  - replace (exp (- f') * (1 + f' + d * g')) with (exp (- f') * (1 + f') + d * (exp (- f') * g')) by ring. eapply Rle_trans; [apply Rabs_triang|]. pose proof (exp_pos (- f')). apply Rplus_le_compat.
    + rewrite Rabs_right; [apply exp_neg_lin, Hf'|]. apply Rle_ge, Rmult_le_pos; lra.
    + rewrite Rabs_mult, (Rabs_right d) by lra. apply Rmult_le_compat_l; [exact HD|]. rewrite Rabs_mult, (Rabs_right (exp _)) by lra. pose proof (exp_neg_le f' Hf'). pose proof (Rabs_pos g'). nra.
Qed.
Lemma regpt_close D k s s' ga ga' gb gb' P P' x x' es e1 ep e2 : 0 <= s -> 0 <= s' -> Rabs (s - s') <= es -> Rabs (ga - ga') <= e1 -> Rabs (gb - gb') <= e1 -> Rabs (P - P') <= ep -> Rabs (x - x') <= e2 ->
  Rabs (regpt_1loop D k s ga gb P x - regpt_1loop D k s' ga' gb' P' x') <= regpt_1loop_err D k ga' gb' P' x' es e1 ep e2.
Proof.
  intros Hs Hs' Es Ea Eb Ep Ex. unfold regpt_1loop, regpt_1loop_err. cbv zeta. set (ef := D ^ 2 * k ^ 2 * es / 2).
  pose proof (pow2_ge_0 D) as HD. pose proof (pow2_ge_0 k) as Hk. assert (HDk : 0 <= D ^ 2 * k ^ 2) by (apply Rmult_le_pos; assumption).
  assert (Hf : 0 <= damping D k s) by (unfold damping; apply Rmult_le_pos; [apply Rmult_le_pos; assumption|lra]).
  assert (Hf' : 0 <= damping D k s') by (unfold damping; apply Rmult_le_pos; [apply Rmult_le_pos; assumption|lra]).
  assert (Ef : Rabs (damping D k s - damping D k s') <= ef).
  { unfold damping, ef. replace (D ^ 2 * k ^ 2 * s / 2 - D ^ 2 * k ^ 2 * s' / 2) with (D ^ 2 * k ^ 2 * (s - s') / 2) by field. unfold Rdiv. rewrite !Rabs_mult, (Rabs_right (/ 2)) by lra. rewrite <- Rabs_mult, (Rabs_right (D ^ 2 * k ^ 2)) by lra.
    apply Rmult_le_compat_r; [lra|]. apply Rmult_le_compat_l; assumption. }
  set (f := damping D k s) in *. set (f' := damping D k s') in *.
  destruct (propagator_close D f f' ga ga' e1 ef Hf Hf' Ef Ea) as (A1 & A2). destruct (propagator_close D f f' gb gb' e1 ef Hf Hf' Ef Eb) as (B1 & B2).
  set (a := propagator_1loop D f ga) in *. set (a' := propagator_1loop D f' ga') in *. set (b := propagator_1loop D f gb) in *. set (b' := propagator_1loop D f' gb') in *.
  set (da := propagator_err D ga' e1 ef) in *. set (db := propagator_err D gb' e1 ef) in *. set (ma := propagator_max D ga') in *. set (mb := propagator_max D gb') in *.
  assert (A3 : Rabs a <= ma + da) by (replace a with (a' + (a - a')) by ring; eapply Rle_trans; [apply Rabs_triang|apply Rplus_le_compat; assumption]).
  assert (B3 : Rabs b <= mb + db) by (replace b with (b' + (b - b')) by ring; eapply Rle_trans; [apply Rabs_triang|apply Rplus_le_compat; assumption]).
  replace (D ^ 2 * P * a * b + D ^ 4 * exp (- (2 * f)) * x - (D ^ 2 * P' * a' * b' + D ^ 4 * exp (- (2 * f')) * x')) with
    (D ^ 2 * (P' * ((a - a') * b + a' * (b - b')) + (P - P') * (a * b)) + D ^ 4 * (exp (- (2 * f)) * (x - x') + (exp (- (2 * f)) - exp (- (2 * f'))) * x')) by ring.
  assert (HD4 : 0 <= D ^ 4) by (replace (D ^ 4) with (D ^ 2 * D ^ 2) by ring; apply Rmult_le_pos; exact HD).
  eapply Rle_trans; [apply Rabs_triang|]. apply Rplus_le_compat.
  - rewrite Rabs_mult, (Rabs_right (D ^ 2)) by lra. apply Rmult_le_compat_l; [exact HD|]. eapply Rle_trans; [apply Rabs_triang|]. apply Rplus_le_compat.
    + rewrite Rabs_mult. apply Rmult_le_compat_l; [apply Rabs_pos|]. eapply Rle_trans; [apply Rabs_triang|]. rewrite !Rabs_mult. apply Rplus_le_compat; apply Rmult_le_compat; try apply Rabs_pos; assumption.
    + rewrite !Rabs_mult. apply Rmult_le_compat; [apply Rabs_pos|apply Rmult_le_pos; apply Rabs_pos|exact Ep|]. apply Rmult_le_compat; try apply Rabs_pos; assumption.
  - rewrite Rabs_mult, (Rabs_right (D ^ 4)) by lra. apply Rmult_le_compat_l; [exact HD4|]. eapply Rle_trans; [apply Rabs_triang|]. rewrite !Rabs_mult. apply Rplus_le_compat.
    + rewrite (Rabs_right (exp _)) by (apply Rle_ge, Rlt_le, exp_pos). pose proof (exp_neg_le (2 * f) ltac:(lra)). pose proof (exp_pos (- (2 * f))). pose proof (Rabs_pos (x - x')). nra.
    + apply Rmult_le_compat_r; [apply Rabs_pos|]. eapply Rle_trans; [apply exp_lip2; assumption|]. lra.
Qed.
Lemma samples_fewer P n m M h K Pv : (m <= n)%nat -> samples P n M h K Pv -> samples P m M h K Pv.
Proof.
  intros Hm []. constructor; try assumption; [|intros j t Hj; apply sm_bound; lia]. intros j t Hj. apply sm_smooth. lia.
Qed.
Lemma Forall2_at {A B : Type} (R : A -> B -> Prop) a b (l : list A) (l' : list B) : Forall2 R l l' -> forall i, (i < List.length l)%nat -> R (nth i l a) (nth i l' b).
Proof. induction 1; intros i Hi; cbn in Hi; [lia|]. destruct i; [assumption|]. cbn. apply IHForall2. lia. Qed.
Lemma total_error fuel st suave1 suave12 a b pkl dt ptt ks ps ss vals ik q1 q2 p1 p2 lam M1 N lam2 B C delta P M h K Pv D : let d := D_1loop a b in
  samples P 5 M h K Pv -> (3 <= zlen K < 2 ^ 62)%Z -> (forall m, (3 <= m <= 5)%nat -> poly_error M h m <= delta) -> 0 <= delta <= 1 -> (forall q, at_ K 0 <= q <= at_ K (List.length K - 1) -> 0 <= P 0%nat q) ->
  pkl = mk_table (N := RNum) K Pv -> regular_run st pkl d -> computes (N := RNum) fuel st suave1 suave12 d pkl dt ptt ks ps ss vals ->
  let n1 := pr_n (s_prec st "gamma1_1loop_q") in let n2 := pr_n (s_prec st "gamma2_tree_q") in let m := pr_n (s_prec st "gamma2_tree_mu") in let uv := s_cutoff st (cutoff_of d) in let k := k_ (N := RNum) ks ik in
  q_range (N := RNum) (s_prec st "gamma1_1loop_q") pkl = Ok (q1, q2) -> 0 < q1 < q2 -> at_ K 0 <= q1 -> q2 <= at_ K (List.length K - 1) ->
  q_range (N := RNum) (s_prec st "gamma2_tree_q") pkl = Ok (p1, p2) -> 0 < p1 < p2 -> at_ K 0 <= p1 -> p2 <= at_ K (List.length K - 1) ->
  ascending ks -> (0 <= ik < zlen ks)%Z -> 0 < k -> at_ K 0 <= k <= at_ K (List.length K - 1) -> 0 <= uv -> at_ K 0 <= k * uv ->
  0 <= lam -> (forall t, bounded_lipschitz (fun s => prop_exact t (exp s / k) * P 0%nat (exp s)) (ln q1) (ln q2) lam M1) -> (forall t q, q1 <= q <= q2 -> Rabs (prop_exact t (q / k)) <= N) ->
  0 <= lam2 -> 0 <= B -> 0 <= C -> smooth true (p1 / k) (p2 / k) (gamma2_integrand (P 0%nat) (is_theta a) (is_theta b) k) lam2 B -> stable true k p1 p2 (fun F => gamma2_integrand F (is_theta a) (is_theta b) k) (P 0%nat) C ->
  let c := Rmin (k * uv) (at_ K (List.length K - 1)) in
  let ga := exact_integral (P 0%nat) (is_theta a) k q1 q2 in let gb := exact_integral (P 0%nat) (is_theta b) k q1 q2 in let x := gamma2_continuum (P 0%nat) (is_theta a) (is_theta b) k p1 p2 in
  exists out, assembled d (columns_of d ks ps ss vals) D None = Ok out /\ List.length out = List.length ks /\
    Rabs (at_ out (Z.to_nat ik) - regpt_1loop D k (RInt (P 0%nat) (at_ K 0) c / (6 * PI ^ 2)) ga gb (P 0%nat k) x) <=
    regpt_1loop_err D k ga gb (P 0%nat k) x ((c - at_ K 0) * (M 2%nat * h ^ 2 / 8) / (6 * PI ^ 2)) (propagator_bound n1 k q1 q2 lam M1 (M 0%nat) + propagator_change n1 k q1 q2 N delta) delta
      (k ^ 3 / (2 * PI ^ 2) * (mode_bound n2 m 3 k p1 p2 lam2 B + mode_change_bound n2 m 3 k p1 p2 (C * delta))).
Proof.
  intros d HS HK Hd Hdl Hpos HT HR HC n1 n2 m uv k Q1 Q2 Q3 Q4 R1 R2 R3 R4 Hks Hik Hk Hkr Huv Hkuv Hlam HL HN Hlam2 HB HCC HSm HSt c ga gb x.
  pose proof (sampled_gamma1 fuel st suave1 suave12 a b d pkl dt ptt ks ps ss vals ik q1 q2 lam M1 N delta P M h K Pv HS HK Hd HT Q3 Q4 (or_introl eq_refl) HR Q1 Q2 HC Hik Hk Hlam HL HN) as (G1 & G2). fold n1 k ga gb in G1, G2. cbn [d] in G2.
  pose proof (sampled_gamma2 fuel st suave1 suave12 a b d pkl dt ptt ks ps ss vals ik p1 p2 lam2 B C delta P M h K Pv HS HK Hd Hdl HT R3 R4 (or_introl eq_refl) HR R1 R2 HC Hik Hk Hlam2 HB HCC HSm HSt) as G3. fold n2 m k x in G3. cbn [d] in G3.
  assert (LK : List.length Pv = List.length K) by apply HS. assert (IK : increasing K) by apply HS.
  pose proof HC as (F1 & F2 & _). rewrite (proj2 (rr_cubic _ _ _ HR)) in F1. rewrite HT in F1, F2. fold uv in F2. change (T RNum) with R in *.
  destruct (sampled_variance P M h K Pv ks uv (samples_fewer P 5 2 M h K Pv ltac:(lia) HS) ltac:(lia) Hks Huv) as (vs & E & F3). rewrite E in F2. injection F2 as <-.
  assert (PP : forall i, (i < List.length K)%nat -> 0 <= at_ Pv i).
  { intros i Hi. rewrite (sm_values _ _ _ _ _ _ HS i Hi). apply Hpos. split; [destruct i; [lra|left; apply IK; lia]|]. destruct (Nat.eq_dec i (List.length K - 1)) as [->|]; [lra|left; apply IK; lia]. }
  destruct (sigmad2_mono_final K Pv ks uv LK ltac:(lia) IK PP Hks Huv vs E) as (Hnn & _).
  pose proof (find_pk_length (N := RNum) _ _ _ _ F1) as L1. change (T RNum) with R in *. assert (L2 : List.length vs = List.length ks) by (clear - F3; induction F3; cbn; [reflexivity|f_equal; assumption]).
  pose proof (proj1 (lookup_elementwise_R K Pv POLY ks LK ltac:(lia) IK Hks ps) F1) as F4.
  set (i := Z.to_nat ik). assert (Hi : (i < List.length ks)%nat) by (unfold i; unfold zlen in Hik; change (T RNum) with R in *; lia). assert (Ei : ik = Z.of_nat i) by (unfold i; lia).
  assert (Ek : k = nth i ks 0) by reflexivity.
  pose proof (Forall2_at _ 0 0 ks vs F3 i Hi) as S1. rewrite <- Ek in S1. cbv beta zeta in S1. specialize (S1 Hkuv). fold c in S1.
  pose proof (Forall2_at _ 0 0 ks ps F4 i Hi) as S2. rewrite <- Ek in S2. cbv beta in S2. apply (F_of K Pv) in S2.
  pose proof (lookup_near P M h K Pv delta k HS HK Hd Hkr) as S3. rewrite S2 in S3.
  destruct (assembled_ok_1 a b ks ps vs vals D L1 L2) as (out & EO). exists out. split; [exact EO|]. apply entry_1loop in EO as (LO & EO). split; [exact LO|].
  rewrite (EO i Hi : at_ out i = _). cbv zeta. cbn [sig_of]. rewrite <- Ei, <- Ek. rewrite row_1loop_val. apply regpt_close; try assumption.
  - apply Hnn. apply nth_In. rewrite L2. exact Hi.
  - apply Rdiv_le_0_compat; [|pose proof (pow_lt PI 2 PI_RGT_0); lra]. 
    assert (Hc : at_ K 0 <= c) by (unfold c; apply Rmin_glb; [exact Hkuv|exact (Rle_trans _ k _ (proj1 Hkr) (proj2 Hkr))]). assert (Hc2 : c <= at_ K (List.length K - 1)) by (unfold c; apply Rmin_r).
    apply RInt_ge_0; [exact Hc| |intros t Ht; apply Hpos; split; [lra|apply (Rle_trans _ c); [lra|exact Hc2]]].
    apply (ex_RInt_continuous (V := R_CompleteNormedModule)). intros t Ht. rewrite Rmin_left, Rmax_right in Ht by lra. apply (ex_derive_continuous (P 0%nat)). exists (P 1%nat t). apply (sm_smooth _ _ _ _ _ _ HS); [lia|]. split; [lra|apply (Rle_trans _ c); [lra|exact Hc2]].
Qed.
