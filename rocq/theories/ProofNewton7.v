(** ProofNewton7: what the rule makes of an integral. *)
From Coq Require Import Reals Lra Lia List.
From Coquelicot Require Import Coquelicot.
From Verif Require Import Base Num BaseFacts Common Spec SpecQuad Poly Legendre LegendreRoots LegendreSpec ProofGL ProofCommon2 ProofNewton6.
Import ListNotations.
Local Open Scope R_scope.

Lemma rsum_dist n (f g : nat -> R) : Rabs (rsum n f - rsum n g) <= rsum n (fun i => Rabs (f i - g i)).
Proof.
  induction n as [|n IH]; cbn [rsum]; [rewrite Rminus_0_r, Rabs_R0; lra|].
  replace (rsum n f + f n - (rsum n g + g n)) with ((rsum n f - rsum n g) + (f n - g n)) by ring.
  eapply Rle_trans; [apply Rabs_triang|]. lra.
Qed.
Lemma rsum_le n (f g : nat -> R) : (forall i, (i < n)%nat -> f i <= g i) -> rsum n f <= rsum n g.
Proof. induction n as [|n IH]; intros H; cbn [rsum]; [lra|]. pose proof (H n ltac:(lia)). assert (rsum n f <= rsum n g) by (apply IH; intros; apply H; lia). lra. Qed.
Lemma rsum_scal n (f : nat -> R) c : rsum n (fun i => f i * c) = rsum n f * c.
Proof. induction n as [|n IH]; cbn [rsum]; [ring|]. rewrite IH. ring. Qed.
Lemma rsum_eq n (f g : nat -> R) : (forall i, (i < n)%nat -> f i = g i) -> rsum n f = rsum n g.
Proof. induction n as [|n IH]; intros H; cbn [rsum]; [reflexivity|]. rewrite (H n), IH by auto. reflexivity. Qed.
Lemma increasing_nodup zs : increasing zs -> NoDup zs.
Proof.
  intros H. apply (NoDup_nth _ 0). intros i j Hi Hj E.
  destruct (lt_eq_lt_dec i j) as [[Hl|Hl]|Hl]; [|exact Hl|];
    [specialize (H i j ltac:(lia))|specialize (H j i ltac:(lia))]; unfold at_ in H; lra.
Qed.
Lemma int_dist (f g : R -> R) a b If Ig e : a <= b -> is_RInt f a b If -> is_RInt g a b Ig -> (forall t, a <= t <= b -> Rabs (f t - g t) <= e) ->
  Rabs (If - Ig) <= (b - a) * e.
Proof.
  intros Hab Hf Hg H. 
  pose proof (norm_RInt_le_const (V := R_NormedModule) (fun t => minus (f t) (g t)) a b (minus If Ig) e Hab) as HN.
  unfold norm in HN; cbn in HN. unfold abs in HN; cbn in HN. unfold minus, plus, opp in HN; cbn in HN.
  apply HN; [exact H|]. exact (is_RInt_minus (V := R_NormedModule) f g a b If Ig Hf Hg).
Qed.

Lemma gl_quadrature fuel (xmin xmax : R) (x w : list R) n (f : R -> R) (q : poly) (eta M lam I : R) :
  (1 <= n < 2 ^ 62)%Z -> zlen x = n -> zlen w = n -> xmin < xmax -> (length q <= 2 * Z.to_nat n)%nat ->
  (forall t, xmin <= t <= xmax -> Rabs (f t - peval q t) <= eta) ->
  (forall t, xmin <= t <= xmax -> Rabs (f t) <= M) ->
  (forall s t, xmin <= s <= xmax -> xmin <= t <= xmax -> Rabs (f s - f t) <= lam * Rabs (s - t)) ->
  is_RInt f xmin xmax I ->
  forall x' w', nodes_weights_gauss_legendre (N := RNum) fuel xmin xmax x w n = Ok (x', w') ->
  Rabs (quad x' w' f - I) <= (xmax - xmin) * (2 * eta + 2 * (IZR n + 1 / 2) ^ 2 * (3 / 10 ^ 14) * M + lam * ((xmax - xmin) / 9 * (3 / 10 ^ 14))).
Proof.
  intros Hn Hx Hw HX Hq He HM Hl HI x' w' E. set (N := Z.to_nat n) in *. assert (HN : (1 <= N)%nat) by (unfold N; lia).
  destruct (L_is_legendre N) as [P [HP _]].
  destruct (gl_rule fuel xmin xmax x w n P Hn Hx Hw HP x' w' E) as [zs [ds [L1 [L2 [L3 [L4 [Hinc HZ]]]]]]]. fold N in L1, L2, L3, L4, HZ. cbn zeta in HZ.
  destruct (gl_order fuel xmin xmax x w n Hn Hx Hw HX x' w' E) as [_ [_ [_ HO]]]. fold N in HO.
  set (h := (xmax - xmin) / 2) in *. set (m2 := (IZR n + 1 / 2) ^ 2) in *.
  set (v := fun i => (xmax - xmin) / ((1 - at_ zs i * at_ zs i) * at_ ds i * at_ ds i)).
  set (X := fun i => (xmax + xmin) / 2 + h * at_ zs i).
  assert (HG : forall g : poly, (length g <= 2 * N)%nat -> is_RInt (peval g) xmin xmax (rsum N (fun i => v i * peval g (X i)))).
  { intros g Hg. apply (gauss_rule N P zs ds xmin xmax g); try assumption; [apply increasing_nodup; exact Hinc|].
    intros i Hi. destruct (HZ i Hi) as [_ [Z1 [Z2 _]]]. auto. }
  assert (HXi : forall i, (i < N)%nat -> xmin <= X i <= xmax).
  { intros i Hi. destruct (HZ i Hi) as [Z0 _]. unfold X, h.
    assert (0 < (xmax - xmin) / 2 * (1 - at_ zs i)) by (apply Rmult_lt_0_compat; lra).
    assert (0 < (xmax - xmin) / 2 * (1 + at_ zs i)) by (apply Rmult_lt_0_compat; lra). lra. }
  assert (Hv : forall i, (i < N)%nat -> 0 <= v i).
  { intros i Hi. destruct (HZ i Hi) as [Z0 _]. unfold v. 
    assert (0 < 1 - at_ zs i * at_ zs i) by nra. pose proof (Rle_0_sqr (at_ ds i)) as Q. unfold Rsqr in Q. rewrite Rmult_assoc.
    destruct (Req_dec (at_ ds i * at_ ds i) 0) as [E0|E0].
    - rewrite E0, Rmult_0_r. unfold Rdiv. rewrite Rinv_0. lra.
    - apply Rmult_le_pos; [lra|]. left. apply Rinv_0_lt_compat. apply Rmult_lt_0_compat; lra. }
  assert (HV : rsum N v = xmax - xmin).
  { pose proof (HG [1] ltac:(cbn; lia)) as H1.
    assert (H2 : is_RInt (peval [1]) xmin xmax (xmax - xmin)).
    { apply (is_RInt_ext (fun _ => 1)); [intros t _; cbn; ring|]. pose proof (is_RInt_const (V := R_NormedModule) xmin xmax 1) as HC.
      replace (xmax - xmin) with (scal (xmax - xmin) 1) by (unfold scal; cbn; unfold mult; cbn; ring). exact HC. }
    pose proof (is_RInt_unique _ _ _ _ H1) as E1. pose proof (is_RInt_unique _ _ _ _ H2) as E2. rewrite E1 in E2. rewrite <- E2.
    apply rsum_eq. intros i Hi. cbn. ring. }
  (* the rule of the code against the true rule *)
  pose proof epsR_pos as Hep. unfold epsR in Hep. set (eps := 3 / 10 ^ 14) in *.
  assert (Hm2 : 0 <= m2) by (unfold m2; apply pow2_ge_0).
  assert (Hlam : 0 <= lam).
  { pose proof (Hl xmin xmax ltac:(lra) ltac:(lra)) as H1. pose proof (Rabs_pos (f xmin - f xmax)). rewrite (Rabs_minus_sym xmin xmax), (Rabs_right (xmax - xmin)) in H1 by lra.
    apply Rmult_le_reg_r with (xmax - xmin); lra. }
  assert (D1 : Rabs (quad x' w' f - rsum N (fun i => v i * f (X i))) <= (xmax - xmin) * (2 * m2 * eps * M + lam * ((xmax - xmin) / 9 * eps))).
  { assert (EL : @length R x' = N) by exact L3. unfold quad. rewrite EL. eapply Rle_trans; [apply rsum_dist|].
    set (B := 2 * m2 * eps * M + lam * ((xmax - xmin) / 9 * eps)). rewrite <- HV, <- rsum_scal. unfold B. apply rsum_le. intros i Hi. destruct (HZ i Hi) as [_ [_ [_ [Z1 [_ Z3]]]]]. destruct (HO i Hi) as [O1 _].
    fold (v i) in Z3. fold (X i) in Z1. specialize (Hv i Hi). specialize (HXi i Hi). rewrite (Rabs_right (v i)) in Z3 by lra. rewrite (Rabs_right h) in Z1 by (unfold h; lra).
    replace (at_ w' i * f (at_ x' i) - v i * f (X i)) with ((at_ w' i - v i) * f (at_ x' i) + v i * (f (at_ x' i) - f (X i))) by ring.
    eapply Rle_trans; [apply Rabs_triang|]. rewrite !Rabs_mult, (Rabs_right (v i)) by lra. rewrite Rmult_plus_distr_l. apply Rplus_le_compat.
    - replace (v i * (2 * m2 * eps * M)) with (2 * m2 * eps * v i * M) by ring. apply Rmult_le_compat; [apply Rabs_pos|apply Rabs_pos|exact Z3|apply HM; lra].
    - apply Rmult_le_compat_l; [lra|]. eapply Rle_trans; [apply Hl; lra|]. apply Rmult_le_compat_l; [exact Hlam|].
      eapply Rle_trans; [exact Z1|]. unfold h. right. field. }
  assert (D2 : Rabs (rsum N (fun i => v i * f (X i)) - rsum N (fun i => v i * peval q (X i))) <= (xmax - xmin) * eta).
  { eapply Rle_trans; [apply rsum_dist|]. rewrite <- HV, <- rsum_scal. apply rsum_le. intros i Hi. specialize (Hv i Hi). specialize (HXi i Hi).
    replace (v i * f (X i) - v i * peval q (X i)) with (v i * (f (X i) - peval q (X i))) by ring. rewrite Rabs_mult, (Rabs_right (v i)) by lra.
    apply Rmult_le_compat_l; [exact Hv|]. apply He; exact HXi. }
  pose proof (int_dist f (peval q) xmin xmax I _ eta ltac:(lra) HI (HG q Hq) He) as D3.
  rewrite Rabs_minus_sym in D3.
  replace (quad x' w' f - I) with ((quad x' w' f - rsum N (fun i => v i * f (X i))) + ((rsum N (fun i => v i * f (X i)) - rsum N (fun i => v i * peval q (X i))) + (rsum N (fun i => v i * peval q (X i)) - I))) by ring.
  eapply Rle_trans; [apply Rabs_triang|]. eapply Rle_trans; [apply Rplus_le_compat_l, Rabs_triang|]. lra.
Qed.
Lemma square_ex : let f t := t * t in let q := [0; 0; 1] in (length q <= 2 * 2)%nat /\
  (forall t, 0 <= t <= 1 -> Rabs (f t - peval q t) <= 0) /\ (forall t, 0 <= t <= 1 -> Rabs (f t) <= 1) /\
  (forall s t, 0 <= s <= 1 -> 0 <= t <= 1 -> Rabs (f s - f t) <= 2 * Rabs (s - t)) /\ is_RInt f 0 1 (1 / 3).
Proof.
  cbn zeta. split; [cbn; lia|]. split; [|split; [|split]].
  - intros t _. cbn. replace (t * t - _) with 0 by ring. rewrite Rabs_R0. lra.
  - intros t Ht. rewrite Rabs_right; nra.
  - intros s t Hs Ht. replace (s * s - t * t) with ((s + t) * (s - t)) by ring. rewrite Rabs_mult. apply Rmult_le_compat_r; [apply Rabs_pos|]. rewrite Rabs_right; lra.
  - replace (1 / 3) with (minus (1 * (1 * (1 * 1)) / 3) (0 * (0 * (0 * 1)) / 3)) by (unfold minus, plus, opp; cbn; field).
    apply (is_RInt_derive (V := R_CompleteNormedModule) (fun t => t ^ 3 / 3) (fun t => t * t)).
    + intros t _. auto_derive; [exact I|]. field.
    + intros t _. apply (continuous_mult (K := R_AbsRing)); apply continuous_id.
Qed.
