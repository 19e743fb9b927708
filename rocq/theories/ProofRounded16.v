(** ProofRounded16: rounding in pk_interp of the A and B terms (C111). *)
From Coq Require Import ZArith Lia Reals Lra Psatz List Bool String.
From Verif Require Import Base Num BaseFacts Order Sums Spec Common Registry PyTerms ProofSigma ProofSamples3 SpecPy SpecRounded SpecRounded2 ProofPy ProofPy2 ProofPy4 ProofRounded ProofRounded2 ProofRounded4 ProofRounded9 ProofRounded11 ProofRounded15.
Import ListNotations.
Local Open Scope R_scope.

Lemma sum_A (m b a0 a1 a2 a3 a4 : R) : 0 + m ^ 1 * b ^ 1 * a0 + m ^ 1 * b ^ 2 * a1 + m ^ 2 * b ^ 2 * a2 + m ^ 2 * b ^ 3 * a3 + m ^ 3 * b ^ 3 * a4 = m * b * a0 + m * b ^ 2 * a1 + (m * m) * b ^ 2 * a2 + (m * m) * (b ^ 2 * b) * a3 + (m * (m * m)) * (b ^ 2 * b) * a4.
Proof. ring. Qed.
Lemma sum_B (m b a0 a1 a2 a3 a4 a5 a6 a7 a8 : R) : 0 + m ^ 1 * b ^ 2 * a0 + m ^ 1 * b ^ 3 * a1 + m ^ 1 * b ^ 4 * a2 + m ^ 2 * b ^ 2 * a3 + m ^ 2 * b ^ 3 * a4 + m ^ 2 * b ^ 4 * a5 + m ^ 3 * b ^ 3 * a6 + m ^ 3 * b ^ 4 * a7 + m ^ 4 * b ^ 4 * a8 = m * b ^ 2 * a0 + m * (b ^ 2 * b) * a1 + m * (b ^ 2 * b ^ 2) * a2 + (m * m) * b ^ 2 * a3 + (m * m) * (b ^ 2 * b) * a4 + (m * m) * (b ^ 2 * b ^ 2) * a5 + (m * (m * m)) * (b ^ 2 * b) * a6 + (m * (m * m)) * (b ^ 2 * b ^ 2) * a7 + (m * (m * (m * m))) * (b ^ 2 * b ^ 2) * a8.
Proof. ring. Qed.

Section Combined.
Context (F : R -> Prop) (rnd : R -> R) (lm : libmR) (u : R) (e : nat) (RD : rounding F rnd) (Hu : 0 <= u < 1) (HR : relative u rnd) (HA : accurate u e lm) (HI : integers F).
Local Notation Q := (QNum rnd lm).

Lemma chord_inputs n (x x0 x1 a0 a1 p0 p1 m : R) : x0 <= x <= x1 -> x0 < x1 -> within u n a0 p0 m -> within u n a1 p1 m ->
  within u (n + 6) (np_chord rnd x x0 x1 a0 a1) ((x - x0) / (x1 - x0) * (p1 - p0) + p0) (3 * m).
Proof.
  intros Hx H01 W0 W1. unfold np_chord. assert (M : 0 <= m) by (destruct W0 as [A _]; eapply Rle_trans; [apply Rabs_pos|exact A]).
  assert (C1 : forall a b, close u 1 (rnd (a - b)) (a - b)) by (intros; apply rnd_close; assumption).
  assert (D : within u (n + 1) (rnd (a1 - a0)) (p1 - p0) (m + m)). { rewrite Nat.add_1_r. apply w_rnd; [exact Hu|exact HR|]. apply (w_add u n a1 p1 m (- a0) (- p0) m W1). apply w_opp, W0. }
  assert (I : within u 1 (/ rnd (x1 - x0)) (/ (x1 - x0)) (/ (x1 - x0))).
  { apply w_close'; [exact Hu| |apply Rlt_le, Rinv_0_lt_compat; lra]. apply close_inv; [exact Hu|apply C1|lra]. }
  assert (X : within u 1 (rnd (x - x0)) (x - x0) (x - x0)) by (apply w_close'; [exact Hu|apply C1|lra]).
  assert (S1 : within u (n + 3) (rnd (rnd (a1 - a0) / rnd (x1 - x0))) ((p1 - p0) * / (x1 - x0)) ((m + m) * / (x1 - x0))) by (eapply w_rnd_mul; [exact Hu|exact HR|exact D|exact I|lia]).
  assert (S2 : within u (n + 5) (rnd (rnd (rnd (a1 - a0) / rnd (x1 - x0)) * rnd (x - x0))) ((p1 - p0) * / (x1 - x0) * (x - x0)) ((m + m) * / (x1 - x0) * (x - x0))) by (eapply w_rnd_mul; [exact Hu|exact HR|exact S1|exact X|lia]).
  assert (S3 : within u (n + 6) (np_chord rnd x x0 x1 a0 a1) ((p1 - p0) * / (x1 - x0) * (x - x0) + p0) ((m + m) * / (x1 - x0) * (x - x0) + m)).
  { eapply w_rnd_add; [exact Hu|exact HR|exact S2|apply w_weak with n; [exact Hu|exact W0|lia]|lia]. }
  replace ((x - x0) / (x1 - x0) * (p1 - p0) + p0) with ((p1 - p0) * / (x1 - x0) * (x - x0) + p0) by (field; lra). eapply w_more; [exact Hu|exact S3|].
  assert (T : / (x1 - x0) * (x - x0) <= 1). { apply Rmult_le_reg_l with (x1 - x0); [lra|]. rewrite <- Rmult_assoc, Rinv_r; lra. }
  rewrite Rmult_assoc. nra.
Qed.
Lemma interp_inputs n (K P' P : list R) left right x m : increasing K -> length P' = length K -> length P = length K -> (2 <= length K)%nat -> at_ K 0 <= x <= at_ K (length K - 1) ->
  (forall j, (j < length K)%nat -> within u n (at_ P' j) (at_ P j) m) -> within u (n + 6) (interp (N := Q) x K P' left right) (plin K P x) (3 * m).
Proof.
  intros HK HL' HL H2 Hx HM. destruct (bracket K x H2 Hx) as (i & Hi & Hb). assert (H01 : at_ K i < at_ K (S i)) by (apply HK; lia). rewrite inside by (lia || lra). rewrite (plin_at K P i x HL HK Hi Hb).
  match goal with |- within _ _ _ ?e _ => replace e with ((x - at_ K i) / (at_ K (S i) - at_ K i) * (at_ P (S i) - at_ P i) + at_ P i) by (field; lra) end.
  destruct (Rlt_dec x (at_ K (S i))) as [C|C].
  - rewrite (in_at rnd lm K P' right x HK HL' i Hi) by lra. apply chord_inputs; [lra|exact H01|apply HM; lia|apply HM; lia].
  - assert (E : x = at_ K (S i)) by lra. destruct (Nat.eq_dec (S i) (length K - 1)) as [L|L].
    + rewrite E, L. rewrite (in_last rnd lm K P' right HK HL') by lia. rewrite <- L. replace ((at_ K (S i) - at_ K i) / (at_ K (S i) - at_ K i) * (at_ P (S i) - at_ P i) + at_ P i) with (at_ P (S i)) by (field; lra).
      pose proof (HM (S i) ltac:(lia)) as W. eapply w_more; [exact Hu|apply w_weak with n; [exact Hu|exact W|lia]|]. destruct W as [A _]. pose proof (Rabs_pos (at_ P (S i))). lra.
    + assert (H12 : at_ K (S i) < at_ K (S (S i))) by (apply HK; lia). rewrite (in_at rnd lm K P' right x HK HL' (S i)) by (lia || lra).
      pose proof (chord_inputs n x (at_ K (S i)) (at_ K (S (S i))) (at_ P' (S i)) (at_ P' (S (S i))) (at_ P (S i)) (at_ P (S (S i))) m ltac:(lra) H12 (HM (S i) ltac:(lia)) (HM (S (S i)) ltac:(lia))) as W.
      replace ((x - at_ K i) / (at_ K (S i) - at_ K i) * (at_ P (S i) - at_ P i) + at_ P i) with ((x - at_ K (S i)) / (at_ K (S (S i)) - at_ K (S i)) * (at_ P (S (S i)) - at_ P (S i)) + at_ P (S i)); [exact W|].
      rewrite E. field. lra.
Qed.

(** The components, scaled by the growth factor *)
Definition scaled (D : R) (v : list R) : list R := map (fun x => rnd (q_pow lm D (rnd 4) * x)) v.
Definition comp_of (w : list R) (m n j : nat) : list R := map (fun i => nth (i * m + j) w 0) (seq 0 n).
Lemma comp_at w m n j i : (i < n)%nat -> at_ (comp_of w m n j) i = nth (i * m + j) w 0.
Proof. intros Hi. unfold at_, comp_of. rewrite (nth_indep _ 0 (nth (0 * m + j) w 0)) by (rewrite map_length, seq_length; exact Hi). rewrite (map_nth (fun i => nth (i * m + j) w 0)), seq_nth by exact Hi. reflexivity. Qed.
Lemma comp_length w m n j : length (comp_of w m n j) = n.
Proof. unfold comp_of. rewrite map_length, seq_length. reflexivity. Qed.
Lemma rnd_nat n : (n <= 8)%nat -> rnd (INR n) = INR n.
Proof. intros H. apply (r_id _ _ RD), HI, H. Qed.
Lemma pow_close x n : (n <= 8)%nat -> close u e (q_pow lm x (rnd (INR n))) (x ^ n).
Proof. intros H. rewrite rnd_nat by exact H. apply HA. Qed.
Lemma scaled_at D v i M : (i < length v)%nat -> Rabs (nth i v 0) <= M -> within u (e + 1) (nth i (scaled D v) 0) (D ^ 4 * nth i v 0) (D ^ 4 * M).
Proof.
  intros Hi HM. unfold scaled. set (f := fun x => _). rewrite (nth_indep _ 0 (f 0)) by (rewrite map_length; exact Hi). rewrite map_nth. unfold f.
  assert (C : close u e (q_pow lm D (rnd 4)) (D ^ 4)) by (replace 4 with (INR 4) by (cbn; ring); apply (pow_close D 4); lia).
  assert (P : 0 <= D ^ 4) by (replace (D ^ 4) with ((D ^ 2) ^ 2) by ring; apply pow2_ge_0). eapply (w_rnd_mul u Hu rnd HR e 0); [apply w_close'; [exact Hu|exact C|exact P]| |lia].
  eapply w_more; [exact Hu|apply w_exact, Hu|exact HM].
Qed.
(** A column interpolated, with its factor *)
Lemma term n (K v : list R) m j D x M (c0 c : R) left right : increasing K -> length K = n -> length v = (n * m)%nat -> (j < m)%nat -> (2 <= n)%nat -> at_ K 0 <= x <= at_ K (n - 1) ->
  (forall i, (i < n)%nat -> Rabs (nth (i * m + j) v 0) <= M) -> forall q, close u q c0 c ->
  within u (q + e + 8) (rnd (c0 * interp (N := Q) x K (comp_of (scaled D v) m n j) left right)) (c * plin K (map (fun i => D ^ 4 * nth (i * m + j) v 0) (seq 0 n)) x) (Rabs c * (3 * (D ^ 4 * M))).
Proof.
  intros HK LK LV Hj H2 Hx HM q HC. eapply (w_rnd_mul u Hu rnd HR q (e + 1 + 6)); [apply w_close; [exact Hu|exact HC]| |].
  - apply (interp_inputs (e + 1)); [exact HK|rewrite comp_length; symmetry; exact LK|rewrite map_length, seq_length; symmetry; exact LK|lia|rewrite LK; exact Hx|].
    intros i Hi. rewrite LK in Hi. rewrite comp_at by exact Hi. assert (B : (i * m + j < length v)%nat) by nia.
    replace (at_ (map (fun i => D ^ 4 * nth (i * m + j) v 0) (seq 0 n)) i) with (D ^ 4 * nth (i * m + j) v 0); [apply scaled_at; [exact B|apply HM, Hi]|].
    unfold at_. set (g := fun i => D ^ 4 * nth (i * m + j) v 0). rewrite (nth_indep (map g (seq 0 n)) 0 (g 0%nat)) by (rewrite map_length, seq_length; exact Hi). rewrite (map_nth g), seq_nth by exact Hi. reflexivity.
  - lia.
Qed.
Lemma A_error cl (c : columns RNum) n (K : list R) (k mu2 beta D left right : R) (M : nat -> R) : (cl = CA1 \/ cl = CA2) -> complete cl c n -> (2 <= n)%nat -> getitem c "k" = Ok K -> increasing K ->
  at_ K 0 <= k <= at_ K (n - 1) -> (forall i j, (i < n)%nat -> (j < 5)%nat -> Rabs (entry c "pk" (i * 5 + j)) <= M j) ->
  exists y, pk_interp_A (N := Q) c k mu2 beta D left right = Ok y /\
    Rabs (y - combine_components A_powers mu2 beta (fun j => plin K (map (fun i => D ^ 4 * entry c "pk" (i * 5 + j)) (seq 0 n)) k)) <=
      units u (2 * e + 16) * combine_components A_powers (Rabs mu2) (Rabs beta) (fun j => 3 * (D ^ 4 * M j)).
Proof.
  intros Hcl HC Hn K1 HK Hx HM. destruct (getitem_complete _ _ _ "k" HC) as (kk & K1' & K2); [destruct Hcl as [-> | ->]; cbn; tauto|]. pose proof (eq_trans (eq_sym K1) K1') as EK. injection EK as <-.
  destruct (getitem_complete _ _ _ "pk" HC) as (v & V1 & V2); [destruct Hcl as [-> | ->]; cbn; tauto|].
  assert (LK : length K = n) by (rewrite <- (Nat.mul_1_r n); destruct Hcl as [-> | ->]; exact K2). assert (LV : length v = (n * 5)%nat) by (destruct Hcl as [-> | ->]; exact V2). clear K2 V2 K1'.
  assert (EV : forall i, entry c "pk" i = nth i v 0) by (intros i; unfold entry; rewrite V1; reflexivity).
  assert (HM' : forall j, (j < 5)%nat -> forall i, (i < n)%nat -> Rabs (nth (i * 5 + j) v 0) <= M j) by (intros j Hj i Hi; rewrite <- EV; apply HM; assumption).
  assert (EX : forall j, plin K (map (fun i => D ^ 4 * entry c "pk" (i * 5 + j)) (seq 0 n)) k = plin K (map (fun i => D ^ 4 * nth (i * 5 + j) v 0) (seq 0 n)) k) by (intros j; f_equal; apply map_ext; intros i; rewrite EV; reflexivity).
  set (w := scaled D v). assert (W : length w = (n * 5)%nat) by (unfold w, scaled; rewrite map_length; exact LV).
  pose proof (fun j H => component_val (N := Q) 5 n w j 0 W H) as CV.
  assert (C0 : component (N := Q) 5 n w 0 = Ok (comp_of w 5 n 0)) by exact (CV 0%nat ltac:(lia)).
  assert (C1 : component (N := Q) 5 n w 1 = Ok (comp_of w 5 n 1)) by exact (CV 1%nat ltac:(lia)).
  assert (C2 : component (N := Q) 5 n w 2 = Ok (comp_of w 5 n 2)) by exact (CV 2%nat ltac:(lia)).
  assert (C3 : component (N := Q) 5 n w 3 = Ok (comp_of w 5 n 3)) by exact (CV 3%nat ltac:(lia)).
  assert (C4 : component (N := Q) 5 n w 4 = Ok (comp_of w 5 n 4)) by exact (CV 4%nat ltac:(lia)).
  eexists. split.
  - unfold pk_interp_A, accessor. change (assoc (accessors CA1) "pk") with (Some (2%Z, "pk"%string)). cbv iota. unfold scale_factor.
    change (getitem (N := Q) c "pk") with (getitem (N := RNum) c "pk"). change (getitem (N := Q) c "k") with (getitem (N := RNum) c "k"). rewrite V1, K1. cbn [bind].
    change (map (fun e => nmul Q (npow (n := Q) D (nZ Q (2 * 2))) e) v) with w. change (T Q) with R. change (T RNum) with R. rewrite LK. rewrite C0, C1, C2, C3, C4. cbn [bind]. reflexivity.
  - qn. set (b2 := q_pow lm beta (rnd 2)). assert (B2 : close u e b2 (beta ^ 2)) by (unfold b2; replace 2 with (INR 2) at 1 by (cbn; ring); apply (pow_close beta 2); lia).
    assert (RM : forall q q' a b c d, close u q a b -> close u q' c d -> close u (S (q + q')) (rnd (a * c)) (b * d)) by (intros; apply rnd_step; [exact Hu|exact HR|apply close_mul; assumption]).
    assert (R0 : forall a, close u 0 a a) by (intros; apply close_refl; exact Hu).
    pose proof (RM _ _ _ _ _ _ (R0 mu2) (R0 mu2)) as M4. pose proof (RM _ _ _ _ _ _ (R0 mu2) M4) as M6. pose proof (RM _ _ _ _ _ _ B2 (R0 beta)) as B3.
    pose proof (term n K v 5 0 D k (M 0%nat) _ _ left right HK LK LV ltac:(lia) Hn Hx (HM' 0%nat ltac:(lia)) _ (RM _ _ _ _ _ _ (R0 mu2) (R0 beta))) as T0.
    pose proof (term n K v 5 1 D k (M 1%nat) _ _ left right HK LK LV ltac:(lia) Hn Hx (HM' 1%nat ltac:(lia)) _ (RM _ _ _ _ _ _ (R0 mu2) B2)) as T1.
    pose proof (term n K v 5 2 D k (M 2%nat) _ _ left right HK LK LV ltac:(lia) Hn Hx (HM' 2%nat ltac:(lia)) _ (RM _ _ _ _ _ _ M4 B2)) as T2.
    pose proof (term n K v 5 3 D k (M 3%nat) _ _ left right HK LK LV ltac:(lia) Hn Hx (HM' 3%nat ltac:(lia)) _ (RM _ _ _ _ _ _ M4 B3)) as T3.
    pose proof (term n K v 5 4 D k (M 4%nat) _ _ left right HK LK LV ltac:(lia) Hn Hx (HM' 4%nat ltac:(lia)) _ (RM _ _ _ _ _ _ M6 B3)) as T4.
    fold w in T0, T1, T2, T3, T4.
    apply (w_weak u Hu) with (n' := (2 * e + 12)%nat) in T0; [|lia].
    apply (w_weak u Hu) with (n' := (2 * e + 12)%nat) in T1; [|lia].
    apply (w_weak u Hu) with (n' := (2 * e + 12)%nat) in T2; [|lia].
    apply (w_weak u Hu) with (n' := (2 * e + 12)%nat) in T3; [|lia].
    apply (w_weak u Hu) with (n' := (2 * e + 12)%nat) in T4; [|lia].
    pose proof (w_rnd_add u Hu rnd HR (2 * e + 12) _ _ _ _ _ _ (2 * e + 13) T0 T1 ltac:(lia)) as S1.
    apply (w_weak u Hu) with (n' := (2 * e + 13)%nat) in T2; [|lia].
    pose proof (w_rnd_add u Hu rnd HR (2 * e + 13) _ _ _ _ _ _ (2 * e + 14) S1 T2 ltac:(lia)) as S2.
    apply (w_weak u Hu) with (n' := (2 * e + 14)%nat) in T3; [|lia].
    pose proof (w_rnd_add u Hu rnd HR (2 * e + 14) _ _ _ _ _ _ (2 * e + 15) S2 T3 ltac:(lia)) as S3.
    apply (w_weak u Hu) with (n' := (2 * e + 15)%nat) in T4; [|lia].
    pose proof (w_rnd_add u Hu rnd HR (2 * e + 15) _ _ _ _ _ _ (2 * e + 16) S3 T4 ltac:(lia)) as S4.
    destruct S4 as [_ X]. eapply Rle_trans; [eapply Rle_trans; [|exact X]|].
    + apply Req_le. f_equal. unfold combine_components, A_powers, weight. cbn [List.length rsum nth fst snd]. rewrite !EX. f_equal. apply sum_A.
    + apply Req_le. f_equal. unfold combine_components, A_powers, weight. cbn [List.length rsum nth fst snd]. rewrite ?Rabs_mult, <- ?RPow_abs. ring.
Qed.
Lemma B_error cl (c : columns RNum) n (K : list R) (k mu2 beta D left right : R) (M : nat -> R) : (cl = CB1 \/ cl = CB2) -> complete cl c n -> (2 <= n)%nat -> getitem c "k" = Ok K -> increasing K ->
  at_ K 0 <= k <= at_ K (n - 1) -> (forall i j, (i < n)%nat -> (j < 9)%nat -> Rabs (entry c "pk" (i * 9 + j)) <= M j) ->
  exists y, pk_interp_B (N := Q) c k mu2 beta D left right = Ok y /\
    Rabs (y - combine_components B_powers mu2 beta (fun j => plin K (map (fun i => D ^ 4 * entry c "pk" (i * 9 + j)) (seq 0 n)) k)) <=
      units u (3 * e + 21) * combine_components B_powers (Rabs mu2) (Rabs beta) (fun j => 3 * (D ^ 4 * M j)).
Proof.
  intros Hcl HC Hn K1 HK Hx HM. destruct (getitem_complete _ _ _ "k" HC) as (kk & K1' & K2); [destruct Hcl as [-> | ->]; cbn; tauto|]. pose proof (eq_trans (eq_sym K1) K1') as EK. injection EK as <-.
  destruct (getitem_complete _ _ _ "pk" HC) as (v & V1 & V2); [destruct Hcl as [-> | ->]; cbn; tauto|].
  assert (LK : length K = n) by (rewrite <- (Nat.mul_1_r n); destruct Hcl as [-> | ->]; exact K2). assert (LV : length v = (n * 9)%nat) by (destruct Hcl as [-> | ->]; exact V2). clear K2 V2 K1'.
  assert (EV : forall i, entry c "pk" i = nth i v 0) by (intros i; unfold entry; rewrite V1; reflexivity).
  assert (HM' : forall j, (j < 9)%nat -> forall i, (i < n)%nat -> Rabs (nth (i * 9 + j) v 0) <= M j) by (intros j Hj i Hi; rewrite <- EV; apply HM; assumption).
  assert (EX : forall j, plin K (map (fun i => D ^ 4 * entry c "pk" (i * 9 + j)) (seq 0 n)) k = plin K (map (fun i => D ^ 4 * nth (i * 9 + j) v 0) (seq 0 n)) k) by (intros j; f_equal; apply map_ext; intros i; rewrite EV; reflexivity).
  set (w := scaled D v). assert (W : length w = (n * 9)%nat) by (unfold w, scaled; rewrite map_length; exact LV).
  pose proof (fun j H => component_val (N := Q) 9 n w j 0 W H) as CV.
  assert (C0 : component (N := Q) 9 n w 0 = Ok (comp_of w 9 n 0)) by exact (CV 0%nat ltac:(lia)).
  assert (C1 : component (N := Q) 9 n w 1 = Ok (comp_of w 9 n 1)) by exact (CV 1%nat ltac:(lia)).
  assert (C2 : component (N := Q) 9 n w 2 = Ok (comp_of w 9 n 2)) by exact (CV 2%nat ltac:(lia)).
  assert (C3 : component (N := Q) 9 n w 3 = Ok (comp_of w 9 n 3)) by exact (CV 3%nat ltac:(lia)).
  assert (C4 : component (N := Q) 9 n w 4 = Ok (comp_of w 9 n 4)) by exact (CV 4%nat ltac:(lia)).
  assert (C5 : component (N := Q) 9 n w 5 = Ok (comp_of w 9 n 5)) by exact (CV 5%nat ltac:(lia)).
  assert (C6 : component (N := Q) 9 n w 6 = Ok (comp_of w 9 n 6)) by exact (CV 6%nat ltac:(lia)).
  assert (C7 : component (N := Q) 9 n w 7 = Ok (comp_of w 9 n 7)) by exact (CV 7%nat ltac:(lia)).
  assert (C8 : component (N := Q) 9 n w 8 = Ok (comp_of w 9 n 8)) by exact (CV 8%nat ltac:(lia)).
  eexists. split.
  - unfold pk_interp_B, accessor. change (assoc (accessors CB1) "pk") with (Some (2%Z, "pk"%string)). cbv iota. unfold scale_factor.
    change (getitem (N := Q) c "pk") with (getitem (N := RNum) c "pk"). change (getitem (N := Q) c "k") with (getitem (N := RNum) c "k"). rewrite V1, K1. cbn [bind].
    change (map (fun e => nmul Q (npow (n := Q) D (nZ Q (2 * 2))) e) v) with w. change (T Q) with R. change (T RNum) with R. rewrite LK. rewrite C0, C1, C2, C3, C4, C5, C6, C7, C8. cbn [bind]. reflexivity.
  - qn. set (b2 := q_pow lm beta (rnd 2)). assert (B2 : close u e b2 (beta ^ 2)) by (unfold b2; replace 2 with (INR 2) at 1 by (cbn; ring); apply (pow_close beta 2); lia).
    assert (RM : forall q q' a b c d, close u q a b -> close u q' c d -> close u (S (q + q')) (rnd (a * c)) (b * d)) by (intros; apply rnd_step; [exact Hu|exact HR|apply close_mul; assumption]).
    assert (R0 : forall a, close u 0 a a) by (intros; apply close_refl; exact Hu).
    pose proof (RM _ _ _ _ _ _ (R0 mu2) (R0 mu2)) as M4. pose proof (RM _ _ _ _ _ _ (R0 mu2) M4) as M6. pose proof (RM _ _ _ _ _ _ B2 (R0 beta)) as B3.
    pose proof (RM _ _ _ _ _ _ (R0 mu2) M6) as M8. pose proof (RM _ _ _ _ _ _ B2 B2) as B4.
    pose proof (term n K v 9 0 D k (M 0%nat) _ _ (rnd 0) (rnd 0) HK LK LV ltac:(lia) Hn Hx (HM' 0%nat ltac:(lia)) _ (RM _ _ _ _ _ _ (R0 mu2) B2)) as T0.
    pose proof (term n K v 9 1 D k (M 1%nat) _ _ (rnd 0) (rnd 0) HK LK LV ltac:(lia) Hn Hx (HM' 1%nat ltac:(lia)) _ (RM _ _ _ _ _ _ (R0 mu2) B3)) as T1.
    pose proof (term n K v 9 2 D k (M 2%nat) _ _ (rnd 0) (rnd 0) HK LK LV ltac:(lia) Hn Hx (HM' 2%nat ltac:(lia)) _ (RM _ _ _ _ _ _ (R0 mu2) B4)) as T2.
    pose proof (term n K v 9 3 D k (M 3%nat) _ _ (rnd 0) (rnd 0) HK LK LV ltac:(lia) Hn Hx (HM' 3%nat ltac:(lia)) _ (RM _ _ _ _ _ _ M4 B2)) as T3.
    pose proof (term n K v 9 4 D k (M 4%nat) _ _ (rnd 0) (rnd 0) HK LK LV ltac:(lia) Hn Hx (HM' 4%nat ltac:(lia)) _ (RM _ _ _ _ _ _ M4 B3)) as T4.
    pose proof (term n K v 9 5 D k (M 5%nat) _ _ (rnd 0) (rnd 0) HK LK LV ltac:(lia) Hn Hx (HM' 5%nat ltac:(lia)) _ (RM _ _ _ _ _ _ M4 B4)) as T5.
    pose proof (term n K v 9 6 D k (M 6%nat) _ _ (rnd 0) (rnd 0) HK LK LV ltac:(lia) Hn Hx (HM' 6%nat ltac:(lia)) _ (RM _ _ _ _ _ _ M6 B3)) as T6.
    pose proof (term n K v 9 7 D k (M 7%nat) _ _ (rnd 0) (rnd 0) HK LK LV ltac:(lia) Hn Hx (HM' 7%nat ltac:(lia)) _ (RM _ _ _ _ _ _ M6 B4)) as T7.
    pose proof (term n K v 9 8 D k (M 8%nat) _ _ (rnd 0) (rnd 0) HK LK LV ltac:(lia) Hn Hx (HM' 8%nat ltac:(lia)) _ (RM _ _ _ _ _ _ M8 B4)) as T8.
    fold w in T0, T1, T2, T3, T4, T5, T6, T7, T8.
    apply (w_weak u Hu) with (n' := (3 * e + 13)%nat) in T0; [|lia].
    apply (w_weak u Hu) with (n' := (3 * e + 13)%nat) in T1; [|lia].
    apply (w_weak u Hu) with (n' := (3 * e + 13)%nat) in T2; [|lia].
    apply (w_weak u Hu) with (n' := (3 * e + 13)%nat) in T3; [|lia].
    apply (w_weak u Hu) with (n' := (3 * e + 13)%nat) in T4; [|lia].
    apply (w_weak u Hu) with (n' := (3 * e + 13)%nat) in T5; [|lia].
    apply (w_weak u Hu) with (n' := (3 * e + 13)%nat) in T6; [|lia].
    apply (w_weak u Hu) with (n' := (3 * e + 13)%nat) in T7; [|lia].
    apply (w_weak u Hu) with (n' := (3 * e + 13)%nat) in T8; [|lia].
    pose proof (w_rnd_add u Hu rnd HR (3 * e + 13) _ _ _ _ _ _ (3 * e + 14) T0 T1 ltac:(lia)) as S1.
    apply (w_weak u Hu) with (n' := (3 * e + 14)%nat) in T2; [|lia].
    pose proof (w_rnd_add u Hu rnd HR (3 * e + 14) _ _ _ _ _ _ (3 * e + 15) S1 T2 ltac:(lia)) as S2.
    apply (w_weak u Hu) with (n' := (3 * e + 15)%nat) in T3; [|lia].
    pose proof (w_rnd_add u Hu rnd HR (3 * e + 15) _ _ _ _ _ _ (3 * e + 16) S2 T3 ltac:(lia)) as S3.
    apply (w_weak u Hu) with (n' := (3 * e + 16)%nat) in T4; [|lia].
    pose proof (w_rnd_add u Hu rnd HR (3 * e + 16) _ _ _ _ _ _ (3 * e + 17) S3 T4 ltac:(lia)) as S4.
    apply (w_weak u Hu) with (n' := (3 * e + 17)%nat) in T5; [|lia].
    pose proof (w_rnd_add u Hu rnd HR (3 * e + 17) _ _ _ _ _ _ (3 * e + 18) S4 T5 ltac:(lia)) as S5.
    apply (w_weak u Hu) with (n' := (3 * e + 18)%nat) in T6; [|lia].
    pose proof (w_rnd_add u Hu rnd HR (3 * e + 18) _ _ _ _ _ _ (3 * e + 19) S5 T6 ltac:(lia)) as S6.
    apply (w_weak u Hu) with (n' := (3 * e + 19)%nat) in T7; [|lia].
    pose proof (w_rnd_add u Hu rnd HR (3 * e + 19) _ _ _ _ _ _ (3 * e + 20) S6 T7 ltac:(lia)) as S7.
    apply (w_weak u Hu) with (n' := (3 * e + 20)%nat) in T8; [|lia].
    pose proof (w_rnd_add u Hu rnd HR (3 * e + 20) _ _ _ _ _ _ (3 * e + 21) S7 T8 ltac:(lia)) as S8.
    destruct S8 as [_ X]. eapply Rle_trans; [eapply Rle_trans; [|exact X]|].
    + apply Req_le. f_equal. unfold combine_components, B_powers, weight. cbn [List.length rsum nth fst snd]. rewrite !EX. f_equal. apply sum_B.
    + apply Req_le. f_equal. unfold combine_components, B_powers, weight. cbn [List.length rsum nth fst snd]. rewrite ?Rabs_mult, <- ?RPow_abs. ring.
Qed.
End Combined.
Section Spectrum.
Context (rnd : R -> R) (lm : libmR) (c : columns RNum) (K v : list R).
Local Notation Q := (QNum rnd lm).
Hypothesis (HG : getitem c "k" = Ok K) (HK : increasing K) (HL : length v = length K) (H1 : (1 <= length K)%nat).
Lemma pk_interp_val x left right : pk_interp (N := Q) c x left right (Ok v) = Ok (interp (N := Q) x K v left right).
Proof. unfold pk_interp. change (getitem (N := Q) c "k") with (getitem (N := RNum) c "k"). cbn [bind]. rewrite HG. cbn [bind]. change (T Q) with R. change (T RNum) with R. rewrite HL, Nat.eqb_refl. reflexivity. Qed.
Lemma pk_node F left right i : rounding F rnd -> Forall F v -> (i < length K)%nat -> pk_interp (N := Q) c (at_ K i) left right (Ok v) = Ok (at_ v i).
Proof. intros RD FV Hi. rewrite pk_interp_val. f_equal. apply (interp_node rnd lm F RD); assumption. Qed.
Lemma in_right (L P : list R) right x : increasing L -> length P = length L -> (1 <= length L)%nat -> at_ L (length L - 1) < x -> interp_in (N := Q) x L P right = right.
Proof.
  revert P. induction L as [|x0 L IH]; intros P HI LP Hn Hx; [cbn in Hn; lia|]. destruct P as [|f0 P]; [discriminate|]. injection LP as LP. destruct L as [|x1 L]; [|destruct P as [|f1 P]; [discriminate|]].
  - destruct P; [|discriminate]. change (interp_in (N := Q) x [x0] [f0] right) with (if Reqbool x x0 then f0 else right). cbn in Hx. unfold Reqbool. destruct (Req_EM_T x x0); [lra|reflexivity].
  - change (interp_in (N := Q) x (x0 :: x1 :: L) (f0 :: f1 :: P) right) with (if Rltb x x1 then np_chord rnd x x0 x1 f0 f1 else interp_in (N := Q) x (x1 :: L) (f1 :: P) right).
    assert (E : at_ (x0 :: x1 :: L) (length (x0 :: x1 :: L) - 1) = at_ (x1 :: L) (length (x1 :: L) - 1)) by (unfold at_; cbn [length nth Nat.sub]; rewrite Nat.sub_0_r; reflexivity). rewrite E in Hx.
    assert (x1 <= at_ (x1 :: L) (length (x1 :: L) - 1)). { destruct L as [|x2 L]; [cbn; lra|]. left. apply (increasing_tail _ _ HI 0%nat). cbn. lia. }
    unfold Rltb. destruct (Rlt_dec x x1); [lra|]. apply (IH (f1 :: P)); [exact (increasing_tail _ _ HI)|exact LP|cbn; lia|exact Hx].
Qed.
Lemma pk_outside x left right : (x < at_ K 0 -> pk_interp (N := Q) c x left right (Ok v) = Ok left) /\ (at_ K (length K - 1) < x -> pk_interp (N := Q) c x left right (Ok v) = Ok right).
Proof.
  rewrite pk_interp_val. split; intros Hx; f_equal.
  - destruct K as [|x0 L]; [cbn in H1; lia|]. change (interp (N := Q) x (x0 :: L) v left right) with (if Rltb x x0 then left else interp_in (N := Q) x (x0 :: L) v right). cbn in Hx. unfold Rltb. destruct (Rlt_dec x x0); [reflexivity|lra].
  - rewrite inside; [apply in_right; assumption|exact H1|]. assert (at_ K 0 <= at_ K (length K - 1)); [|lra]. destruct (Nat.eq_dec (length K - 1) 0) as [->|N]; [lra|]. left. apply HK. lia.
Qed.
Lemma pk_error F u left right x M : rounding F rnd -> 0 <= u < 1 -> relative u rnd -> Forall F v -> (2 <= length K)%nat -> at_ K 0 <= x <= at_ K (length K - 1) -> (forall j, (j < length K)%nat -> Rabs (at_ v j) <= M) ->
  exists y, pk_interp (N := Q) c x left right (Ok v) = Ok y /\ Rabs (y - plin K v x) <= units u 6 * (3 * M).
Proof. intros RD Hu HR FV H2 Hx HM. eexists. split; [apply pk_interp_val|]. apply (interp_error rnd lm F RD u Hu HR); assumption. Qed.
End Spectrum.
