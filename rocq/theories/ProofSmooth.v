(** ProofSmooth: bounds of the transform of a sphere, and of sigmar (C118). *)
From Coq Require Import Reals ZArith List String Lia Lra Psatz Bool.
From Coquelicot Require Import Coquelicot.
From Verif Require Import Base Num BaseFacts Common Registry PyTerms PyMethods Spec SpecPy SpecMethods SpecSmooth SpecDefined Sums ProofPy ProofPy7 ProofShaped ProofMethods.
Import ListNotations.
Local Open Scope R_scope.

Lemma from_zero (g g' : R -> R) : g 0 = 0 -> (forall x, is_derive g x (g' x)) -> (forall x, 0 <= x -> 0 <= g' x) -> forall x, 0 <= x -> 0 <= g x.
Proof.
  intros G0 HD HP x Hx. destruct (Rle_lt_or_eq_dec 0 x Hx) as [L|<-]; [|rewrite G0; lra].
  destruct (MVT_gen g 0 x g') as (z & Hz & E).
  - intros y _. apply HD.
  - intros y _. apply continuity_pt_filterlim. apply (ex_derive_continuous g y). eexists. apply HD.
  - rewrite Rmin_left, Rmax_right in Hz by lra. rewrite G0 in E. pose proof (HP z ltac:(lra)). nra.
Qed.
Definition ball (x : R) : R := sin x - x * cos x.
Lemma sin_le x : 0 <= x -> 0 <= x - sin x.
Proof. apply (from_zero (fun x => x - sin x) (fun x => 1 - cos x)); [rewrite sin_0; ring|intros y; auto_derive; [trivial|ring]|intros y _; pose proof (COS_bound y); lra]. Qed.
Lemma sin_ge x : 0 <= x -> 0 <= x + sin x.
Proof. apply (from_zero (fun x => x + sin x) (fun x => 1 + cos x)); [rewrite sin_0; ring|intros y; auto_derive; [trivial|ring]|intros y _; pose proof (COS_bound y); lra]. Qed.
Lemma cos_ge x : 0 <= x -> 0 <= cos x - 1 + x ^ 2 / 2.
Proof. apply (from_zero (fun x => cos x - 1 + x ^ 2 / 2) (fun x => x - sin x)); [rewrite cos_0; field|intros y; auto_derive; [trivial|field]|exact sin_le]. Qed.
Lemma sin_third x : 0 <= x -> 0 <= sin x - x + x ^ 3 / 6.
Proof. apply (from_zero (fun x => sin x - x + x ^ 3 / 6) (fun x => cos x - 1 + x ^ 2 / 2)); [rewrite sin_0; field|intros y; auto_derive; [trivial|field]|exact cos_ge]. Qed.
Lemma ball_cube x : 0 <= x -> Rabs (ball x) <= x ^ 3 / 3.
Proof.
  intros Hx. apply Rabs_le. split.
  - pose proof (from_zero (fun x => x ^ 3 / 3 + ball x) (fun x => x * (x + sin x))) as H. cbv beta in H. enough (0 <= x ^ 3 / 3 + ball x) by lra. apply H; [unfold ball; rewrite sin_0; field| | |exact Hx].
    + intros y. unfold ball. auto_derive; [trivial|field].
    + intros y Hy. apply Rmult_le_pos; [exact Hy|apply sin_ge, Hy].
  - pose proof (from_zero (fun x => x ^ 3 / 3 - ball x) (fun x => x * (x - sin x))) as H. cbv beta in H. enough (0 <= x ^ 3 / 3 - ball x) by lra. apply H; [unfold ball; rewrite sin_0; field| | |exact Hx].
    + intros y. unfold ball. auto_derive; [trivial|field].
    + intros y Hy. apply Rmult_le_pos; [exact Hy|apply sin_le, Hy].
Qed.
Lemma ball_square x : 0 <= x -> Rabs (ball x) <= x ^ 2 / 2.
Proof.
  intros Hx. apply Rabs_le. split.
  - pose proof (from_zero (fun x => x ^ 2 / 2 + ball x) (fun x => x * (1 + sin x))) as H. cbv beta in H. enough (0 <= x ^ 2 / 2 + ball x) by lra. apply H; [unfold ball; rewrite sin_0; field| | |exact Hx].
    + intros y. unfold ball. auto_derive; [trivial|field].
    + intros y Hy. apply Rmult_le_pos; [exact Hy|]. pose proof (SIN_bound y). lra.
  - pose proof (from_zero (fun x => x ^ 2 / 2 - ball x) (fun x => x * (1 - sin x))) as H. cbv beta in H. enough (0 <= x ^ 2 / 2 - ball x) by lra. apply H; [unfold ball; rewrite sin_0; field| | |exact Hx].
    + intros y. unfold ball. auto_derive; [trivial|field].
    + intros y Hy. apply Rmult_le_pos; [exact Hy|]. pose proof (SIN_bound y). lra.
Qed.
Lemma ball_low x : 0 <= x -> x ^ 3 / 3 - x ^ 5 / 30 <= ball x.
Proof.
  intros Hx. pose proof (from_zero (fun x => ball x - x ^ 3 / 3 + x ^ 5 / 30) (fun x => x * (sin x - x + x ^ 3 / 6))) as H. cbv beta in H. enough (0 <= ball x - x ^ 3 / 3 + x ^ 5 / 30) by lra. apply H; [unfold ball; rewrite sin_0; field| | |exact Hx].
  - intros y. unfold ball. auto_derive; [trivial|field].
  - intros y Hy. apply Rmult_le_pos; [exact Hy|apply sin_third, Hy].
Qed.
(** The transform: at most 1, at most 3 / (2 x), at least 1 - x^2 / 10 *)
Lemma tophat_one x : 0 < x -> tophat x ^ 2 <= 1.
Proof.
  intros Hx. assert (H3 : 0 < x ^ 3) by (apply pow_lt, Hx). pose proof (ball_cube x ltac:(lra)) as B. rewrite <- (pow1 2), <- (pow2_abs (tophat x)). apply pow_incr. split; [apply Rabs_pos|].
  unfold tophat. fold (ball x). unfold Rdiv. rewrite !Rabs_mult, (Rabs_right 3), Rabs_inv, (Rabs_right (x ^ 3)) by lra. apply (Rmult_le_reg_r (x ^ 3)); [exact H3|]. field_simplify; lra.
Qed.
Lemma tophat_over x : 0 < x -> (tophat x * x) ^ 2 <= 9 / 4.
Proof.
  intros Hx. assert (H2 : 0 < x ^ 2) by (apply pow_lt, Hx). pose proof (ball_square x ltac:(lra)) as B. replace (9 / 4) with ((3 / 2) ^ 2) by field. rewrite <- (pow2_abs (tophat x * x)). apply pow_incr. split; [apply Rabs_pos|].
  replace (tophat x * x) with (3 * ball x * / x ^ 2) by (unfold tophat, ball; field; lra). rewrite !Rabs_mult, (Rabs_right 3), Rabs_inv, (Rabs_right (x ^ 2)) by lra. apply (Rmult_le_reg_r (x ^ 2)); [exact H2|]. field_simplify; lra.
Qed.
Lemma tophat_low x : 0 < x -> 1 - x ^ 2 / 10 <= tophat x.
Proof.
  intros Hx. assert (H3 : 0 < x ^ 3) by (apply pow_lt, Hx). pose proof (ball_low x ltac:(lra)) as B. apply (Rmult_le_reg_r (x ^ 3)); [exact H3|]. replace (tophat x * x ^ 3) with (3 * ball x) by (unfold tophat, ball; field; lra).
  replace ((1 - x ^ 2 / 10) * x ^ 3) with (3 * (x ^ 3 / 3 - x ^ 5 / 30)) by field. lra.
Qed.
Lemma trapz_seq_le (k p q : nat -> R) n : increasing (map k (seq 0 n)) -> (forall i, (i < n)%nat -> p i <= q i) -> trapz (map k (seq 0 n)) (map p (seq 0 n)) <= trapz (map k (seq 0 n)) (map q (seq 0 n)).
Proof.
  intros HI H. unfold trapz. rewrite map_length, seq_length. assert (G : forall m, (m <= n - 1)%nat -> forall f g, (forall i, (i < m)%nat -> f i <= g i) -> rsum m f <= rsum m g).
  { induction m as [|m IH]; intros Hm f g Hfg; [cbn; lra|]. cbn [rsum]. pose proof (Hfg m ltac:(lia)). pose proof (IH ltac:(lia) f g (fun i Hi => Hfg i ltac:(lia))). lra. }
  apply (G (n - 1)%nat); [lia|]. intros i Hi. pose proof (HI i (S i) ltac:(rewrite map_length, seq_length; lia)) as SK. unfold at_ in *. rewrite !(nth_seq_map k) in * by lia. rewrite !(nth_seq_map p), !(nth_seq_map q) by lia.
  pose proof (H i ltac:(lia)). pose proof (H (S i) ltac:(lia)). nra.
Qed.
Lemma trapz_seq_scal (k p : nat -> R) n a : trapz (map k (seq 0 n)) (map (fun i => a * p i) (seq 0 n)) = a * trapz (map k (seq 0 n)) (map p (seq 0 n)).
Proof.
  unfold trapz. rewrite map_length, seq_length, <- rsum_scal. apply rsum_ext. intros i Hi. unfold at_. rewrite !(nth_seq_map k), !(nth_seq_map p), !(nth_seq_map (fun i => a * p i)) by lia. field.
Qed.
Section Smooth.
Context (k p : nat -> R) (n : nat) (r : R).
Hypothesis (HI : increasing (map k (seq 0 n))) (Hk : forall i, (i < n)%nat -> 0 < k i) (Hp : forall i, (i < n)%nat -> 0 <= p i) (Hr : 0 < r).
Lemma two_pi : 0 < / (2 * PI ^ 2).
Proof. pose proof PI_RGT_0. apply Rinv_0_lt_compat. nra. Qed.
Lemma variance_le : variance k p n r <= unsmoothed k p n.
Proof.
  unfold variance, unsmoothed, Rdiv. apply Rmult_le_compat_r; [left; exact two_pi|]. apply trapz_seq_le; [exact HI|]. intros i Hi. apply Rmult_le_compat_l; [apply Hp, Hi|]. rewrite Rpow_mult_distr.
  pose proof (tophat_one (k i * r) (Rmult_lt_0_compat _ _ (Hk i Hi) Hr)). pose proof (pow2_ge_0 (k i)). nra.
Qed.
Lemma variance_ge M : (forall i, (i < n)%nat -> k i <= M) -> (M * r) ^ 2 <= 10 -> (1 - (M * r) ^ 2 / 10) ^ 2 * unsmoothed k p n <= variance k p n r.
Proof.
  intros HM H10. unfold variance, unsmoothed, Rdiv. rewrite <- Rmult_assoc. apply Rmult_le_compat_r; [left; exact two_pi|]. rewrite <- (trapz_seq_scal k (fun i => p i * k i ^ 2)). apply trapz_seq_le; [exact HI|]. intros i Hi.
  pose proof (Rmult_lt_0_compat _ _ (Hk i Hi) Hr) as X. pose proof (tophat_low (k i * r) X) as L. pose proof (Hk i Hi) as K0.
  assert (S : (k i * r) ^ 2 <= (M * r) ^ 2) by (apply pow_incr; split; [lra|apply Rmult_le_compat_r; [lra|apply HM, Hi]]).
  replace ((1 - (M * r) ^ 2 * / 10) ^ 2 * (p i * k i ^ 2)) with (p i * ((1 - (M * r) ^ 2 * / 10) ^ 2 * k i ^ 2)) by ring. apply Rmult_le_compat_l; [apply Hp, Hi|]. rewrite (Rpow_mult_distr (tophat _)). apply Rmult_le_compat_r; [apply pow2_ge_0|].
  apply pow_incr. lra.
Qed.
Lemma variance_flow : variance k p n r <= 27 / 4 / r ^ 2 * (trapz (map k (seq 0 n)) (map p (seq 0 n)) / (6 * PI ^ 2)).
Proof.
  assert (R2 : 0 < r ^ 2) by (apply pow_lt, Hr). apply Rle_trans with (trapz (map k (seq 0 n)) (map (fun i => 9 / 4 / r ^ 2 * p i) (seq 0 n)) / (2 * PI ^ 2)).
  - unfold variance, Rdiv. apply Rmult_le_compat_r; [left; exact two_pi|]. apply trapz_seq_le; [exact HI|]. intros i Hi. rewrite (Rmult_comm _ (p i)). apply Rmult_le_compat_l; [apply Hp, Hi|].
    pose proof (tophat_over (k i * r) (Rmult_lt_0_compat _ _ (Hk i Hi) Hr)) as O. apply (Rmult_le_reg_r (r ^ 2)); [exact R2|]. replace (9 * / 4 * / r ^ 2 * r ^ 2) with (9 / 4) by (field; lra).
    replace ((tophat (k i * r) * k i) ^ 2 * r ^ 2) with ((tophat (k i * r) * (k i * r)) ^ 2) by ring. exact O.
  - rewrite (trapz_seq_scal k p). right. field. split; [apply PI_neq0|lra].
Qed.
End Smooth.
Section Object.
Context (cl : pyclass) (c : columns RNum) (n : nat) (r D : R) (g : sigmad2_arg R).
Hypothesis (HC : complete cl c n) (HS : suits g n) (HO : offers cl g) (HI : forall K, getitem c "k" = Ok K -> increasing K).
Hypothesis (Hk : forall i, (i < n)%nat -> 0 < entry c "k" i) (Hp : forall i, (i < n)%nat -> 0 <= spectrum_of cl c D g i) (Hr : 0 < r).
Lemma grid : increasing (map (entry c "k") (seq 0 n)).
Proof. destruct (k_of cl c n g HC HO) as (K & E & L & EK). rewrite <- EK. apply HI, E. Qed.
Lemma smoothing : exists s, sigmar_of (N := RNum) cl c r D g = Ok s /\ 0 <= s <= sqrt (unsmoothed (entry c "k") (spectrum_of cl c D g) n).
Proof.
  rewrite (sigmar_of_val cl c n D g HC HS HO r). eexists. split; [reflexivity|]. split; [apply sqrt_pos|]. apply sqrt_le_1_alt. apply (variance_le _ _ n r grid Hk Hp Hr).
Qed.
Lemma small_spheres M : (forall i, (i < n)%nat -> entry c "k" i <= M) -> (M * r) ^ 2 <= 10 ->
  exists s, sigmar_of (N := RNum) cl c r D g = Ok s /\ (1 - (M * r) ^ 2 / 10) * sqrt (unsmoothed (entry c "k") (spectrum_of cl c D g) n) <= s.
Proof.
  intros HM H10. rewrite (sigmar_of_val cl c n D g HC HS HO r). eexists. split; [reflexivity|]. rewrite <- (sqrt_pow2 (1 - (M * r) ^ 2 / 10)) by lra. rewrite <- sqrt_mult_alt by apply pow2_ge_0. apply sqrt_le_1_alt.
  apply (variance_ge _ _ n r grid Hk Hp Hr M HM H10).
Qed.
Lemma flow : exists s v, sigmar_of (N := RNum) cl c r D g = Ok s /\ sigmav_of (N := RNum) cl c D g = Ok v /\ s <= 3 * sqrt 3 / 2 * (v / r).
Proof.
  rewrite (sigmar_of_val cl c n D g HC HS HO r), (sigmav_of_val cl c n D g HC HS HO). do 2 eexists. split; [reflexivity|]. split; [reflexivity|].
  pose proof (variance_flow _ _ n r grid Hk Hp Hr) as V. apply sqrt_le_1_alt in V. rewrite sqrt_mult_alt in V by (apply Rlt_le, Rdiv_lt_0_compat; [lra|apply pow_lt, Hr]).
  replace (27 / 4 / r ^ 2) with (3 * (3 / 2 * / r) ^ 2) in V by (field; lra). rewrite (sqrt_mult_alt 3) in V by lra. rewrite sqrt_pow2 in V by (apply Rmult_le_pos; [lra|left; apply Rinv_0_lt_compat, Hr]).
  eapply Rle_trans; [exact V|]. right. field. lra.
Qed.
End Object.
(** ** The radius 0 *)
Lemma cube_zero : Rpow 0 3 = 0.
Proof. transitivity (0 ^ 3); [exact (Rpow_nat 0 3)|ring]. Qed.
Lemma zero_radius (c : columns ONum) (K v : list R) : getitem c "k" = Ok (os K) -> (2 <= List.length K)%nat -> List.length v = List.length K -> sigmar (N := ONum) c (Some 0) (Ok (os v)) = Ok None.
Proof.
  intros E L LV. unfold sigmar. rewrite E. cbn [bind]. set (f := fun row : list (T ONum) => _).
  assert (F : forall p k : R, f [Some p; Some k] = None).
  { intros p k. unfold f. cbn [nmul nsub nsin ncos npow nZ ndiv ONum lift1 lift2]. unfold opow. rewrite Rmult_0_r. destruct (Rlt_dec 0 0); [lra|]. destruct (Req_EM_T 0 0); [|lra]. destruct (Rle_dec 0 3); [|lra]. rewrite cube_zero. unfold odiv. destruct (Req_EM_T 0 0); [|lra]. reflexivity. }
  rewrite (elementwise_ok (N := ONum) f _ (List.length K)); [|discriminate|intros d [<-|[<-|[]]]; unfold os; rewrite map_length; lia]. cbn [bind]. clear E.
  destruct K as [|a [|b K]]; [cbn in L; lia|cbn in L; lia|]. destruct v as [|p [|q v]]; [discriminate|discriminate|].
  cbn [List.length seq map nth os]. rewrite !F. cbn [np_trapz]. cbn [nadd nmul nsub ndiv nZ ONum lift2 odiv]. apply (f_equal (@Ok (option R))). cbn [nsqrt npow npi ONum].
  match goal with |- osqrt ?x = None => replace x with (@None R); [reflexivity|] end. match goal with |- None = lift2 _ ?a _ => destruct a end; reflexivity.
Qed.
