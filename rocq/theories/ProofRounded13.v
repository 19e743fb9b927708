(** ProofRounded13: sums in any order, trapezoidal sums, sigmav and sigmar in rounded arithmetic. *)
From Coq Require Import ZArith Lia Reals Lra Psatz List Bool String Permutation.
From Verif Require Import Base Num BaseFacts Order Sums Spec Common Registry PyTerms SpecPy SpecRounded SpecRounded2 SpecRounded4 ProofRounded4 ProofRounded8 ProofRounded9 ProofPy ProofPy2.
From Flocq Require Import Core.
Import ListNotations.
Local Open Scope R_scope.

Definition total (l : list R) : R := fold_right Rplus 0 l.
Lemma total_perm l l' : Permutation l l' -> total l = total l'.
Proof. induction 1; unfold total in *; cbn; [reflexivity|rewrite IHPermutation; reflexivity|ring|congruence]. Qed.
Lemma total_app l l' : total (l ++ l') = total l + total l'.
Proof. unfold total. induction l as [|x l IH]; cbn; [ring|rewrite IH; ring]. Qed.
Lemma total_rsum (f : nat -> R) n : total (map f (seq 0 n)) = rsum n f.
Proof. induction n as [|n IH]; [reflexivity|]. rewrite seq_S, map_app, total_app, IH. cbn. ring. Qed.

Section Order.
Context (u : R) (Hu : 0 <= u < 1) (rnd : R -> R) (HR : relative u rnd).
Definition a3 (t : R * R * R) : R := fst (fst t).
Definition b3 (t : R * R * R) : R := snd (fst t).
Definition m3 (t : R * R * R) : R := snd t.
Lemma order_within n la s : any_order rnd la s -> forall l, la = map a3 l -> Forall (fun t => within u n (a3 t) (b3 t) (m3 t)) l ->
  within u (n + (length l - 1)) s (total (map b3 l)) (total (map m3 l)).
Proof.
  induction 1 as [|x|la l1 l2 a b HP H1 H2 A1 IH1 A2 IH2]; intros l E HW.
  - destruct l; [|discriminate]. cbn. pose proof (w_exact u Hu 0) as W. rewrite Rabs_R0 in W. exact (w_weak u Hu _ _ _ _ _ W ltac:(lia)).
  - destruct l as [|t [|]]; try discriminate. injection E as ->. cbn. rewrite !Rplus_0_r, Nat.add_0_r. inversion HW; assumption.
  - subst la. apply Permutation_sym in HP. destruct (Permutation_map_inv _ _ HP) as (l3 & E3 & P3). symmetry in E3. apply map_eq_app in E3 as (k1 & k2 & -> & <- & <-).
    assert (HW' : Forall (fun t => within u n (a3 t) (b3 t) (m3 t)) (k1 ++ k2)) by (apply (Permutation_Forall P3), HW). apply Forall_app in HW' as [W1 W2].
    specialize (IH1 k1 eq_refl W1). specialize (IH2 k2 eq_refl W2). rewrite (total_perm _ _ (Permutation_map b3 P3)), (total_perm _ _ (Permutation_map m3 P3)), !map_app, !total_app.
    rewrite (Permutation_length P3), app_length. assert (L1 : (1 <= length k1)%nat) by (destruct k1; [contradiction|cbn; lia]). assert (L2 : (1 <= length k2)%nat) by (destruct k2; [contradiction|cbn; lia]).
    apply (w_rnd_add u Hu rnd HR (n + (length k1 + length k2 - 2))); [| |lia].
    + apply (w_weak u Hu _ _ _ _ _ IH1). lia.
    + apply (w_weak u Hu _ _ _ _ _ IH2). lia.
Qed.
Lemma two_within : within u 0 2 2 2.
Proof. pose proof (w_exact u Hu 2) as W. rewrite Rabs_right in W by lra. exact W. Qed.
Lemma half_of n a b m : within u n a b m -> within u n (a / 2) (b / 2) (m / 2).
Proof.
  intros [A B]. unfold Rdiv. split; [rewrite Rabs_mult, (Rabs_right (/ 2)) by lra; lra|]. replace (a * / 2 - b * / 2) with ((a - b) * / 2) by ring. rewrite Rabs_mult, (Rabs_right (/ 2)) by lra. lra.
Qed.
Lemma trapz_within n (K y' y m : list R) S : increasing K -> length y' = length K -> (forall i, (i < length K)%nat -> within u n (at_ y' i) (at_ y i) (at_ m i)) ->
  any_order rnd (trapezia rnd K y') S -> within u (n + length K + 4) S (trapz K y) (trapz K m).
Proof.
  intros HI HL HW HO.
  set (f := fun i => ((rnd (rnd (rnd (at_ K (Datatypes.S i) - at_ K i) * rnd (at_ y' (Datatypes.S i) + at_ y' i)) / 2), (at_ K (Datatypes.S i) - at_ K i) * (at_ y (Datatypes.S i) + at_ y i) / 2), (at_ K (Datatypes.S i) - at_ K i) * (at_ m (Datatypes.S i) + at_ m i) / 2)).
  pose proof (order_within (n + 4) _ _ HO (map f (seq 0 (length K - 1)))) as H. rewrite !map_map, map_length, seq_length in H.
  replace (trapz K y) with (total (map (fun x => b3 (f x)) (seq 0 (length K - 1)))) by (rewrite total_rsum; reflexivity). replace (trapz K m) with (total (map (fun x => m3 (f x)) (seq 0 (length K - 1)))) by (rewrite total_rsum; reflexivity).
  apply (w_weak u Hu (n + 4 + (length K - 1 - 1))); [apply H|].
  - reflexivity.
  - apply Forall_map, Forall_forall. intros i Hi. apply in_seq in Hi. unfold a3, b3, m3, f. cbn [fst snd].
    assert (D : 0 <= at_ K (Datatypes.S i) - at_ K i) by (assert (at_ K i < at_ K (Datatypes.S i)) by (apply HI; lia); lra).
    replace (n + 4)%nat with (Datatypes.S (n + 3)) by lia. apply w_rnd; [assumption|assumption|]. apply half_of.
    apply (w_rnd_mul u Hu rnd HR 1 (n + 1)); [| |lia].
    + apply w_rnd; [assumption|assumption|]. pose proof (w_exact u Hu (at_ K (Datatypes.S i) - at_ K i)) as W. rewrite Rabs_right in W by lra. exact W.
    + apply (w_rnd_add u Hu rnd HR n); [apply HW; lia|apply HW; lia|lia].
  - lia.
Qed.
(** square roots *)
Lemma sqrt_within n a b m : 0 <= a -> 0 < b -> within u n a b m -> within u n (sqrt a) (sqrt b) (m / sqrt b).
Proof.
  intros Ha Hb [A B]. pose proof (sqrt_lt_R0 b Hb) as Sb. pose proof (sqrt_pos a) as Sa. pose proof (sqrt_def b (Rlt_le _ _ Hb)) as Eb. pose proof (sqrt_def a Ha) as Ea. rewrite Rabs_right in A by lra. split.
  - rewrite Rabs_right by lra. apply Rmult_le_reg_r with (sqrt b); [exact Sb|]. replace (m / sqrt b * sqrt b) with m by (field; lra). lra.
  - apply Rmult_le_reg_r with (sqrt b); [exact Sb|]. replace (units u n * (m / sqrt b) * sqrt b) with (units u n * m) by (field; lra). eapply Rle_trans; [|exact B].
    replace (a - b) with ((sqrt a - sqrt b) * (sqrt a + sqrt b)) by lra. rewrite Rabs_mult. apply Rmult_le_compat_l; [apply Rabs_pos|]. rewrite Rabs_right by lra. lra.
Qed.
Lemma sqrt_within0 n a b : 0 <= a -> 0 <= b -> within u n a b b -> within u n (sqrt a) (sqrt b) (sqrt b).
Proof.
  intros Ha [Hb|<-] H.
  - pose proof (sqrt_within n a b b Ha Hb H) as W. replace (b / sqrt b) with (sqrt b) in W; [exact W|]. pose proof (sqrt_lt_R0 b Hb). rewrite <- (sqrt_def b) at 2 by lra. field. lra.
  - destruct H as [_ B]. rewrite Rmult_0_r, Rminus_0_r in B. assert (a = 0) by (pose proof (Rle_abs a); lra). subst a. rewrite sqrt_0. pose proof (w_exact u Hu 0) as W. rewrite Rabs_R0 in W. exact (w_weak u Hu _ _ _ _ _ W ltac:(lia)).
Qed.
Lemma w_opp n a b m : within u n a b m -> within u n (- a) (- b) m.
Proof. intros [A B]. split; [rewrite Rabs_Ropp; exact A|]. replace (- a - - b) with (- (a - b)) by ring. rewrite Rabs_Ropp. exact B. Qed.
End Order.

Section Model.
Context (F : R -> Prop) (rnd : R -> R) (lm : libmR) (u : R) (e : nat) (RD : rounding F rnd) (Hu : 0 <= u <= 1 / 100) (HR : relative u rnd) (HA : accurate u e lm) (HI : integers F).
Notation Q := (QNum rnd lm).
Local Lemma u01 : 0 <= u < 1. Proof. lra. Qed.
Lemma rint n : (n <= 8)%nat -> rnd (INR n) = INR n.
Proof. intros H. apply (r_id F rnd RD), HI, H. Qed.
Lemma trapezia_cons x0 x1 xt y0 y1 yt : trapezia rnd (x0 :: x1 :: xt) (y0 :: y1 :: yt) = rnd (rnd (rnd (x1 - x0) * rnd (y1 + y0)) / 2) :: trapezia rnd (x1 :: xt) (y1 :: yt).
Proof. unfold trapezia. cbn [length Nat.sub]. rewrite Nat.sub_0_r. cbn [seq map]. f_equal. rewrite <- seq_shift, map_map. reflexivity. Qed.
Lemma np_order : forall (x y : list R), length y = length x -> any_order rnd (trapezia rnd x y) (np_trapz (N := Q) y x).
Proof.
  assert (R0 : rnd 0 = 0) by exact (rint 0 ltac:(lia)). assert (R2 : rnd 2 = 2) by (pose proof (rint 2 ltac:(lia)) as H; cbn in H; replace (1 + 1) with 2 in H by ring; exact H).
  induction x as [|x0 x IH]; intros y HL; [destruct y; [cbn; rewrite R0; constructor|discriminate]|].
  destruct y as [|y0 y]; [discriminate|]. destruct x as [|x1 x], y as [|y1 y]; try discriminate; [cbn; rewrite R0; constructor|].
  rewrite trapezia_cons. specialize (IH (y1 :: y) ltac:(cbn in *; lia)).
  change (np_trapz (N := Q) (y0 :: y1 :: y) (x0 :: x1 :: x)) with (rnd (rnd (rnd (rnd (x1 - x0) * rnd (y1 + y0)) / rnd 2) + np_trapz (N := Q) (y1 :: y) (x1 :: x))). rewrite R2.
  destruct x as [|x2 x], y as [|y2 y]; try discriminate.
  - cbn [np_trapz]. change (nZ Q 0) with (rnd 0). rewrite R0, Rplus_0_r, (r_id F rnd RD (rnd (rnd (rnd (x1 - x0) * rnd (y1 + y0)) / 2))) by apply (r_in F rnd RD). constructor.
  - apply (ao_add rnd _ [rnd (rnd (rnd (x1 - x0) * rnd (y1 + y0)) / 2)] (trapezia rnd (x1 :: x2 :: x) (y1 :: y2 :: y))); [apply Permutation_refl|discriminate|rewrite trapezia_cons; discriminate|constructor|exact IH].
Qed.
Lemma trapz_pos (K y : list R) : increasing K -> (forall i, (i < length K)%nat -> 0 <= at_ y i) -> 0 <= trapz K y.
Proof.
  intros H1 H2. unfold trapz. apply rsum_nonneg. intros i Hi. assert (at_ K i < at_ K (S i)) by (apply H1; lia). pose proof (H2 i ltac:(lia)). pose proof (H2 (S i) ltac:(lia)).
  apply Rmult_le_pos; [apply Rmult_le_pos; lra|lra].
Qed.
Lemma coeff_close n : (1 <= n <= 8)%nat -> close u (e + 4) (rnd (rnd (rnd 1 / rnd (INR n)) / q_pow lm (rnd PI) (rnd 2))) (1 / INR n / PI ^ 2).
Proof.
  intros Hn. rewrite (rint n ltac:(lia)). assert (R1 : rnd 1 = 1) by (apply (r_id F rnd RD), (r_one F rnd RD)). rewrite R1. assert (R2 : rnd 2 = INR 2) by (pose proof (rint 2 ltac:(lia)) as H; cbn in H |- *; replace (1 + 1) with 2 in * by ring; exact H). rewrite R2.
  pose proof (PI_RGT_0) as PP.
  assert (CP : close u (e + 2) (q_pow lm (rnd PI) (INR 2)) (PI ^ 2)).
  { eapply close_trans; [exact u01|apply (proj2 HA)|]. pose proof (rnd_close u u01 rnd HR PI) as C. pose proof (close_mul u u01 _ _ _ _ _ _ C C) as C2. cbn [pow]. rewrite !Rmult_1_r. exact C2. }
  replace (e + 4)%nat with (S (1 + (e + 2))) by lia. apply rnd_step; [exact u01|exact HR|]. apply close_div; [exact u01| |exact CP|apply pow_nonzero; lra]. apply rnd_close; [exact u01|exact HR].
Qed.
Lemma rnd_pos x : 0 <= x -> 0 <= rnd x.
Proof. intros H. rewrite <- (r_id F rnd RD 0 (r_zero F rnd RD)). apply (r_mono F rnd RD), H. Qed.
Lemma coeff_pos n : (1 <= n)%nat -> 0 <= 1 / INR n / PI ^ 2.
Proof. intros Hn. pose proof (pow_lt PI 2 PI_RGT_0). assert (0 < INR n) by (apply lt_0_INR; lia). apply Rlt_le, Rdiv_lt_0_compat; [apply Rdiv_lt_0_compat; lra|lra]. Qed.
(** the square root of the coefficient times a sum, added in any order *)
Lemma root_within n N (K y' y m : list R) S : (1 <= n <= 8)%nat -> increasing K -> length y' = length K -> (forall i, (i < length K)%nat -> within u N (at_ y' i) (at_ y i) (at_ m i)) -> (forall i, 0 <= at_ y' i) -> 0 <= S ->
  any_order rnd (trapezia rnd K y') S -> let c := 1 / INR n / PI ^ 2 in
  let a := rnd (rnd (rnd (rnd 1 / rnd (INR n)) / q_pow lm (rnd PI) (rnd 2)) * S) in 0 <= a /\ within u (N + length K + e + 9) a (c * trapz K y) (c * trapz K m).
Proof.
  intros Hn HK HL HW Hy HS HO c a. pose proof (coeff_close n Hn) as CC. pose proof (coeff_pos n ltac:(lia)) as Cp. split.
  - unfold a. apply rnd_pos, Rmult_le_pos; [exact (close_pos u u01 _ _ _ CC Cp)|exact HS].
  - apply (w_rnd_mul u u01 rnd HR (e + 4) (N + length K + 4)); [apply w_close'; [exact u01|exact CC|exact Cp]|apply (trapz_within u u01 rnd HR N K y' y m S HK HL HW HO)|lia].
Qed.
Lemma order_pos l s : any_order rnd l s -> Forall (fun x => 0 <= x) l -> 0 <= s.
Proof.
  induction 1 as [|x|l l1 l2 a b HP _ _ _ IH1 _ IH2]; intros H; [lra|inversion H; assumption|]. apply (Permutation_Forall HP), Forall_app in H as [H1 H2]. apply rnd_pos. pose proof (IH1 H1). pose proof (IH2 H2). lra.
Qed.
Lemma trapezia_pos (K y : list R) : increasing K -> (forall i, 0 <= at_ y i) -> Forall (fun x => 0 <= x) (trapezia rnd K y).
Proof.
  intros H1 H2. apply Forall_map, Forall_forall. intros i Hi. apply in_seq in Hi. assert (at_ K i < at_ K (S i)) by (apply H1; lia). pose proof (H2 i). pose proof (H2 (S i)).
  apply rnd_pos, Rmult_le_pos; [apply rnd_pos, Rmult_le_pos; apply rnd_pos; lra|lra].
Qed.
Lemma at_nonneg (v : list R) : Forall (fun x => 0 <= x) v -> forall i, 0 <= at_ v i.
Proof. intros H i. unfold at_. destruct (Nat.lt_ge_cases i (length v)) as [L|L]; [exact (proj1 (Forall_forall _ _) H _ (nth_In _ _ L))|rewrite nth_overflow by exact L; lra]. Qed.
Lemma plain_within (v : list R) i : 0 <= at_ v i -> within u 0 (at_ v i) (at_ v i) (at_ v i).
Proof. intros H. pose proof (w_exact u u01 (at_ v i)) as W. rewrite Rabs_right in W by lra. exact W. Qed.

(** the sum alone *)
Lemma sum_error (K v : list R) S : increasing K -> length v = length K -> Forall (fun x => 0 <= x) v -> any_order rnd (trapezia rnd K v) S -> Rabs (S - trapz K v) <= units u (length K + 4) * trapz K v.
Proof.
  intros HK HL Hv HO. pose proof (at_nonneg v Hv) as P. pose proof (trapz_within u u01 rnd HR 0 K v v v S HK HL (fun i _ => plain_within v i (P i)) HO) as [_ H]. exact H.
Qed.
Lemma sigmav_order (K v : list R) S : increasing K -> length v = length K -> Forall (fun x => 0 <= x) v -> any_order rnd (trapezia rnd K v) S ->
  let s := rnd (sqrt (rnd (rnd (rnd (rnd 1 / rnd 6) / q_pow lm (rnd PI) (rnd 2)) * S))) in let x := sqrt (trapz K v / (6 * PI ^ 2)) in
  Rabs (s - x) <= units u (length K + e + 10) * x.
Proof.
  intros HK HL Hv HO s x. pose proof (at_nonneg v Hv) as P. assert (HS : 0 <= S) by exact (order_pos _ _ HO (trapezia_pos K v HK P)).
  pose proof (root_within 6 0 K v v v S ltac:(lia) HK HL (fun i _ => plain_within v i (P i)) P HS HO) as (A & W). cbv zeta in A, W. change (0 + length K + e + 9)%nat with (length K + e + 9)%nat in W.
  replace (INR 6) with 6 in A, W by (cbn; ring).
  assert (E : 1 / 6 / PI ^ 2 * trapz K v = trapz K v / (6 * PI ^ 2)) by (field; apply PI_neq0). rewrite E in W.
  assert (B : 0 <= trapz K v / (6 * PI ^ 2)) by (rewrite <- E; apply Rmult_le_pos; [pose proof (coeff_pos 6 ltac:(lia)) as H; replace (INR 6) with 6 in H by (cbn; ring); exact H|apply trapz_pos; [exact HK|intros i _; apply P]]).
  pose proof (w_rnd u u01 rnd HR _ _ _ _ (sqrt_within0 u u01 _ _ _ A B W)) as [_ R]. replace (length K + e + 10)%nat with (Datatypes.S (length K + e + 9)) by lia. exact R.
Qed.
Lemma sigmav_error (c : columns RNum) (K v : list R) : getitem c "k" = Ok K -> increasing K -> length v = length K -> Forall (fun x => 0 <= x) v ->
  exists s, sigmav (N := Q) c (Ok v) = Ok s /\ let x := sqrt (trapz K v / (6 * PI ^ 2)) in Rabs (s - x) <= units u (length K + e + 10) * x.
Proof.
  intros HG HK HL Hv. eexists. split; [|exact (sigmav_order K v (np_trapz (N := Q) v K) HK HL Hv (np_order K v HL))].
  unfold sigmav. cbn [bind]. change (getitem (N := Q) c "k") with (getitem (N := RNum) c "k"). rewrite HG. cbn [bind]. change (T Q) with R. rewrite HL, Nat.eqb_refl. reflexivity.
Qed.
End Model.
