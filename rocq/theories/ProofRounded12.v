(** ProofRounded12: the lookups between the tabulated wavenumbers, in a rounded arithmetic. *)
From Coq Require Import ZArith Lia Reals Lra Psatz List Bool.
From Verif Require Import Base Num BaseFacts Order Spec Common ProofSearch ProofInterp ProofFindPk ProofFindPkR ProofCommon2 ProofSigma ProofRounded8 SpecRounded SpecRounded2 SpecRounded3
  ProofRounded ProofRounded2 ProofRounded4 ProofRounded9 ProofRounded11.
Import ListNotations.
Local Open Scope R_scope.

Lemma amplification_pos ratio m : (forall m, 0 <= ratio m) -> 0 <= amplification ratio m.
Proof. intros H. induction m as [|m IH]; cbn [amplification]; [lra|]. apply Rmult_le_pos; [|exact IH]. specialize (H (S m)). lra. Qed.
Lemma growth_mono ratio m n : (forall m, 0 <= ratio m) -> (m <= n)%nat -> growth ratio m <= growth ratio n.
Proof. intros H L. induction L as [|n L IH]; [lra|]. cbn [growth]. pose proof (amplification_pos ratio (S n) H). lra. Qed.

Section Table.
Context (rnd : R -> R) (lm : libmR) (u : R) (Hu : 0 <= u < 1) (HR : relative u rnd).
Local Notation Q := (QNum rnd lm).
Context (K P : list R).
Hypothesis HL : length P = length K.
Hypothesis HB : (2 <= zlen K < 2 ^ 62)%Z.
Hypothesis HI : increasing K.

Lemma poly_lookup (k : R) : at_ K 0 <= k <= at_ K (length K - 1) ->
  exists i (p : poly) y, (i < length K)%nat /\ at_ K i <= k /\ ((S i < length K)%nat -> k < at_ K (S i)) /\ let a := (i - 2)%nat in let b := Nat.min (i + 2) (length K - 1) in
    (length p <= b - a + 1)%nat /\ (forall j, (a <= j <= b)%nat -> peval p (at_ K j) = at_ P j) /\
    find_pk (N := Q) (mk_table (N := Q) K P) [k] POLY = Ok [y] /\
    forall M ratio, (forall m, 0 <= ratio m) -> (forall j, (a <= j <= b)%nat -> Rabs (at_ P j) <= M) -> spread K k a b ratio ->
      Rabs (y - peval p k) <= units u 21 * (growth ratio 4 * M).
Proof.
  intros Hk.
  assert (Hlast : znth 0 K (zlen K - 1) = at_ K (length K - 1)).
  { unfold znth, at_, zlen in *. f_equal. lia. }
  destruct (bracketQ rnd lm K P HL ltac:(lia) HI k ltac:(lia) (proj1 Hk)) as [i [Ei [Hi [H1 H2]]]].
  set (nk := zlen K) in *.
  destruct (window_bounds (N := RNum) (mk_table (N := RNum) K P) i) as [B1 B2]; [exact Hi|].
  cbn [pk_k mk_table] in B1, B2. rn_in B1. rn_in B2. fold nk in B1, B2.
  assert (LP : zlen P = nk) by (unfold nk, zlen; now rewrite HL).
  set (a := zmax 0 (i - 2)) in *. set (b := zmin (nk - 1) (i + 2)) in *.
  assert (Ea : Z.to_nat a = (Z.to_nat i - 2)%nat).
  { unfold a, zmax. rewrite Z.gtb_ltb. destruct (Z.ltb_spec (i - 2) 0); lia. }
  assert (Eb : Z.to_nat b = Nat.min (Z.to_nat i + 2) (length K - 1)).
  { unfold b, zmin, nk, zlen. destruct (Z.ltb_spec (Z.of_nat (length K) - 1) (i + 2)); lia. }
  set (K' := skipn (Z.to_nat a) K). set (P' := skipn (Z.to_nat a) P).
  assert (LK' : zlen K' = (nk - a)%Z) by (unfold K'; rewrite zlen_skipn by (fold nk; lia); fold nk; lia).
  assert (LP' : zlen P' = (nk - a)%Z) by (unfold P'; rewrite zlen_skipn by (rewrite LP; lia); rewrite LP; lia).
  assert (HD : forall u v, (0 <= u < b - a + 1)%Z -> (0 <= v < b - a + 1)%Z -> u <> v -> znth 0 K' u <> znth 0 K' v).
  { intros s v Hs Hv Huv. unfold K'. rewrite !znth_skipn by lia.
    destruct (Z.lt_trichotomy s v) as [L|[L|L]]; [|lia|].
    + pose proof (inc_znth K HI (a + s) (a + v) ltac:(lia) ltac:(fold nk; lia)). lra.
    + pose proof (inc_znth K HI (a + v) (a + s) ltac:(lia) ltac:(fold nk; lia)). lra. }
  assert (ZK : forall v, (0 <= v)%Z -> znth 0 K' v = at_ K (Z.to_nat (a + v))) by (intros v Hv; unfold K'; rewrite znth_skipn by lia; reflexivity).
  assert (ZP : forall v, (0 <= v)%Z -> znth 0 P' v = at_ P (Z.to_nat (a + v))) by (intros v Hv; unfold P'; rewrite znth_skipn by lia; reflexivity).
  assert (SY : exists y, interpol_poly (N := Q) k K' P' (b - a + 1) = Ok y).
  { apply (interpol_poly_safe (N := Q)); change (T Q) with R; lia. }
  destruct SY as [y Ey].
  destruct (Nev_poly K' P' (Z.to_nat (b - a + 1 - 1)) 0) as [p [Lp Ep]].
  exists (Z.to_nat i), p, y. split; [unfold nk, zlen in Hi; lia|]. split; [exact H1|]. split.
  { intros Hs. destruct H2 as [H2|H2]; [unfold nk, zlen in H2; lia|].
    replace (S (Z.to_nat i)) with (Z.to_nat (i + 1)) by lia. exact H2. }
  cbn zeta. rewrite <- Ea, <- Eb. split; [lia|]. split; [|split].
  - intros j Hj. rewrite Ep.
    pose proof (Nev_through K' P' (b - a + 1) HD (Z.to_nat (b - a + 1 - 1)) 0 ltac:(lia) ltac:(lia) (Z.of_nat j - a)%Z ltac:(lia)) as HT.
    rewrite ZK, ZP in HT by lia. replace (Z.to_nat (a + (Z.of_nat j - a))) with j in HT by lia. exact HT.
  - apply (singleQ rnd lm K P HL ltac:(fold nk; lia) POLY); [fold nk; lia|]. fold nk.
    exists i. unfold find_pk_step. qn.
    assert (Rltb (znth 0 K (nk - 1)) k = false) as -> by (apply Rltb_false; rewrite Hlast; lra).
    assert (Rltb k (znth 0 K 0) = false) as -> by (apply Rltb_false; apply Hk).
    cbn [mk_table pk_k pk_p]. rewrite u64_small by (unfold SIZE_T; lia).
    replace (nk - 1 + 1)%Z with nk by lia. qn_in Ei. rewrite Ei. cbn [bind]. fold a b K' P'.
    qn_in Ey. rewrite Ey. reflexivity.
  - intros M ratio Hpos HM HS. rewrite Ep.
    destruct (poly_within rnd lm u Hu HR k K' P' (b - a + 1) ltac:(lia) ltac:(lia) ltac:(lia) ltac:(lia) HD M ratio) as (y' & Ey' & HW).
    + intros v Hv. rewrite ZP by lia. apply HM. lia.
    + intros v m Hv Hm Hvm. rewrite !ZK by lia. replace (Z.to_nat (a + (v + Z.of_nat m))) with (Z.to_nat (a + v) + m)%nat by lia. apply HS; lia.
    + rewrite Ey in Ey'. injection Ey' as <-. destruct HW as [_ HW]. eapply Rle_trans; [exact HW|].
      assert (N4 : (Z.to_nat (b - a + 1 - 1) <= 4)%nat) by (rewrite Z.add_simpl_r; unfold a, b, zmax, zmin; rewrite Z.gtb_ltb; destruct (Z.ltb_spec (i - 2) 0), (Z.ltb_spec (nk - 1) (i + 2)); lia).
      assert (PM : 0 <= M) by (eapply Rle_trans; [apply Rabs_pos|apply (HM (Z.to_nat a)); lia]).
      pose proof (growth_mono ratio _ _ Hpos (Nat.le_0_l (Z.to_nat (b - a + 1 - 1)))) as G0. cbn [growth] in G0.
      apply Rmult_le_compat; [apply units_pos, Hu|apply Rmult_le_pos; lra|apply units_mono; [exact Hu|lia]|].
      apply Rmult_le_compat_r; [exact PM|]. apply growth_mono; assumption.
Qed.

(** Linear interpolation *)
Lemma lin_within (x x0 x1 p0 p1 M : R) : x0 <= x <= x1 -> x0 < x1 -> Rabs p0 <= M -> Rabs p1 <= M ->
  Rabs (interpol_lin (N := Q) x x0 x1 p0 p1 - ((x - x0) / (x1 - x0) * (p1 - p0) + p0)) <= units u 6 * (3 * M).
Proof.
  intros Hx H01 H0 H1. unfold interpol_lin. qn.
  assert (C1 : forall a b, close u 1 (rnd (a - b)) (a - b)) by (intros; apply rnd_close; assumption).
  assert (C3 : close u 3 (rnd (rnd (x - x0) / rnd (x1 - x0))) ((x - x0) / (x1 - x0))).
  { apply rnd_step; [exact Hu|exact HR|]. apply (close_div u Hu 1 1); [apply C1|apply C1|lra]. }
  set (t := (x - x0) / (x1 - x0)) in *.
  assert (T : 0 <= t <= 1). { unfold t. split; [apply Rmult_le_pos; [lra|left; apply Rinv_0_lt_compat; lra]|]. apply Rmult_le_reg_r with (x1 - x0); [lra|]. unfold Rdiv. rewrite Rmult_assoc, Rinv_l; lra. }
  assert (W : within u 6 (rnd (rnd (rnd (rnd (x - x0) / rnd (x1 - x0)) * rnd (p1 - p0)) + p0)) (t * (p1 - p0) + p0) (Rabs t * Rabs (p1 - p0) + Rabs p0)).
  { eapply w_rnd_add; [exact Hu|exact HR| | |reflexivity].
    - eapply w_rnd_mul; [exact Hu|exact HR|apply w_close; [exact Hu|exact C3]|apply w_close; [exact Hu|apply C1]|reflexivity].
    - apply w_weak with 0%nat; [exact Hu|apply w_exact, Hu|lia]. }
  destruct W as [_ W]. eapply Rle_trans; [exact W|]. apply Rmult_le_compat_l; [apply units_pos, Hu|].
  assert (D : Rabs (p1 - p0) <= 2 * M). { eapply Rle_trans; [apply Rabs_triang|]. rewrite Rabs_Ropp. lra. }
  rewrite (Rabs_right t) by lra. pose proof (Rabs_pos (p1 - p0)). nra.
Qed.
Lemma lin_lookup (k : R) : at_ K 0 <= k < at_ K (length K - 1) ->
  exists i y, (S i < length K)%nat /\ at_ K i <= k < at_ K (S i) /\ find_pk (N := Q) (mk_table (N := Q) K P) [k] LIN = Ok [y] /\
    forall M, Rabs (at_ P i) <= M -> Rabs (at_ P (S i)) <= M -> Rabs (y - plin K P k) <= units u 6 * (3 * M).
Proof.
  intros Hk.
  assert (Hlast : znth 0 K (zlen K - 1) = at_ K (length K - 1)).
  { unfold znth, at_, zlen in *. f_equal. lia. }
  destruct (bracketQ rnd lm K P HL ltac:(lia) HI k ltac:(lia) (proj1 Hk)) as [i [Ei [Hi [H1 H2]]]].
  assert (Hi' : (i < zlen K - 1)%Z).
  { destruct H2 as [->|H2]; [rewrite Hlast in H1; lra|].
    destruct (Z.eq_dec i (zlen K - 1)) as [->|]; [rewrite Hlast in H1; lra|lia]. }
  destruct H2 as [H2|H2]; [lia|].
  assert (HPl : zlen P = zlen K) by (unfold zlen; lia).
  assert (S1 : Z.to_nat (i + 1) = S (Z.to_nat i)) by lia.
  exists (Z.to_nat i), (interpol_lin (N := Q) k (znth 0 K i) (znth 0 K (i + 1)) (znth 0 P i) (znth 0 P (i + 1))).
  split; [unfold zlen in Hi'; lia|]. split; [rewrite <- S1; split; [exact H1|exact H2]|]. split.
  - apply (singleQ rnd lm K P HL ltac:(lia) LIN); [lia|]. exists i. unfold find_pk_step. qn.
    assert (Rltb (znth 0 K (zlen K - 1)) k = false) as -> by (apply Rltb_false; rewrite Hlast; lra).
    assert (Rltb k (znth 0 K 0) = false) as -> by (apply Rltb_false; apply Hk).
    cbn [mk_table pk_k pk_p]. rewrite u64_small by (unfold SIZE_T; lia).
    replace (zlen K - 1 + 1)%Z with (zlen K) by lia. qn_in Ei. rewrite Ei. cbn [bind].
    rewrite !(rd_ok 0) by lia. reflexivity.
  - intros M M0 M1. rewrite <- S1 in M1. rewrite (plin_chord_gen k K P HL HI i) by (try lia; lra).
    pose proof (inc_znth K HI i (i + 1) ltac:(lia) ltac:(lia)) as I.
    pose proof (lin_within k (znth 0 K i) (znth 0 K (i + 1)) (znth 0 P i) (znth 0 P (i + 1)) M ltac:(lra) I M0 M1) as W.
    match goal with |- Rabs (_ - ?r) <= _ => replace r with ((k - znth 0 K i) / (znth 0 K (i + 1) - znth 0 K i) * (znth 0 P (i + 1) - znth 0 P i) + znth 0 P i); [exact W|field; lra] end.
Qed.
End Table.

(** Spacings between h and c h *)
Definition even (c : R) (m : nat) : R := 3 * c / INR m.
Lemma even_growth c : growth (even c) 4 = 1 + 6 * c + 18 * c ^ 2 + 36 * c ^ 3 + 54 * c ^ 4.
Proof. unfold growth, amplification, even. cbn [INR]. field. Qed.
Lemma spaced_spread (K : list R) (k h c : R) i : (i < length K)%nat -> at_ K i <= k -> ((S i < length K)%nat -> k < at_ K (S i)) -> (S i = length K -> k = at_ K i) -> 0 < h -> 1 <= c ->
  let a := (i - 2)%nat in let b := Nat.min (i + 2) (length K - 1) in
  (forall j, (a <= j < b)%nat -> h <= at_ K (S j) - at_ K j <= c * h) -> spread K k a b (even c).
Proof.
  intros Hi K1 K2 K3 Hh Hc a b HS.
  assert (G : forall m j, (a <= j)%nat -> (j + m <= b)%nat -> INR m * h <= at_ K (j + m) - at_ K j <= INR m * (c * h)).
  { induction m as [|m IH]; intros j Hj Hm; [rewrite Nat.add_0_r; cbn [INR]; lra|]. rewrite S_INR, Nat.add_succ_r. specialize (IH j Hj ltac:(lia)). specialize (HS (j + m)%nat ltac:(lia)). lra. }
  assert (CH : 0 < c * h) by nra.
  assert (D : forall j, (a <= j <= b)%nat -> Rabs (k - at_ K j) <= 3 * c * h).
  { intros j Hj. destruct (Nat.le_gt_cases j i) as [L|L].
    - pose proof (G (i - j)%nat j ltac:(lia) ltac:(lia)) as [G1 G2]. replace (j + (i - j))%nat with i in * by lia.
      assert (N2 : 0 <= INR (i - j) <= 2) by (split; [apply pos_INR|replace 2 with (INR 2) by (cbn; lra); apply le_INR; lia]).
      assert (Q1 : 0 <= INR (i - j) * h) by (apply Rmult_le_pos; lra). assert (Q2 : INR (i - j) * (c * h) <= 2 * (c * h)) by (apply Rmult_le_compat_r; lra).
      assert (Q3 : k - at_ K i <= c * h).
      { destruct (Nat.eq_dec (S i) (length K)) as [E|E]; [rewrite (K3 E); lra|]. specialize (K2 ltac:(lia)). pose proof (HS i ltac:(lia)). lra. }
      apply Rabs_le. lra.
    - specialize (K2 ltac:(lia)). pose proof (G (j - i)%nat i ltac:(lia) ltac:(lia)) as [G1 G2]. replace (i + (j - i))%nat with j in * by lia.
      assert (N2 : INR (j - i) <= 2) by (replace 2 with (INR 2) by (cbn; lra); apply le_INR; lia).
      assert (Q2 : INR (j - i) * (c * h) <= 2 * (c * h)) by (apply Rmult_le_compat_r; lra).
      assert (Q4 : at_ K (S i) <= at_ K j). { pose proof (G (j - S i)%nat (S i) ltac:(lia) ltac:(lia)) as [G3 _]. replace (S i + (j - S i))%nat with j in * by lia. assert (0 <= INR (j - S i) * h) by (apply Rmult_le_pos; [apply pos_INR|lra]). lra. }
      apply Rabs_le. lra. }
  intros j m Hj Hm Hjm. destruct (G m j Hj Hjm) as [G1 _].
  assert (Im : 0 < INR m) by (apply lt_0_INR; lia).
  assert (B : 3 * c * h <= even c m * Rabs (at_ K j - at_ K (j + m))).
  { rewrite Rabs_minus_sym, Rabs_right by (assert (0 <= INR m * h) by (apply Rmult_le_pos; lra); lra).
    apply Rle_trans with (even c m * (INR m * h)); [right; unfold even; field; lra|]. apply Rmult_le_compat_l; [|exact G1].
    unfold even. apply Rmult_le_pos; [lra|left; apply Rinv_0_lt_compat, Im]. }
  split; (eapply Rle_trans; [apply D; lia|exact B]).
Qed.
Lemma even_pos c m : 1 <= c -> 0 <= even c m.
Proof.
  intros H. unfold even. destruct m as [|m]; [cbn [INR]; unfold Rdiv; rewrite Rinv_0; lra|]. apply Rmult_le_pos; [lra|]. left. apply Rinv_0_lt_compat, lt_0_INR. lia.
Qed.
(** Ascending arrays *)
Lemma all_lookup rnd lm (K P : list R) im (ks : list R) (rel : R -> R -> Prop) : length P = length K -> (2 <= zlen K < 2 ^ 62)%Z -> increasing K -> ascending ks ->
  (forall k, In k ks -> exists y, find_pk (N := QNum rnd lm) (mk_table (N := QNum rnd lm) K P) [k] im = Ok [y] /\ rel k y) ->
  exists ys, find_pk (N := QNum rnd lm) (mk_table (N := QNum rnd lm) K P) ks im = Ok ys /\ Forall2 rel ks ys.
Proof.
  intros HL HB HI HA H.
  assert (G : exists ys, Forall2 (fun k p => find_pk (N := QNum rnd lm) (mk_table (N := QNum rnd lm) K P) [k] im = Ok [p]) ks ys /\ Forall2 rel ks ys).
  { clear HA. induction ks as [|k ks IH]; [exists []; split; constructor|]. destruct IH as (ys & I1 & I2); [intros v Hv; apply H; right; exact Hv|].
    destruct (H k (or_introl eq_refl)) as (y & E & Hy). exists (y :: ys). split; constructor; assumption. }
  destruct G as (ys & G1 & G2). exists ys. split; [|exact G2]. apply (elementwiseQ rnd lm K P HL ltac:(lia) HI); [lia|exact HA|exact G1].
Qed.
Lemma figure21 : units (/ 2 ^ 53) 21 * 115 <= 3 / 10 ^ 13.
Proof.
  set (v := / 2 ^ 53). assert (Hv : 0 < v <= 111023 / 10 ^ 21).
  { unfold v. split; [apply Rinv_0_lt_compat, pow_lt; lra|]. apply Rmult_le_reg_l with (2 ^ 53); [apply pow_lt; lra|]. rewrite Rinv_r by (apply pow_nonzero; lra). cbn [pow]. lra. }
  pose proof (bern_gen v 21 ltac:(lra)) as B. replace (INR 21) with 21 in B by (cbn; lra). unfold units.
  assert (I : / (1 - v) ^ 21 <= / (1 - 21 * v)) by (apply Flocq.Core.Raux.Rinv_le || apply Rinv_le_contravar; lra).
  assert (J : / (1 - 21 * v) <= 1 + 22 * v). { apply Rmult_le_reg_l with (1 - 21 * v); [lra|]. rewrite Rinv_r by lra. nra. }
  lra.
Qed.
Lemma figure_even : units (/ 2 ^ 53) 21 * (1 + 6 * 1 + 18 * 1 ^ 2 + 36 * 1 ^ 3 + 54 * 1 ^ 4) <= 3 / 10 ^ 13.
Proof. replace (1 + 6 * 1 + 18 * 1 ^ 2 + 36 * 1 ^ 3 + 54 * 1 ^ 4) with 115 by ring. exact figure21. Qed.
Lemma spaced_lookup rnd lm u (K P ks : list R) (h : nat -> R) (c M : R) : 0 <= u < 1 -> relative u rnd -> length P = length K -> (2 <= zlen K < 2 ^ 62)%Z -> increasing K ->
  1 <= c -> (forall i, (i < length K)%nat -> 0 < h i) -> (forall i j, (i < length K)%nat -> (i - 2 <= j < Nat.min (i + 2) (length K - 1))%nat -> h i <= at_ K (S j) - at_ K j <= c * h i) ->
  (forall j, (j < length K)%nat -> Rabs (at_ P j) <= M) ->
  ascending ks -> (forall k, In k ks -> at_ K 0 <= k <= at_ K (length K - 1)) ->
  exists ys, find_pk (N := QNum rnd lm) (mk_table (N := QNum rnd lm) K P) ks POLY = Ok ys /\
    Forall2 (fun k y => exists i (p : poly), (i < length K)%nat /\ at_ K i <= k /\ ((S i < length K)%nat -> k < at_ K (S i)) /\
      let a := (i - 2)%nat in let b := Nat.min (i + 2) (length K - 1) in
      (length p <= b - a + 1)%nat /\ (forall j, (a <= j <= b)%nat -> peval p (at_ K j) = at_ P j) /\
      Rabs (y - peval p k) <= units u 21 * ((1 + 6 * c + 18 * c ^ 2 + 36 * c ^ 3 + 54 * c ^ 4) * M)) ks ys.
Proof.
  intros Hu HR HL HB HI Hc Hh HS HM HA Hks. apply all_lookup; try assumption. intros k Hk. specialize (Hks k Hk).
  destruct (poly_lookup rnd lm u Hu HR K P HL HB HI k Hks) as (i & p & y & Hi & A & B & W). cbv zeta in W. destruct W as (L & T & E & W).
  exists y. split; [exact E|]. exists i, p. split; [exact Hi|]. split; [exact A|]. split; [exact B|]. cbv zeta. split; [exact L|]. split; [exact T|].
  rewrite <- even_growth. apply W; [intros m; apply even_pos, Hc|intros j Hj; apply HM; lia|].
  apply (spaced_spread K k (h i) c i Hi A B); [|apply Hh, Hi|exact Hc|intros j Hj; apply HS; [exact Hi|exact Hj]].
  intros E1. apply Rle_antisym; [|exact A]. replace i with (length K - 1)%nat by lia. apply Hks.
Qed.
Lemma geometric_lookup rnd lm u (K P ks : list R) (r M : R) : 0 <= u < 1 -> relative u rnd -> length P = length K -> (2 <= zlen K < 2 ^ 62)%Z ->
  0 < at_ K 0 -> 1 < r -> (forall j, (S j < length K)%nat -> at_ K (S j) = r * at_ K j) -> (forall j, (j < length K)%nat -> Rabs (at_ P j) <= M) ->
  ascending ks -> (forall k, In k ks -> at_ K 0 <= k <= at_ K (length K - 1)) ->
  exists ys, find_pk (N := QNum rnd lm) (mk_table (N := QNum rnd lm) K P) ks POLY = Ok ys /\
    Forall2 (fun k y => exists i (p : poly), (i < length K)%nat /\ at_ K i <= k /\ ((S i < length K)%nat -> k < at_ K (S i)) /\
      let a := (i - 2)%nat in let b := Nat.min (i + 2) (length K - 1) in
      (length p <= b - a + 1)%nat /\ (forall j, (a <= j <= b)%nat -> peval p (at_ K j) = at_ P j) /\
      Rabs (y - peval p k) <= units u 21 * ((1 + 6 * r ^ 3 + 18 * (r ^ 3) ^ 2 + 36 * (r ^ 3) ^ 3 + 54 * (r ^ 3) ^ 4) * M)) ks ys.
Proof.
  intros Hu HR HL HB H0 Hr HG HM HA Hks.
  assert (G : forall m j, (j + m < length K)%nat -> at_ K (j + m) = r ^ m * at_ K j).
  { induction m as [|m IH]; intros j Hj; [rewrite Nat.add_0_r; cbn [pow]; ring|]. rewrite Nat.add_succ_r, HG by lia. rewrite IH by lia. cbn [pow]. ring. }
  assert (KP : forall j, (j < length K)%nat -> 0 < at_ K j).
  { intros j Hj. rewrite <- (Nat.add_0_l j), G by lia. apply Rmult_lt_0_compat; [apply pow_lt; lra|exact H0]. }
  assert (HI : increasing K).
  { intros i j Hij. replace j with (i + (j - i))%nat by lia. rewrite G by lia. pose proof (KP i ltac:(lia)) as Pi. pose proof (Rlt_pow_R1 r (j - i) Hr ltac:(lia)). nra. }
  apply (spaced_lookup rnd lm u K P ks (fun i => (r - 1) * at_ K (i - 2)) (r ^ 3) M); try assumption.
  - apply Rle_trans with (1 ^ 3); [lra|apply pow_incr; lra].
  - intros i Hi. apply Rmult_lt_0_compat; [lra|apply KP; lia].
  - intros i j Hi Hj. rewrite HG by lia. replace j with ((i - 2) + (j - (i - 2)))%nat by lia. rewrite (G (j - (i - 2))%nat (i - 2)%nat) by lia. set (m := (j - (i - 2))%nat).
    pose proof (KP (i - 2)%nat ltac:(lia)) as Pa. set (x := at_ K (i - 2)) in *.
    assert (M1 : 1 <= r ^ m) by (apply pow_R1_Rle; lra). assert (M3 : r ^ m <= r ^ 3) by (apply Rle_pow; [lra|lia]).
    replace (r * (r ^ m * x) - r ^ m * x) with (r ^ m * ((r - 1) * x)) by ring. assert (0 < (r - 1) * x) by (apply Rmult_lt_0_compat; lra). split; [|apply Rmult_le_compat_r; lra]. nra.
Qed.
Lemma lin_lookups rnd lm u (K P ks : list R) (M : R) : 0 <= u < 1 -> relative u rnd -> length P = length K -> (2 <= zlen K < 2 ^ 62)%Z -> increasing K ->
  (forall j, (j < length K)%nat -> Rabs (at_ P j) <= M) -> ascending ks -> (forall k, In k ks -> at_ K 0 <= k < at_ K (length K - 1)) ->
  exists ys, find_pk (N := QNum rnd lm) (mk_table (N := QNum rnd lm) K P) ks LIN = Ok ys /\
    Forall2 (fun k y => Rabs (y - plin K P k) <= units u 6 * (3 * M)) ks ys.
Proof.
  intros Hu HR HL HB HI HM HA Hks. apply all_lookup; try assumption. intros k Hk.
  destruct (lin_lookup rnd lm u Hu HR K P HL HB HI k (Hks k Hk)) as (i & y & Hi & _ & E & W). exists y. split; [exact E|]. apply W; apply HM; lia.
Qed.
