(** ProofRounded5: relative error of the running variance. *)
From Coq Require Import ZArith Lia Reals Lra Psatz List Bool.
From Coquelicot Require Import Coquelicot.
From Verif Require Import Base Num BaseFacts Order Spec Common ProofSearch ProofInterp ProofFindPk ProofFindPkR ProofCommon3 SpecRounded ProofRounded ProofRounded2 ProofRounded3 ProofRounded4.
Import ListNotations.
Local Open Scope R_scope.

Section Var.
Context (F : R -> Prop) (rnd : R -> R) (lm : libmR) (RD : rounding F rnd) (u : R) (Hu : 0 <= u <= 1 / 100) (HR : relative u rnd).
Local Notation Q := (QNum rnd lm).
Let v := 1 - u.
Lemma u1 : 0 <= u < 1. Proof. lra. Qed.
Lemma vpow n : 0 < v ^ n <= 1. Proof. exact (vn u u1 n). Qed.

Lemma bern n : 1 - INR n * u <= v ^ n.
Proof.
  induction n as [|n IH]; [cbn; lra|]. rewrite S_INR. cbn [pow]. destruct (vpow n) as [A B]. unfold v at 1. nra.
Qed.
Lemma poly1 : v ^ 11 + 1 <= 2 * v ^ 5.
Proof.
  assert (E : v ^ 11 + 1 - 2 * v ^ 5 = - (1 - v) * (v ^ 5 * (1 + v + v ^ 2 + v ^ 3 + v ^ 4 + v ^ 5) - (1 + v + v ^ 2 + v ^ 3 + v ^ 4))) by ring.
  pose proof (bern 10) as B. cbn [INR] in B. destruct (vpow 5) as [V5 V5'], (vpow 1) as [_ V1], (vpow 2) as [_ V2], (vpow 3) as [_ V3], (vpow 4) as [_ V4].
  assert (G : forall k, (k <= 5)%nat -> v ^ 5 <= v ^ k).
  { intros k Hk. replace 5%nat with (k + (5 - k))%nat by lia. rewrite pow_add. destruct (vpow k), (vpow (5 - k)). nra. }
  pose proof (G 0%nat ltac:(lia)). pose proof (G 1%nat ltac:(lia)). pose proof (G 2%nat ltac:(lia)). pose proof (G 3%nat ltac:(lia)). pose proof (G 4%nat ltac:(lia)). rewrite pow_O, ?pow_1 in *.
  assert (T : 6 * v ^ 10 <= v ^ 5 * (1 + v + v ^ 2 + v ^ 3 + v ^ 4 + v ^ 5)).
  { replace (v ^ 10) with (v ^ 5 * v ^ 5) by ring. nra. }
  assert (0 <= 1 - v) by (unfold v; lra). nra.
Qed.
Lemma poly2 : 2 * v ^ 6 <= v ^ 11 + 1.
Proof.
  assert (E : v ^ 11 + 1 - 2 * v ^ 6 = (1 - v) * ((1 + v + v ^ 2 + v ^ 3 + v ^ 4 + v ^ 5) - v ^ 6 * (1 + v + v ^ 2 + v ^ 3 + v ^ 4))) by ring.
  destruct (vpow 5) as [V5 _], (vpow 1) as [V1 _], (vpow 2) as [V2 _], (vpow 3) as [V3 _], (vpow 4) as [V4 _], (vpow 6) as [V6 V6']. rewrite pow_1 in *.
  assert (0 <= 1 - v) by (unfold v; lra).
  assert (v ^ 6 * (1 + v + v ^ 2 + v ^ 3 + v ^ 4) <= 1 + v + v ^ 2 + v ^ 3 + v ^ 4) by nra. nra.
Qed.

Lemma pos_close x x0 x1 : x0 < x1 -> close u 3 (pos rnd x x0 x1) ((x - x0) / (x1 - x0)).
Proof.
  intros H. unfold pos. apply (rnd_step' u u1 rnd HR 2); [|reflexivity].
  apply (close_div u u1 1 1); try (apply (rnd_close u u1 rnd HR)). lra.
Qed.
(** The sum of the interpolated value and of the value at the left end of the interval. *)
Lemma lin_sum_close x x0 x1 p0 p1 : F p0 -> x0 <= x <= x1 -> x0 < x1 -> 0 <= p0 -> 0 <= p1 ->
  close u 7 (interpol_lin (N := Q) x x0 x1 p0 p1 + p0) (interpol_lin (N := RNum) x x0 x1 p0 p1 + p0).
Proof.
  intros Fp Hx Hx1 H0 H1. rewrite (linQ_unfold rnd lm). unfold interpol_lin. rn. set (r := (x - x0) / (x1 - x0)).
  assert (Hr : 0 <= r <= 1).
  { unfold r. split; [apply div_pos; lra|]. apply Rmult_le_reg_r with (x1 - x0); [lra|]. unfold Rdiv. rewrite Rmult_assoc, Rinv_l by lra. lra. }
  assert (C5 : close u 5 (rnd (pos rnd x x0 x1 * rnd (p1 - p0))) (r * (p1 - p0))).
  { apply (rnd_step' u u1 rnd HR 4); [|reflexivity]. apply (close_mul u u1 3 1); [now apply pos_close|apply (rnd_close u u1 rnd HR)]. }
  destruct (Rle_dec p0 p1) as [C|C].
  - apply (close_weaken u u1 6); [|lia]. apply (close_add u u1 6); [|apply (close_refl u u1)| |exact H0].
    + apply (rnd_step' u u1 rnd HR 5); [|reflexivity]. apply (close_add u u1 5); [exact C5|apply (close_refl u u1)| |exact H0]. nra.
    + nra.
  - assert (A : - p0 <= rnd (p1 - p0)). { rewrite <- (r_id _ _ RD (- p0)) by apply (r_opp _ _ RD), Fp. apply (r_mono _ _ RD). lra. }
    pose proof (rnd_neg F rnd RD (p1 - p0) ltac:(lra)). pose proof (pos_01 F rnd RD x x0 x1 Hx).
    assert (B : - p0 <= rnd (pos rnd x x0 x1 * rnd (p1 - p0))).
    { rewrite <- (r_id _ _ RD (- p0)) by apply (r_opp _ _ RD), Fp. apply (r_mono _ _ RD). nra. }
    set (m := rnd (pos rnd x x0 x1 * rnd (p1 - p0))) in *.
    pose proof (rnd_close u u1 rnd HR (m + p0)) as C1.
    assert (C1lo := close_lo u 1 _ _ C1 ltac:(lra)). assert (C1hi := close_hi u u1 1 _ _ C1 ltac:(lra)). rewrite pow_1 in C1lo, C1hi. fold v in C1lo, C1hi.
    set (q := rnd (m + p0)) in *. set (s := r * (p0 - p1)).
    assert (Hs : 0 <= s <= p0). { unfold s. split; [nra|]. nra. }
    destruct C5 as (t & [T1 T2] & Em). fold v in T1, T2.
    assert (Em' : m = - (s * t)) by (rewrite Em; unfold s; ring).
    replace (r * (p1 - p0) + p0 + p0) with (2 * p0 - s) by (unfold s; ring).
    destruct (vpow 1) as [V1 V1'], (vpow 5) as [V5 V5'], (vpow 6) as [V6 V6']. rewrite pow_1 in *.
    pose proof poly1 as P1. pose proof poly2 as P2.
    assert (ST : s * v ^ 5 <= s * t) by (apply Rmult_le_compat_l; lra).
    assert (ST' : s * t * v ^ 5 <= s).
    { apply (Rmult_le_compat_r (v ^ 5)) in T2; [|lra]. rewrite Rinv_l in T2 by lra. rewrite Rmult_assoc. rewrite <- (Rmult_1_r s) at 2. apply Rmult_le_compat_l; lra. }
    apply (close_intro u u1); [lra| |]; fold v.
    + assert (L1 : (2 * p0 - s * t) * v <= q + p0) by (rewrite Em' in C1lo; nra).
      assert (L2 : (2 * p0 - s) * v ^ 6 <= 2 * p0 - s * t).
      { apply Rmult_le_reg_r with (v ^ 5); [exact V5|].
        assert (K1 : 2 * p0 * (v ^ 5 - v ^ 11) >= 2 * s * (v ^ 5 - v ^ 11)).
        { assert (0 <= v ^ 5 - v ^ 11) by (replace (v ^ 11) with (v ^ 5 * v ^ 6) by ring; nra). nra. }
        assert (K2 : 0 <= s * (2 * v ^ 5 - v ^ 11 - 1)) by (apply Rmult_le_pos; lra).
        replace ((2 * p0 - s) * v ^ 6 * v ^ 5) with (2 * p0 * v ^ 11 - s * v ^ 11) by ring. nra. }
      replace (v ^ 7) with (v ^ 6 * v) by ring. assert ((2 * p0 - s) * v ^ 6 * v <= (2 * p0 - s * t) * v) by (apply Rmult_le_compat_r; lra). nra.
    + assert (L1 : (q + p0) * v <= 2 * p0 - s * t) by (rewrite Em' in C1hi; nra).
      assert (L2 : (2 * p0 - s * t) * v ^ 6 <= 2 * p0 - s).
      { assert (M1 : (2 * p0 - s * t) * v ^ 6 <= (2 * p0 - s * v ^ 5) * v ^ 6) by (apply Rmult_le_compat_r; lra).
        assert (M2 : 0 <= s * (v ^ 11 + 1 - 2 * v ^ 6)) by (apply Rmult_le_pos; lra).
        assert (M3 : 2 * s * (1 - v ^ 6) <= 2 * p0 * (1 - v ^ 6)) by (apply Rmult_le_compat_r; lra).
        replace ((2 * p0 - s * v ^ 5) * v ^ 6) with (2 * p0 * v ^ 6 - s * v ^ 11) in M1 by ring. nra. }
      replace (v ^ 7) with (v * v ^ 6) by ring. rewrite <- Rmult_assoc. apply Rle_trans with ((2 * p0 - s * t) * v ^ 6); [apply Rmult_le_compat_r; lra|exact L2].
Qed.

Lemma den_close : close u 5 (rnd (rnd (rnd 12 * rnd PI) * rnd PI)) (12 * PI * PI).
Proof.
  apply (rnd_step' u u1 rnd HR 4); [|reflexivity]. apply (close_mul u u1 3 1); [|apply (rnd_close u u1 rnd HR)].
  apply (rnd_step' u u1 rnd HR 2); [|reflexivity]. apply (close_mul u u1 1 1); apply (rnd_close u u1 rnd HR).
Qed.
Lemma den_ne : 12 * PI * PI <> 0.
Proof. pose proof PI_RGT_0. nra. Qed.

Context (K P : list R).
Hypothesis HL : length P = length K.
Hypothesis HB : (1 <= zlen K < 2 ^ 62)%Z.
Hypothesis HI : increasing K.
Hypothesis FP : Forall F P.
Hypothesis HP : Forall (fun p => 0 <= p) P.
Let tb := mk_table (N := Q) K P.
Let tr := mk_table (N := RNum) K P.
Let nk := zlen K.

Definition near_out (n : nat) (a : R) (oa : option R) (b : R) (ob : option R) : Prop :=
  0 <= b /\ close u (n + 3) a b /\
  match oa, ob with Some x, Some y => close u (n + 17) x y | None, None => True | _, _ => False end.
Lemma inner_close n : forall kmax i (a b : R), (0 <= i)%Z -> (i + Z.of_nat n <= nk - 1)%Z -> znth 0 K i <= kmax -> 0 <= b -> close u (Z.to_nat i + 3) a b ->
  exists i' a' b' oa ob, sig_inner (N := Q) n tb kmax i a = Ok (i', a', oa) /\ sig_inner (N := RNum) n tr kmax i b = Ok (i', b', ob) /\
    (0 <= i' <= nk - 1)%Z /\ near_out (Z.to_nat i') a' oa b' ob.
Proof.
  assert (LP : zlen P = nk) by (unfold nk, zlen; now rewrite HL).
  induction n as [|n IH]; intros kmax i a b Hi Hn Hk Hb Hc; cbn [sig_inner].
  - exists i, a, b, None, None. repeat split; auto; lia.
  - cbn [pk_k pk_p tb tr mk_table]. repeat (rewrite (rd_ok 0) by (fold nk; lia); cbn [bind]). qn. rn.
    set (k0 := znth 0 K i) in *. set (k1 := znth 0 K (i + 1)%Z) in *.
    assert (Hlt : k0 < k1) by (apply inc_znth; auto; fold nk; lia).
    assert (H0 : 0 <= znth 0 P i) by (apply (proj1 (Forall_forall _ _) HP), znth_In; lia).
    assert (H1 : 0 <= znth 0 P (i + 1)%Z) by (apply (proj1 (Forall_forall _ _) HP), znth_In; lia).
    assert (F0 : F (znth 0 P i)) by (apply (proj1 (Forall_forall _ _) FP), znth_In; lia).
    set (p0 := znth 0 P i) in *. set (p1 := znth 0 P (i + 1)%Z) in *.
    destruct (Rltb_spec kmax k1) as [C|C].
    + eexists i, a, b, _, _. split; [reflexivity|]. split; [reflexivity|]. split; [lia|]. split; [exact Hb|]. split; [exact Hc|].
      pose proof (lin_sum_close kmax k0 k1 p0 p1 F0 ltac:(lra) Hlt H0 H1) as CL.
      assert (CT : close u 10 (rnd (rnd (interpol_lin (N := Q) kmax k0 k1 p0 p1 + p0) * rnd (kmax - k0))) ((interpol_lin (N := RNum) kmax k0 k1 p0 p1 + p0) * (kmax - k0))).
      { apply (rnd_step' u u1 rnd HR 9); [|reflexivity]. apply (close_mul u u1 8 1); [|apply (rnd_close u u1 rnd HR)]. apply (rnd_step' u u1 rnd HR 7); [exact CL|reflexivity]. }
      assert (PL : 0 <= interpol_lin (N := RNum) kmax k0 k1 p0 p1 + p0).
      { assert (Hr : 0 <= (kmax - k0) / (k1 - k0) <= 1).
        { split; [apply div_pos; lra|]. apply Rmult_le_reg_r with (k1 - k0); [lra|]. unfold Rdiv. rewrite Rmult_assoc, Rinv_l by lra. lra. }
        unfold interpol_lin. rn. nra. }
      apply (close_weaken u u1 (Z.to_nat i + 11 + 5 + 1)); [|lia].
      apply (rnd_step' u u1 rnd HR (Z.to_nat i + 11 + 5)); [|lia]. apply (close_div u u1); [|apply den_close|apply den_ne].
      apply (rnd_step' u u1 rnd HR (Z.to_nat i + 10)); [|lia]. apply (close_add u u1).
      * apply (close_weaken u u1 (Z.to_nat i + 3)); [exact Hc|lia].
      * apply (close_weaken u u1 10); [exact CT|lia].
      * exact Hb.
      * apply Rmult_le_pos; [exact PL|lra].
    + destruct (IH kmax (i + 1)%Z (rnd (a + rnd (rnd (p1 + p0) * rnd (k1 - k0)))) (b + (p1 + p0) * (k1 - k0))) as (i' & a' & b' & oa & ob & E1 & E2 & E3); try lia.
      * fold k1. lra.
      * nra.
      * apply (rnd_step' u u1 rnd HR (Z.to_nat i + 3)); [|lia]. apply (close_add u u1); [exact Hc| |exact Hb|nra].
        apply (close_weaken u u1 3); [|lia]. apply (rnd_step' u u1 rnd HR 2); [|reflexivity]. apply (close_mul u u1 1 1); apply (rnd_close u u1 rnd HR).
      * exists i', a', b', oa, ob. split; [exact E1|]. split; [exact E2|exact E3].
Qed.

Lemma variance_one (k uv w : R) : calc_running_sigmad2 (N := Q) tb [k] uv = Ok [w] ->
  exists e, calc_running_sigmad2 (N := RNum) tr [rnd (k * uv)] 1 = Ok [e] /\ close u (length K + 17) w e.
Proof.
  unfold calc_running_sigmad2. cbn [sig_loop]. cbn [pk_k pk_n tb tr mk_table]. rewrite !(rd_ok 0) by (fold nk; lia). cbn [bind]. qn. rn.
  rewrite !Rmult_1_r. set (kmax := rnd (k * uv)).
  destruct (Rltb_spec kmax (znth 0 K 0)) as [C|C].
  - intros [= <-]. exists 0. split; [reflexivity|]. rewrite (rnd0 F rnd RD). apply (close_refl u u1).
  - fold nk. rewrite (u64_small (nk - 1)) by (unfold SIZE_T; fold nk in HB; lia).
    destruct (inner_close (Z.to_nat (nk - 1 - 0)) kmax 0 (rnd 0) 0) as (i' & a' & b' & oa & ob & E1 & E2 & E3 & E4 & E5 & E6); try (fold nk in HB; lia); try lra.
    { rewrite (rnd0 F rnd RD). apply (close_refl u u1). }
    qn_in E1. rn_in E2. fold tb tr. rewrite E1, E2. cbn [bind]. intros [= <-]. eexists. split; [reflexivity|].
    assert (Hn : (Z.to_nat i' <= length K)%nat) by (unfold nk, zlen in E3; lia).
    destruct oa as [x|], ob as [y|]; try easy.
    + apply (close_weaken u u1 (Z.to_nat i' + 17)); [exact E6|lia].
    + apply (close_weaken u u1 (Z.to_nat i' + 3 + 5 + 1)); [|lia].
      apply (rnd_step' u u1 rnd HR (Z.to_nat i' + 3 + 5)); [|lia]. apply (close_div u u1); [exact E5|apply den_close|apply den_ne].
Qed.
End Var.

Lemma single_asc (k : R) : ascending [k].
Proof. intros i j H. cbn in H. replace i with 0%nat by lia. replace j with 0%nat by lia. lra. Qed.
Lemma run_Q F rnd lm (RD : rounding F rnd) (K P ks : list R) uv : length P = length K -> (1 <= zlen K < 2 ^ 62)%Z -> increasing K -> ascending ks -> 0 <= uv ->
  exists vs, calc_running_sigmad2 (N := QNum rnd lm) (mk_table (N := QNum rnd lm) K P) ks uv = Ok vs /\
    Forall2 (fun k v => calc_running_sigmad2 (N := QNum rnd lm) (mk_table (N := QNum rnd lm) K P) [k] uv = Ok [v]) ks vs.
Proof.
  intros HL HB HI HA Hu.
  apply (sigmad2_elementwise_final (N := QNum rnd lm) (fun _ => True) (Q_order rnd lm) K P (0 : R) uv ks HL HB); auto.
  - intros i j Hi Hj. qn. apply Rltb_true. now apply inc_znth.
  - intros i j Hi Hj. qn. apply Rltb_false. apply (r_mono _ _ RD), Rmult_le_compat_r; [exact Hu|]. apply asc_znth; auto; lia.
Qed.
Lemma variance_all F rnd lm (RD : rounding F rnd) u (K P ks : list R) uv : 0 <= u <= 1 / 100 -> relative u rnd ->
  length P = length K -> (1 <= zlen K < 2 ^ 62)%Z -> increasing K -> Forall F P -> Forall (fun p => 0 <= p) P -> ascending ks -> 0 <= uv ->
  exists vs, calc_running_sigmad2 (N := QNum rnd lm) (mk_table (N := QNum rnd lm) K P) ks uv = Ok vs /\
    Forall2 (fun k v => exists e, variance_of K P (rnd (k * uv)) e /\ close u (length K + 17) v e) ks vs.
Proof.
  intros Hu HR HL HB HI FP HP HA Huv. destruct (run_Q F rnd lm RD K P ks uv HL HB HI HA Huv) as (vs & E & HF). exists vs. split; [exact E|].
  eapply Forall2_imp; [|exact HF]. clear HF E. intros k w E.
  destruct (variance_one F rnd lm RD u Hu HR K P HL HB HI FP HP k uv w E) as (e & E' & Hc). exists e. split; [|exact Hc].
  destruct (sigmad2_final K P [rnd (k * uv)] 1 HL HB HI (single_asc _) ltac:(lra)) as (l & El & Hl). rewrite El in E'. injection E' as ->.
  inversion Hl as [|? ? ? ? [A B] _]; subst. rewrite !Rmult_1_r in *. split; assumption.
Qed.
