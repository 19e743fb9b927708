(** ProofFindPkR: values of find_pk over the reals. *)
From Coq Require Import Reals Lra.
From Verif Require Import Base Num BaseFacts Order Spec Poly Common ProofSearch ProofInterp ProofFindPk.
Local Open Scope R_scope.

Local Notation mk_table := (mk_table (N := RNum)).
Lemma wf_table (K P : list R) : length P = length K -> (zlen K < 2 ^ 62)%Z -> wf_pk (mk_table K P).
Proof. intros H1 H2; unfold wf_pk; cbn. repeat split; [unfold zlen; now rewrite H1|exact H2]. Qed.

Lemma inc_znth (K : list R) : increasing K ->
  forall i j, (0 <= i < j)%Z -> (j < zlen K)%Z -> znth 0 K i < znth 0 K j.
Proof. intros H i j Hi Hj; apply H; unfold zlen in Hj; lia. Qed.
Lemma inc_nlt (K : list R) : increasing K ->
  forall i j, (0 <= i < j)%Z -> (j < zlen K)%Z -> nlt RNum (znth (A := T RNum) 0 K i) (znth (A := T RNum) 0 K j) = true.
Proof. intros H i j Hi Hj; rn; apply Rltb_true; apply inc_znth; assumption. Qed.
Lemma asc_znth (K : list R) : ascending K ->
  forall i j, (0 <= i <= j)%Z -> (j < zlen K)%Z -> znth 0 K i <= znth 0 K j.
Proof. intros H i j Hi Hj; apply H; unfold zlen in Hj; lia. Qed.
Lemma asc_nlt (ks : list R) : ascending ks ->
  forall i j, (0 <= i < j)%Z -> (j < zlen ks)%Z -> nlt RNum (znth (A := T RNum) 0 ks j) (znth (A := T RNum) 0 ks i) = false.
Proof. intros H i j Hi Hj; rn; apply Rltb_false; apply asc_znth; auto; lia. Qed.

Section Table.
Context (K P : list R).
Hypothesis HL : length P = length K.
Hypothesis HB : (zlen K < 2 ^ 62)%Z.
Hypothesis HI : increasing K.
Let tb := mk_table K P.
Let nk := zlen K.

Lemma find_pk_elementwise_R (ks : list R) im : (1 <= nk)%Z -> ascending ks ->
  forall ps, find_pk tb ks im = Ok ps <-> Forall2 (fun k p => find_pk tb [k] im = Ok [p]) ks ps.
Proof.
  intros H1 Ha. apply (find_pk_elementwise (N := RNum) (fun _ => True) R_order tb (wf_table K P HL HB) (0 : T RNum)).
  - exact H1.
  - auto.
  - apply inc_nlt; exact HI.
  - auto.
  - apply asc_nlt; exact Ha.
Qed.

Lemma find_pk_single im (k : R) (p : R) : (1 <= nk)%Z ->
  (find_pk tb [k] im = Ok [p] <-> exists s, find_pk_step tb im (nk - 1) (znth 0 K 0) (znth 0 K (nk - 1)) 0 k = Ok (p, s)).
Proof.
  intros H1. apply (step_single (N := RNum) tb (wf_table K P HL HB) (0 : T RNum) H1).
Qed.

(** bracket of a point inside the table *)
Lemma find_pk_bracket (k : R) : (1 <= nk)%Z -> znth 0 K 0 <= k ->
  exists i, get_dichotomy_index (N := RNum) k K 0 nk = Ok i /\ (0 <= i < nk)%Z /\ znth 0 K i <= k /\
    ((i = nk - 1)%Z \/ k < znth 0 K (i + 1)%Z).
Proof.
  intros H1 Hk.
  destruct (dicho_from (N := RNum) (fun _ => True) R_order tb (wf_table K P HL HB) (0 : T RNum)
              (fun _ _ => I) (inc_nlt K HI) 0 k) as [i [E [Hi [H2 H3]]]].
  - exact I.
  - cbn; fold nk; lia.
  - rn; apply Rltb_false; exact Hk.
  - exists i. split; [exact E|]. split; [exact Hi|]. rn_all. apply Rltb_false in H2.
    split; [exact H2|]. destruct H3 as [H3|H3]; [left; exact H3|right; apply Rltb_true in H3; exact H3].
Qed.

Lemma bracket_at i j : (0 <= i < nk)%Z -> (0 <= j < nk)%Z -> znth 0 K j <= znth 0 K i ->
  ((j = nk - 1)%Z \/ znth 0 K i < znth 0 K (j + 1)%Z) -> j = i.
Proof.
  intros Hi Hj H1 H2. destruct (Z.lt_trichotomy j i) as [L|[E|L]]; [|exact E|].
  - destruct H2 as [H2|H2]; [lia|].
    destruct (Z.eq_dec (j + 1) i) as [<-|Hne]; [lra|].
    pose proof (inc_znth K HI (j + 1) i ltac:(lia) ltac:(lia)). lra.
  - pose proof (inc_znth K HI i j ltac:(lia) ltac:(lia)). lra.
Qed.

Lemma in_range i : (0 <= i < nk)%Z -> znth 0 K 0 <= znth 0 K i <= znth 0 K (nk - 1).
Proof.
  intros Hi. split.
  - destruct (Z.eq_dec i 0) as [->|]; [lra|]. left. apply inc_znth; auto; lia.
  - destruct (Z.eq_dec i (nk - 1)) as [->|]; [lra|]. left. apply inc_znth; auto; unfold nk in *; lia.
Qed.

Lemma find_pk_node im i : (0 <= i < nk)%Z -> (im = LIN -> (i < nk - 1)%Z) ->
  find_pk tb [znth 0 K i] im = Ok [znth 0 P i].
Proof.
  intros Hi Him. apply find_pk_single; [lia|].
  destruct (in_range i Hi) as [R1 R2].
  unfold find_pk_step. rn.
  destruct (Rltb_spec (znth 0 K (nk - 1)) (znth 0 K i)); [lra|].
  destruct (Rltb_spec (znth 0 K i) (znth 0 K 0)); [lra|].
  rewrite (u64_small (nk - 1 + 1)) by (unfold SIZE_T; fold nk in HB; lia).
  replace (nk - 1 + 1)%Z with nk by lia. cbn [pk_k tb mk_table].
  destruct (find_pk_bracket (znth 0 K i) ltac:(lia) R1) as [j [E [Hj [H1 H2]]]].
  rewrite E; cbn [bind].
  assert (j = i) by (apply bracket_at; assumption). subst j.
  destruct im.
  - destruct (window_bounds tb i) as [B1 B2]; [exact Hi|]. cbn [pk_k tb mk_table] in B1, B2. rn_in B1. rn_in B2. fold nk in B1, B2.
    cbn [pk_p tb mk_table].
    set (a := zmax 0 (i - 2)) in *. set (b := zmin (nk - 1) (i + 2)) in *.
    assert (LP : zlen P = nk) by (unfold nk, zlen; now rewrite HL).
    pose proof (interpol_poly_node (skipn (Z.to_nat a) K) (skipn (Z.to_nat a) P) (b - a + 1) (i - a)) as HN.
    rewrite !zlen_skipn in HN by (fold nk; lia). fold nk in HN.
    rewrite !znth_skipn in HN by lia.
    replace (a + (i - a))%Z with i in HN by lia.
    rn. rewrite HN; try lia; [cbn [bind]; eauto|].
    intros u v Hu Hv Huv. rewrite !znth_skipn by lia.
    destruct (Z.lt_trichotomy u v) as [L|[L|L]]; [|lia|].
    + pose proof (inc_znth K HI (a + u) (a + v) ltac:(lia) ltac:(fold nk; lia)). lra.
    + pose proof (inc_znth K HI (a + v) (a + u) ltac:(lia) ltac:(fold nk; lia)). lra.
  - specialize (Him eq_refl). cbn [pk_p tb mk_table].
    assert (LP : zlen P = nk) by (unfold nk, zlen; now rewrite HL).
    repeat (rewrite (rd_ok 0) by (fold nk; lia); cbn [bind]).
    exists i. repeat f_equal. apply interpol_lin_left.
    pose proof (inc_znth K HI i (i + 1) ltac:(lia) ltac:(fold nk; lia)). lra.
Qed.

(** Looking up a selection of tabulated points. *)
Lemma find_pk_grid im (is : list nat) :
  (1 <= length K)%nat ->
  (forall i j, (i <= j < length is)%nat -> (nth i is 0 <= nth j is 0)%nat) ->
  (forall i, In i is -> match im with POLY => (i < length K)%nat | LIN => (S i < length K)%nat end) ->
  find_pk tb (map (at_ K) is) im = Ok (map (at_ P) is).
Proof.
  intros H1 Ha Hb. apply find_pk_elementwise_R.
  - unfold nk, zlen; lia.
  - intros i j Hij. rewrite map_length in Hij. unfold at_.
    rewrite !(nth_indep (map (at_ K) is) 0 (at_ K 0)) by (rewrite map_length; lia).
    rewrite !map_nth. specialize (Ha i j Hij).
    assert (Hj : In (nth j is 0%nat) is) by (apply nth_In; lia).
    specialize (Hb _ Hj).
    destruct (Nat.eq_dec (nth i is 0%nat) (nth j is 0%nat)) as [->|Hne]; [lra|].
    left. apply HI. destruct im; lia.
  - clear Ha. induction is as [|i is IH]; cbn [map]; constructor.
    + assert (Hi := Hb i (or_introl eq_refl)).
      pose proof (find_pk_node im (Z.of_nat i)) as HN. unfold znth in HN. rewrite Nat2Z.id in HN.
      apply HN; [destruct im; unfold nk, zlen; lia|]. intros ->. unfold nk, zlen; lia.
    + apply IH. intros j Hj; apply Hb; right; exact Hj.
Qed.

(** ** Extrapolation *)
Definition slope (ik : Z) : R :=
  ln (znth 0 P (ik + 1) / znth 0 P (ik - 1)) / ln (znth 0 K (ik + 1) / znth 0 K (ik - 1)).
Fixpoint sum_slope (start : Z) (m : nat) : R :=
  match m with O => 0 | S m' => sum_slope start m' + slope (start + Z.of_nat m') end.

Lemma sum_slopes_val start en : (1 <= start <= en)%Z -> (en <= nk - 1)%Z ->
  (forall ik, (start <= ik < en)%Z -> 0 < znth 0 P (ik + 1) /\ 0 < znth 0 P (ik - 1)) ->
  sum_slopes tb start en = Ok (inl (sum_slope start (Z.to_nat (en - start)))).
Proof.
  intros H1 H2 Hpos. assert (LP : zlen P = nk) by (unfold nk, zlen; now rewrite HL).
  unfold sum_slopes. rn. cbn [pk_k pk_p tb mk_table].
  match goal with |- context [for_brk ?lo ?hi ?b ?s] =>
    destruct (for_brk_inv (fun j v => v = sum_slope start (Z.to_nat (j - start))) (fun _ => False) lo hi b s)
      as [[s' [E Hs]]|[x [E []]]] end.
  - lia.
  - rewrite Z.sub_diag. reflexivity.
  - intros j s Hj Hs. left.
    rewrite (u64_small (j - 1)) by (unfold SIZE_T; fold nk in HB; lia).
    rewrite !(rd_ok 0) by lia; cbn [bind].
    destruct (Hpos j Hj) as [P1 P2].
    destruct (Rleb_spec (znth 0 P (j + 1)) 0); [lra|]. destruct (Rleb_spec (znth 0 P (j - 1)) 0); [lra|].
    cbn [orb]. repeat (rewrite (rd_ok 0) by (fold nk; lia); cbn [bind]).
    eexists; split; [reflexivity|]. rewrite Hs.
    replace (Z.to_nat (j + 1 - start)) with (S (Z.to_nat (j - start))) by lia. cbn [sum_slope].
    replace (start + Z.of_nat (Z.to_nat (j - start)))%Z with j by lia. reflexivity.
  - rewrite E, Hs. reflexivity.
Qed.

Lemma sum_slopes_stop start en : (1 <= start <= en)%Z -> (en <= nk - 1)%Z ->
  (exists ik, (start <= ik < en)%Z /\ (znth 0 P (ik + 1) <= 0 \/ znth 0 P (ik - 1) <= 0)) ->
  sum_slopes tb start en = Ok (inr 0).
Proof.
  intros H1 H2 [ik [Hik Hneg]]. assert (LP : zlen P = nk) by (unfold nk, zlen; now rewrite HL).
  unfold sum_slopes. rn. cbn [pk_k pk_p tb mk_table].
  match goal with |- context [for_brk ?lo ?hi ?b ?s] =>
    destruct (for_brk_inv (fun j (v : R) => (j <= ik)%Z) (fun x => x = 0) lo hi b s)
      as [[s' [E Hs]]|[x [E Hx]]] end.
  - lia.
  - lia.
  - intros j s Hj Hs.
    rewrite (u64_small (j - 1)) by (unfold SIZE_T; fold nk in HB; lia).
    rewrite !(rd_ok 0) by lia; cbn [bind].
    destruct (Z.eq_dec j ik) as [->|Hne].
    + right. exists 0. destruct (Rleb_spec (znth 0 P (ik + 1)) 0); cbn [orb]; [split; reflexivity|].
      destruct (Rleb_spec (znth 0 P (ik - 1)) 0); [split; reflexivity|lra].
    + destruct (_ || _)%bool; [right; eexists; split; reflexivity|].
      left. repeat (rewrite (rd_ok 0) by (fold nk; lia); cbn [bind]). eexists; split; [reflexivity|lia].
  - lia.
  - rewrite E, Hx. reflexivity.
Qed.

(** End of the low-k slope window and start of the high-k one. *)
Definition low_end : Z := zmin 15 (nk - 1).
Definition high_start : Z := zmax 1 (nk - 1 - 15).
Lemma low_end_bounds : (3 <= nk)%Z -> (2 <= low_end <= nk - 1)%Z.
Proof. intros H; unfold low_end, zmin. destruct (Z.ltb_spec 15 (nk - 1)); lia. Qed.
Lemma high_start_bounds : (3 <= nk)%Z -> (1 <= high_start < nk - 1)%Z.
Proof. intros H; unfold high_start, zmax. destruct (Z.gtb_spec 1 (nk - 1 - 15)); lia. Qed.

Lemma lowk_val k : (3 <= nk)%Z -> 0 < k / znth 0 K 1 ->
  (forall ik, (1 <= ik < low_end)%Z -> 0 < znth 0 P (ik + 1) /\ 0 < znth 0 P (ik - 1)) ->
  extrapol_pk_lowk tb k =
    Ok (znth 0 P 1 * Rpower (k / znth 0 K 1) (sum_slope 1 (Z.to_nat (low_end - 1)) / IZR (low_end - 1))).
Proof.
  intros Hn Hkk Hpos. assert (LP : zlen P = nk) by (unfold nk, zlen; now rewrite HL).
  destruct (low_end_bounds Hn) as [L1 L2].
  unfold extrapol_pk_lowk. cbn [pk_n pk_k pk_p tb Common.mk_table]. rn. fold nk. fold low_end.
  rewrite (u64_small low_end) by (unfold SIZE_T; fold nk in HB; lia). fold tb.
  rewrite sum_slopes_val by (auto; lia). cbn [bind].
  rewrite (u64_small (low_end - 1)) by (unfold SIZE_T; fold nk in HB; lia).
  rn. rewrite !(rd_ok 0) by (fold nk; lia). cbn [bind]. rewrite Rpow_pos by exact Hkk. reflexivity.
Qed.
Lemma highk_val k : (3 <= nk)%Z -> 0 < k / znth 0 K (nk - 1) ->
  (forall ik, (high_start <= ik < nk - 1)%Z -> 0 < znth 0 P (ik + 1) /\ 0 < znth 0 P (ik - 1)) ->
  extrapol_pk_highk tb k =
    Ok (znth 0 P (nk - 1) * Rpower (k / znth 0 K (nk - 1))
         (sum_slope high_start (Z.to_nat (nk - 1 - high_start)) / IZR (nk - 1 - high_start))).
Proof.
  intros Hn Hkk Hpos. assert (LP : zlen P = nk) by (unfold nk, zlen; now rewrite HL).
  destruct (high_start_bounds Hn) as [L1 L2].
  unfold extrapol_pk_highk. cbn [pk_n pk_k pk_p tb Common.mk_table]. rn. fold nk.
  rewrite (u64_small (nk - 1)) by (unfold SIZE_T; fold nk in HB; lia). fold high_start. fold tb.
  rewrite sum_slopes_val by (auto; lia). cbn [bind].
  rewrite (u64_small (nk - 1 - high_start)) by (unfold SIZE_T; fold nk in HB; lia).
  rn. rewrite !(rd_ok 0) by (fold nk; lia). cbn [bind]. rewrite Rpow_pos by exact Hkk. reflexivity.
Qed.
Lemma lowk_stop k : (3 <= nk)%Z ->
  (exists ik, (1 <= ik < low_end)%Z /\ (znth 0 P (ik + 1) <= 0 \/ znth 0 P (ik - 1) <= 0)) ->
  extrapol_pk_lowk tb k = Ok 0.
Proof.
  intros Hn Hneg. destruct (low_end_bounds Hn) as [L1 L2].
  unfold extrapol_pk_lowk. cbn [pk_n pk_k pk_p tb Common.mk_table]. rn. fold nk. fold low_end.
  rewrite (u64_small low_end) by (unfold SIZE_T; fold nk in HB; lia). fold tb.
  rewrite sum_slopes_stop by (auto; lia). reflexivity.
Qed.
Lemma highk_stop k : (3 <= nk)%Z ->
  (exists ik, (high_start <= ik < nk - 1)%Z /\ (znth 0 P (ik + 1) <= 0 \/ znth 0 P (ik - 1) <= 0)) ->
  extrapol_pk_highk tb k = Ok 0.
Proof.
  intros Hn Hneg. destruct (high_start_bounds Hn) as [L1 L2].
  unfold extrapol_pk_highk. cbn [pk_n pk_k pk_p tb Common.mk_table]. rn. fold nk.
  rewrite (u64_small (nk - 1)) by (unfold SIZE_T; fold nk in HB; lia). fold high_start. fold tb.
  rewrite sum_slopes_stop by (auto; lia). reflexivity.
Qed.

Lemma find_pk_below im k : (1 <= nk)%Z -> k < znth 0 K 0 ->
  find_pk tb [k] im = (p <- extrapol_pk_lowk tb k ;; Ok [p]).
Proof.
  intros H1 Hk. pose proof (in_range 0 ltac:(lia)) as [_ R2].
  unfold find_pk. cbn [pk_n pk_k tb Common.mk_table]. rn. fold nk.
  rewrite (u64_small (nk - 1)) by (unfold SIZE_T; fold nk in HB; lia).
  rn. rewrite !(rd_ok 0) by (fold nk; lia). cbn [bind find_pk_loop]. unfold find_pk_step. rn.
  destruct (Rltb_spec (znth 0 K (nk - 1)) k); [lra|]. destruct (Rltb_spec k (znth 0 K 0)); [|lra].
  fold tb. destruct (extrapol_pk_lowk tb k); reflexivity.
Qed.
Lemma find_pk_above im k : (1 <= nk)%Z -> znth 0 K (nk - 1) < k ->
  find_pk tb [k] im = (p <- extrapol_pk_highk tb k ;; Ok [p]).
Proof.
  intros H1 Hk.
  unfold find_pk. cbn [pk_n pk_k tb Common.mk_table]. rn. fold nk.
  rewrite (u64_small (nk - 1)) by (unfold SIZE_T; fold nk in HB; lia).
  rn. rewrite !(rd_ok 0) by (fold nk; lia). cbn [bind find_pk_loop]. unfold find_pk_step. rn.
  destruct (Rltb_spec (znth 0 K (nk - 1)) k); [|lra].
  fold tb. destruct (extrapol_pk_highk tb k); reflexivity.
Qed.
End Table.

(** ** Power laws *)
Lemma slope_power_law (K P : list R) (A n : R) ik :
  0 < A -> (forall i, (0 <= i < zlen K)%Z -> 0 < znth 0 K i) ->
  (forall i, (0 <= i < zlen K)%Z -> znth 0 P i = A * Rpower (znth 0 K i) n) ->
  increasing K -> (1 <= ik)%Z -> (ik + 1 < zlen K)%Z -> slope K P ik = n.
Proof.
  intros HA HK HP HI H1 H2. unfold slope.
  rewrite !HP by lia.
  set (a := znth 0 K (ik + 1)). set (b := znth 0 K (ik - 1)).
  assert (Hab : b < a) by (apply inc_znth; auto; lia).
  assert (Ha : 0 < a) by (apply HK; lia). assert (Hb : 0 < b) by (apply HK; lia).
  assert (Hra : 0 < Rpower a n) by (apply exp_pos). assert (Hrb : 0 < Rpower b n) by (apply exp_pos).
  replace (A * Rpower a n / (A * Rpower b n)) with (Rpower a n * / Rpower b n) by (field; lra).
  rewrite ln_mult by (auto; apply Rinv_0_lt_compat; auto). rewrite ln_Rinv by auto.
  unfold Rdiv at 2. rewrite ln_mult by (auto; apply Rinv_0_lt_compat; auto). rewrite ln_Rinv by auto.
  unfold Rpower. rewrite !ln_exp. field.
  pose proof (ln_increasing b a Hb Hab). lra.
Qed.
Lemma sum_slope_const (K P : list R) n start m :
  (forall j, (start <= j < start + Z.of_nat m)%Z -> slope K P j = n) -> sum_slope K P start m = INR m * n.
Proof.
  induction m as [|m IH]; intros H; cbn [sum_slope]; [cbn; ring|].
  rewrite IH by (intros; apply H; lia). rewrite H by lia. rewrite S_INR. ring.
Qed.
Lemma power_law_anchor A n k0 k : 0 < k0 -> 0 < k ->
  A * Rpower k0 n * Rpower (k / k0) n = A * Rpower k n.
Proof.
  intros H0 Hk. rewrite Rmult_assoc. f_equal. rewrite Rpower_mult_distr.
  - f_equal. field. lra.
  - exact H0.
  - apply Rdiv_lt_0_compat; assumption.
Qed.

Lemma extrapol_power_law (K P : list R) (A n : R) im k :
  length P = length K -> (3 <= zlen K < 2 ^ 62)%Z -> increasing K ->
  0 < A -> (forall i, (0 <= i < zlen K)%Z -> 0 < znth 0 K i) ->
  (forall i, (0 <= i < zlen K)%Z -> znth 0 P i = A * Rpower (znth 0 K i) n) ->
  0 < k -> (k < znth 0 K 0 \/ znth 0 K (zlen K - 1) < k) ->
  find_pk (mk_table K P) [k] im = Ok [A * Rpower k n].
Proof.
  intros HL HB HI HA HK HP Hk Hor.
  assert (Hpos : forall i, (0 <= i < zlen K)%Z -> 0 < znth 0 P i).
  { intros i Hi. rewrite HP by lia. apply Rmult_lt_0_compat; [exact HA|apply exp_pos]. }
  destruct Hor as [Hlo|Hhi].
  - rewrite (find_pk_below K P HL ltac:(lia) HI) by (auto; lia).
    destruct (low_end_bounds K P HL ltac:(lia)) as [L1 L2].
    rewrite (lowk_val K P HL ltac:(lia)); [|lia|apply Rdiv_lt_0_compat; [exact Hk|apply HK; lia]|intros ik Hik; split; apply Hpos; lia].
    cbn [bind]. do 2 f_equal.
    rewrite (sum_slope_const K P n) by (intros; apply (slope_power_law K P A n); auto; lia).
    rewrite INR_IZR_INZ, Z2Nat.id by lia.
    replace (IZR (low_end K - 1) * n / IZR (low_end K - 1)) with n by (field; apply not_0_IZR; lia).
    rewrite HP by lia. apply power_law_anchor; [apply HK; lia|exact Hk].
  - rewrite (find_pk_above K P HL ltac:(lia)) by (auto; lia).
    destruct (high_start_bounds K P HL ltac:(lia)) as [L1 L2].
    rewrite (highk_val K P HL ltac:(lia)); [|lia|apply Rdiv_lt_0_compat; [exact Hk|apply HK; lia]|intros ik Hik; split; apply Hpos; lia].
    cbn [bind]. do 2 f_equal.
    rewrite (sum_slope_const K P n) by (intros; apply (slope_power_law K P A n); auto; lia).
    rewrite INR_IZR_INZ, Z2Nat.id by lia.
    replace (IZR (zlen K - 1 - high_start K) * n / IZR (zlen K - 1 - high_start K)) with n by (field; apply not_0_IZR; lia).
    rewrite HP by lia. apply power_law_anchor; [apply HK; lia|exact Hk].
Qed.

(** ** Positivity, zero, continuity *)
Lemma extrapol_positive (K P : list R) im k :
  length P = length K -> (3 <= zlen K < 2 ^ 62)%Z -> increasing K ->
  0 < znth 0 K 0 -> (forall i, (0 <= i < zlen K)%Z -> 0 < znth 0 P i) ->
  0 < k -> (k < znth 0 K 0 \/ znth 0 K (zlen K - 1) < k) ->
  exists p, find_pk (mk_table K P) [k] im = Ok [p] /\ 0 < p.
Proof.
  intros HL HB HI HK0 Hpos Hk Hor.
  assert (HK : forall i, (0 <= i < zlen K)%Z -> 0 < znth 0 K i).
  { intros i Hi. destruct (Z.eq_dec i 0) as [->|]; [exact HK0|]. pose proof (inc_znth K HI 0 i ltac:(lia) ltac:(lia)). lra. } destruct Hor as [Hlo|Hhi].
  - rewrite (find_pk_below K P HL ltac:(lia) HI) by (auto; lia).
    destruct (low_end_bounds K P HL ltac:(lia)) as [L1 L2].
    rewrite (lowk_val K P HL ltac:(lia)); [|lia|apply Rdiv_lt_0_compat; [exact Hk|apply HK; lia]|intros ik Hik; split; apply Hpos; lia].
    cbn [bind]. eexists; split; [reflexivity|]. apply Rmult_lt_0_compat; [apply Hpos; lia|apply exp_pos].
  - rewrite (find_pk_above K P HL ltac:(lia)) by (auto; lia).
    destruct (high_start_bounds K P HL ltac:(lia)) as [L1 L2].
    rewrite (highk_val K P HL ltac:(lia)); [|lia|apply Rdiv_lt_0_compat; [exact Hk|apply HK; lia]|intros ik Hik; split; apply Hpos; lia].
    cbn [bind]. eexists; split; [reflexivity|]. apply Rmult_lt_0_compat; [apply Hpos; lia|apply exp_pos].
Qed.

Lemma Rpower_cont_1 (x0 n : R) : 0 < x0 -> forall eps, 0 < eps ->
  exists delta, 0 < delta /\ forall k, Rabs (k - x0) < delta -> Rabs (Rpower (k / x0) n - 1) < eps.
Proof.
  intros H0 eps Heps.
  assert (Hc : continuity_pt (fun k => exp (n * ln (k / x0))) x0).
  { assert (D : derivable_pt (fun k => exp (n * ln (k / x0))) x0).
    { exists (exp (n * ln (x0 / x0)) * (n * (/ (x0 / x0) * / x0))).
      assert (H1 : x0 / x0 = 1) by (field; lra).
      apply (derivable_pt_lim_comp (fun k => n * ln (k / x0)) exp).
      - apply (derivable_pt_lim_scal (fun k => ln (k / x0)) n).
        apply (derivable_pt_lim_comp (fun k => k / x0) ln).
        + pose proof (derivable_pt_lim_scal id (/ x0) x0 1 (derivable_pt_lim_id x0)) as HD.
          unfold mult_real_fct in HD. replace (/ x0) with (/ x0 * 1) by ring.
          intros e He. destruct (HD e He) as [dl Hdl]. exists dl. intros h Hh Hhd.
          specialize (Hdl h Hh Hhd). unfold id in Hdl. unfold Rdiv in *.
          replace ((x0 + h) * / x0 - x0 * / x0) with (/ x0 * (x0 + h) - / x0 * x0) by ring.
          replace (/ x0 * 1) with (/x0 * 1) by ring. exact Hdl.
        + apply derivable_pt_lim_ln. rewrite H1; lra.
      - apply derivable_pt_lim_exp. }
    apply derivable_continuous_pt; exact D. }
  destruct (Hc eps Heps) as [delta [Hd Hlim]].
  exists delta. split; [exact Hd|]. intros k Hk.
  unfold Rpower. destruct (Req_dec k x0) as [->|Hne].
  - replace (x0 / x0) with 1 by (field; lra). rewrite ln_1, Rmult_0_r, exp_0.
    rewrite Rminus_diag_eq by reflexivity. rewrite Rabs_R0; exact Heps.
  - specialize (Hlim k). cbn in Hlim. unfold R_dist in Hlim.
    replace (x0 / x0) with 1 in Hlim by (field; lra). rewrite ln_1, Rmult_0_r, exp_0 in Hlim.
    apply Hlim. split; [split; [exact I|intros E; apply Hne; symmetry; exact E]|exact Hk].
Qed.

Lemma highk_continuous (K P : list R) im :
  length P = length K -> (3 <= zlen K < 2 ^ 62)%Z -> increasing K ->
  0 < znth 0 K 0 -> (forall i, (0 <= i < zlen K)%Z -> 0 < znth 0 P i) ->
  forall eps, 0 < eps -> exists delta, 0 < delta /\
    forall k, znth 0 K (zlen K - 1) < k < znth 0 K (zlen K - 1) + delta ->
    exists p, find_pk (mk_table K P) [k] im = Ok [p] /\ Rabs (p - znth 0 P (zlen K - 1)) < eps.
Proof.
  intros HL HB HI HK0 Hpos eps Heps.
  set (Pe := znth 0 P (zlen K - 1)). set (Ke := znth 0 K (zlen K - 1)).
  assert (HPe : 0 < Pe) by (apply Hpos; lia).
  assert (HKe : 0 < Ke) by (pose proof (inc_znth K HI 0 (zlen K - 1) ltac:(lia) ltac:(lia)); unfold Ke; lra).
  set (nn := sum_slope K P (high_start K) (Z.to_nat (zlen K - 1 - high_start K)) / IZR (zlen K - 1 - high_start K)).
  destruct (Rpower_cont_1 Ke nn HKe (eps / Pe)) as [delta [Hd Hc]]; [apply Rdiv_lt_0_compat; assumption|].
  exists delta. split; [exact Hd|]. intros k Hk.
  rewrite (find_pk_above K P HL ltac:(lia)) by (auto; try lia; unfold Ke in Hk; lra).
  destruct (high_start_bounds K P HL ltac:(lia)) as [L1 L2].
  rewrite (highk_val K P HL ltac:(lia)); [|lia|fold Ke; apply Rdiv_lt_0_compat; [unfold Ke in *; lra|exact HKe]|intros ik Hik; split; apply Hpos; lia].
  cbn [bind]. eexists; split; [reflexivity|]. fold Pe Ke nn.
  replace (Pe * Rpower (k / Ke) nn - Pe) with (Pe * (Rpower (k / Ke) nn - 1)) by ring.
  rewrite Rabs_mult, (Rabs_right Pe) by lra.
  apply (Rmult_lt_reg_l (/ Pe)); [apply Rinv_0_lt_compat; exact HPe|].
  rewrite <- Rmult_assoc, Rinv_l, Rmult_1_l by lra.
  replace (/ Pe * eps) with (eps / Pe) by (unfold Rdiv; ring). apply Hc.
  rewrite Rabs_right by lra. lra.
Qed.

(** ** Discontinuity at the low end: the table 1, 4, 1 over 1, 2, 4 *)
Lemma lowk_jump : exists K P : list R,
  length P = length K /\ (3 <= zlen K < 2 ^ 62)%Z /\ increasing K /\
  0 < znth 0 K 0 /\ (forall i, (0 <= i < zlen K)%Z -> 0 < znth 0 P i) /\
  exists gap, 0 < gap /\ forall im k p, 0 < k < znth 0 K 0 ->
    find_pk (mk_table K P) [k] im = Ok [p] -> gap <= Rabs (p - znth 0 P 0).
Proof.
  exists [1; 2; 4], [1; 4; 1].
  assert (HI : increasing [1; 2; 4]).
  { intros i j [Hij Hj]. cbn in Hj. destruct i as [|[|[|i]]]; destruct j as [|[|[|j]]]; cbn; lra || lia. }
  assert (HP : forall i, (0 <= i < zlen [1; 2; 4])%Z -> 0 < znth 0 [1; 4; 1] i).
  { intros i Hi. cbn in Hi. assert (i = 0 \/ i = 1 \/ i = 2)%Z as [E|[E|E]] by lia; subst i; unfold znth; simpl; lra. }
  split; [reflexivity|]. split; [cbn; lia|]. split; [exact HI|]. split; [unfold znth; cbn; lra|]. split; [exact HP|].
  exists 3. split; [lra|]. intros im k p Hk H.
  rewrite (find_pk_below [1; 2; 4] [1; 4; 1]) in H; auto; try (cbn; lia); try lra.
  rewrite (lowk_val [1; 2; 4] [1; 4; 1]) in H; auto; try (cbn; lia).
  2:{ apply Rdiv_lt_0_compat; [lra|unfold znth; simpl; lra]. }
  2:{ intros ik Hik. split; apply HP; cbn in *; lia. }
  cbn [bind] in H. injection H as <-.
  change (low_end [1; 2; 4]) with 2%Z. cbn [Z.to_nat Z.sub Z.add Z.opp Z.pos_sub Pos.pred_double Pos.to_nat Pos.iter_op].
  change (sum_slope [1; 2; 4] [1; 4; 1] 1 1) with (0 + slope [1; 2; 4] [1; 4; 1] 1).
  unfold slope, znth. simpl.
  replace (1 / 1) with 1 by lra. rewrite ln_1. unfold Rdiv at 3. rewrite Rmult_0_l, Rplus_0_l.
  unfold Rdiv at 2. rewrite Rmult_0_l. unfold Rpower. rewrite Rmult_0_l, exp_0.
  rewrite Rabs_right; lra.
Qed.
