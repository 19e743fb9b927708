(** ProofRounded: instances of [rounding]; a tabulated wavenumber in a rounded arithmetic. *)
From Coq Require Import ZArith Lia Reals Lra List Bool.
From Verif Require Import Base Num BaseFacts Order Spec Common ProofSearch ProofInterp ProofFindPk ProofFindPkR SpecRounded.
From Flocq Require Import Core Plus_error Relative.
Import ListNotations.
Local Open Scope R_scope.

Lemma one_FLT : generic_format radix2 (FLT_exp (-1074) 53) 1.
Proof. apply generic_format_FLT_1; reflexivity || (now compute) || lia. Qed.
Lemma double_rounding : rounding double to_double.
Proof.
  assert (VE : Valid_exp (FLT_exp (-1074) 53)) by (apply FLT_exp_valid; reflexivity).
  split; unfold double, to_double.
  - intros x. apply generic_format_round; [exact VE|apply valid_rnd_N].
  - intros x H. apply round_generic; [apply valid_rnd_N|exact H].
  - intros x y H. apply round_le; [exact VE|apply valid_rnd_N|exact H].
  - apply generic_format_0.
  - exact one_FLT.
  - intros x H. now apply generic_format_opp.
  - intros x y Hx Hy H.
    destruct (Req_dec (x - y) 0) as [E|E]; [lra|exfalso].
    apply (round_plus_neq_0 radix2 (FLT_exp (-1074) 53) ZnearestE x (- y) Hx); [now apply generic_format_opp| |exact H].
    exact E.
Qed.
Lemma wide_rounding : rounding wide to_wide.
Proof.
  assert (VE : Valid_exp (FLX_exp 53)) by (apply FLX_exp_valid; reflexivity).
  split; unfold wide, to_wide.
  - intros x. apply generic_format_round; [exact VE|apply valid_rnd_N].
  - intros x H. apply round_generic; [apply valid_rnd_N|exact H].
  - intros x y H. apply round_le; [exact VE|apply valid_rnd_N|exact H].
  - apply generic_format_0.
  - apply generic_format_FLX_1. reflexivity.
  - intros x H. now apply generic_format_opp.
  - intros x y Hx Hy H.
    destruct (Req_dec (x - y) 0) as [E|E]; [lra|exfalso].
    apply (round_plus_neq_0 radix2 (FLX_exp 53) ZnearestE x (- y) Hx); [now apply generic_format_opp| |exact H].
    exact E.
Qed.
Lemma wide_relative : relative (bpow radix2 (-53)) to_wide.
Proof.
  intros x. unfold to_wide.
  pose proof (relative_error_N_FLX radix2 53 ltac:(reflexivity) (fun z => negb (Z.even z)) x) as H.
  replace (bpow radix2 (-53)) with (/ 2 * bpow radix2 (- (53) + 1)); [exact H|].
  change (- (53) + 1)%Z with (-53 + 1)%Z. rewrite bpow_plus. simpl (bpow radix2 1). lra.
Qed.

Ltac qn := cbn [T nadd nsub nmul ndiv nopp nabs nsqrt nlog nexp ncos nsin npow nlt nle neqb nZ nlit npi QNum].
Ltac qn_in H := cbn [T nadd nsub nmul ndiv nopp nabs nsqrt nlog nexp ncos nsin npow nlt nle neqb nZ nlit npi QNum] in H.
Ltac qn_all := cbn [T nadd nsub nmul ndiv nopp nabs nsqrt nlog nexp ncos nsin npow nlt nle neqb nZ nlit npi QNum] in *.

Lemma Q_order rnd lm : order_laws (QNum rnd lm) (fun _ => True).
Proof. split; qn; intros *; rewrite ?Rltb_true, ?Rltb_false; intros; lra. Qed.

Section Poly.
Context (F : R -> Prop) (rnd : R -> R) (lm : libmR) (RD : rounding F rnd).
Local Notation Q := (QNum rnd lm).

Lemma rnd0 : rnd 0 = 0. Proof. apply (r_id _ _ RD), (r_zero _ _ RD). Qed.
Lemma rnd_pos x : 0 <= x -> 0 <= rnd x.
Proof. intros H. rewrite <- rnd0. now apply (r_mono _ _ RD). Qed.
Lemma rnd_same x : rnd (x - x) = 0. Proof. replace (x - x) with 0 by ring. exact rnd0. Qed.

Context (x : R) (tabx taby : list R) (n s : Z).
Hypothesis Hn : (1 <= n < 2 ^ 62)%Z.
Hypothesis Hx : (n <= zlen tabx)%Z.
Hypothesis Hy : (n <= zlen taby)%Z.
Hypothesis Hs : (0 <= s < n)%Z.
Hypothesis Fx : forall i, (0 <= i < n)%Z -> F (znth 0 tabx i).
Hypothesis Fy : forall i, (0 <= i < n)%Z -> F (znth 0 taby i).
Hypothesis Hdist : forall i j, (0 <= i < n)%Z -> (0 <= j < n)%Z -> i <> j -> znth 0 tabx i <> znth 0 tabx j.
Hypothesis Hxs : x = znth 0 tabx s.
Let X (i : Z) : R := znth 0 tabx i.
Let Y (i : Z) : R := znth 0 taby i.
Local Notation d0 := (0 : T Q).

Lemma scan_node (c d : list R) : zlen c = n -> zlen d = n ->
  exists df (c' d' : list R), ip_scan (N := Q) x tabx taby n (Rabs (rnd (x - X 0))) c d = Ok (s, df, c', d') /\
    zlen c' = n /\ zlen d' = n.
Proof.
  intros Hc Hd. unfold ip_scan. qn.
  pose (P := fun (j : Z) (st : Z * R * list R * list R) =>
     let '(i, df, c, d) := st in zlen c = n /\ zlen d = n /\
       ((s < j)%Z \/ (s = 0)%Z -> i = s /\ df = 0) /\ ((j <= s)%Z -> (0 < s)%Z -> 0 < df)).
  assert (Zs : Rabs (rnd (x - X s)) = 0) by (unfold X; rewrite <- Hxs, rnd_same; apply Rabs_R0).
  assert (Nz : forall i, (0 <= i < n)%Z -> i <> s -> 0 < Rabs (rnd (x - X i))).
  { intros i Hi Hne. apply Rabs_pos_lt. intros E. apply (r_sub _ _ RD) in E; [|rewrite Hxs; apply Fx; lia|apply Fx; lia].
    rewrite Hxs in E. now apply (Hdist i s Hi Hs Hne). }
  for_with P; [lia| | |destruct HF as [[[[i df] c'] d'] [E HP]]].
  - unfold P. repeat split; auto; intros.
    + destruct H; lia.
    + destruct H as [H|H]; [lia|]. rewrite H in Zs. exact Zs.
    + apply Nz; lia.
  - intros j [[[i df] c1] d1] Hj [H1 [H2 [H3 H4]]].
    rewrite (rd_ok 0) by lia. cbn [bind].
    change (znth 0 tabx j) with (X j).
    exists (let '(i', df') := if Rltb (Rabs (rnd (x - X j))) df then (j, Rabs (rnd (x - X j))) else (i, df) in
              (i', df', upd c1 (Z.to_nat j) (Y j), upd d1 (Z.to_nat j) (Y j))).
    destruct (Rltb_spec (Rabs (rnd (x - X j))) df) as [B|B];
    rewrite (rd_ok 0) by lia; cbn [bind]; repeat (rewrite wr_ok by lia; cbn [bind]);
    (split; [reflexivity|]); unfold P; rewrite !zlen_upd; (split; [exact H1|split; [exact H2|split]]).
    + intros Hc1. destruct (Z.eq_dec j s) as [->|Ne]; [split; [reflexivity|exact Zs]|exfalso].
      destruct H3 as [_ E]; [lia|]. rewrite E in B. pose proof (Rabs_pos (rnd (x - X j))). lra.
    + intros Hj1 Hs1. apply Nz; lia.
    + intros Hc1. destruct (Z.eq_dec j s) as [->|Ne].
      * destruct (Z.eq_dec s 0) as [E0|E0]; [apply H3; lia|]. exfalso. apply B. rewrite Zs. apply H4; lia.
      * apply H3; lia.
    + intros Hj1 Hs1. apply H4; lia.
  - destruct HP as [H1 [H2 [H3 H4]]]. destruct H3 as [-> _]; [lia|].
    exists df, c', d'. split; [exact E|]. split; assumption.
Qed.

(** After the columns 1 .. m of Neville's tableau the differences on the path through the node are zero. *)
Definition zeros (m : Z) (c d : list R) : Prop :=
  (forall i, (0 <= i < n - m)%Z -> (i <= s <= i + m - 1)%Z -> znth 0 c i = 0) /\
  (forall i, (0 <= i < n - m)%Z -> (i + 1 <= s <= i + m)%Z -> znth 0 d i = 0).

Lemma column_zeros (jx : Z) (c d : list R) : (1 <= jx < n)%Z -> zlen c = n -> zlen d = n -> zeros (jx - 1) c d ->
  exists (c' d' : list R), ip_column (N := Q) x tabx n jx c d = Ok (c', d') /\ zlen c' = n /\ zlen d' = n /\ zeros jx c' d'.
Proof.
  intros Hj Hc Hd [ZC ZD]. unfold ip_column. qn. rewrite u64_small by (unfold SIZE_T; lia).
  pose (P := fun (j : Z) (st : list R * list R) => zlen (fst st) = n /\ zlen (snd st) = n /\
     (forall k, (0 <= k < j)%Z -> ((k <= s <= k + jx - 1)%Z -> znth 0 (fst st) k = 0) /\ ((k + 1 <= s <= k + jx)%Z -> znth 0 (snd st) k = 0)) /\
     (forall k, (j <= k < n - (jx - 1))%Z -> znth 0 (fst st) k = znth 0 c k /\ znth 0 (snd st) k = znth 0 d k)).
  for_with P; [lia| | |destruct HF as [[c' d'] [E HP]]].
  - repeat split; auto; intros; lia.
  - intros j [c1 d1] Hj' [H1 [H2 [H3 H4]]]. cbn [fst snd] in *.
    do 4 (rewrite (rd_ok 0) by lia; cbn [bind]).
    rewrite wr_ok by lia; cbn [bind]. rewrite wr_ok by lia; cbn [bind].
    eexists; split; [reflexivity|].
    unfold P; cbn [fst snd]; rewrite !zlen_upd. split; [exact H1|]. split; [exact H2|]. split.
    + intros k Hk. rewrite !znth_upd by lia. destruct (Z.eqb_spec k j) as [->|]; [|apply H3; lia].
      destruct (H4 (j + 1)%Z) as [Ec _]; [lia|]. destruct (H4 j) as [_ Ed]; [lia|]. rewrite Ec, Ed.
      assert (Mid : (j + 1 <= s <= j + jx - 1)%Z -> rnd (rnd (znth 0 c (j + 1)%Z - znth 0 d j) / rnd (znth 0 tabx j - znth 0 tabx (j + jx)%Z)) = 0).
      { intros Hm. rewrite ZC, ZD by lia. rewrite Rminus_0_r, rnd0. unfold Rdiv. rewrite Rmult_0_l. exact rnd0. }
      split; intros Hm.
      * destruct (Z.eq_dec s j) as [Es|Ne].
        -- rewrite <- Es, <- Hxs, rnd_same, Rmult_0_l. exact rnd0.
        -- rewrite Mid, Rmult_0_r by lia. exact rnd0.
      * destruct (Z.eq_dec s (j + jx)) as [Es|Ne].
        -- rewrite <- Es, <- Hxs, rnd_same, Rmult_0_l. exact rnd0.
        -- rewrite Mid, Rmult_0_r by lia. exact rnd0.
    + intros k Hk. rewrite !znth_upd by lia. destruct (Z.eqb_spec k j) as [->|]; [lia|apply H4; lia].
  - exists c', d'. destruct HP as [H1 [H2 [H3 _]]]. cbn [fst snd] in *.
    split; [exact E|]. split; [exact H1|]. split; [exact H2|]. split; intros i Hi; apply H3; lia.
Qed.

Lemma poly_node : interpol_poly (N := Q) x tabx taby n = Ok (Y s).
Proof.
  unfold interpol_poly. qn. rewrite (rd_ok 0) by lia. cbn [bind].
  destruct (scan_node (repeat (rnd (IZR 0)) (Z.to_nat n)) (repeat (rnd (IZR 0)) (Z.to_nat n)))
    as [df [c [d [E [Hc Hd]]]]]; try (apply zlen_repeat; lia).
  unfold X in E. rewrite E; cbn [bind]. rewrite (rd_ok 0) by lia. cbn [bind].
  pose (P := fun (j : Z) (st : Z * list R * list R * R) =>
     let '(ic, c, d, y) := st in exists ns, ic = u64 (ns - 1) /\ (0 <= ns <= n - j)%Z /\ (ns <= s <= ns + j - 1)%Z /\ zlen c = n /\ zlen d = n /\
       zeros (j - 1) c d /\ y = Y s).
  for_with P; [lia| | |destruct HF as [[[[ic c'] d'] y] [E' HP]]].
  - exists s. split; [reflexivity|]. repeat split; auto; try lia; intros; lia.
  - intros j [[[ic c1] d1] y1] Hj [ns [Hic [Hns [Hsn [H1 [H2 [H3 ->]]]]]]].
    destruct (column_zeros j c1 d1 ltac:(lia) H1 H2 H3) as [c2 [d2 [E2 [K1 [K2 [K3 K4]]]]]].
    rewrite E2; cbn [bind]. subst ic.
    assert (Hw : u64 (u64 (ns - 1) + 1) = ns).
    { unfold u64. rewrite Zplus_mod_idemp_l. replace (ns - 1 + 1)%Z with ns by lia.
      apply Z.mod_small; unfold SIZE_T; lia. }
    rewrite Hw. rewrite (u64_small (2 * ns)) by (unfold SIZE_T; lia).
    rewrite (u64_small (n - j)) by (unfold SIZE_T; lia).
    assert (Fs : rnd (Y s + 0) = Y s) by (rewrite Rplus_0_r; apply (r_id _ _ RD), Fy; lia).
    assert (Hz : zeros (j + 1 - 1) c2 d2) by (replace (j + 1 - 1)%Z with j by lia; split; assumption).
    destruct (Z.ltb_spec (2 * ns) (n - j)).
    + rewrite (rd_ok 0) by lia. cbn [bind]. eexists; split; [reflexivity|].
      exists ns. rewrite K3, Fs by lia. repeat split; auto; try lia; apply Hz.
    + rewrite (u64_small (ns - 1)) by (unfold SIZE_T; lia).
      rewrite (rd_ok 0) by lia. cbn [bind]. eexists; split; [reflexivity|].
      exists (ns - 1)%Z. rewrite K4, Fs by lia. repeat split; auto; try lia; apply Hz.
  - rewrite E'; cbn [bind]. destruct HP as [ns [_ [_ [_ [_ [_ [_ ->]]]]]]]. reflexivity.
Qed.
End Poly.
