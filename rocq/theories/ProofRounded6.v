(** ProofRounded6: find_pk at the tabulated wavenumbers, in doubles. *)
From Coq Require Import ZArith Lia List Bool Reals Lra Floats.
From Flocq Require Import Core Plus_error BinarySingleNaN PrimFloat.
From Verif Require Import Base Num BaseFacts Order Spec Common ProofSearch ProofInterp ProofFindPk SpecRounded.
Import ListNotations.
Local Open Scope Z_scope.
Local Notation float := PrimFloat.float.

(** ** Zeros and NaN *)
Lemma sfcmp_refl (x : spec_float) : x <> S754_nan -> SFcompare x x = Some Eq.
Proof.
  destruct x as [s|s| |s m e]; try easy; intros _; unfold SFcompare; destruct s; try reflexivity; rewrite Z.compare_refl;
    change (Pos.compare_cont Eq m m) with (Pos.compare m m); rewrite Pos.compare_refl; reflexivity.
Qed.
Definition zn (a : float) : Prop := match Prim2SF a with S754_zero _ | S754_nan => True | _ => False end.
Lemma zn_mul_l a b : zn a -> zn (PrimFloat.mul a b).
Proof. unfold zn. rewrite FloatAxioms.mul_spec. destruct (Prim2SF a), (Prim2SF b); cbn; easy. Qed.
Lemma zn_mul_r a b : zn b -> zn (PrimFloat.mul a b).
Proof. unfold zn. rewrite FloatAxioms.mul_spec. destruct (Prim2SF a), (Prim2SF b); cbn; easy. Qed.
Lemma zn_div a b : zn a -> zn (PrimFloat.div a b).
Proof. unfold zn. rewrite FloatAxioms.div_spec. destruct (Prim2SF a), (Prim2SF b); cbn; easy. Qed.
Lemma zn_sub a b : zn a -> zn b -> zn (PrimFloat.sub a b).
Proof. unfold zn. rewrite FloatAxioms.sub_spec. destruct (Prim2SF a) as [sa| | |], (Prim2SF b) as [sb| | |]; cbn; try easy. destruct (Bool.eqb _ _); easy. Qed.

Definition fin (x : float) : Prop := is_finite (Prim2B x) = true.
Lemma fin_prim x : PrimFloat.is_finite x = true -> fin x.
Proof. unfold fin. now rewrite is_finite_equiv. Qed.
Lemma fin_notnan x : fin x -> not_nan x.
Proof.
  unfold fin, not_nan. rewrite FloatAxioms.eqb_spec, <- (B2SF_Prim2B x). unfold SFeqb. intros H. rewrite sfcmp_refl; [reflexivity|]. destruct (Prim2B x); cbn in *; discriminate.
Qed.
Lemma sub_same x : fin x -> Prim2SF (PrimFloat.sub x x) = S754_zero false.
Proof.
  unfold fin. rewrite FloatAxioms.sub_spec, <- (B2SF_Prim2B x). destruct (Prim2B x) as [s|s| |s m e B]; cbn; try easy.
  - intros _. destruct s; reflexivity.
  - intros _. unfold SF64sub, SFsub. rewrite Z.sub_diag. reflexivity.
Qed.

Definition sn (p r : float) : Prop :=
  Prim2SF r = Prim2SF p \/ Prim2SF r = S754_nan \/ exists s s', Prim2SF r = S754_zero s /\ Prim2SF p = S754_zero s'.
Lemma sn_refl p : sn p p. Proof. now left. Qed.
Lemma sn_add p r d : sn p r -> zn d -> sn p (PrimFloat.add r d).
Proof.
  unfold sn, zn. rewrite FloatAxioms.add_spec. destruct (Prim2SF d) as [sd| | |]; try easy.
  2:{ intros _ _. right; left. destruct (Prim2SF r); reflexivity. }
  intros [H|[H|(s & s' & H & H')]] _.
  - rewrite H. destruct (Prim2SF p) as [sp|sp| |sp mp ep]; cbn; auto. right; right. destruct (Bool.eqb sp sd); eauto.
  - rewrite H. right; left. reflexivity.
  - rewrite H. right; right. cbn. destruct (Bool.eqb s sd); eauto.
Qed.
Lemma sn_add' p d : zn d -> sn p (PrimFloat.add d p).
Proof.
  unfold sn, zn. rewrite FloatAxioms.add_spec. destruct (Prim2SF d) as [sd| | |]; try easy; intros _.
  - destruct (Prim2SF p) as [sp|sp| |sp mp ep]; cbn; auto. right; right. destruct (Bool.eqb sd sp); eauto.
  - right; left. destruct (Prim2SF p); reflexivity.
Qed.
Lemma SFeqb_refl (x : float) : Prim2SF x <> S754_nan -> SFeqb (Prim2SF x) (Prim2SF x) = true.
Proof.
  intros H. unfold SFeqb. now rewrite sfcmp_refl.
Qed.
Lemma sn_same p r : sn p r -> same_nan p r.
Proof.
  unfold sn, same_nan, PrimFloat.is_nan. rewrite !FloatAxioms.eqb_spec. intros [H|[H|(s & s' & H & H')]].
  - destruct (Prim2SF r) eqn:E; try (left; rewrite <- H, <- E; apply SFeqb_refl; rewrite E; discriminate). right. rewrite ?E. reflexivity.
  - right. rewrite H. reflexivity.
  - left. rewrite H, H'. destruct s, s'; reflexivity.
Qed.

(** ** The nearest node *)
Lemma abs_lt_zero (z a : float) : Prim2SF z = S754_zero false -> nlt (FNum (mkLibm (fun x => x) (fun x => x) (fun x => x) (fun x => x) (fun x _ => x))) (PrimFloat.abs a) (PrimFloat.abs z) = false.
Proof.
  intros H. cbn [nlt FNum]. rewrite FloatAxioms.ltb_spec, !FloatAxioms.abs_spec, H. destruct (Prim2SF a) as [s|s| |s m e]; reflexivity.
Qed.
Lemma zero_lt_abs (z a : float) : Prim2SF z = S754_zero false -> ~ zn a -> PrimFloat.ltb (PrimFloat.abs z) (PrimFloat.abs a) = true.
Proof.
  intros H. rewrite FloatAxioms.ltb_spec, !FloatAxioms.abs_spec, H. unfold zn. destruct (Prim2SF a) as [s|s| |s m e]; cbn; try easy; tauto.
Qed.
Lemma valid64 : Valid_exp (FLT_exp (-1074) 53).
Proof. apply FLT_exp_valid. reflexivity. Qed.
Lemma fexp64 : SpecFloat.fexp FloatOps.prec FloatOps.emax = FLT_exp (-1074) 53.
Proof. reflexivity. Qed.
Lemma ltb_val x y : fin x -> fin y -> PrimFloat.ltb x y = Raux.Rlt_bool (val x) (val y).
Proof. intros Hx Hy. rewrite ltb_equiv. now apply Bltb_correct. Qed.
Lemma sub_nonzero x y : fin x -> fin y -> PrimFloat.ltb x y = true \/ PrimFloat.ltb y x = true -> ~ zn (PrimFloat.sub x y).
Proof.
  intros Hx Hy Hne.
  assert (Hv : (val x - val y <> 0)%R).
  { destruct Hne as [H|H]; rewrite ltb_val in H by assumption; revert H; case Raux.Rlt_bool_spec; intros H; try discriminate; lra. }
  pose proof (Bminus_correct FloatOps.prec FloatOps.emax Hprec Hmax mode_NE _ _ Hx Hy) as H.
  unfold zn. rewrite <- (B2SF_Prim2B (PrimFloat.sub x y)), sub_equiv. fold (val x) (val y) in H.
  destruct (Raux.Rlt_bool _ _) in H.
  - destruct H as (H1 & H2 & _).
    match type of H2 with is_finite ?b = _ => set (bm := b) in * end.
    assert (Hr : B2R bm <> 0%R).
    { rewrite H1. rewrite fexp64. unfold Rminus in *.
      pose proof valid64 as VE. apply (round_plus_neq_0 radix2 (FLT_exp (-1074) 53) ZnearestE); [| |exact Hv].
      - apply (generic_format_B2R FloatOps.prec FloatOps.emax).
      - apply generic_format_opp. apply (generic_format_B2R FloatOps.prec FloatOps.emax). }
    clearbody bm. destruct bm as [s|s| |s m e B]; cbn in *; try easy; intros _; now apply Hr.
  - destruct H as (H1 & _). rewrite H1. cbn. easy.
Qed.

(** ** Neville's tableau at a node *)
Section Poly.
Context (lm : libm) (x : float) (tabx taby : list float) (n s : Z).
Local Notation Fl := (FNum lm).
Local Notation d0 := PrimFloat.zero.
Hypothesis Hn : 1 <= n < 2 ^ 62.
Hypothesis Hx : n <= zlen tabx.
Hypothesis Hy : n <= zlen taby.
Hypothesis Hs : 0 <= s < n.
Hypothesis Fx : forall i, 0 <= i < n -> fin (znth d0 tabx i).
Hypothesis Hdist : forall i, 0 <= i < n -> i <> s -> PrimFloat.ltb x (znth d0 tabx i) = true \/ PrimFloat.ltb (znth d0 tabx i) x = true.
Hypothesis Hxs : x = znth d0 tabx s.
Let X (i : Z) : float := znth d0 tabx i.
Let Y (i : Z) : float := znth d0 taby i.
Ltac fl := cbn [T nadd nsub nmul ndiv nopp nabs nlt nZ FNum].
Let dist (i : Z) : float := PrimFloat.abs (PrimFloat.sub x (X i)).

Lemma finx : fin x. Proof. rewrite Hxs. now apply Fx. Qed.
Lemma zero_s : Prim2SF (PrimFloat.sub x (X s)) = S754_zero false.
Proof. unfold X. rewrite <- Hxs. apply sub_same, finx. Qed.
Lemma dist_min i : PrimFloat.ltb (dist i) (dist s) = false.
Proof. apply (abs_lt_zero _ (PrimFloat.sub x (X i)) zero_s). Qed.
Lemma dist_pos i : 0 <= i < n -> i <> s -> PrimFloat.ltb (dist s) (dist i) = true.
Proof. intros Hi Hne. apply zero_lt_abs; [exact zero_s|]. apply sub_nonzero; [exact finx|now apply Fx|now apply Hdist]. Qed.

Lemma scan_nodeF (c d : list float) : zlen c = n -> zlen d = n ->
  exists df (c' d' : list float), ip_scan (N := Fl) x tabx taby n (dist 0) c d = Ok (s, df, c', d') /\ zlen c' = n /\ zlen d' = n.
Proof.
  intros Hc Hd. unfold ip_scan. fl.
  pose (P := fun (j : Z) (st : Z * float * list float * list float) =>
     let '(i, df, c, d) := st in zlen c = n /\ zlen d = n /\
       (s < j \/ s = 0 -> i = s /\ df = dist s) /\ (j <= s -> 0 < s -> PrimFloat.ltb (dist s) df = true)).
  for_with P; [lia| | |destruct HF as [[[[i df] c'] d'] [E HP]]].
  - unfold P. split; [exact Hc|]. split; [exact Hd|]. split.
    + intros [H|H]; [lia|]. rewrite H. split; reflexivity.
    + intros _ H. apply dist_pos; lia.
  - intros j [[[i df] c1] d1] Hj [H1 [H2 [H3 H4]]].
    rewrite (rd_ok d0) by lia. cbn [bind]. change (PrimFloat.abs (PrimFloat.sub x (znth d0 tabx j))) with (dist j).
    exists (let '(i', df') := if PrimFloat.ltb (dist j) df then (j, dist j) else (i, df) in
              (i', df', upd c1 (Z.to_nat j) (Y j), upd d1 (Z.to_nat j) (Y j))).
    destruct (PrimFloat.ltb (dist j) df) eqn:B;
    rewrite (rd_ok d0) by lia; cbn [bind]; repeat (rewrite wr_ok by lia; cbn [bind]);
    (split; [reflexivity|]); unfold P; rewrite !zlen_upd; (split; [exact H1|split; [exact H2|split]]).
    + intros Hc1. destruct (Z.eq_dec j s) as [->|Ne]; [split; reflexivity|exfalso].
      destruct H3 as [_ E]; [lia|]. rewrite E, dist_min in B. discriminate B.
    + intros Hj1 Hs1. apply dist_pos; lia.
    + intros Hc1. destruct (Z.eq_dec j s) as [->|Ne].
      * destruct (Z.eq_dec s 0) as [E0|E0]; [apply H3; lia|]. exfalso. rewrite H4 in B by lia. discriminate B.
      * apply H3; lia.
    + intros Hj1 Hs1. apply H4; lia.
  - destruct HP as [H1 [H2 [H3 H4]]]. destruct H3 as [-> _]; [lia|].
    exists df, c', d'. split; [exact E|]. split; assumption.
Qed.

Definition znp (m : Z) (c d : list float) : Prop :=
  (forall i, 0 <= i < n - m -> i <= s <= i + m - 1 -> zn (znth d0 c i)) /\
  (forall i, 0 <= i < n - m -> i + 1 <= s <= i + m -> zn (znth d0 d i)).
Lemma zn_s : zn (PrimFloat.sub (X s) x).
Proof. unfold X. rewrite <- Hxs. unfold zn. now rewrite (sub_same x finx). Qed.

Lemma column_znp (jx : Z) (c d : list float) : 1 <= jx < n -> zlen c = n -> zlen d = n -> znp (jx - 1) c d ->
  exists (c' d' : list float), ip_column (N := Fl) x tabx n jx c d = Ok (c', d') /\ zlen c' = n /\ zlen d' = n /\ znp jx c' d'.
Proof.
  intros Hj Hc Hd [ZC ZD]. unfold ip_column. fl. rewrite u64_small by (unfold SIZE_T; lia).
  pose (P := fun (j : Z) (st : list float * list float) => zlen (fst st) = n /\ zlen (snd st) = n /\
     (forall k, 0 <= k < j -> (k <= s <= k + jx - 1 -> zn (znth d0 (fst st) k)) /\ (k + 1 <= s <= k + jx -> zn (znth d0 (snd st) k))) /\
     (forall k, j <= k < n - (jx - 1) -> znth d0 (fst st) k = znth d0 c k /\ znth d0 (snd st) k = znth d0 d k)).
  for_with P; [lia| | |destruct HF as [[c' d'] [E HP]]].
  - repeat split; auto; intros; lia.
  - intros j [c1 d1] Hj' [H1 [H2 [H3 H4]]]. cbn [fst snd] in *.
    do 4 (rewrite (rd_ok d0) by lia; cbn [bind]).
    rewrite wr_ok by lia; cbn [bind]. rewrite wr_ok by lia; cbn [bind].
    eexists; split; [reflexivity|].
    unfold P; cbn [fst snd]; rewrite !zlen_upd. split; [exact H1|]. split; [exact H2|]. split.
    + intros k Hk. rewrite !znth_upd by lia. destruct (Z.eqb_spec k j) as [->|]; [|apply H3; lia].
      destruct (H4 (j + 1)) as [Ec _]; [lia|]. destruct (H4 j) as [_ Ed]; [lia|]. rewrite Ec, Ed.
      split; intros Hm.
      * destruct (Z.eq_dec s j) as [Es|Ne]; [apply zn_mul_l; rewrite <- Es; exact zn_s|]. apply zn_mul_r, zn_div, zn_sub; [apply ZC|apply ZD]; lia.
      * destruct (Z.eq_dec s (j + jx)) as [Es|Ne]; [apply zn_mul_l; rewrite <- Es; exact zn_s|]. apply zn_mul_r, zn_div, zn_sub; [apply ZC|apply ZD]; lia.
    + intros k Hk. rewrite !znth_upd by lia. destruct (Z.eqb_spec k j) as [->|]; [lia|apply H4; lia].
  - exists c', d'. destruct HP as [H1 [H2 [H3 _]]]. cbn [fst snd] in *.
    split; [exact E|]. split; [exact H1|]. split; [exact H2|]. split; intros i Hi; apply H3; lia.
Qed.

Lemma poly_nodeF : exists r, interpol_poly (N := Fl) x tabx taby n = Ok r /\ sn (Y s) r.
Proof.
  unfold interpol_poly. fl. rewrite (rd_ok d0) by lia. cbn [bind].
  destruct (scan_nodeF (repeat (fZ 0) (Z.to_nat n)) (repeat (fZ 0) (Z.to_nat n)))
    as [df [c [d [E [Hc Hd]]]]]; try (apply zlen_repeat; lia).
  unfold dist, X in E. rewrite E; cbn [bind]. rewrite (rd_ok d0) by lia. cbn [bind].
  pose (P := fun (j : Z) (st : Z * list float * list float * float) =>
     let '(ic, c, d, y) := st in exists ns, ic = u64 (ns - 1) /\ 0 <= ns <= n - j /\ ns <= s <= ns + j - 1 /\ zlen c = n /\ zlen d = n /\
       znp (j - 1) c d /\ sn (Y s) y).
  for_with P; [lia| | |destruct HF as [[[[ic c'] d'] y] [E' HP]]].
  - exists s. split; [reflexivity|]. repeat split; auto; try lia; try (intros; lia). apply sn_refl.
  - intros j [[[ic c1] d1] y1] Hj [ns [Hic [Hns [Hsn [H1 [H2 [H3 HY]]]]]]].
    destruct (column_znp j c1 d1 ltac:(lia) H1 H2 H3) as [c2 [d2 [E2 [K1 [K2 [K3 K4]]]]]].
    rewrite E2; cbn [bind]. subst ic.
    assert (Hw : u64 (u64 (ns - 1) + 1) = ns).
    { unfold u64. rewrite Zplus_mod_idemp_l. replace (ns - 1 + 1) with ns by lia.
      apply Z.mod_small; unfold SIZE_T; lia. }
    rewrite Hw. rewrite (u64_small (2 * ns)) by (unfold SIZE_T; lia).
    rewrite (u64_small (n - j)) by (unfold SIZE_T; lia).
    assert (Hz : znp (j + 1 - 1) c2 d2) by (replace (j + 1 - 1) with j by lia; split; assumption).
    destruct (Z.ltb_spec (2 * ns) (n - j)).
    + rewrite (rd_ok d0) by lia. cbn [bind]. eexists; split; [reflexivity|].
      exists ns. repeat split; auto; try lia; try apply Hz. apply sn_add; [exact HY|apply K3; lia].
    + rewrite (u64_small (ns - 1)) by (unfold SIZE_T; lia).
      rewrite (rd_ok d0) by lia. cbn [bind]. eexists; split; [reflexivity|].
      exists (ns - 1). repeat split; auto; try lia; try apply Hz. apply sn_add; [exact HY|apply K4; lia].
  - rewrite E'; cbn [bind]. destruct HP as [ns [_ [_ [_ [_ [_ [_ HY]]]]]]]. eauto.
Qed.
End Poly.
