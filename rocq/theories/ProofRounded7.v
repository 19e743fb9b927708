(** ProofRounded7: find_pk at the tabulated wavenumbers, in doubles; the operations of doubles are rounded operations. *)
From Coq Require Import ZArith Lia List Bool Reals Lra Floats.
From Flocq Require Import Core BinarySingleNaN PrimFloat.
From Verif Require Import Base Num BaseFacts Order Spec Common ProofSearch ProofInterp ProofFindPk SpecRounded ProofRounded6.
Import ListNotations.
Local Open Scope Z_scope.
Local Notation float := PrimFloat.float.
Local Notation d0 := PrimFloat.zero.

Section Table.
Context (lm : libm) (K P : list float).
Local Notation Fl := (FNum lm).
Hypothesis HL : length P = length K.
Hypothesis HB : zlen K < 2 ^ 62.
Hypothesis FK : forall k, In k K -> PrimFloat.is_finite k = true.
Hypothesis HI : forall i j, (i < j < length K)%nat -> PrimFloat.ltb (nth i K d0) (nth j K d0) = true.
Let tb := mk_table (N := Fl) K P.
Let nk := zlen K.

Lemma wf_tableF : wf_pk (N := Fl) tb.
Proof. unfold wf_pk; cbn. repeat split; [unfold zlen; now rewrite HL|exact HB]. Qed.
Lemma incF i j : 0 <= i < j -> j < zlen K -> nlt Fl (znth (A := T Fl) d0 K i) (znth (A := T Fl) d0 K j) = true.
Proof. intros Hi Hj. cbn [nlt FNum T]. unfold znth. apply HI. unfold zlen in Hj. cbn [T FNum] in *. lia. Qed.
Lemma finF i : 0 <= i < nk -> fin (znth d0 K i).
Proof. intros Hi. apply fin_prim, FK, znth_In, Hi. Qed.
Lemma nnF i : 0 <= i < nk -> not_nan (znth d0 K i).
Proof. intros Hi. apply fin_notnan, finF, Hi. Qed.

Lemma singleF im (k p : float) : 1 <= nk ->
  (find_pk tb [k] im = Ok [p] <-> exists s, find_pk_step tb im (nk - 1) (znth d0 K 0) (znth d0 K (nk - 1)) 0 k = Ok (p, s)).
Proof. intros H1. apply (step_single (N := Fl) tb wf_tableF (d0 : T Fl) H1). Qed.

Lemma lt_irr i : 0 <= i < nk -> PrimFloat.ltb (znth d0 K i) (znth d0 K i) = false.
Proof.
  intros Hi. destruct (PrimFloat.ltb (znth d0 K i) (znth d0 K i)) eqn:E; [|reflexivity].
  pose proof (ol_asym _ _ (F_order lm) (znth d0 K i) (znth d0 K i) (nnF i Hi) (nnF i Hi) E) as H. cbn in H. congruence.
Qed.
Lemma lt_asym i j : 0 <= i < j -> j < nk -> PrimFloat.ltb (znth d0 K j) (znth d0 K i) = false.
Proof.
  intros Hi Hj. apply (ol_asym _ _ (F_order lm)); [apply nnF; lia|apply nnF; lia|]. now apply incF.
Qed.
Lemma le_self i j : 0 <= i <= j -> j < nk -> PrimFloat.ltb (znth d0 K j) (znth d0 K i) = false.
Proof. intros Hi Hj. destruct (Z.eq_dec i j) as [->|]; [apply lt_irr; lia|apply lt_asym; lia]. Qed.

Lemma bracketF i : 0 <= i < nk -> get_dichotomy_index (N := Fl) (znth d0 K i) K 0 nk = Ok i.
Proof.
  intros Hi. destruct (dicho_from (N := Fl) not_nan (F_order lm) tb wf_tableF (d0 : T Fl)
              nnF incF 0 (znth d0 K i)) as [j [E [Hj [H2 H3]]]].
  - apply nnF, Hi.
  - cbn; fold nk; lia.
  - change (PrimFloat.ltb (znth d0 K i) (znth d0 K 0) = false). apply le_self; lia.
  - change (get_dichotomy_index (N := Fl) (znth d0 K i) K 0 nk = Ok j) in E. rewrite E. f_equal. cbn [pk_k tb mk_table nlt FNum] in Hj, H2, H3. change (zlen (A := T Fl) K) with nk in Hj, H3. destruct (Z.lt_trichotomy j i) as [L|[L|L]]; [exfalso|exact L|exfalso].
    + destruct H3 as [H3|H3]; [lia|]. rewrite le_self in H3 by lia. discriminate H3.
    + pose proof (incF i j ltac:(lia) ltac:(fold nk; lia)) as H. cbn [nlt FNum] in H. cbn [T FNum] in *. congruence.
Qed.

Lemma nodeF im i : 0 <= i < nk -> (im = LIN -> i < nk - 1) ->
  exists r, find_pk (N := Fl) tb [znth d0 K i] im = Ok [r] /\ sn (znth d0 P i) r.
Proof.
  intros Hi Him.
  cut (exists r, sn (znth d0 P i) r /\ exists s, find_pk_step tb im (nk - 1) (znth d0 K 0) (znth d0 K (nk - 1)) 0 (znth d0 K i) = Ok (r, s)).
  { intros (r & H1 & H2). exists r. split; [|exact H1]. apply singleF; [lia|exact H2]. }
  unfold find_pk_step. cbn [nlt FNum].
  rewrite (le_self i (nk - 1)), (le_self 0 i) by lia.
  rewrite (u64_small (nk - 1 + 1)) by (unfold SIZE_T; fold nk in HB; lia).
  replace (nk - 1 + 1) with nk by lia. cbn [pk_k tb mk_table].
  rewrite (bracketF i Hi); cbn [bind].
  assert (LP : zlen P = nk) by (unfold nk, zlen; now rewrite HL).
  destruct im.
  - destruct (window_bounds tb i) as [B1 B2]; [exact Hi|]. cbn [pk_k tb mk_table] in B1, B2. cbn [T FNum] in B1, B2. fold nk in B1, B2.
    cbn [pk_p tb mk_table].
    set (a := zmax 0 (i - 2)) in *. set (b := zmin (nk - 1) (i + 2)) in *.
    destruct (poly_nodeF lm (znth d0 K i) (skipn (Z.to_nat a) K) (skipn (Z.to_nat a) P) (b - a + 1) (i - a)) as (r & E & Hr).
    + lia.
    + rewrite zlen_skipn by (fold nk; lia). fold nk. lia.
    + rewrite zlen_skipn by (fold nk; lia). lia.
    + lia.
    + intros u Hu. rewrite znth_skipn by lia. apply finF. lia.
    + intros u Hu Hne. rewrite znth_skipn by lia. destruct (Z.lt_trichotomy (a + u) i) as [L|[L|L]]; [|lia|].
      * right. apply (incF (a + u) i); fold nk; lia.
      * left. apply (incF i (a + u)); fold nk; lia.
    + rewrite znth_skipn by lia. f_equal. lia.
    + rewrite znth_skipn in Hr by lia. replace (a + (i - a)) with i in Hr by lia.
      exists r. split; [exact Hr|]. cbn [T FNum] in *. rewrite E. cbn [bind]. eauto.
  - specialize (Him eq_refl). cbn [pk_p tb mk_table].
    repeat (rewrite (rd_ok d0) by (fold nk; lia); cbn [bind]).
    eexists. split; [|eexists; reflexivity]. unfold interpol_lin. cbn [nadd nsub nmul ndiv FNum].
    apply sn_add', zn_mul_l, zn_div. unfold zn. rewrite sub_same; [exact I|]. apply finF, Hi.
Qed.

Lemma node_nth im i : (i < length K)%nat -> (im = LIN -> (S i < length K)%nat) ->
  exists r, find_pk (N := Fl) tb [nth i K d0] im = Ok [r] /\ same_nan (nth i P d0) r.
Proof.
  intros Hi Him. destruct (nodeF im (Z.of_nat i)) as (r & E & Hr).
  - unfold nk, zlen. lia.
  - intros E. specialize (Him E). unfold nk, zlen. lia.
  - exists r. unfold znth in E, Hr. rewrite Nat2Z.id in E, Hr. split; [exact E|]. now apply sn_same.
Qed.

Lemma elementwiseF im (ks : list float) : 1 <= nk -> (forall k, In k ks -> not_nan k) ->
  (forall i j, (i < j < length ks)%nat -> PrimFloat.ltb (nth j ks d0) (nth i ks d0) = false) ->
  forall ps, find_pk tb ks im = Ok ps <-> Forall2 (fun k p => find_pk tb [k] im = Ok [p]) ks ps.
Proof.
  intros H1 HG HA. apply (find_pk_elementwise (N := Fl) not_nan (F_order lm) tb wf_tableF (d0 : T Fl)).
  - exact H1.
  - exact nnF.
  - exact incF.
  - intros i Hi. apply HG, znth_In, Hi.
  - intros i j Hi Hj. cbn. unfold znth. apply HA. unfold zlen in Hj. cbn [T FNum] in *. lia.
Qed.
Lemma Forall2_build {A B} (R : A -> B -> Prop) (l : list A) : (forall a, In a l -> exists b, R a b) -> exists m, Forall2 R l m.
Proof.
  induction l as [|a l IH]; intros H; [exists []; constructor|]. destruct (H a (or_introl eq_refl)) as (b & Hb). destruct IH as (m & Hm); [intros; apply H; now right|].
  exists (b :: m). now constructor.
Qed.
Lemma Forall2_nth {A B} (R : A -> B -> Prop) a b (l : list A) : forall (m : list B), length m = length l -> (forall i, (i < length l)%nat -> R (nth i l a) (nth i m b)) -> Forall2 R l m.
Proof.
  induction l as [|x l IH]; intros [|y m] E H; try discriminate; constructor; [apply (H 0%nat); cbn; lia|]. apply IH; [cbn in E; lia|]. intros i Hi. apply (H (S i)). cbn. lia.
Qed.
Lemma Forall2_to {A B} (R : A -> B -> Prop) a b (l : list A) (m : list B) : Forall2 R l m -> length m = length l /\ forall i, (i < length l)%nat -> R (nth i l a) (nth i m b).
Proof.
  induction 1 as [|x y l m H _ [IH1 IH2]]; [split; [reflexivity|cbn; lia]|]. split; [cbn; lia|]. intros [|i] Hi; [exact H|]. apply IH2. cbn in Hi. lia.
Qed.
(** The whole table in one call. *)
Lemma table_allF : K <> [] -> exists out, find_pk (N := Fl) tb K POLY = Ok out /\ Forall2 same_nan P out.
Proof.
  intros Hne. assert (H1 : 1 <= nk) by (unfold nk, zlen; destruct K; [easy|cbn [length]; lia]).
  assert (EX : exists out, Forall2 (fun k p => find_pk (N := Fl) tb [k] POLY = Ok [p]) K out).
  { apply Forall2_build. intros k Hk. apply (In_nth _ _ d0) in Hk as (i & Hi & <-). destruct (node_nth POLY i Hi ltac:(discriminate)) as (r & E & _). eauto. }
  destruct EX as (out & HO). exists out. split.
  - apply elementwiseF; [exact H1| | |exact HO].
    + intros k Hk. apply fin_notnan, fin_prim, FK, Hk.
    + intros i j Hij. pose proof (lt_asym (Z.of_nat i) (Z.of_nat j)) as H. unfold znth in H. rewrite !Nat2Z.id in H. apply H; unfold nk, zlen; lia.
  - destruct (Forall2_to _ d0 d0 _ _ HO) as (LO & HI'). apply (Forall2_nth _ d0 d0); [cbn [T FNum] in *; lia|]. intros i Hi. rewrite HL in Hi.
    destruct (node_nth POLY i Hi ltac:(discriminate)) as (r & E & Hr). specialize (HI' i Hi). cbn [T FNum] in *. rewrite E in HI'. injection HI' as <-. exact Hr.
Qed.
End Table.

(** ** The operations of doubles *)
Lemma bfin x : PrimFloat.is_finite x = true -> is_finite (Prim2B x) = true.
Proof. now rewrite is_finite_equiv. Qed.
Lemma ovf_fin (b : binary_float FloatOps.prec FloatOps.emax) m s : is_finite b = true -> B2SF b = binary_overflow FloatOps.prec FloatOps.emax m s -> m = mode_NE -> False.
Proof. intros H E ->. destruct b; cbn in *; discriminate. Qed.
Lemma op_add x y : PrimFloat.is_finite x = true -> PrimFloat.is_finite y = true -> PrimFloat.is_finite (PrimFloat.add x y) = true -> val (PrimFloat.add x y) = to_double (val x + val y).
Proof.
  intros Hx Hy Hz. apply bfin in Hx, Hy, Hz. unfold val. rewrite add_equiv in *. pose proof (Bplus_correct FloatOps.prec FloatOps.emax Hprec Hmax mode_NE _ _ Hx Hy) as H.
  destruct (Raux.Rlt_bool _ _) in H; [exact (proj1 H)|]. destruct H as (H & _). exfalso. exact (ovf_fin _ _ _ Hz H eq_refl).
Qed.
Lemma op_sub x y : PrimFloat.is_finite x = true -> PrimFloat.is_finite y = true -> PrimFloat.is_finite (PrimFloat.sub x y) = true -> val (PrimFloat.sub x y) = to_double (val x - val y).
Proof.
  intros Hx Hy Hz. apply bfin in Hx, Hy, Hz. unfold val. rewrite sub_equiv in *. pose proof (Bminus_correct FloatOps.prec FloatOps.emax Hprec Hmax mode_NE _ _ Hx Hy) as H.
  destruct (Raux.Rlt_bool _ _) in H; [exact (proj1 H)|]. destruct H as (H & _). exfalso. exact (ovf_fin _ _ _ Hz H eq_refl).
Qed.
Lemma op_mul x y : PrimFloat.is_finite (PrimFloat.mul x y) = true -> val (PrimFloat.mul x y) = to_double (val x * val y).
Proof.
  intros Hz. apply bfin in Hz. unfold val. rewrite mul_equiv in *. pose proof (Bmult_correct FloatOps.prec FloatOps.emax Hprec Hmax mode_NE (Prim2B x) (Prim2B y)) as H.
  destruct (Raux.Rlt_bool _ _) in H; [exact (proj1 H)|]. exfalso. exact (ovf_fin _ _ _ Hz H eq_refl).
Qed.
Lemma op_div x y : PrimFloat.is_finite x = true -> PrimFloat.is_finite y = true -> PrimFloat.is_finite (PrimFloat.div x y) = true ->
  val y <> 0%R /\ val (PrimFloat.div x y) = to_double (val x / val y).
Proof.
  intros Hx Hy Hz. apply bfin in Hx, Hy, Hz. unfold val. rewrite div_equiv in *.
  assert (Hy0 : B2R (Prim2B y) <> 0%R).
  { destruct (Prim2B y) as [sy|sy| |sy my ey By]; try discriminate Hy.
    - exfalso. destruct (Prim2B x) as [sx|sx| |sx mx ex Bx]; cbn in Hx, Hz; discriminate.
    - cbn. apply F2R_neq_0. cbn. destruct sy; discriminate. }
  split; [exact Hy0|]. pose proof (Bdiv_correct FloatOps.prec FloatOps.emax Hprec Hmax mode_NE (Prim2B x) (Prim2B y) Hy0) as H.
  destruct (Raux.Rlt_bool _ _) in H; [exact (proj1 H)|]. exfalso. exact (ovf_fin _ _ _ Hz H eq_refl).
Qed.
Lemma op_sqrt x : val (PrimFloat.sqrt x) = to_double (R_sqrt.sqrt (val x)).
Proof. unfold val. rewrite sqrt_equiv. apply (Bsqrt_correct FloatOps.prec FloatOps.emax Hprec Hmax mode_NE (Prim2B x)). Qed.
Lemma op_lt x y : PrimFloat.is_finite x = true -> PrimFloat.is_finite y = true -> PrimFloat.ltb x y = Rltb (val x) (val y).
Proof.
  intros Hx Hy. rewrite ltb_val by (now apply bfin). unfold Rltb. case Raux.Rlt_bool_spec; intros H; destruct (Rlt_dec _ _); try reflexivity; lra.
Qed.
Lemma op_double x : double (val x).
Proof. apply (generic_format_B2R FloatOps.prec FloatOps.emax). Qed.
