(** ProofRounded2: find_pk at the tabulated wavenumbers, in a rounded arithmetic. *)
From Coq Require Import ZArith Lia Reals Lra List Bool.
From Verif Require Import Base Num BaseFacts Order Spec Common ProofSearch ProofInterp ProofFindPk ProofFindPkR SpecRounded ProofRounded.
Import ListNotations.
Local Open Scope R_scope.

Section Table.
Context (F : R -> Prop) (rnd : R -> R) (lm : libmR) (RD : rounding F rnd).
Local Notation Q := (QNum rnd lm).
Context (K P : list R).
Hypothesis HL : length P = length K.
Hypothesis HB : (zlen K < 2 ^ 62)%Z.
Hypothesis HI : increasing K.
Let tb := mk_table (N := Q) K P.
Let nk := zlen K.

Lemma wf_tableQ : wf_pk (N := Q) tb.
Proof. unfold wf_pk; cbn. repeat split; [unfold zlen; now rewrite HL|exact HB]. Qed.
Lemma incQ i j : (0 <= i < j)%Z -> (j < zlen K)%Z -> nlt Q (znth (A := T Q) 0 K i) (znth (A := T Q) 0 K j) = true.
Proof. intros Hi Hj; qn; apply Rltb_true; apply inc_znth; assumption. Qed.

Lemma elementwiseQ (ks : list R) im : (1 <= nk)%Z -> ascending ks ->
  forall ps, find_pk tb ks im = Ok ps <-> Forall2 (fun k p => find_pk tb [k] im = Ok [p]) ks ps.
Proof.
  intros H1 Ha. apply (find_pk_elementwise (N := Q) (fun _ => True) (Q_order rnd lm) tb wf_tableQ (0 : T Q)).
  - exact H1.
  - auto.
  - apply incQ.
  - auto.
  - intros i j Hi Hj. qn. apply Rltb_false. apply asc_znth; auto; lia.
Qed.

Lemma singleQ im (k p : R) : (1 <= nk)%Z ->
  (find_pk tb [k] im = Ok [p] <-> exists s, find_pk_step tb im (nk - 1) (znth 0 K 0) (znth 0 K (nk - 1)) 0 k = Ok (p, s)).
Proof. intros H1. apply (step_single (N := Q) tb wf_tableQ (0 : T Q) H1). Qed.

Lemma bracketQ (k : R) : (1 <= nk)%Z -> znth 0 K 0 <= k ->
  exists i, get_dichotomy_index (N := Q) k K 0 nk = Ok i /\ (0 <= i < nk)%Z /\ znth 0 K i <= k /\
    ((i = nk - 1)%Z \/ k < znth 0 K (i + 1)%Z).
Proof.
  intros H1 Hk.
  destruct (dicho_from (N := Q) (fun _ => True) (Q_order rnd lm) tb wf_tableQ (0 : T Q)
              (fun _ _ => I) incQ 0 k) as [i [E [Hi [H2 H3]]]].
  - exact I.
  - cbn; fold nk; lia.
  - qn; apply Rltb_false; exact Hk.
  - exists i. split; [exact E|]. split; [exact Hi|]. qn_all. apply Rltb_false in H2.
    split; [exact H2|]. destruct H3 as [H3|H3]; [left; exact H3|right; apply Rltb_true in H3; exact H3].
Qed.

(** The linear interpolation at its left end. *)
Lemma lin_left (x0 x1 p0 p1 : R) : F p0 -> interpol_lin (N := Q) x0 x0 x1 p0 p1 = p0.
Proof.
  intros Hp. unfold interpol_lin. qn. rewrite (rnd_same F rnd RD). unfold Rdiv. rewrite Rmult_0_l, (rnd0 F rnd RD), Rmult_0_l, (rnd0 F rnd RD), Rplus_0_l.
  now apply (r_id _ _ RD).
Qed.

Hypothesis FK : Forall F K.
Hypothesis FP : Forall F P.

Lemma FKi i : (0 <= i < nk)%Z -> F (znth 0 K i).
Proof. intros Hi. rewrite Forall_forall in FK. apply FK, znth_In. exact Hi. Qed.
Lemma FPi i : (0 <= i < nk)%Z -> F (znth 0 P i).
Proof. intros Hi. rewrite Forall_forall in FP. apply FP, znth_In. unfold nk, zlen in *. rewrite HL. exact Hi. Qed.

Lemma nodeQ im i : (0 <= i < nk)%Z -> (im = LIN -> (i < nk - 1)%Z) ->
  find_pk (N := Q) tb [znth 0 K i] im = Ok [znth 0 P i].
Proof.
  intros Hi Him. apply singleQ; [lia|].
  destruct (in_range K P HL HI i Hi) as [R1 R2]. fold nk in R2.
  unfold find_pk_step. qn.
  destruct (Rltb_spec (znth 0 K (nk - 1)) (znth 0 K i)); [lra|].
  destruct (Rltb_spec (znth 0 K i) (znth 0 K 0)); [lra|].
  rewrite (u64_small (nk - 1 + 1)) by (unfold SIZE_T; fold nk in HB; lia).
  replace (nk - 1 + 1)%Z with nk by lia. cbn [pk_k tb mk_table].
  destruct (bracketQ (znth 0 K i) ltac:(lia) R1) as [j [E [Hj [H1 H2]]]].
  rewrite E; cbn [bind].
  assert (j = i) by (apply (bracket_at K P HL HI); assumption). subst j.
  destruct im.
  - destruct (window_bounds tb i) as [B1 B2]; [exact Hi|]. cbn [pk_k tb mk_table] in B1, B2. qn_in B1. qn_in B2. fold nk in B1, B2.
    cbn [pk_p tb mk_table].
    set (a := zmax 0 (i - 2)) in *. set (b := zmin (nk - 1) (i + 2)) in *.
    assert (LP : zlen P = nk) by (unfold nk, zlen; now rewrite HL).
    pose proof (poly_node F rnd lm RD (znth 0 K i) (skipn (Z.to_nat a) K) (skipn (Z.to_nat a) P) (b - a + 1) (i - a)) as HN.
    rewrite !zlen_skipn in HN by (fold nk; lia). fold nk in HN.
    rewrite !znth_skipn in HN by lia.
    replace (a + (i - a))%Z with i in HN by lia.
    qn. rewrite HN; try lia; [cbn [bind]; eauto| | | |reflexivity].
    + intros u Hu. rewrite znth_skipn by lia. apply FKi. lia.
    + intros u Hu. rewrite znth_skipn by lia. apply FPi. lia.
    + intros u v Hu Hv Huv. rewrite !znth_skipn by lia.
      destruct (Z.lt_trichotomy u v) as [L|[L|L]]; [|lia|].
      * pose proof (inc_znth K HI (a + u) (a + v) ltac:(lia) ltac:(fold nk; lia)). lra.
      * pose proof (inc_znth K HI (a + v) (a + u) ltac:(lia) ltac:(fold nk; lia)). lra.
  - specialize (Him eq_refl). cbn [pk_p tb mk_table].
    assert (LP : zlen P = nk) by (unfold nk, zlen; now rewrite HL).
    repeat (rewrite (rd_ok 0) by (fold nk; lia); cbn [bind]).
    exists i. repeat f_equal. apply lin_left. apply FPi. lia.
Qed.

Lemma at_znth (l : list R) (i : nat) : at_ l i = znth 0 l (Z.of_nat i).
Proof. unfold at_, znth. now rewrite Nat2Z.id. Qed.
Lemma node_at im i : (i < length K)%nat -> (im = LIN -> (S i < length K)%nat) ->
  find_pk (N := Q) tb [at_ K i] im = Ok [at_ P i].
Proof. intros Hi Him. rewrite !at_znth. apply nodeQ; unfold nk, zlen; [lia|]. intros E. specialize (Him E). lia. Qed.

Lemma inc_asc (l : list R) : increasing l -> ascending l.
Proof. intros H i j Hij. destruct (Nat.eq_dec i j) as [->|]; [lra|left; apply H; lia]. Qed.
Lemma Forall2_at (A : R -> R -> Prop) (l m : list R) : length m = length l -> (forall i, (i < length l)%nat -> A (at_ l i) (at_ m i)) -> Forall2 A l m.
Proof.
  revert m; induction l as [|a l IH]; intros [|b m] E H; try discriminate; constructor.
  - apply (H 0%nat). cbn; lia.
  - apply IH; [cbn in E; lia|]. intros i Hi. apply (H (S i)). cbn; lia.
Qed.
(** Any ascending choice of tabulated wavenumbers, in one call. *)
Lemma nodes_all im (sel : list nat) : sel <> [] -> Forall (fun i => (i < length K)%nat /\ (im = LIN -> (S i < length K)%nat)) sel -> ascending (map (at_ K) sel) ->
  find_pk (N := Q) tb (map (at_ K) sel) im = Ok (map (at_ P) sel).
Proof.
  intros Hne HS HA. apply elementwiseQ.
  - destruct sel as [|i sel]; [easy|]. inversion HS; subst. unfold nk, zlen. lia.
  - exact HA.
  - clear Hne HA. induction HS as [|i sel [H1 H2] HS IH]; cbn [map]; constructor; [now apply node_at|exact IH].
Qed.
Lemma table_all : K <> [] -> find_pk (N := Q) tb K POLY = Ok P.
Proof.
  intros Hne. apply elementwiseQ.
  - destruct K; [easy|]. unfold nk, zlen. cbn [length]. lia.
  - now apply inc_asc.
  - apply Forall2_at; [exact HL|]. intros i Hi. apply node_at; [exact Hi|discriminate].
Qed.
End Table.
