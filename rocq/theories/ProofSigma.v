(** ProofSigma: calc_running_sigmad2. *)
From Coq Require Import Reals Lra.
From Coquelicot Require Import Coquelicot.
From Verif Require Import Base Num BaseFacts Order Spec Common ProofSearch ProofFindPk ProofFindPkR.
Local Open Scope Z_scope.
Local Notation mk_table := (mk_table (N := RNum)).

Section Gen.
Context {N : Num} (G : T N -> Prop) (OL : order_laws N G) (pkl : Pk N) (d : T N).
Hypothesis WF : wf_pk pkl.
Let nk := zlen (pk_k pkl).
Hypothesis Hnk : 1 <= nk.
Let K i := znth d (pk_k pkl) i.
Let P i := znth d (pk_p pkl) i.

Definition trap_step (i : Z) (acc : T N) : T N :=
  nadd N acc (nmul N (nadd N (P (i + 1)) (P i)) (nsub N (K (i + 1)) (K i))).
Fixpoint trap (m : nat) : T N :=
  match m with O => nZ N 0 | S m' => trap_step (Z.of_nat m') (trap m') end.

Lemma sig_inner_step n kmax i acc : 0 <= i -> i + 1 < nk ->
  sig_inner (S n) pkl kmax i acc =
    if nlt N kmax (K (i + 1)) then
      Ok (i, acc, Some (ndiv N (nadd N acc (nmul N (nadd N (interpol_lin kmax (K i) (K (i + 1)) (P i) (P (i + 1))) (P i))
          (nsub N kmax (K i)))) (nmul N (nmul N (nZ N 12) npi) npi)))
    else sig_inner n pkl kmax (i + 1) (trap_step i acc).
Proof.
  intros H1 H2. pose proof WF as [W1 [W2 W3]]. fold nk in W2. cbn [sig_inner].
  do 4 (rewrite (rd_ok d) by (fold nk; lia); cbn [bind]). reflexivity.
Qed.

(** From position [i], the loop returns the same as from 0, if kmax is not below K_1..K_i. *)
Lemma sig_inner_from kmax i : 0 <= i <= nk - 1 ->
  (forall j, 0 <= j < i -> nlt N kmax (K (j + 1)) = false) ->
  sig_inner (Z.to_nat (nk - 1)) pkl kmax 0 (trap 0) = sig_inner (Z.to_nat (nk - 1 - i)) pkl kmax i (trap (Z.to_nat i)).
Proof.
  intros Hi Hj.
  assert (H : forall m : nat, Z.of_nat m <= i ->
    sig_inner (Z.to_nat (nk - 1)) pkl kmax 0 (trap 0) =
    sig_inner (Z.to_nat (nk - 1 - Z.of_nat m)) pkl kmax (Z.of_nat m) (trap m)).
  { induction m as [|m IH]; intros Hm.
    - f_equal; f_equal; lia.
    - rewrite IH by lia.
      replace (Z.to_nat (nk - 1 - Z.of_nat m)) with (S (Z.to_nat (nk - 1 - Z.of_nat (S m)))) by lia.
      rewrite sig_inner_step by lia. rewrite Hj by lia.
      replace (Z.of_nat m + 1) with (Z.of_nat (S m)) by lia. reflexivity. }
  rewrite (H (Z.to_nat i)) by lia. rewrite Z2Nat.id by lia. reflexivity.
Qed.

(** What the inner loop returns. *)
Lemma sig_inner_ok kmax n : forall i acc, 0 <= i -> Z.of_nat n = nk - 1 - i -> acc = trap (Z.to_nat i) ->
  exists j o, sig_inner n pkl kmax i acc = Ok (j, trap (Z.to_nat j), o) /\ i <= j <= nk - 1 /\
    (forall u, i <= u < j -> nlt N kmax (K (u + 1)) = false) /\
    match o with
    | None => j = nk - 1
    | Some v => j < nk - 1 /\ nlt N kmax (K (j + 1)) = true /\
      v = ndiv N (nadd N (trap (Z.to_nat j)) (nmul N (nadd N (interpol_lin kmax (K j) (K (j + 1)) (P j) (P (j + 1))) (P j))
          (nsub N kmax (K j)))) (nmul N (nmul N (nZ N 12) npi) npi)
    end.
Proof.
  induction n as [|n IH]; intros i acc Hi Hn Hacc.
  - exists i, None. cbn [sig_inner]. subst acc. split; [reflexivity|]. split; [lia|]. split; [intros; lia|lia].
  - rewrite sig_inner_step by lia. destruct (nlt N kmax (K (i + 1))) eqn:E.
    + exists i. eexists. subst acc. split; [reflexivity|]. split; [lia|]. split; [intros; lia|].
      split; [lia|]. split; [exact E|reflexivity].
    + destruct (IH (i + 1) (trap_step i acc)) as [j [o [E1 [H1 [H2 H3]]]]]; try lia.
      { subst acc. replace (Z.to_nat (i + 1)) with (S (Z.to_nat i)) by lia. cbn [trap].
        rewrite Z2Nat.id by lia. reflexivity. }
      exists j, o. split; [exact E1|]. split; [lia|]. split; [|exact H3].
      intros u Hu. destruct (Z.eq_dec u i) as [->|]; [exact E|apply H2; lia].
Qed.

(** The value for one query taken alone. *)
Definition sig_at (kmax : T N) : res (T N) :=
  if nlt N kmax (K 0) then Ok (nZ N 0)
  else '(_, acc, o) <- sig_inner (Z.to_nat (nk - 1)) pkl kmax 0 (trap 0) ;;
       Ok (match o with Some v => v | None => ndiv N acc (nmul N (nmul N (nZ N 12) npi) npi) end).

Lemma sig_single k uv : calc_running_sigmad2 pkl [k] uv = (v <- sig_at (nmul N k uv) ;; Ok [v]).
Proof.
  pose proof WF as [W1 [W2 W3]]. fold nk in W1, W3. unfold calc_running_sigmad2, sig_at. cbn [sig_loop].
  rewrite (rd_ok d) by (fold nk; lia). cbn [bind]. fold (K 0). destruct (nlt N (nmul N k uv) (K 0)); [reflexivity|].
  rewrite W1. rewrite (u64_small (nk - 1)) by (unfold SIZE_T; lia). rewrite Z.sub_0_r. cbn [trap].
  destruct (sig_inner _ _ _ _ _) as [[[j acc] o]|u]; reflexivity.
Qed.

Hypothesis GT : forall i, 0 <= i < nk -> G (K i).
Hypothesis Hsort : forall i j, 0 <= i < j -> j < nk -> nlt N (K i) (K j) = true.

Lemma below_mono k i j : G k -> 0 <= i <= j -> j < nk -> nlt N k (K j) = false -> nlt N k (K i) = false.
Proof.
  intros Gk Hij Hj H. destruct (Z.eq_dec i j) as [->|Hne]; [exact H|].
  destruct (nlt N k (K i)) eqn:E; [|reflexivity].
  rewrite (ol_lt_le N G OL k (K i) (K j)) in H; auto; try discriminate; try (apply GT; lia).
  apply (ol_asym N G OL); try (apply GT; lia). apply Hsort; lia.
Qed.

Lemma sig_loop_elementwise uv ks : forall iklin,
  (forall i, 0 <= i < zlen ks -> G (nmul N (znth d ks i) uv)) ->
  (forall i j, 0 <= i < j -> j < zlen ks -> nlt N (nmul N (znth d ks j) uv) (nmul N (znth d ks i) uv) = false) ->
  0 <= iklin <= nk - 1 ->
  (forall i, 0 <= i < zlen ks -> nlt N (nmul N (znth d ks i) uv) (K 0) = false -> nlt N (nmul N (znth d ks i) uv) (K iklin) = false) ->
  exists vs, sig_loop pkl uv iklin (trap (Z.to_nat iklin)) ks = Ok vs /\
    Forall2 (fun k v => sig_at (nmul N k uv) = Ok v) ks vs.
Proof.
  pose proof WF as [W1 [W2 W3]]. fold nk in W1, W2, W3.
  induction ks as [|k ks IH]; intros iklin HG Hasc Hi HC; cbn [sig_loop]; [exists []; split; [reflexivity|constructor]|].
  rewrite zlen_cons in *. pose proof (zlen_nonneg ks) as Hlk.
  assert (Htl : forall i, 0 <= i < zlen ks -> znth d (k :: ks) (i + 1) = znth d ks i)
      by (intros i Hi'; rewrite znth_cons by lia; f_equal; lia).
  set (kmax := nmul N k uv).
  assert (Gk : G kmax) by (apply (HG 0); lia).
  rewrite (rd_ok d) by (fold nk; lia). cbn [bind]. fold (K 0).
  destruct (nlt N kmax (K 0)) eqn:E0.
  - destruct (IH iklin) as [vs [E1 E2]]; auto.
    + intros i Hi'. rewrite <- Htl by lia. apply HG; lia.
    + intros i j Hi' Hj'. rewrite <- !Htl by lia. apply Hasc; lia.
    + intros i Hi'. rewrite <- Htl by lia. apply HC; lia.
    + rewrite E1; cbn [bind]. eexists; split; [reflexivity|]. constructor; [|exact E2].
      unfold sig_at. fold kmax. rewrite E0. reflexivity.
  - rewrite W1, (u64_small (nk - 1)) by (unfold SIZE_T; lia).
    assert (Hck : nlt N kmax (K iklin) = false) by (apply (HC 0); [lia|exact E0]).
    destruct (sig_inner_ok kmax (Z.to_nat (nk - 1 - iklin)) iklin (trap (Z.to_nat iklin))) as [j [o [E1 [H1 [H2 H3]]]]];
      try lia; auto.
    rewrite E1; cbn [bind].
    assert (Hkj : nlt N kmax (K j) = false).
    { destruct (Z.eq_dec j iklin) as [->|]; [exact Hck|]. specialize (H2 (j - 1)).
      replace (j - 1 + 1) with j in H2 by lia. apply H2; lia. }
    destruct (IH j) as [vs [E2 E3]]; try lia.
    + intros i Hi'. rewrite <- Htl by lia. apply HG; lia.
    + intros i j' Hi' Hj'. rewrite <- !Htl by lia. apply Hasc; lia.
    + intros i Hi' _. set (k' := nmul N (znth d ks i) uv).
      assert (Hge : nlt N k' kmax = false) by (unfold k'; rewrite <- Htl by lia; apply (Hasc 0 (i + 1)); lia).
      destruct (nlt N k' (K j)) eqn:E; [|reflexivity].
      rewrite (ol_lt_le N G OL k' (K j) kmax) in Hge; auto; try discriminate; try (apply GT; lia).
      unfold k'; rewrite <- Htl by lia. apply HG; lia.
    + rewrite E2; cbn [bind]. eexists; split; [reflexivity|]. constructor; [|exact E3].
      unfold sig_at. fold kmax. rewrite E0.
      rewrite (sig_inner_from kmax iklin) by
        (try lia; intros u Hu; apply (below_mono kmax (u + 1) iklin); auto; lia).
      rewrite E1. cbn [bind]. reflexivity.
Qed.

Lemma sigmad2_elementwise uv ks :
  (forall i, 0 <= i < zlen ks -> G (nmul N (znth d ks i) uv)) ->
  (forall i j, 0 <= i < j -> j < zlen ks -> nlt N (nmul N (znth d ks j) uv) (nmul N (znth d ks i) uv) = false) ->
  exists vs, calc_running_sigmad2 pkl ks uv = Ok vs /\
    Forall2 (fun k v => calc_running_sigmad2 pkl [k] uv = Ok [v]) ks vs.
Proof.
  intros HG Hasc. destruct (sig_loop_elementwise uv ks 0 HG Hasc) as [vs [E F]]; [lia|auto|].
  exists vs. split; [exact E|]. eapply Forall2_imp; [|exact F].
  intros k v Hv. cbn beta in Hv. rewrite sig_single, Hv. reflexivity.
Qed.
End Gen.

(** ** Reals: the integral of the piecewise linear interpolant *)
Local Open Scope R_scope.
Lemma plin_chord_gen x : forall K P : list R, length P = length K -> increasing K ->
  forall i, (0 <= i)%Z -> (i + 1 < zlen K)%Z -> znth 0 K i <= x <= znth 0 K (i + 1)%Z ->
  plin K P x = znth 0 P i + (znth 0 P (i + 1)%Z - znth 0 P i) * (x - znth 0 K i) / (znth 0 K (i + 1)%Z - znth 0 K i).
Proof.
  induction K as [|k0 K' IH]; intros P' HL' HI' i Hi Hi2 Hx; [cbn in Hi2; lia|].
  destruct P' as [|p0 P']; [cbn in HL'; lia|].
  destruct K' as [|k1 K'']; [cbn in Hi2; lia|].
  destruct P' as [|p1 P'']; [cbn in HL'; lia|].
  assert (HI2 : increasing (k1 :: K'')).
  { intros a b Hab. apply (HI' (S a) (S b)). cbn [length] in *; lia. }
  change (plin (k0 :: k1 :: K'') (p0 :: p1 :: P'') x)
    with (if Rle_dec x k1 then p0 + (p1 - p0) * (x - k0) / (k1 - k0) else plin (k1 :: K'') (p1 :: P'') x).
  destruct (Z.eq_dec i 0) as [->|Hi0].
  - change (znth 0 (k0 :: k1 :: K'') 0) with k0 in *. change (znth 0 (k0 :: k1 :: K'') (0 + 1)) with k1 in *.
    change (znth 0 (p0 :: p1 :: P'') 0) with p0. change (znth 0 (p0 :: p1 :: P'') (0 + 1)) with p1.
    destruct (Rle_dec x k1); [reflexivity|lra].
  - rewrite (znth_cons 0 k0 _ i), (znth_cons 0 k0 _ (i + 1)) in Hx by lia.
    rewrite !(znth_cons 0 k0), !(znth_cons 0 p0) by lia.
    replace (i + 1 - 1)%Z with (i - 1 + 1)%Z in * by lia.
    assert (Hk1 : k1 <= x).
    { destruct (Z.eq_dec (i - 1) 0) as [E|E]; [rewrite E in Hx; unfold znth in Hx; cbn in Hx; lra|].
      pose proof (HI2 0%nat (Z.to_nat (i - 1))) as Hlt. unfold at_ in Hlt. unfold znth in Hx.
      rewrite !zlen_cons in Hi2. cbn [length] in Hlt. unfold zlen in Hi2. change (nth 0 (k1 :: K'') 0) with k1 in Hlt.
      assert (k1 < nth (Z.to_nat (i - 1)) (k1 :: K'') 0) by (apply Hlt; lia). lra. }
    rewrite zlen_cons in Hi2.
    pose proof (IH (p1 :: P'') ltac:(cbn in *; lia) HI2 (i - 1)%Z ltac:(lia) ltac:(lia) Hx) as HH.
    destruct (Rle_dec x k1) as [Hle|Hgt]; [|exact HH].
    assert (x = k1) by lra. subst x.
    (* at the common node both chords agree *)
    assert (Hi1 : (i - 1 = 0)%Z).
    { destruct (Z.eq_dec (i - 1) 0) as [E|E]; [exact E|exfalso].
      pose proof (HI2 0%nat (Z.to_nat (i - 1))) as Hlt. unfold at_ in Hlt. unfold znth in Hx.
      rewrite !zlen_cons in Hi2. cbn [length] in Hlt. unfold zlen in Hi2. change (nth 0 (k1 :: K'') 0) with k1 in Hlt.
      assert (k1 < nth (Z.to_nat (i - 1)) (k1 :: K'') 0) by (apply Hlt; lia). lra. }
    rewrite Hi1.     change (znth 0 (k1 :: K'') 0) with k1. change (znth 0 (p1 :: P'') 0) with p1.
    assert (k0 < k1) by (apply (HI' 0%nat 1%nat); cbn [length]; lia).
    replace ((p1 - p0) * (k1 - k0) / (k1 - k0)) with (p1 - p0) by (field; lra).
    unfold Rdiv. rewrite (Rminus_diag_eq k1 k1) by reflexivity. ring.
Qed.

Section Reals.
Context (K P : list R).
Hypothesis HL : length P = length K.
Hypothesis HB : (1 <= zlen K < 2 ^ 62)%Z.
Hypothesis HI : increasing K.
Let tb := mk_table K P.
Let nk := zlen K.
Let kk (i : Z) : R := znth 0 K i.
Let pp (i : Z) : R := znth 0 P i.

Definition trapR (m : nat) : R := trap (N := RNum) tb 0 m.
Lemma trapR_S m : trapR (S m) = trapR m + (pp (Z.of_nat m + 1) + pp (Z.of_nat m)) * (kk (Z.of_nat m + 1) - kk (Z.of_nat m)).
Proof. reflexivity. Qed.

Definition chord (i : Z) (x : R) : R := pp i + (pp (i + 1)%Z - pp i) * (x - kk i) / (kk (i + 1)%Z - kk i).

Lemma plin_chord x i : (0 <= i)%Z -> (i + 1 < nk)%Z -> kk i <= x <= kk (i + 1)%Z -> plin K P x = chord i x.
Proof. intros; apply plin_chord_gen; auto. Qed.

Lemma is_RInt_chord i a b : kk (i + 1)%Z - kk i <> 0 ->
  is_RInt (chord i) a b ((chord i a + chord i b) * (b - a) / 2).
Proof.
  intros Hne.
  set (F := fun x => pp i * x + (pp (i + 1)%Z - pp i) / (kk (i + 1)%Z - kk i) * ((x - kk i) * (x - kk i) / 2)).
  replace ((chord i a + chord i b) * (b - a) / 2) with (minus (F b) (F a))
    by (unfold F, chord, minus, plus, opp; cbn; field; exact Hne).
  apply (is_RInt_derive F (chord i)).
  - intros x _. unfold F, chord. auto_derive; [exact I|]. field. exact Hne.
  - intros x _. unfold chord. apply (continuous_plus (fun _ => pp i)); [apply continuous_const|].
    apply (continuous_scal_l (fun x => (pp (i + 1)%Z - pp i) * (x - kk i)) (/ (kk (i + 1)%Z - kk i))).
    apply (continuous_scal_r (pp (i + 1)%Z - pp i) (fun x => x - kk i)).
    apply (continuous_minus (fun x => x) (fun _ => kk i)); [apply continuous_id|apply continuous_const].
Qed.

Lemma is_RInt_plin_piece i a b : (0 <= i)%Z -> (i + 1 < nk)%Z -> kk i <= a <= b -> b <= kk (i + 1)%Z ->
  is_RInt (plin K P) a b ((chord i a + chord i b) * (b - a) / 2).
Proof.
  intros Hi1 Hi2 Ha Hb.
  apply (is_RInt_ext (chord i)).
  - intros x. rewrite Rmin_left, Rmax_right by lra. intros Hx. symmetry. apply plin_chord; auto; lra.
  - apply is_RInt_chord. pose proof (inc_znth K HI i (i + 1) ltac:(lia) ltac:(fold nk; lia)). unfold kk; lra.
Qed.

Lemma is_RInt_trap m : (Z.of_nat m <= nk - 1)%Z -> is_RInt (plin K P) (kk 0) (kk (Z.of_nat m)) (trapR m / 2).
Proof.
  induction m as [|m IH]; intros Hm.
  - replace (trapR 0 / 2) with (@zero R_NormedModule) by (unfold trapR; cbn; unfold zero; cbn; lra).
    apply (is_RInt_point (V := R_NormedModule)).
  - assert (Hlt : kk (Z.of_nat m) < kk (Z.of_nat m + 1)%Z)
      by (apply (inc_znth K HI); [lia|fold nk; lia]).
    pose proof (is_RInt_plin_piece (Z.of_nat m) (kk (Z.of_nat m)) (kk (Z.of_nat m + 1)%Z)
      ltac:(lia) ltac:(lia) ltac:(lra) ltac:(lra)) as Hp.
    pose proof (is_RInt_Chasles _ _ _ _ _ _ (IH ltac:(lia)) Hp) as HC.
    replace (Z.of_nat (S m)) with (Z.of_nat m + 1)%Z by lia.
    replace (trapR (S m) / 2) with
      (plus (trapR m / 2) ((chord (Z.of_nat m) (kk (Z.of_nat m)) + chord (Z.of_nat m) (kk (Z.of_nat m + 1)%Z)) *
         (kk (Z.of_nat m + 1)%Z - kk (Z.of_nat m)) / 2)); [exact HC|].
    rewrite trapR_S. unfold plus, chord; cbn. field. lra.
Qed.

(** The single-query value times 6 pi^2 is the integral of the interpolant. *)
Lemma sig_at_integral (kmax : R) : exists v,
  sig_at (N := RNum) tb 0 kmax = Ok v /\
  (kmax < kk 0 -> v = 0) /\
  (kk 0 <= kmax -> is_RInt (plin K P) (kk 0) (Rmin kmax (kk (nk - 1)%Z)) (v * (6 * PI ^ 2))).
Proof.
  pose proof PI_RGT_0 as HPI.
  unfold sig_at. change (znth (0 : T RNum) (pk_k tb) 0) with (kk 0).
  change (zlen (pk_k tb)) with nk. rn.
  destruct (Rltb_spec kmax (kk 0)) as [Hlt|Hge].
  { exists 0. split; [reflexivity|]. split; [reflexivity|intros; lra]. }
  destruct (sig_inner_ok (N := RNum) tb 0 (wf_table K P HL ltac:(lia)) kmax (Z.to_nat (nk - 1)) 0 (trap tb 0 0))
    as [j [o [E [Hj [Hu Ho]]]]]; try (change (zlen (pk_k tb)) with nk; fold nk in HB); try lia; auto.
  change (zlen (pk_k tb)) with nk in *. rn_in E. rewrite E; cbn [bind].
  eexists; split; [reflexivity|]. split; [intros; lra|]. intros _.
  assert (Hkj : kk j <= kmax).
  { destruct (Z.eq_dec j 0) as [->|]; [lra|]. specialize (Hu (j - 1)%Z ltac:(lia)). rn_in Hu.
    apply Rltb_false in Hu. replace (j - 1 + 1)%Z with j in Hu by lia. exact Hu. }
  destruct o as [v|].
  - destruct Ho as [Hj2 [Hlt ->]]. rn_in Hlt. apply Rltb_true in Hlt. change (kmax < kk (j + 1)%Z) in Hlt.
    assert (Hend : kk (j + 1)%Z <= kk (nk - 1)%Z).
    { destruct (Z.eq_dec (j + 1) (nk - 1)) as [->|]; [lra|]. left. apply (inc_znth K HI); [lia|fold nk; lia]. }
    rewrite Rmin_left by lra.
    pose proof (is_RInt_trap (Z.to_nat j) ltac:(lia)) as H1. rewrite Z2Nat.id in H1 by lia.
    pose proof (is_RInt_plin_piece j (kk j) kmax ltac:(lia) ltac:(lia) ltac:(lra) ltac:(lra)) as H2.
    pose proof (is_RInt_Chasles _ _ _ _ _ _ H1 H2) as HC.
    match type of HC with is_RInt _ _ _ ?v => match goal with |- is_RInt _ _ _ ?w => replace w with v; [exact HC|] end end.
    unfold plus; cbn [AbelianGroup.plus NormedModule.AbelianGroup].
    change (trap tb 0 (Z.to_nat j)) with (trapR (Z.to_nat j)).
    change (znth (0 : T RNum) (pk_k tb) ?i) with (kk i).
    change (znth 0 (pk_k tb) j) with (kk j). change (znth 0 (pk_k tb) (j + 1)) with (kk (j + 1)%Z).
    change (znth 0 (pk_p tb) j) with (pp j). change (znth 0 (pk_p tb) (j + 1)) with (pp (j + 1)%Z).
    rewrite interpol_lin_eq. unfold chord. cbn. field. split; [lra|].
    pose proof (inc_znth K HI j (j + 1) ltac:(lia) ltac:(fold nk; lia)). unfold kk; lra.
  - rewrite Ho in *. rewrite Rmin_right by exact Hkj.
    pose proof (is_RInt_trap (Z.to_nat (nk - 1)) ltac:(lia)) as H1. rewrite Z2Nat.id in H1 by lia.
    match type of H1 with is_RInt _ _ _ ?v => match goal with |- is_RInt _ _ _ ?w => replace w with v; [exact H1|] end end.
    change (trap tb 0 (Z.to_nat (nk - 1))) with (trapR (Z.to_nat (nk - 1))). field. lra.
Qed.

Lemma sigmad2_R (ks : list R) (uv : R) : ascending ks -> 0 <= uv ->
  exists vs, calc_running_sigmad2 tb ks uv = Ok vs /\
    Forall2 (fun k v =>
      (k * uv < kk 0 -> v = 0) /\
      (kk 0 <= k * uv -> is_RInt (plin K P) (kk 0) (Rmin (k * uv) (kk (nk - 1)%Z)) (v * (6 * PI ^ 2)))) ks vs.
Proof.
  intros Ha Huv.
  destruct (sigmad2_elementwise (N := RNum) (fun _ => True) R_order tb (0 : T RNum) (wf_table K P HL ltac:(lia))) with (uv := uv) (ks := ks)
    as [vs [E F]]; auto.
  - change (zlen (pk_k tb)) with nk. fold nk in HB; lia.
  - apply inc_nlt; exact HI.
  - intros i j Hi Hj. rn. apply Rltb_false. apply Rmult_le_compat_r; [exact Huv|].
    apply asc_znth; auto; lia.
  - exists vs. split; [exact E|]. eapply Forall2_imp; [|exact F].
    intros k v Hv. cbn beta in Hv.
    rewrite (sig_single (N := RNum) tb (0 : T RNum) (wf_table K P HL ltac:(lia)) ltac:(change (zlen (pk_k tb)) with nk; fold nk in HB; lia)) in Hv.
    destruct (sig_at_integral (k * uv)) as [w [E1 [H1 H2]]]. rn_in Hv. rewrite E1 in Hv. cbn [bind] in Hv.
    injection Hv as <-. split; assumption.
Qed.
End Reals.

(** ** Sign, monotonicity, saturation *)
Section Mono.
Context (K P : list R).
Hypothesis HL : length P = length K.
Hypothesis HB : (1 <= zlen K < 2 ^ 62)%Z.
Hypothesis HI : increasing K.
Hypothesis HP : forall i, (0 <= i < zlen K)%Z -> 0 <= znth 0 P i.
Let kk (i : Z) : R := znth 0 K i.
Let nk := zlen K.

Lemma plin_nonneg x : kk 0 <= x <= kk (nk - 1)%Z -> 0 <= plin K P x.
Proof.
  intros Hx.
  destruct (find_pk_bracket K P HL ltac:(lia) HI x ltac:(lia) ltac:(apply Hx)) as [i [_ [Hi [H1 H2]]]].
  destruct (Z.eq_dec i (nk - 1)) as [->|Hne].
  - fold nk in H1. fold (kk (nk - 1)) in H1. assert (x = kk (nk - 1)%Z) by lra.
    destruct (Z.eq_dec nk 1) as [E1|E1].
    + destruct K as [|k0 [|k1 K']]; unfold nk, zlen in E1; cbn in E1; try lia.
      destruct P as [|p0 P']; [cbn in HL; lia|]. cbn. apply (HP 0). unfold zlen; cbn; lia.
    + assert (Hlt : kk (nk - 2)%Z < kk (nk - 1)%Z) by (apply (inc_znth K HI); [lia|fold nk; lia]).
      rewrite (plin_chord_gen x K P HL HI (nk - 2)); [|lia|fold nk; lia|
        replace (nk - 2 + 1)%Z with (nk - 1)%Z by lia; fold (kk (nk - 1)) (kk (nk - 2)); lra].
      replace (nk - 2 + 1)%Z with (nk - 1)%Z by lia. fold (kk (nk - 1)) (kk (nk - 2)). rewrite <- H.
      assert (kk (nk - 2)%Z < x) by (subst x; apply (inc_znth K HI); [lia|fold nk; lia]).
      replace (_ + _) with (znth 0 P (nk - 1)) by (field; lra). apply HP; fold nk; lia.
  - destruct H2 as [H2|H2]; [fold nk in H2; lia|].
    rewrite (plin_chord_gen x K P HL HI i) by (fold nk; try lia; lra).
    set (t := (x - znth 0 K i) / (znth 0 K (i + 1) - znth 0 K i)).
    assert (Hd : 0 < znth 0 K (i + 1) - znth 0 K i) by lra.
    assert (Ht : 0 <= t <= 1).
    { unfold t; split; [apply Rmult_le_pos; [lra|left; apply Rinv_0_lt_compat; lra]|].
      apply (Rmult_le_reg_r (znth 0 K (i + 1) - znth 0 K i)); [lra|]. unfold Rdiv; rewrite Rmult_assoc, Rinv_l by lra. lra. }
    replace (_ * (x - znth 0 K i) / _) with ((znth 0 P (i + 1) - znth 0 P i) * t) by (unfold t; field; lra).
    pose proof (HP i ltac:(fold nk; lia)). pose proof (HP (i + 1)%Z ltac:(fold nk; lia)). nra.
Qed.

Lemma first_le_last : kk 0 <= kk (nk - 1)%Z.
Proof. destruct (in_range K P HL HI 0%Z ltac:(lia)) as [_ H]. exact H. Qed.

Lemma int_nonneg a b v : kk 0 <= a <= b -> b <= kk (nk - 1)%Z -> is_RInt (plin K P) a b v -> 0 <= v.
Proof.
  intros Ha Hb H. rewrite <- (is_RInt_unique _ _ _ _ H).
  apply RInt_ge_0; [lra|exists v; exact H|]. intros x Hx. apply plin_nonneg; lra.
Qed.

Lemma six_pi : 0 < 6 * PI ^ 2.
Proof. pose proof PI_RGT_0. nra. Qed.

Lemma sig_nonneg k uv v : calc_running_sigmad2 (mk_table K P) [k] uv = Ok [v] -> 0 <= v.
Proof.
  intros H. pose proof first_le_last as Hfl. pose proof six_pi as H6.
  rewrite (sig_single (N := RNum) (mk_table K P) (0 : T RNum) (wf_table K P HL ltac:(lia)) ltac:(cbn; fold nk in HB; lia)) in H.
  destruct (sig_at_integral K P HL HB HI (k * uv)) as [w [E [H1 H2]]]. rn_in H. rewrite E in H. cbn in H. injection H as ->.
  destruct (Rlt_le_dec (k * uv) (kk 0)) as [Hl|Hl]; [rewrite H1 by exact Hl; lra|].
  specialize (H2 Hl). apply int_nonneg in H2; [nra| |].
  - split; [apply Rle_refl|]. fold (kk 0) (kk (zlen K - 1)). unfold Rmin; destruct (Rle_dec _ _); [lra|exact first_le_last].
  - apply Rmin_r.
Qed.

Lemma sig_mono k1 k2 uv v1 v2 : k1 <= k2 -> 0 <= uv ->
  calc_running_sigmad2 (mk_table K P) [k1] uv = Ok [v1] ->
  calc_running_sigmad2 (mk_table K P) [k2] uv = Ok [v2] -> v1 <= v2.
Proof.
  intros Hk Huv H1 H2. pose proof six_pi as H6. pose proof first_le_last as Hfl.
  pose proof (sig_nonneg k2 uv v2 H2) as Hn.
  rewrite (sig_single (N := RNum) (mk_table K P) (0 : T RNum) (wf_table K P HL ltac:(lia)) ltac:(cbn; fold nk in HB; lia)) in H1, H2.
  destruct (sig_at_integral K P HL HB HI (k1 * uv)) as [w1 [E1 [A1 B1]]].
  destruct (sig_at_integral K P HL HB HI (k2 * uv)) as [w2 [E2 [A2 B2]]].
  rn_in H1. rn_in H2. rewrite E1 in H1. rewrite E2 in H2. cbn in H1, H2. injection H1 as ->. injection H2 as ->.
  assert (Hkk : k1 * uv <= k2 * uv) by (apply Rmult_le_compat_r; assumption).
  destruct (Rlt_le_dec (k1 * uv) (kk 0)) as [Hl|Hl]; [rewrite A1 by exact Hl; exact Hn|].
  specialize (B1 Hl). specialize (B2 ltac:(unfold kk in *; lra)). fold nk in B1, B2. fold (kk (nk - 1)) in B1, B2.
  pose proof (is_RInt_swap _ _ _ _ B1) as B1'.
  pose proof (is_RInt_Chasles _ _ _ _ _ _ B1' B2) as HC.
  apply int_nonneg in HC.
  - unfold plus, opp in HC; cbn in HC. nra.
  - split; [unfold Rmin; destruct (Rle_dec _ _); [exact Hl|exact Hfl]|].
    unfold Rmin; destruct (Rle_dec (k1 * uv) _), (Rle_dec (k2 * uv) _); lra.
  - apply Rmin_r.
Qed.
End Mono.

Lemma trapR_trapz (K P : list R) m :
  trapR K P m = 2 * rsum m (fun i => (at_ K (S i) - at_ K i) * (at_ P (S i) + at_ P i) / 2).
Proof.
  induction m as [|m IH]; [unfold trapR; cbn; lra|].
  rewrite trapR_S. cbn [rsum]. rewrite IH. unfold at_, znth. rewrite Nat2Z.id.
  replace (Z.to_nat (Z.of_nat m + 1)) with (S m) by lia. lra.
Qed.

Lemma sig_saturates (K P : list R) k uv :
  length P = length K -> (1 <= zlen K < 2 ^ 62)%Z -> increasing K ->
  znth 0 K (zlen K - 1) <= k * uv ->
  calc_running_sigmad2 (mk_table K P) [k] uv = Ok [1 / 6 / PI ^ 2 * trapz K P].
Proof.
  intros HL HB HI Hk. pose proof PI_RGT_0 as HPI. pose proof (six_pi) as H6.
  rewrite (sig_single (N := RNum) (mk_table K P) (0 : T RNum) (wf_table K P HL ltac:(lia)) ltac:(cbn; lia)).
  destruct (in_range K P HL HI 0%Z ltac:(lia)) as [_ Hfl].
  destruct (sig_at_integral K P HL HB HI (k * uv)) as [w [E [_ B]]]. rn. rewrite E. cbn [bind].
  specialize (B ltac:(lra)). rewrite Rmin_right in B by exact Hk.
  pose proof (is_RInt_trap K P HL HI (Z.to_nat (zlen K - 1)) ltac:(lia)) as H1. rewrite Z2Nat.id in H1 by lia.
  pose proof (is_RInt_unique _ _ _ _ B) as U1. pose proof (is_RInt_unique _ _ _ _ H1) as U2.
  rewrite U1 in U2. rewrite trapR_trapz in U2.
  replace (Z.to_nat (zlen K - 1)) with (length K - 1)%nat in U2 by (unfold zlen; lia).
  fold (trapz K P) in U2. do 2 f_equal.
  apply (Rmult_eq_reg_r (6 * PI ^ 2)); [|lra]. rewrite U2. field. lra.
Qed.
