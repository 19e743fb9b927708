(** ProofRounded11: Neville's interpolation in a rounded arithmetic. *)
From Coq Require Import ZArith Lia Reals Lra Psatz List Bool.
From Verif Require Import Base Num BaseFacts Order Spec Common ProofSearch ProofInterp ProofFindPk ProofFindPkR SpecRounded SpecRounded2 SpecRounded3
  ProofRounded ProofRounded2 ProofRounded4 ProofRounded9.
Import ListNotations.
Local Open Scope R_scope.

Section Poly.
Context (F : R -> Prop) (rnd : R -> R) (lm : libmR) (u : R) (Hu : 0 <= u < 1) (HR : relative u rnd).
Local Notation Q := (QNum rnd lm).
Lemma w_more n a b m m' : within u n a b m -> m <= m' -> within u n a b m'.
Proof.
  intros [A B] H. split; [lra|]. eapply Rle_trans; [exact B|]. apply Rmult_le_compat_l; [apply units_pos, Hu|exact H].
Qed.
Lemma w_opp n a b m : within u n a b m -> within u n (- a) (- b) m.
Proof. intros [A B]. split; [now rewrite Rabs_Ropp|]. replace (- a - - b) with (- (a - b)) by ring. now rewrite Rabs_Ropp. Qed.
Lemma w_rnd_diff x y : within u 1 (rnd (x - y)) (x - y) (Rabs (x - y)).
Proof. apply w_close; [exact Hu|]. apply rnd_close; assumption. Qed.

Context (x : R) (tabx taby : list R) (n : Z).
Hypothesis Hn : (1 <= n)%Z.
Hypothesis Hx : (n <= zlen tabx)%Z.
Hypothesis Hy : (n <= zlen taby)%Z.
Hypothesis Hbig : (zlen tabx < 2 ^ 62)%Z.
Hypothesis Hdist : forall i j, (0 <= i < n)%Z -> (0 <= j < n)%Z -> i <> j -> znth 0 tabx i <> znth 0 tabx j.
Let X (i : Z) : R := znth 0 tabx i.
Let Y (i : Z) : R := znth 0 taby i.
Context (M : R) (ratio : nat -> R).
Hypothesis HM : forall i, (0 <= i < n)%Z -> Rabs (Y i) <= M.
Hypothesis Hratio : forall i m, (0 <= i)%Z -> (1 <= m)%nat -> (i + Z.of_nat m < n)%Z ->
  Rabs (x - X i) <= ratio m * Rabs (X i - X (i + Z.of_nat m)) /\ Rabs (x - X (i + Z.of_nat m)) <= ratio m * Rabs (X i - X (i + Z.of_nat m)).
Let A m := amplification ratio m * M.
Let CCx := CC x tabx taby.
Let DDx := DD x tabx taby.
Let Nx := Nev tabx taby x.

Lemma M_pos : 0 <= M.
Proof. eapply Rle_trans; [apply Rabs_pos|apply (HM 0)]. lia. Qed.

(** One entry of a column of the tableau *)
Lemma entry_within (m : nat) (i e : Z) (c d : R) : (0 <= i)%Z -> (i + Z.of_nat (S m) < n)%Z -> e = i \/ e = (i + Z.of_nat (S m))%Z ->
  within u (5 * m) c (CCx m (i + 1)) (A m) -> within u (5 * m) d (DDx m i) (A m) ->
  within u (5 * S m) (rnd (rnd (X e - x) * rnd (rnd (c - d) / rnd (X i - X (i + Z.of_nat (S m))))))
    ((X e - x) * ((CCx m (i + 1) - DDx m i) / (X i - X (i + Z.of_nat (S m))))) (A (S m)).
Proof.
  intros Hi Him He Hc Hd. set (D := X i - X (i + Z.of_nat (S m))) in *.
  assert (D0 : D <> 0). { unfold D, X. intros E. apply (Hdist i (i + Z.of_nat (S m))); try lia; lra. }
  assert (W1 : within u (S (5 * m)) (rnd (c - d)) (CCx m (i + 1) - DDx m i) (A m + A m)).
  { unfold Rminus. apply w_rnd; [exact Hu|exact HR|]. apply w_add; [exact Hc|]. apply w_opp, Hd. }
  assert (W2 : within u 1 (/ rnd D) (/ D) (Rabs (/ D))).
  { apply w_close; [exact Hu|]. apply close_inv; [exact Hu| |exact D0]. apply rnd_close; assumption. }
  assert (W3 : within u (5 * m + 3) (rnd (rnd (c - d) / rnd D)) ((CCx m (i + 1) - DDx m i) / D) ((A m + A m) * Rabs (/ D))).
  { unfold Rdiv. eapply w_rnd_mul; [exact Hu|exact HR|exact W1|exact W2|lia]. }
  pose proof (w_rnd_diff (X e) x) as W4.
  assert (W5 : within u (5 * S m) (rnd (rnd (X e - x) * rnd (rnd (c - d) / rnd D))) ((X e - x) * ((CCx m (i + 1) - DDx m i) / D)) (Rabs (X e - x) * ((A m + A m) * Rabs (/ D)))).
  { eapply w_rnd_mul; [exact Hu|exact HR|exact W4|exact W3|lia]. }
  apply (w_more _ _ _ _ _ W5).
  assert (PA : 0 <= A m). { destruct Hc as [Q _]. eapply Rle_trans; [apply Rabs_pos|exact Q]. }
  assert (R1 : Rabs (X e - x) <= ratio (S m) * Rabs D).
  { rewrite Rabs_minus_sym. destruct (Hratio i (S m) Hi ltac:(lia) Him) as [G1 G2]. destruct He as [->| ->]; assumption. }
  assert (PD : 0 < Rabs D) by (apply Rabs_pos_lt, D0).
  unfold A. cbn [amplification]. fold (A m). rewrite Rabs_inv.
  apply Rle_trans with (ratio (S m) * Rabs D * ((A m + A m) * / Rabs D)).
  - apply Rmult_le_compat_r; [|exact R1]. apply Rmult_le_pos; [lra|]. left. apply Rinv_0_lt_compat, PD.
  - right. unfold A. field. lra.
Qed.

Definition column_ok (m : nat) (c d : list R) : Prop :=
  (forall k, (0 <= k < n - Z.of_nat m)%Z -> within u (5 * m) (znth 0 c k) (CCx m k) (A m)) /\
  (forall k, (0 <= k < n - Z.of_nat m)%Z -> within u (5 * m) (znth 0 d k) (DDx m k) (A m)).

Lemma column_within (m : nat) (c d : list R) : (1 <= Z.of_nat (S m) < n)%Z -> zlen c = n -> zlen d = n -> column_ok m c d ->
  exists (c' d' : list R), ip_column (N := Q) x tabx n (Z.of_nat (S m)) c d = Ok (c', d') /\ zlen c' = n /\ zlen d' = n /\ column_ok (S m) c' d'.
Proof.
  intros Hj Hc Hd [HC HD]. unfold ip_column. qn. rewrite u64_small by (unfold SIZE_T; lia).
  set (jx := Z.of_nat (S m)) in *.
  pose (P := fun (j : Z) (s : list R * list R) => zlen (fst s) = n /\ zlen (snd s) = n /\
     (forall k, (0 <= k < j)%Z -> within u (5 * S m) (znth 0 (fst s) k) (CCx (S m) k) (A (S m)) /\ within u (5 * S m) (znth 0 (snd s) k) (DDx (S m) k) (A (S m))) /\
     (forall k, (j <= k < n - Z.of_nat m)%Z -> within u (5 * m) (znth 0 (fst s) k) (CCx m k) (A m) /\ within u (5 * m) (znth 0 (snd s) k) (DDx m k) (A m))).
  for_with P; [lia| | |destruct HF as [[c' d'] [E HP]]].
  - repeat split; auto; cbn [fst snd]; intros; try lia; (first [apply HC|apply HD]; lia).
  - intros j [c1 d1] Hj' [H1 [H2 [H3 H4]]]. cbn [fst snd] in *.
    do 4 (rewrite (rd_ok 0) by lia; cbn [bind]).
    rewrite wr_ok by lia; cbn [bind]. rewrite wr_ok by lia; cbn [bind].
    eexists; split; [reflexivity|].
    destruct (CD_step x tabx taby m j) as [E1 E2].
    { fold jx. intros E. apply (Hdist j (j + jx)); try lia. lra. }
    fold jx in E1, E2.
    unfold P; cbn [fst snd]; rewrite !zlen_upd. split; [exact H1|]. split; [exact H2|]. split.
    + intros k Hk. rewrite !znth_upd by lia. destruct (Z.eqb_spec k j) as [->|]; [|apply H3; lia].
      destruct (H4 (j + 1)%Z) as [Ec _]; [lia|]. destruct (H4 j) as [_ Ed]; [lia|].
      unfold CCx, DDx in *. rewrite E1, E2. split.
      * exact (entry_within m j j _ _ ltac:(lia) ltac:(fold jx; lia) (or_introl eq_refl) Ec Ed).
      * exact (entry_within m j (j + jx) _ _ ltac:(lia) ltac:(fold jx; lia) (or_intror eq_refl) Ec Ed).
    + intros k Hk. rewrite !znth_upd by lia. destruct (Z.eqb_spec k j) as [->|]; [lia|apply H4; lia].
  - exists c', d'. destruct HP as [H1 [H2 [H3 _]]]. cbn [fst snd] in *.
    split; [exact E|]. split; [exact H1|]. split; [exact H2|]. split; intros k Hk; apply H3; lia.
Qed.

Lemma scan_any (diff : R) (c d : list R) : zlen c = n -> zlen d = n ->
  exists i df (c' d' : list R), ip_scan (N := Q) x tabx taby n diff c d = Ok (i, df, c', d') /\
    (0 <= i < n)%Z /\ zlen c' = n /\ zlen d' = n /\
    (forall k, (0 <= k < n)%Z -> znth 0 c' k = Y k) /\ (forall k, (0 <= k < n)%Z -> znth 0 d' k = Y k).
Proof.
  intros Hc Hd. unfold ip_scan. qn.
  pose (P := fun (j : Z) (s : Z * R * list R * list R) =>
     let '(i, df, c, d) := s in (0 <= i < n)%Z /\ zlen c = n /\ zlen d = n /\
       (forall k, (0 <= k < j)%Z -> znth 0 c k = Y k) /\ (forall k, (0 <= k < j)%Z -> znth 0 d k = Y k)).
  for_with P; [lia| | |destruct HF as [[[[i df] c'] d'] [E HP]]].
  - unfold P. cbn. repeat split; auto; intros; lia.
  - intros j [[[i df] c1] d1] Hj [Hi [H1 [H2 [H3 H4]]]].
    rewrite (rd_ok 0) by lia. cbn [bind].
    match goal with |- context [if ?b then _ else _] =>
      exists (let '(i', df') := if b then (j, Rabs (rnd (x - znth 0 tabx j))) else (i, df) in
              (i', df', upd c1 (Z.to_nat j) (Y j), upd d1 (Z.to_nat j) (Y j)));
      destruct b end;
    rewrite (rd_ok 0) by lia; cbn [bind]; repeat (rewrite wr_ok by lia; cbn [bind]);
    (split; [reflexivity|]); unfold P; rewrite !zlen_upd; repeat split; auto; try lia; intros k Hk;
      rewrite znth_upd by lia; destruct (Z.eqb_spec k j) as [->|]; auto; [apply H3|apply H4|apply H3|apply H4]; lia.
  - exists i, df, c', d'. split; [exact E|exact HP].
Qed.

Lemma poly_within : exists y, interpol_poly (N := Q) x tabx taby n = Ok y /\
  within u (5 * Z.to_nat (n - 1) + 1) y (Nev tabx taby x (Z.to_nat (n - 1)) 0) (growth ratio (Z.to_nat (n - 1)) * M).
Proof.
  unfold interpol_poly. qn. rewrite (rd_ok 0) by lia. cbn [bind].
  destruct (scan_any (Rabs (rnd (x - znth 0 tabx 0))) (repeat (rnd (IZR 0)) (Z.to_nat n)) (repeat (rnd (IZR 0)) (Z.to_nat n)))
    as [i [df [c [d [E [Hi [Hc [Hd [HC HD]]]]]]]]]; try (apply zlen_repeat; lia).
  rewrite E; cbn [bind]. rewrite (rd_ok 0) by lia. cbn [bind].
  pose (P := fun (j : Z) (s : Z * list R * list R * R) =>
     let '(ic, c, d, y) := s in exists ns, ic = u64 (ns - 1) /\ (0 <= ns <= n - j)%Z /\ zlen c = n /\ zlen d = n /\
       column_ok (Z.to_nat (j - 1)) c d /\ within u (5 * Z.to_nat (j - 1) + 1) y (Nx (Z.to_nat (j - 1)) ns) (growth ratio (Z.to_nat (j - 1)) * M)).
  assert (W0 : forall k, (0 <= k < n)%Z -> within u 0 (Y k) (Y k) M).
  { intros k Hk. apply w_more with (Rabs (Y k)); [apply w_exact, Hu|apply HM, Hk]. }
  for_with P; [lia| | |destruct HF as [[[[ic c'] d'] y] [E' HP]]].
  - exists i. split; [reflexivity|]. split; [lia|]. split; [exact Hc|]. split; [exact Hd|]. replace (Z.to_nat (1 - 1)) with 0%nat by lia. split.
    + split; intros k Hk; unfold A; cbn [amplification]; rewrite Rmult_1_l; [rewrite HC by lia|rewrite HD by lia]; apply W0; lia.
    + cbn [growth]. rewrite Rmult_1_l. apply w_weak with 0%nat; [exact Hu| |lia]. apply W0, Hi.
  - intros j [[[ic c1] d1] y1] Hj [ns [Hic [Hns [H1 [H2 [H3 H5]]]]]].
    set (m := Z.to_nat (j - 1)) in *.
    assert (Hm : j = Z.of_nat (S m)) by lia.
    destruct (column_within m c1 d1) as [c2 [d2 [E2 [K1 [K2 [K3 K4]]]]]]; try lia; auto.
    rewrite <- Hm in E2. rewrite E2; cbn [bind]. subst ic.
    assert (Hw : u64 (u64 (ns - 1) + 1) = ns).
    { unfold u64. rewrite Zplus_mod_idemp_l. replace (ns - 1 + 1)%Z with ns by lia.
      apply Z.mod_small; unfold SIZE_T; lia. }
    rewrite Hw. rewrite (u64_small (2 * ns)) by (unfold SIZE_T; lia).
    rewrite (u64_small (n - j)) by (unfold SIZE_T; lia).
    assert (Em : Z.to_nat (j + 1 - 1) = S m) by lia.
    assert (ST : forall y2 v w, within u (5 * S m) y2 v (A (S m)) -> Nx m ns + v = w -> within u (5 * S m + 1) (rnd (y1 + y2)) w (growth ratio (S m) * M)).
    { intros y2 v w W <-. cbn [growth]. rewrite Rmult_plus_distr_r. fold (A (S m)). eapply w_rnd_add; [exact Hu|exact HR| |exact W|lia].
      apply w_weak with (5 * m + 1)%nat; [exact Hu|exact H5|lia]. }
    destruct (Z.ltb_spec (2 * ns) (n - j)).
    + rewrite (rd_ok 0) by lia. cbn [bind]. eexists; split; [reflexivity|].
      exists ns. rewrite Em. split; [reflexivity|]. split; [lia|]. split; [exact K1|]. split; [exact K2|].
      split; [split; assumption|]. apply (ST _ (CCx (S m) ns)); [apply K3; lia|]. unfold CCx, CC, Nx. ring.
    + rewrite (u64_small (ns - 1)) by (unfold SIZE_T; lia).
      rewrite (rd_ok 0) by lia. cbn [bind]. eexists; split; [reflexivity|].
      exists (ns - 1)%Z. rewrite Em. split; [reflexivity|]. split; [lia|]. split; [exact K1|]. split; [exact K2|].
      split; [split; assumption|]. apply (ST _ (DDx (S m) (ns - 1)%Z)); [apply K4; lia|]. unfold DDx, DD, Nx. replace (ns - 1 + 1)%Z with ns by lia. ring.
  - rewrite E'; cbn [bind]. destruct HP as [ns [_ [Hns [_ [_ [_ HW]]]]]].
    replace ns with 0%Z in HW by lia. exists y. split; [reflexivity|exact HW].
Qed.
End Poly.
