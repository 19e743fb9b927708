(** ProofRounded15: rounding in pk_interp (C111). *)
From Coq Require Import ZArith Lia Reals Lra Psatz List Bool String.
From Verif Require Import Base Num BaseFacts Order Spec Common Registry PyTerms ProofSigma ProofSamples3 SpecPy SpecRounded SpecRounded2 ProofRounded ProofRounded2 ProofRounded4 ProofRounded9.
Import ListNotations.
Local Open Scope R_scope.

Section Interp.
Context (rnd : R -> R) (lm : libmR).
Local Notation Q := (QNum rnd lm).

(** The value between two points, as numpy computes it *)
Definition np_chord (x x0 x1 f0 f1 : R) : R := rnd (rnd (rnd (rnd (f1 - f0) / rnd (x1 - x0)) * rnd (x - x0)) + f0).
Lemma increasing_tail x l : increasing (x :: l) -> increasing l.
Proof. intros H i j Hij. exact (H (S i) (S j) ltac:(cbn in *; lia)). Qed.
Lemma in_at (K P : list R) right x : increasing K -> length P = length K -> forall i, (S i < length K)%nat -> at_ K i <= x < at_ K (S i) ->
  interp_in (N := Q) x K P right = np_chord x (at_ K i) (at_ K (S i)) (at_ P i) (at_ P (S i)).
Proof.
  revert P. induction K as [|x0 K IH]; intros P HI HL i Hi Hx; [cbn in Hi; lia|]. destruct P as [|f0 P]; [discriminate|]. injection HL as HL. destruct K as [|x1 K]; [cbn in Hi; lia|]. destruct P as [|f1 P]; [discriminate|].
  change (interp_in (N := Q) x (x0 :: x1 :: K) (f0 :: f1 :: P) right) with (if Rltb x x1 then np_chord x x0 x1 f0 f1 else interp_in (N := Q) x (x1 :: K) (f1 :: P) right).
  destruct i as [|i].
  - cbn in Hx |- *. unfold Rltb. destruct (Rlt_dec x x1); [reflexivity|lra].
  - assert (at_ (x0 :: x1 :: K) 1 <= at_ (x0 :: x1 :: K) (S i)). { destruct i; [lra|]. left. apply (HI 1%nat (S (S i))). cbn in *. lia. }
    change (at_ (x0 :: x1 :: K) 1) with x1 in H. unfold Rltb. destruct (Rlt_dec x x1); [lra|]. apply (IH (f1 :: P)); [exact (increasing_tail _ _ HI)|exact HL|cbn in *; lia|exact Hx].
Qed.
Lemma in_last (K P : list R) right : increasing K -> length P = length K -> (1 <= length K)%nat -> interp_in (N := Q) (at_ K (length K - 1)) K P right = at_ P (length K - 1).
Proof.
  revert P. induction K as [|x0 K IH]; intros P HI HL H1; [cbn in H1; lia|]. destruct P as [|f0 P]; [discriminate|]. injection HL as HL. destruct K as [|x1 K]; [|destruct P as [|f1 P]; [discriminate|]].
  - destruct P; [|discriminate]. change (interp_in (N := Q) x0 [x0] [f0] right) with (if Reqbool x0 x0 then f0 else right). cbn. unfold Reqbool. destruct (Req_EM_T x0 x0); [reflexivity|congruence].
  - set (t := at_ (x0 :: x1 :: K) _). change (interp_in (N := Q) t (x0 :: x1 :: K) (f0 :: f1 :: P) right) with (if Rltb t x1 then np_chord t x0 x1 f0 f1 else interp_in (N := Q) t (x1 :: K) (f1 :: P) right).
    assert (E : t = at_ (x1 :: K) (length (x1 :: K) - 1)) by (unfold t, at_; cbn [length nth Nat.sub]; rewrite Nat.sub_0_r; reflexivity).
    assert (x1 <= t). { rewrite E. destruct K as [|x2 K]; [cbn; lra|]. left. apply (increasing_tail _ _ HI 0%nat). cbn. lia. }
    unfold Rltb. destruct (Rlt_dec t x1); [lra|]. rewrite E. rewrite (IH (f1 :: P)); [|exact (increasing_tail _ _ HI)|exact HL|cbn; lia]. unfold at_. cbn [length nth Nat.sub]. rewrite Nat.sub_0_r. reflexivity.
Qed.
Lemma inside (K P : list R) left right x : (1 <= length K)%nat -> at_ K 0 <= x -> interp (N := Q) x K P left right = interp_in (N := Q) x K P right.
Proof. intros H1 Hx. destruct K as [|x0 K]; [cbn in H1; lia|]. change (interp (N := Q) x (x0 :: K) P left right) with (if Rltb x x0 then left else interp_in (N := Q) x (x0 :: K) P right). cbn in Hx. unfold Rltb. destruct (Rlt_dec x x0); [lra|reflexivity]. Qed.

Context (F : R -> Prop) (RD : rounding F rnd).
Lemma interp_node (K P : list R) left right i : increasing K -> length P = length K -> Forall F P -> (i < length K)%nat -> interp (N := Q) (at_ K i) K P left right = at_ P i.
Proof.
  intros HI HL FP Hi. assert (at_ K 0 <= at_ K i) by (destruct i; [lra|left; apply HI; lia]). rewrite inside by (lia || assumption).
  destruct (Nat.eq_dec i (length K - 1)) as [->|N]; [apply in_last; assumption || lia|]. assert (at_ K i < at_ K (S i)) by (apply HI; lia).
  rewrite (in_at K P right _ HI HL i) by (lia || lra). unfold np_chord. rewrite (rnd_same F rnd RD), Rmult_0_r, (rnd0 F rnd RD), Rplus_0_l. apply (r_id _ _ RD).
  rewrite Forall_forall in FP. apply FP, nth_In. lia.
Qed.

Context (u : R) (Hu : 0 <= u < 1) (HR : relative u rnd).
Lemma chord_within (x x0 x1 p0 p1 M : R) : x0 <= x <= x1 -> x0 < x1 -> Rabs p0 <= M -> Rabs p1 <= M ->
  Rabs (np_chord x x0 x1 p0 p1 - ((x - x0) / (x1 - x0) * (p1 - p0) + p0)) <= units u 6 * (3 * M).
Proof.
  intros Hx H01 H0 H1. unfold np_chord.
  assert (C1 : forall a b, close u 1 (rnd (a - b)) (a - b)) by (intros; apply rnd_close; assumption).
  assert (C3 : close u 3 (rnd (rnd (p1 - p0) / rnd (x1 - x0))) ((p1 - p0) / (x1 - x0))).
  { apply rnd_step; [exact Hu|exact HR|]. apply (close_div u Hu 1 1); [apply C1|apply C1|lra]. }
  assert (W : within u 6 (rnd (rnd (rnd (rnd (p1 - p0) / rnd (x1 - x0)) * rnd (x - x0)) + p0)) ((p1 - p0) / (x1 - x0) * (x - x0) + p0) (Rabs ((p1 - p0) / (x1 - x0)) * Rabs (x - x0) + Rabs p0)).
  { eapply w_rnd_add; [exact Hu|exact HR| | |reflexivity].
    - eapply w_rnd_mul; [exact Hu|exact HR|apply w_close; [exact Hu|exact C3]|apply w_close; [exact Hu|apply C1]|reflexivity].
    - apply w_weak with 0%nat; [exact Hu|apply w_exact, Hu|lia]. }
  destruct W as [_ W]. replace ((x - x0) / (x1 - x0) * (p1 - p0) + p0) with ((p1 - p0) / (x1 - x0) * (x - x0) + p0) by (field; lra). eapply Rle_trans; [exact W|]. apply Rmult_le_compat_l; [apply units_pos, Hu|].
  assert (D : Rabs (p1 - p0) <= 2 * M). { eapply Rle_trans; [apply Rabs_triang|]. rewrite Rabs_Ropp. lra. }
  rewrite <- Rabs_mult. replace ((p1 - p0) / (x1 - x0) * (x - x0)) with ((x - x0) / (x1 - x0) * (p1 - p0)) by (field; lra). rewrite Rabs_mult. set (t := (x - x0) / (x1 - x0)).
  assert (T : 0 <= t <= 1). { unfold t. split; [apply Rmult_le_pos; [lra|left; apply Rinv_0_lt_compat; lra]|]. apply Rmult_le_reg_r with (x1 - x0); [lra|]. unfold Rdiv. rewrite Rmult_assoc, Rinv_l; lra. }
  rewrite (Rabs_right t) by lra. pose proof (Rabs_pos (p1 - p0)). nra.
Qed.
Lemma interp_error (K P : list R) left right x M : increasing K -> length P = length K -> Forall F P -> (2 <= length K)%nat -> at_ K 0 <= x <= at_ K (length K - 1) ->
  (forall j, (j < length K)%nat -> Rabs (at_ P j) <= M) -> Rabs (interp (N := Q) x K P left right - plin K P x) <= units u 6 * (3 * M).
Proof.
  intros HI HL FP H2 Hx HM. destruct (bracket K x H2 Hx) as (i & Hi & Hb). destruct (Rlt_dec x (at_ K (S i))) as [C|C].
  - rewrite inside by (lia || lra). rewrite (in_at K P right x HI HL i Hi) by lra. rewrite (plin_at K P i x HL HI Hi Hb). 
    match goal with |- Rabs (_ - ?e) <= _ => replace e with ((x - at_ K i) / (at_ K (S i) - at_ K i) * (at_ P (S i) - at_ P i) + at_ P i) end.
    + apply chord_within; [lra|apply HI; lia|apply HM; lia|apply HM; lia].
    + assert (at_ K i < at_ K (S i)) by (apply HI; lia). field. lra.
  - assert (E : x = at_ K (S i)) by lra. rewrite E, interp_node by assumption. rewrite (plin_at K P i (at_ K (S i)) HL HI Hi) by lra. assert (at_ K i < at_ K (S i)) by (apply HI; lia).
    match goal with |- Rabs ?e <= _ => replace e with 0 by (field; lra) end. rewrite Rabs_R0. apply Rmult_le_pos; [apply units_pos, Hu|]. pose proof (HM 0%nat ltac:(lia)). pose proof (Rabs_pos (at_ P 0)). lra.
Qed.
End Interp.
