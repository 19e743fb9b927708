(** Sums: accumulation loops in exact arithmetic are finite sums. *)
From Coq Require Import Reals Lra Lia List.
From Verif Require Import Base Num BaseFacts Common Spec.
Import ListNotations.
Local Open Scope R_scope.

Lemma rsum_ext n f g : (forall i, (i < n)%nat -> f i = g i) -> rsum n f = rsum n g.
Proof.
  induction n as [|n IH]; intros H; [reflexivity|]. cbn [rsum]. rewrite IH, H by lia || (intros; apply H; lia). reflexivity.
Qed.
Lemma rsum_scal n c f : rsum n (fun i => c * f i) = c * rsum n f.
Proof. induction n as [|n IH]; cbn [rsum]; [ring|]. rewrite IH. ring. Qed.
Lemma rsum_plus n f g : rsum n (fun i => f i + g i) = rsum n f + rsum n g.
Proof. induction n as [|n IH]; cbn [rsum]; [ring|]. rewrite IH. ring. Qed.
Lemma rsum_zero n : rsum n (fun _ => 0) = 0.
Proof. induction n as [|n IH]; cbn [rsum]; [reflexivity|]. rewrite IH. ring. Qed.
Lemma rsum_nonneg n f : (forall i, (i < n)%nat -> 0 <= f i) -> 0 <= rsum n f.
Proof.
  induction n as [|n IH]; intros H; cbn [rsum]; [lra|]. pose proof (H n ltac:(lia)).
  assert (0 <= rsum n f) by (apply IH; intros; apply H; lia). lra.
Qed.
Lemma for_sum n (body : Z -> R -> res R) (f : Z -> R) a0 : (0 <= n)%Z ->
  (forall i acc, (0 <= i < n)%Z -> body i acc = Ok (acc + f i)) ->
  for_ 0 n body a0 = Ok (a0 + rsum (Z.to_nat n) (fun j => f (Z.of_nat j))).
Proof.
  intros Hn H.
  destruct (for_inv (fun j s => s = a0 + rsum (Z.to_nat j) (fun i => f (Z.of_nat i))) 0 n body a0) as [s' [E Es]].
  - exact Hn.
  - cbn [Z.to_nat rsum]. ring.
  - intros j s Hj ->. rewrite H by lia. eexists. split; [reflexivity|].
    replace (Z.to_nat (j + 1)) with (S (Z.to_nat j)) by lia. cbn [rsum]. rewrite Z2Nat.id by lia. ring.
  - rewrite E, Es. reflexivity.
Qed.
(** The same for a fixed-size array of accumulators. *)
Lemma for_total {S} n (body : Z -> S -> res S) (P : S -> Prop) s0 : (0 <= n)%Z -> P s0 ->
  (forall i s, (0 <= i < n)%Z -> P s -> exists s', body i s = Ok s' /\ P s') ->
  exists s', for_ 0 n body s0 = Ok s' /\ P s'.
Proof. intros Hn H0 H. apply (for_inv (fun _ => P) 0 n body s0 Hn H0). intros. apply H; [lia|assumption]. Qed.
