(** PropRounded3: what rounding can do to the lookups between the tabulated wavenumbers (C106).  Notions: Spec.v, SpecRounded.v, SpecRounded2.v,
    SpecRounded3.v.  [QNum rnd lm]: every operation is rounded by [rnd], with relative error at most u; [units u n]: the relative size of n
    such errors.  Without rounding the polynomial lookup returns peval p k, and the linear one plin K P k (C61). *)
From Coq Require Import ZArith Lia List Bool Reals Lra.
From Verif Require Import Base Num BaseFacts Order Spec Common SpecRounded SpecRounded2 SpecRounded3 ProofRounded8 ProofRounded9 ProofRounded10 ProofRounded11 ProofRounded12.
From Flocq Require Import Core.
Import ListNotations.
Local Open Scope R_scope.

(** * C106: lookups between the tabulated wavenumbers are the interpolating polynomials up to rounding *)
(** Polynomial interpolation, any table: p is the polynomial through the at most five points around k. *)
Theorem C106_poly rnd lm u (K P : list R) (k : R) : 0 <= u < 1 -> relative u rnd -> length P = length K -> (2 <= zlen K < 2 ^ 62)%Z -> increasing K ->
  at_ K 0 <= k <= at_ K (length K - 1) ->
  exists i (p : poly) y, (i < length K)%nat /\ at_ K i <= k /\ ((S i < length K)%nat -> k < at_ K (S i)) /\
    let a := (i - 2)%nat in let b := Nat.min (i + 2) (length K - 1) in
    (length p <= b - a + 1)%nat /\ (forall j, (a <= j <= b)%nat -> peval p (at_ K j) = at_ P j) /\
    find_pk (N := QNum rnd lm) (mk_table (N := QNum rnd lm) K P) [k] POLY = Ok [y] /\
    forall M ratio, (forall m, 0 <= ratio m) -> (forall j, (a <= j <= b)%nat -> Rabs (at_ P j) <= M) -> spread K k a b ratio ->
      Rabs (y - peval p k) <= units u 21 * (growth ratio 4 * M).
Proof. exact (fun Hu HR HL HB HI => poly_lookup rnd lm u Hu HR K P HL HB HI k). Qed.
Print Assumptions C106_poly.
(** A table in which the spacings around each point are between h and c h, and any ascending wavenumbers in its range, in one call. *)
Theorem C106_spaced rnd lm u (K P ks : list R) (h : nat -> R) (c M : R) : 0 <= u < 1 -> relative u rnd -> length P = length K -> (2 <= zlen K < 2 ^ 62)%Z -> increasing K ->
  1 <= c -> (forall i, (i < length K)%nat -> 0 < h i) -> (forall i j, (i < length K)%nat -> (i - 2 <= j < Nat.min (i + 2) (length K - 1))%nat -> h i <= at_ K (S j) - at_ K j <= c * h i) ->
  (forall j, (j < length K)%nat -> Rabs (at_ P j) <= M) -> ascending ks -> (forall k, In k ks -> at_ K 0 <= k <= at_ K (length K - 1)) ->
  exists ys, find_pk (N := QNum rnd lm) (mk_table (N := QNum rnd lm) K P) ks POLY = Ok ys /\
    Forall2 (fun k y => exists i (p : poly), (i < length K)%nat /\ at_ K i <= k /\ ((S i < length K)%nat -> k < at_ K (S i)) /\
      let a := (i - 2)%nat in let b := Nat.min (i + 2) (length K - 1) in
      (length p <= b - a + 1)%nat /\ (forall j, (a <= j <= b)%nat -> peval p (at_ K j) = at_ P j) /\
      Rabs (y - peval p k) <= units u 21 * ((1 + 6 * c + 18 * c ^ 2 + 36 * c ^ 3 + 54 * c ^ 4) * M)) ks ys.
Proof. exact (spaced_lookup rnd lm u K P ks h c M). Qed.
Print Assumptions C106_spaced.
(** A table evenly spaced in the logarithm of the wavenumber *)
Theorem C106_geometric rnd lm u (K P ks : list R) (r M : R) : 0 <= u < 1 -> relative u rnd -> length P = length K -> (2 <= zlen K < 2 ^ 62)%Z ->
  0 < at_ K 0 -> 1 < r -> (forall j, (S j < length K)%nat -> at_ K (S j) = r * at_ K j) -> (forall j, (j < length K)%nat -> Rabs (at_ P j) <= M) ->
  ascending ks -> (forall k, In k ks -> at_ K 0 <= k <= at_ K (length K - 1)) ->
  exists ys, find_pk (N := QNum rnd lm) (mk_table (N := QNum rnd lm) K P) ks POLY = Ok ys /\
    Forall2 (fun k y => exists i (p : poly), (i < length K)%nat /\ at_ K i <= k /\ ((S i < length K)%nat -> k < at_ K (S i)) /\
      let a := (i - 2)%nat in let b := Nat.min (i + 2) (length K - 1) in
      (length p <= b - a + 1)%nat /\ (forall j, (a <= j <= b)%nat -> peval p (at_ K j) = at_ P j) /\
      Rabs (y - peval p k) <= units u 21 * ((1 + 6 * r ^ 3 + 18 * (r ^ 3) ^ 2 + 36 * (r ^ 3) ^ 3 + 54 * (r ^ 3) ^ 4) * M)) ks ys.
Proof. exact (geometric_lookup rnd lm u K P ks r M). Qed.
Print Assumptions C106_geometric.
(** Linear interpolation *)
Theorem C106_lin rnd lm u (K P ks : list R) (M : R) : 0 <= u < 1 -> relative u rnd -> length P = length K -> (2 <= zlen K < 2 ^ 62)%Z -> increasing K ->
  (forall j, (j < length K)%nat -> Rabs (at_ P j) <= M) -> ascending ks -> (forall k, In k ks -> at_ K 0 <= k < at_ K (length K - 1)) ->
  exists ys, find_pk (N := QNum rnd lm) (mk_table (N := QNum rnd lm) K P) ks LIN = Ok ys /\
    Forall2 (fun k y => Rabs (y - plin K P k) <= units u 6 * (3 * M)) ks ys.
Proof. exact (lin_lookups rnd lm u K P ks M). Qed.
Print Assumptions C106_lin.
(** With 53 bits and an evenly spaced table the error is below 3e-13 of the largest tabulated value. *)
Theorem C106_figure : units (/ 2 ^ 53) 21 * (1 + 6 * 1 + 18 * 1 ^ 2 + 36 * 1 ^ 3 + 54 * 1 ^ 4) <= 3 / 10 ^ 13.
Proof. exact figure_even. Qed.
Print Assumptions C106_figure.
Example C106_ex lm : exists y1 y2, find_pk (N := QNum to_wide lm) (mk_table (N := QNum to_wide lm) [1; 2; 3; 4; 5; 6] [3; 5; 1; 2; 8; 4]) [3 / 2; 9 / 2] POLY = Ok [y1; y2] /\
  exists p : poly, (length p <= 3)%nat /\ peval p 1 = 3 /\ peval p 2 = 5 /\ peval p 3 = 1 /\ Rabs (y1 - peval p (3 / 2)) <= 24 / 10 ^ 13.
Proof.
  assert (I : increasing [1; 2; 3; 4; 5; 6]) by (intros [|[|[|[|[|[|i]]]]]] [|[|[|[|[|[|j]]]]]]; cbn; intros; try lia; lra).
  pose proof u53 as U.
  destruct (C106_spaced to_wide lm (/ 2 ^ 53) [1; 2; 3; 4; 5; 6] [3; 5; 1; 2; 8; 4] [3 / 2; 9 / 2] (fun _ => 1) 1 8) as (ys & E & HF); try reflexivity; try lra; try exact I; try exact (proj2 precision53).
  - split; [cbn; lia|reflexivity].
  - intros; lra.
  - intros i [|[|[|[|[|j]]]]] Hi Hj; cbn in *; try lra; lia.
  - intros [|[|[|[|[|[|j]]]]]] Hj; cbn in *; try (rewrite Rabs_right; lra); lia.
  - intros [|[|i]] [|[|j]] Hij; cbn in *; try lra; lia.
  - intros k [<-|[<-|[]]]; cbn; lra.
  - inversion HF as [|k y ks' ys' H1 H2]; subst. inversion H2 as [|k2 y2 ks2 ys2 H3 H4]; subst. inversion H4; subst. exists y, y2. split; [exact E|].
    destruct H1 as (i & p & Hi & A & B & W). cbv zeta in W. destruct W as (L & T & W). assert (i = 0%nat) as ->.
    { destruct i as [|[|[|[|[|[|i]]]]]]; cbn in A, Hi; try lra; try lia; reflexivity. }
    cbn in L. exists p. split; [exact L|]. split; [exact (T 0%nat ltac:(cbn; lia))|]. split; [exact (T 1%nat ltac:(cbn; lia))|]. split; [exact (T 2%nat ltac:(cbn; lia))|].
    eapply Rle_trans; [exact W|]. rewrite <- Rmult_assoc. pose proof C106_figure. lra.
Qed.
Example C106_lin_ex lm : exists y, find_pk (N := QNum to_wide lm) (mk_table (N := QNum to_wide lm) [1; 2; 4] [3; 5; 1]) [3] LIN = Ok [y] /\ Rabs (y - 3) <= 15 / 10 ^ 12.
Proof.
  assert (I : increasing [1; 2; 4]) by (intros [|[|[|i]]] [|[|[|j]]]; cbn; intros; try lia; lra).
  pose proof u53 as U.
  destruct (C106_lin to_wide lm (/ 2 ^ 53) [1; 2; 4] [3; 5; 1] [3] 5) as (ys & E & HF); try reflexivity; try lra; try exact I; try exact (proj2 precision53).
  - split; [cbn; lia|reflexivity].
  - intros [|[|[|j]]] Hj; cbn in *; try (rewrite Rabs_right; lra); lia.
  - intros [|i] [|j] Hij; cbn in *; try lra; lia.
  - intros k [<-|[]]; cbn; lra.
  - inversion HF as [|k y ks' ys' H1 H2]; subst. inversion H2; subst. exists y. split; [exact E|].
    assert (plin [1; 2; 4] [3; 5; 1] 3 = 3) as V by (cbn; destruct (Rle_dec 3 2); [lra|]; destruct (Rle_dec 3 4); [field|lra]).
    rewrite V in H1. eapply Rle_trans; [exact H1|]. replace (15 / 10 ^ 12) with (1 / 10 ^ 12 * (3 * 5)) by (field; apply pow_nonzero; lra). apply Rmult_le_compat_r; [lra|]. apply units_figure. apply Nat.leb_le; reflexivity.
Qed.
