(** ProofSamples8: sampled spectra. *)
From Coq Require Import Reals Lra Lia List ZArith String.
From Coquelicot Require Import Coquelicot.
From Verif Require Import Base Num BaseFacts Common Registry PyTerms Spec SpecPy SpecSamples ProofDefined12 ProofSamples2.
Import ListNotations.
Local Open Scope R_scope.

(** exp (-q) at a, a + h, ..., a + (n-1) h *)
Definition decay (j : nat) (t : R) : R := (-1) ^ j * exp (- t).
Definition grid (a h : R) (n : nat) : list R := map (fun i => a + INR i * h) (seq 0 n).
Lemma at_grid a h n i : (i < n)%nat -> at_ (grid a h n) i = a + INR i * h.
Proof. intros Hi. unfold at_, grid. rewrite (nth_indep _ 0 (a + INR 0 * h)) by (rewrite map_length, seq_length; exact Hi). rewrite (map_nth (fun i => a + INR i * h)), seq_nth by exact Hi. reflexivity. Qed.
Lemma decay_derive j t : is_derive (decay j) t (decay (S j) t).
Proof.
  unfold decay. auto_derive; [trivial|]. change ((-1) ^ S j) with (-1 * (-1) ^ j). ring.
Qed.
Lemma decay_samples a h n m : 0 <= a -> 0 < h -> (1 <= n)%nat -> samples decay m (fun _ => 1) h (grid a h n) (map (fun t => exp (- t)) (grid a h n)).
Proof.
  intros Ha Hh Hn. assert (L : List.length (grid a h n) = n) by (unfold grid; rewrite map_length, seq_length; reflexivity). split.
  - apply map_length.
  - intros i j Hij. rewrite L in Hij. rewrite !at_grid by lia. apply Rplus_lt_compat_l, Rmult_lt_compat_r; [exact Hh|]. apply lt_INR. lia.
  - intros i Hi. unfold at_. rewrite (nth_indep _ 0 (exp (- 0))) by (rewrite map_length; exact Hi). rewrite (map_nth (fun t => exp (- t))). unfold decay. cbn [pow]. rewrite Rmult_1_l. reflexivity.
  - intros i Hi. rewrite L in Hi. rewrite !at_grid by lia. rewrite S_INR. lra.
  - intros j t _ _. apply decay_derive.
  - intros j t _ Ht. rewrite at_grid in Ht by lia. change (INR 0) with 0 in Ht. unfold decay. rewrite Rabs_mult, <- RPow_abs. replace (Rabs (-1)) with 1 by (rewrite Rabs_left; lra). rewrite pow1, Rmult_1_l.
    rewrite Rabs_right by (apply Rle_ge, Rlt_le, exp_pos). rewrite <- exp_0. destruct (Req_dec t 0) as [->|Hne]; [rewrite Ropp_0; lra|]. left. apply exp_increasing. lra.
Qed.
(** The spectrum (1, 5), (2, 6), (3, 4) samples 1 + 11/2 q - 3/2 q^2. *)
Definition quad (j : nat) (q : R) : R := match j with 0%nat => 1 + 11 / 2 * q - 3 / 2 * q ^ 2 | 1%nat => 11 / 2 - 3 * q | 2%nat => -3 | _ => 0 end.
Definition quad_bound (j : nat) : R := match j with 0%nat => 7 | 1%nat => 4 | 2%nat => 3 | _ => 0 end.
Lemma quad_derive j t : is_derive (quad j) t (quad (S j) t).
Proof. destruct j as [|[|[|j]]]; unfold quad; auto_derive; trivial; field. Qed.
Lemma three_samples : pk_three = mk_table (N := RNum) [1; 2; 3] [5; 6; 4] /\ samples quad 5 quad_bound 1 [1; 2; 3] [5; 6; 4] /\ forall m, (3 <= m <= 5)%nat -> poly_error quad_bound 1 m <= 0.
Proof.
  split; [reflexivity|]. split.
  - split.
    + reflexivity.
    + intros i j Hij. cbn [List.length] in Hij. destruct i as [|[|[|i]]], j as [|[|[|j]]]; try lia; cbn [at_ nth]; lra.
    + intros i Hi. cbn [List.length] in Hi. destruct i as [|[|[|i]]]; try lia; unfold at_, quad; cbn [nth]; lra.
    + intros i Hi. cbn [List.length] in Hi. destruct i as [|[|i]]; try lia; cbn [at_ nth]; lra.
    + intros j t _ _. apply quad_derive.
    + intros j t _ Ht. cbn [List.length Nat.sub at_ nth] in Ht. unfold quad, quad_bound. assert (H : 0 <= (t - 1) * (3 - t)) by (apply Rmult_le_pos; lra). pose proof (pow2_ge_0 (t - 11 / 6)). destruct j as [|[|[|j]]]; apply Rabs_le; lra.
  - intros m Hm. destruct m as [|[|[|[|[|[|m]]]]]]; try lia; unfold poly_error, quad_bound; lra.
Qed.
(** q^4 / 9 in spheres of radius 1: the integrand is (sin q - q cos q)^2. *)
Definition sphere (j : nat) (q : R) : R :=
  match j with 0%nat => (sin q - q * cos q) ^ 2 | 1%nat => 2 * (sin q - q * cos q) * (q * sin q) | _ => 2 * (q * sin q) ^ 2 + 2 * (sin q - q * cos q) * (sin q + q * cos q) end.
Definition sphere_bound (j : nat) : R := match j with 0%nat => 16 | 1%nat => 24 | _ => 50 end.
Lemma sphere_ex : (forall q, 0 < q -> sphere 0 q = q ^ 4 / 9 * (tophat (q * 1) * q) ^ 2) /\ derivatives sphere 2 1 3 /\ forall j t, (j <= 2)%nat -> 1 <= t <= 3 -> Rabs (sphere j t) <= sphere_bound j.
Proof.
  split; [|split].
  - intros q Hq. unfold sphere, tophat. rewrite Rmult_1_r. field. lra.
  - intros j t Hj _. destruct j as [|[|j]]; [| |lia]; unfold sphere; auto_derive; trivial; ring.
  - intros j t Hj Ht. pose proof (SIN_bound t) as S. pose proof (COS_bound t) as C. set (s := sin t) in *. set (c := cos t) in *.
    assert (A : Rabs (t * c) <= 3 * 1) by (apply abs_mul; apply Rabs_le; lra). assert (B : Rabs (t * s) <= 3 * 1) by (apply abs_mul; apply Rabs_le; lra).
    unfold sphere. fold s c. set (x := t * c) in *. set (y := t * s) in *.
    assert (D : Rabs (s - x) <= 4) by (apply Rabs_le; apply Rabs_le_between in A; lra). assert (E : Rabs (s + x) <= 4) by (apply Rabs_le; apply Rabs_le_between in A; lra). set (d := s - x) in *. set (e := s + x) in *.
    pose proof (abs_mul d d 4 4 D D) as H1. pose proof (abs_mul d y 4 _ D B) as H2. pose proof (abs_mul y y _ _ B B) as H3. pose proof (abs_mul d e 4 4 D E) as H4. apply Rabs_le_between in H1, H2, H3, H4.
    destruct j as [|[|[|j]]]; [| | |lia]; unfold sphere_bound; apply Rabs_le; lra.
Qed.
