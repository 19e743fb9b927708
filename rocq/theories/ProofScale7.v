(** ProofScale7: constants of the code which carry a unit (C65): the guard of F3 and the thresholds of the 1-loop bispectrum. *)
From Coq Require Import ZArith Lia List Bool Reals Lra.
From Verif Require Import Base Num BaseFacts Common Kernels Integrals Spec SpecPT SpecScratch SpecScale ProofKernels ProofScratch2.
Import ListNotations.
Local Open Scope R_scope.

Lemma vscal_plus s p q : vplus (vscal s p) (vscal s q) = vscal s (vplus p q).
Proof. destruct p as [[? ?] ?], q as [[? ?] ?]. cbn. f_equal; [f_equal|]; ring. Qed.
Lemma dot_vscal s p q : dot (vscal s p) (vscal s q) = s * s * dot p q.
Proof. destruct p as [[? ?] ?], q as [[? ?] ?]. cbn. ring. Qed.
Lemma vscal_nonzero s p : s <> 0 -> p <> vzero -> vscal s p <> vzero.
Proof.
  intros Hs Hp E. apply Hp. destruct p as [[a b] c]. unfold vscal, vzero in *. injection E as E1 E2 E3.
  apply Rmult_integral in E1, E2, E3. destruct E1, E2, E3; try contradiction. congruence.
Qed.
Lemma F3_scale a s p q r : s <> 0 -> p <> vzero -> q <> vzero -> r <> vzero -> guard_ok (vplus q r) -> guard_ok (vplus p (vplus q r)) -> guard_ok (vscal s (vplus q r)) -> guard_ok (vscal s (vplus p (vplus q r))) ->
  F3 (N := RNum) a (vec_of (vscal s p)) (vec_of (vscal s q)) (vec_of (vscal s r)) = F3 (N := RNum) a (vec_of p) (vec_of q) (vec_of r).
Proof.
  intros Hs Hp Hq Hr G1 G2 G3 G4. unfold F3. rewrite !vadd_of, !vscal_plus.
  rewrite (proj2 (small3_false _) G1), (proj2 (small3_false _) G2), (proj2 (small3_false _) G3), (proj2 (small3_false _) G4).
  cbn [orb]. rewrite !dot3_of, !dot_vscal. apply dot_pos in Hp, Hq, Hr. apply guard_ok_nonzero in G1.
  assert (H2 : forall b, F2_sym_fast (N := RNum) b (s * s * dot q q) (s * s * dot r r) (s * s * dot q r) = F2_sym_fast (N := RNum) b (dot q q) (dot r r) (dot q r)).
  { intros b. unfold F2_sym_fast. destruct b; rnl; field; lra. }
  rewrite !H2. rnl. f_equal. f_equal; [f_equal|]; [f_equal|f_equal]; try (f_equal; field; lra).
Qed.
Lemma F3_sym_scale a s p q r : s <> 0 -> p <> vzero -> q <> vzero -> r <> vzero -> sums_ok p q r -> sums_ok (vscal s p) (vscal s q) (vscal s r) ->
  F3_sym (N := RNum) a (vec_of (vscal s p)) (vec_of (vscal s q)) (vec_of (vscal s r)) = F3_sym (N := RNum) a (vec_of p) (vec_of q) (vec_of r).
Proof.
  intros Hs Hp Hq Hr (A1 & A2 & A3 & A4) (B1 & B2 & B3 & B4). rewrite !vscal_plus in B1, B2, B3, B4. rewrite ?vscal_plus in B4. unfold F3_sym.
  assert (E1 : vplus r (vplus p q) = vplus p (vplus q r)) by (destruct p as [[? ?] ?], q as [[? ?] ?], r as [[? ?] ?]; cbn; f_equal; [f_equal|]; ring).
  assert (E2 : vplus q (vplus r p) = vplus p (vplus q r)) by (destruct p as [[? ?] ?], q as [[? ?] ?], r as [[? ?] ?]; cbn; f_equal; [f_equal|]; ring).
  rewrite (F3_scale a s p q r), (F3_scale a s r p q), (F3_scale a s q r p); rewrite ?E1, ?E2; auto.
Qed.
Definition ex1 : vector := (1, 0, 0).
Lemma F3_ex : F3_sym (N := RNum) DELTA (vec_of ex1) (vec_of ex1) (vec_of ex1) = 9 / 2.
Proof.
  assert (N1 : ex1 <> vzero) by (intros E; injection E; lra).
  assert (G : forall x, 1 <= x -> guard_ok (x, 0 + 0, 0 + 0)). { intros x Hx. left. rewrite Rabs_pos_eq; lra. }
  assert (F : F3 (N := RNum) DELTA (vec_of ex1) (vec_of ex1) (vec_of ex1) = 9 / 2).
  { unfold F3. rewrite !vadd_of. rewrite (proj2 (small3_false (vplus ex1 ex1))) by (apply G; lra).
    rewrite (proj2 (small3_false (vplus ex1 (vplus ex1 ex1)))) by (left; cbn; rewrite Rabs_pos_eq; lra). cbn [orb]. rewrite !dot3_of. unfold F2_sym_fast, sigmaab. cbn [Z.eqb Pos.eqb andb]. cbn [ex1 vplus dot]. rnl. field. }
  unfold F3_sym. rewrite !F. rnl. field.
Qed.
Lemma F3_ex_small s : 0 < s < 1 / 10 ^ 14 -> F3_sym (N := RNum) DELTA (vec_of (vscal s ex1)) (vec_of (vscal s ex1)) (vec_of (vscal s ex1)) = 0.
Proof.
  intros Hs. unfold F3_sym. rewrite !F3_guard; [rnl; field|..]; right; cbn; rewrite Rabs_R0 || idtac; intros [H|[H|H]]; revert H; unfold Rabs; destruct (Rcase_abs _); lra.
Qed.

(** Below the threshold the propagators are 1; above it they have the correction. *)
Lemma reg_below g k p kp s1 s2 s3 : k < 1 / 100 -> gamma1_reg_1loop (N := RNum) g k p kp s1 s2 s3 = Ok (1, 1, 1, 1, 1, 1, g).
Proof.
  intros Hk. unfold gamma1_reg_1loop, gamma1_reg_pair. rnl. assert (E : Rleb (1 / 100) k = false) by (apply Rleb_false; lra).
  change (IZR (10 ^ 2)) with 100. rewrite E, !andb_false_r. reflexivity.
Qed.
Lemma reg_above g k p kp s1 s2 s3 d u : 1 / 100 <= k -> q_ok g -> gamma1_1loop (N := RNum) g DELTA k = Ok (d, u) ->
  exists t pd pt kd kt x, gamma1_reg_1loop (N := RNum) g k p kp s1 s2 s3 = Ok (1 + k * k * s1 / 2 + d, t, pd, pt, kd, kt, x).
Proof.
  intros Hk Hg Hd. destruct (gamma1_1loop_ok g DELTA k Hg) as (d' & u' & E & (Hu & _)). rewrite E in Hd. injection Hd as -> ->.
  assert (Q : forall c g k s, q_ok g -> exists a b h, gamma1_reg_pair (N := RNum) g c k s = Ok (a, b, h) /\ q_ok h).
  { intros c h k' s Hh. unfold gamma1_reg_pair. destruct c; [|eauto 6]. destruct (gamma1_1loop_ok h DELTA k' Hh) as (x & h1 & E1 & (S1 & _)). rewrite E1. cbn [bind].
    destruct (gamma1_1loop_ok h1 THETA k' S1) as (y & h2 & E2 & (S2 & _)). rewrite E2. cbn [bind]. eauto 6. }
  unfold gamma1_reg_1loop. unfold gamma1_reg_pair at 1. rnl. change (IZR (10 ^ 2)) with 100. rewrite (proj2 (Rleb_true (1 / 100) k) Hk). rewrite E. cbn [bind].
  destruct (gamma1_1loop_ok u THETA k Hu) as (y & h2 & E2 & (S2 & _)). rewrite E2. cbn [bind].
  match goal with |- context [gamma1_reg_pair h2 ?c p s2] => destruct (Q c h2 p s2 S2) as (a & b & h3 & E3 & S3) end. rewrite E3. cbn [bind].
  match goal with |- context [gamma1_reg_pair h3 ?c kp s3] => destruct (Q c h3 kp s3 S3) as (a' & b' & h4 & E4 & S4) end. rewrite E4. cbn [bind]. eauto 10.
Qed.
Lemma thresholds s g g' k p kp s1 s2 s3 d u : 0 < s -> q_ok g -> rescaled_table s (/ (s * s * s)) g g' -> s * k < 1 / 100 <= k ->
  gamma1_1loop (N := RNum) g DELTA k = Ok (d, u) -> k * k * s1 / 2 + d <> 0 ->
  exists t pd pt kd kt x, gamma1_reg_1loop (N := RNum) g k p kp s1 s2 s3 = Ok (1 + k * k * s1 / 2 + d, t, pd, pt, kd, kt, x) /\
    gamma1_reg_1loop (N := RNum) g' (s * k) (s * p) (s * kp) (s1 / (s * s)) (s2 / (s * s)) (s3 / (s * s)) = Ok (1, 1, 1, 1, 1, 1, g') /\
    1 + k * k * s1 / 2 + d <> 1.
Proof.
  intros Hs Hg _ [H1 H2] Hd Hn. destruct (reg_above g k p kp s1 s2 s3 d u H2 Hg Hd) as (t & pd & pt & kd & kt & x & E).
  exists t, pd, pt, kd, kt, x. split; [exact E|]. split; [apply reg_below, H1|]. intros Q. apply Hn. lra.
Qed.
