(** PropBispectrum: the 1-loop bispectrum (C57, C58) and the gamma3 integrand (C59).
    Notions: SpecBispectrum.v (independent of the model) and SpecBisp2.v. *)
From Coq Require Import Reals Lra List Bool.
From Verif Require Import Base Num BaseFacts Common Kernels Gamma2 Integrals Spec SpecPT SpecBispectrum SpecBisp2 SpecLoops SpecScratch ProofKernels ProofBispectrum ProofBispectrum2.
Import ListNotations.
Local Open Scope R_scope.

(** ** C57: the second part, for a linear spectrum P. *)
Theorem C57_value pkl im (P : R -> R) k0 k1 k2 q a b c : (forall k, find1 (N := RNum) pkl im k = Ok (P k)) ->
  bispectrum_1loop_II_III (N := RNum) pkl im (vec_of k0) (vec_of k1) (vec_of k2) (vec_of q) a b c =
  Ok (loop222 K2c P q (k0, is_theta a) (k1, is_theta b) (k2, is_theta c), loop321 K2c K3c P q (k0, is_theta a) (k1, is_theta b) (k2, is_theta c)).
Proof. exact (bisp_II_val pkl im P k0 k1 k2 q a b c). Qed.
Print Assumptions C57_value.
(** The same with the kernels of perturbation theory. *)
Theorem C57_value_pt pkl im (P : R -> R) k0 k1 k2 q a b c : (forall k, find1 (N := RNum) pkl im k = Ok (P k)) -> q <> vzero -> regular_momenta q k0 k1 k2 ->
  bispectrum_1loop_II_III (N := RNum) pkl im (vec_of k0) (vec_of k1) (vec_of k2) (vec_of q) a b c =
  Ok (loop222 pt2 P q (k0, is_theta a) (k1, is_theta b) (k2, is_theta c), loop321 pt2 pt3 P q (k0, is_theta a) (k1, is_theta b) (k2, is_theta c)).
Proof. exact (bisp_II_pt pkl im P k0 k1 k2 q a b c). Qed.
Print Assumptions C57_value_pt.
(** Reflection of the loop momentum; every point, guarded or not. *)
Theorem C57_reflection pkl im k0 k1 k2 q a b c : total_lookup pkl im ->
  bispectrum_1loop_II_III (N := RNum) pkl im (vec_of k0) (vec_of k1) (vec_of k2) (vec_of (vopp q)) a b c =
  bispectrum_1loop_II_III (N := RNum) pkl im (vec_of k0) (vec_of k1) (vec_of k2) (vec_of q) a b c.
Proof. exact (bisp_II_reflect pkl im k0 k1 k2 q a b c). Qed.
Print Assumptions C57_reflection.
(** Relabelling: the two transpositions generate every permutation of the legs. *)
Theorem C57_relabelling pkl im k0 k1 k2 q a b c : total_lookup pkl im ->
  bispectrum_1loop_II_III (N := RNum) pkl im (vec_of k1) (vec_of k0) (vec_of k2) (vec_of q) b a c =
  bispectrum_1loop_II_III (N := RNum) pkl im (vec_of k0) (vec_of k1) (vec_of k2) (vec_of q) a b c /\
  bispectrum_1loop_II_III (N := RNum) pkl im (vec_of k0) (vec_of k2) (vec_of k1) (vec_of q) a c b =
  bispectrum_1loop_II_III (N := RNum) pkl im (vec_of k0) (vec_of k1) (vec_of k2) (vec_of q) a b c.
Proof. exact (bisp_II_swap pkl im k0 k1 k2 q a b c). Qed.
Print Assumptions C57_relabelling.
Example C57_ex : total_lookup (wtab 1) POLY /\
  regular_momenta (0, 1, 0) (1, 0, 0) (0, 0, 1) (-1, 0, -1).
Proof.
  split; [intros k; eexists; apply w_find_ok|].
  intros s i j l [->| ->] H; cbn in H;
    repeat (destruct H as [H|H]; [injection H as <- <- <-; repeat split; [intros E; injection E; lra|..]; unfold guard_ok; cbn; unfold Rabs; repeat destruct (Rcase_abs _); lra|]); contradiction.
Qed.

(** ** C57: the first part.  Its eight outputs are the regularised bispectra, with the loop corrections switched on
    from p, k >= 1/100 and k' >= 3/100. *)
Theorem C57_first_part pkl im uv g1 gd gt P S G1 G2 k p kp out : (forall k, find1 (N := RNum) pkl im k = Ok (P k)) ->
  (forall k, sigmad2_1 (N := RNum) pkl uv k = Ok (S k)) -> q_ok g1 -> propagator_is g1 G1 -> one_loop_is gd gt G2 -> zlen out = 8%Z ->
  exists g', bispectrum_1loop_I (N := RNum) pkl im uv g1 gd gt k p kp out =
    Ok (outputs_I (Rleb (1 / 100) p && Rleb (1 / 100) k) (Rleb (3 / 100) kp && Rleb (1 / 100) k) (Rleb (1 / 100) k) P S G1 T2c G2 k p kp, g').
Proof. exact (fun HP HS Hok H1 H2 => bisp_I_val pkl im uv g1 gd gt P S G1 G2 HP HS Hok H1 H2 k p kp out). Qed.
Print Assumptions C57_first_part.
(** Exchanging p and k' exchanges the outputs of A with those of A~, when p and k' are on the same side of the
    thresholds (G2 symmetric: C56). *)
Theorem C57_exchange pkl im uv g1 gd gt P S G1 G2 k p kp out : (forall k, find1 (N := RNum) pkl im k = Ok (P k)) ->
  (forall k, sigmad2_1 (N := RNum) pkl uv k = Ok (S k)) -> q_ok g1 -> propagator_is g1 G1 -> one_loop_is gd gt G2 -> zlen out = 8%Z ->
  same_thresholds k p kp -> (forall t, G2 t p kp k = G2 t kp p k) ->
  exists l g g', bispectrum_1loop_I (N := RNum) pkl im uv g1 gd gt k p kp out = Ok (l, g) /\
    bispectrum_1loop_I (N := RNum) pkl im uv g1 gd gt k kp p out = Ok (exchange l, g').
Proof. exact (bisp_I_exchange pkl im uv g1 gd gt P S G1 G2 k p kp out). Qed.
Print Assumptions C57_exchange.
(** Without the condition on the thresholds it fails, even for p = k' where exchanging changes nothing: p is
    corrected from 1/100 on, k' only from 3/100 on. *)
Theorem C57_exchange_refuted : exists pkl uv g l g', lin_table pkl /\ q_ok g /\
  bispectrum_1loop_I (N := RNum) pkl POLY uv g g g (2 / 100) (2 / 100) (2 / 100) (repeat 0 8) = Ok (l, g') /\ l <> exchange l.
Proof. exact asymmetric. Qed.
Print Assumptions C57_exchange_refuted.
Example C57_first_part_ex : exists pkl uv g P S, (forall k, find1 (N := RNum) pkl POLY k = Ok (P k)) /\ (forall k, sigmad2_1 (N := RNum) pkl uv k = Ok (S k)) /\
  q_ok g /\ propagator_is g (fun _ _ => 0) /\ one_loop_is g g (fun _ _ _ _ => 0) /\ same_thresholds 1 (1 / 2) (3 / 4).
Proof.
  exists (wtab 1), 10, w_g, (w_find 1), (w_sig 1). split; [apply w_find_ok|]. split; [apply w_sig_ok|]. split; [exact w_ok|]. split; [exact w_prop|]. split; [exact w_loop|].
  unfold same_thresholds. lra.
Qed.

(** ** C58: an overdamped configuration gives nonzero outputs in the first part: exponent above 100, positive output. *)
Theorem C58_refuted : exists pkl uv g l g' s, lin_table pkl /\ q_ok g /\ sigmad2_1 (N := RNum) pkl uv (2 / 100) = Ok s /\
  100 < (2 / 100 * (2 / 100) * s + 2 / 100 * (2 / 100) * s + 2 / 100 * (2 / 100) * s) / 2 /\
  bispectrum_1loop_I (N := RNum) pkl POLY uv g g g (2 / 100) (2 / 100) (2 / 100) (repeat 0 8) = Ok (l, g') /\ 0 < at_ l 0.
Proof. exact overdamped. Qed.
Print Assumptions C58_refuted.
(** The second part does return zeros. *)
Theorem C58_second_part (pkl : Pk RNum) im uv lmin lmax k xx0 xx1 xx2 xx3 xx4 sk sp skp :
  let p := exp (lmin + (lmax - lmin) * xx0) in let mu := - (1) + 2 * xx1 in
  let kp := k * sqrt (1 + p / k * (p / k) - 2 * (p / k) * mu) in
  sigmad2_1 pkl uv k = Ok sk -> sigmad2_1 pkl uv p = Ok sp -> sigmad2_1 pkl uv kp = Ok skp ->
  100 <= (k * k * sk + p * p * sp + kp * kp * skp) / 2 ->
  kernel_A_tA_2loop_II_III (N := RNum) pkl im uv lmin lmax k [xx0; xx1; xx2; xx3; xx4] = Ok (repeat 0 12).
Proof. exact (II_III_dropped pkl im uv lmin lmax k xx0 xx1 xx2 xx3 xx4 sk sp skp). Qed.
Print Assumptions C58_second_part.
(** The hypotheses of the second part are met: at k = 2/100, x = mu = ... with p = k and the angle 60 degrees the
    triangle is the equilateral one of [C58_refuted]. *)
Example C58_second_part_ex : exists pkl uv s xx0, let k := 2 / 100 in let p := exp (0 + (1 - 0) * xx0) in
  let kp := k * sqrt (1 + p / k * (p / k) - 2 * (p / k) * (- (1) + 2 * (3 / 4))) in
  sigmad2_1 (N := RNum) pkl uv k = Ok s /\ sigmad2_1 (N := RNum) pkl uv p = Ok s /\ sigmad2_1 (N := RNum) pkl uv kp = Ok s /\
  100 <= (k * k * s + p * p * s + kp * kp * s) / 2.
Proof. exact overdamped_II. Qed.

(** ** C59: the integrand of gamma3 at a sample point.  p and q are the two sampled vectors, r = k - p - q the third;
    the integrand is twice the density, times the Jacobian of the sampling, where |q| <= |r| and r is in range. *)
Theorem C59_value (pkl : Pk RNum) im (P : R -> R) qmin qmax lmin lmax k a b xx0 xx1 xx2 xx3 xx4 : (forall k, find1 pkl im k = Ok (P k)) ->
  let pl := exp (lmin + (lmax - lmin) * xx0) in let ql := exp (lmin + (lmax - lmin) * xx3) in
  let p := polar pl (xx1 * PI) (xx2 * 2 * PI) in let q := polar ql (xx4 * PI) 0 in let r := vminus (vminus (0, 0, k) p) q in
  kernel_pk_gamma3_tree (N := RNum) pkl im qmin qmax lmin lmax k a b [xx0; xx1; xx2; xx3; xx4] =
  Ok (if Rle_dec qmin (norm r) then if Rle_dec (norm r) qmax then if Rle_dec (norm q) (norm r) then
        2 * (gamma3_density K3c P (is_theta a) (is_theta b) p q r * (pl ^ 3 * ql ^ 3 * sin (xx1 * PI) * sin (xx4 * PI) * ((lmax - lmin) * PI * (2 * PI)) ^ 2))
      else 0 else 0 else 0).
Proof. exact (gamma3_val pkl im P qmin qmax lmin lmax k a b xx0 xx1 xx2 xx3 xx4). Qed.
Print Assumptions C59_value.
(** The restriction written in the code is |q| <= |k-p-q|. *)
Theorem C59_half_region u q : dot q u <= 5 / 10 * norm u * norm u <-> norm q <= norm (vminus u q).
Proof. exact (half_region u q). Qed.
Print Assumptions C59_half_region.
(** The density is symmetric in q and r at every point, and on a mirror pair the doubled half region adds up to the
    whole region, for every symmetric domain. *)
Theorem C59_symmetric P a b p q r : gamma3_density K3c P a b p r q = gamma3_density K3c P a b p q r.
Proof. exact (density_sym P a b p q r). Qed.
Print Assumptions C59_symmetric.
Theorem C59_folding P a b k p q (inside : vector -> vector -> Prop) (HI : forall q r, {inside q r} + {~ inside q r}) :
  (forall q r, inside q r <-> inside r q) -> let r := vminus (vminus k p) q in norm q <> norm r ->
  let full q r := if HI q r then gamma3_density K3c P a b p q r else 0 in
  let half q r := if HI q r then if Rle_dec (norm q) (norm r) then 2 * gamma3_density K3c P a b p q r else 0 else 0 in
  vminus (vminus k p) r = q /\ half q r + half r q = full q r + full r q.
Proof. exact (fold_mirror P a b k p q inside HI). Qed.
Print Assumptions C59_folding.
(** Away from the guard the density is the one of perturbation theory. *)
Theorem C59_pt P a b p q r : p <> vzero -> q <> vzero -> r <> vzero ->
  guard_ok (vplus p q) -> guard_ok (vplus q r) -> guard_ok (vplus r p) -> guard_ok (vplus p (vplus q r)) ->
  gamma3_density K3c P a b p q r = gamma3_density pt3 P a b p q r.
Proof. exact (gamma3_pt P a b p q r). Qed.
Print Assumptions C59_pt.
Example C59_ex : guard_ok (vplus (1, 0, 0) (0, 1, 0)) /\ norm (0, 1, 0) <> norm (0, 0, 2) /\ (forall q r : vector, norm q <= 3 /\ norm r <= 3 <-> norm r <= 3 /\ norm q <= 3).
Proof.
  split; [unfold guard_ok; cbn; rewrite !Rabs_pos_eq by lra; lra|]. split; [|tauto]. unfold norm, dot. intros E. apply sqrt_inj in E; lra.
Qed.
