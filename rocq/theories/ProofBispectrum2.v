(** ProofBispectrum2: exchange of two sides, overdamped configurations, and the gamma3 integrand. *)
From Coq Require Import Reals Lra Lia List Bool.
From Verif Require Import Base Num BaseFacts Common Kernels Gamma2 Integrals Spec SpecPT SpecBispectrum SpecBisp2 SpecLoops SpecScratch SpecTable ProofKernels ProofScratch ProofScratch2 ProofScratch3 ProofBispectrum ProofCommon2 ProofCommon3 ProofFindPkR ProofSigma ProofGamma2.
Import ListNotations.
Local Open Scope R_scope.

(** ** Exchange of p and k' *)
Lemma outputs_exchange onp onkp onk P S G1 T2 G2 k p kp : (forall t, T2 t p kp k = T2 t kp p k) -> (forall t, G2 t p kp k = G2 t kp p k) ->
  outputs_I onkp onp onk P S G1 T2 G2 k kp p = exchange (outputs_I onp onkp onk P S G1 T2 G2 k p kp).
Proof.
  intros HT HG. unfold outputs_I, exchange, reg_bispectrum. cbn zeta. cbn [skipn firstn app]. rewrite !HT, !HG.
  replace (k * k * S k + kp * kp * S kp + p * p * S p) with (k * k * S k + p * p * S p + kp * kp * S kp) by ring.
  repeat (apply f_equal2; [ring|]). reflexivity.
Qed.
Lemma T2c_comm t k1 k2 k3 : T2c t k1 k2 k3 = T2c t k2 k1 k3.
Proof. unfold T2c, gamma2_tree. rewrite F2_fast_comm. f_equal. rn. unfold Rdiv. ring. Qed.
Lemma thresholds k p kp : same_thresholds k p kp ->
  Rleb (1 / 100) p && Rleb (1 / 100) k = Rleb (3 / 100) p && Rleb (1 / 100) k /\ Rleb (1 / 100) kp && Rleb (1 / 100) k = Rleb (3 / 100) kp && Rleb (1 / 100) k.
Proof.
  unfold same_thresholds, Rleb. intros H. destruct (Rle_dec (1 / 100) k); [|rewrite !andb_false_r; auto]. rewrite !andb_true_r.
  destruct H as [H|[H H']]; [lra|]. split; repeat destruct (Rle_dec _ _); try reflexivity; lra.
Qed.
Lemma bisp_I_exchange pkl im uv g1 gd gt P S G1 G2 k p kp out : (forall k, find1 (N := RNum) pkl im k = Ok (P k)) ->
  (forall k, sigmad2_1 (N := RNum) pkl uv k = Ok (S k)) -> q_ok g1 -> propagator_is g1 G1 -> one_loop_is gd gt G2 -> zlen out = 8%Z ->
  same_thresholds k p kp -> (forall t, G2 t p kp k = G2 t kp p k) ->
  exists l g g', bispectrum_1loop_I (N := RNum) pkl im uv g1 gd gt k p kp out = Ok (l, g) /\
    bispectrum_1loop_I (N := RNum) pkl im uv g1 gd gt k kp p out = Ok (exchange l, g').
Proof.
  intros HP HS Hok H1 H2 HO HT HG.
  destruct (bisp_I_val pkl im uv g1 gd gt P S G1 G2 HP HS Hok H1 H2 k p kp out HO) as [g E].
  destruct (bisp_I_val pkl im uv g1 gd gt P S G1 G2 HP HS Hok H1 H2 k kp p out HO) as [g' E'].
  eexists _, g, g'. split; [exact E|]. rewrite E'. f_equal. f_equal. destruct (thresholds k p kp HT) as [T1 T2]. rewrite T2, <- T1.
  apply outputs_exchange; [intros t; apply T2c_comm|exact HG].
Qed.

(** ** Witnesses: an equilateral triangle of sides 2/100, a flat spectrum c *)
Section Witness.
Variable c : R.
Hypothesis Hc : 0 < c.
Definition wK : list R := [1 / 100; 2 / 100; 3 / 100].
Definition wP : list R := [c; c; c].
Definition wtab : Pk RNum := mk_table (N := RNum) wK wP.
Definition w_g : glq RNum := mkGlq (N := RNum) 1 1 [1] [1] [1] [0].
Lemma w_inc : increasing wK.
Proof.
  intros i j Hij. unfold wK in *. cbn [length] in Hij. unfold at_.
  destruct i as [|[|[|i]]]; destruct j as [|[|[|j]]]; cbn [nth]; try lia; lra.
Qed.
Lemma w_lin : lin_table wtab.
Proof. repeat split; discriminate. Qed.
Definition w_find (k : R) : R := match find1 (N := RNum) wtab POLY k with Ok v => v | Err _ => 0 end.
Definition w_sig (k : R) : R := match sigmad2_1 (N := RNum) wtab 10 k with Ok v => v | Err _ => 0 end.
Lemma w_find_ok k : find1 (N := RNum) wtab POLY k = Ok (w_find k).
Proof. unfold w_find. destruct (find1_ok wtab k w_lin) as [v ->]. reflexivity. Qed.
Lemma w_sig_ok k : sigmad2_1 (N := RNum) wtab 10 k = Ok (w_sig k).
Proof. unfold w_sig. destruct (ProofScratch2.sigmad2_ok wtab (10 : T RNum) k w_lin) as [v ->]. reflexivity. Qed.
Lemma w_P : w_find (2 / 100) = c.
Proof.
  pose proof (find_pk_grid wK wP eq_refl eq_refl w_inc POLY [1%nat] ltac:(cbn; lia)) as H. cbn [map] in H. change (at_ wK 1) with (2 / 100) in H.
  assert (E : find1 (N := RNum) wtab POLY (2 / 100) = Ok c).
  { unfold find1. refine (f_equal (fun r => bind r (fun l => rd l 0)) (H _ _)).
    - intros i j Hij. cbn [length] in Hij. replace i with 0%nat by lia. replace j with 0%nat by lia. lia.
    - intros i [<-|[]]. cbn. lia. }
  unfold w_find. rewrite E. reflexivity.
Qed.
Lemma w_S : w_sig (2 / 100) = c / (300 * PI ^ 2).
Proof.
  assert (B : (1 <= zlen wK < 2 ^ 62)%Z) by (split; [discriminate|reflexivity]).
  pose proof (sigmad2_saturates_final wK wP (2 / 100) 10 eq_refl B w_inc ltac:(change (3 / 100 <= 2 / 100 * 10); lra)) as H.
  assert (E : sigmad2_1 (N := RNum) wtab 10 (2 / 100) = Ok (1 / 6 / PI ^ 2 * trapz wK wP)) by exact (f_equal (fun r => bind r (fun l => rd l 0)) H).
  unfold w_sig. rewrite E. unfold trapz. change (length wK - 1)%nat with 2%nat. cbn [rsum]. unfold at_, wK, wP. cbn [nth]. pose proof PI_RGT_0. field. lra.
Qed.
Lemma w_prop : propagator_is w_g (fun _ _ => 0).
Proof.
  intros t k. assert (H : forall (v w : R) (g : glq RNum), v = w -> exists g', Ok (v, g) = Ok (w, g')) by (intros v w g ->; eauto).
  unfold gamma1_1loop. cbn [bind]. unfold update_gauss_legendre_q.
  destruct t; cbn [flag_of]; apply H; rn; unfold Rdiv; ring.
Qed.
Lemma w_loop : one_loop_is w_g w_g (fun _ _ _ _ => 0).
Proof.
  intros k1 k2 k3. unfold gamma2_1loop. change (gq_nq w_g) with 1%Z. unfold for_. change (Z.to_nat (1 - 0)) with 1%nat. cbn [loop].
  rewrite !(rd_ok (0 : T RNum)) by (split; [discriminate|reflexivity]). cbn [bind].
  destruct (kernel_gamma2_ok DELTA k1 k2 k3 (znth (0 : T RNum) (gq_q w_g) 0)) as [r ->].
  destruct (kernel_gamma2_ok THETA k1 k2 k3 (znth (0 : T RNum) (gq_q w_g) 0)) as [r' ->]. cbn [bind].
  change (znth (0 : T RNum) (gq_pk w_g) 0) with 0. rn. split; f_equal; unfold Rdiv; ring.
Qed.
Lemma w_ok : q_ok w_g.
Proof. repeat split; discriminate. Qed.
(** Tree level: 2/7 and 1/14. *)
Lemma w_tree t : T2c t (2 / 100) (2 / 100) (2 / 100) = if t then 1 / 14 else 2 / 7.
Proof. unfold T2c, gamma2_tree, F2_sym_fast. destruct t; cbn [flag_of]; rnl; field. Qed.
Lemma w_out : let s := 2 / 10000 * (c / (300 * PI ^ 2)) in exists g', bispectrum_1loop_I (N := RNum) wtab POLY 10 w_g w_g w_g (2 / 100) (2 / 100) (2 / 100) (repeat 0 8) =
  Ok (outputs_I true false true (fun _ => c) (fun _ => c / (300 * PI ^ 2)) (fun _ _ => 0) (fun t _ _ _ => if t then 1 / 14 else 2 / 7) (fun _ _ _ _ => 0) (2 / 100) (2 / 100) (2 / 100), g').
Proof.
  intros s. destruct (bisp_I_val wtab POLY 10 w_g w_g w_g w_find w_sig (fun _ _ => 0) (fun _ _ _ _ => 0) w_find_ok w_sig_ok w_ok w_prop w_loop (2 / 100) (2 / 100) (2 / 100) (repeat 0 8) eq_refl) as [g' E].
  exists g'. rewrite E. f_equal. f_equal. unfold Rleb. destruct (Rle_dec (1 / 100) (2 / 100)); [|lra]. destruct (Rle_dec (3 / 100) (2 / 100)); [lra|]. cbn [andb].
  unfold outputs_I, reg_bispectrum, reg_prop2. cbn beta zeta. rewrite !w_P, !w_S, !w_tree. reflexivity.
Qed.
(** A and A~ differ although the triangle is symmetric. *)
Lemma w_asym : exists l g', bispectrum_1loop_I (N := RNum) wtab POLY 10 w_g w_g w_g (2 / 100) (2 / 100) (2 / 100) (repeat 0 8) = Ok (l, g') /\ l <> exchange l /\ 0 < at_ l 0.
Proof.
  destruct w_out as [g' E]. eexists _, g'. split; [exact E|].
  unfold outputs_I, exchange, reg_bispectrum, reg_prop1, reg_prop2. cbn zeta. cbn [skipn firstn app]. unfold at_. cbn [nth].
  set (X := exp _). assert (HX : 0 < X) by apply exp_pos.
  set (s := c / (300 * PI ^ 2)). assert (Hs : 0 < s). { unfold s. apply Rdiv_lt_0_compat; [exact Hc|]. pose proof PI_RGT_0. pose proof (pow_lt PI 2 H). lra. }
  split.
  - intros E'. injection E'. intros _ _ _ _ _ _ _ E0. clear E'.
    assert (Hz : 2 * (c * c) * X * (1 + 2 / 100 * (2 / 100) * s / 2) * (1 + 2 / 100 * (2 / 100) * s / 2) * (1 / 14 - 2 / 7) * (2 / 100 * (2 / 100) * s / 2) = 0) by nra.
    assert (0 < c * c) by nra. assert (0 < c * c * X) by nra. set (a := 1 + 2 / 100 * (2 / 100) * s / 2) in *. assert (0 < a * a) by (unfold a; nra).
    assert (0 < c * c * X * (a * a)) by nra. nra.
  - set (a := 1 + 2 / 100 * (2 / 100) * s / 2). assert (Ha : 1 < a) by (unfold a; nra). assert (0 < c * c) by nra. assert (0 < c * c * X) by nra. 
    assert (0 < a * a) by nra. assert (0 < a * a * a) by nra. nra.
Qed.
End Witness.
Lemma overdamped : exists pkl uv g l g' s, lin_table pkl /\ q_ok g /\ sigmad2_1 (N := RNum) pkl uv (2 / 100) = Ok s /\
  100 < (2 / 100 * (2 / 100) * s + 2 / 100 * (2 / 100) * s + 2 / 100 * (2 / 100) * s) / 2 /\
  bispectrum_1loop_I (N := RNum) pkl POLY uv g g g (2 / 100) (2 / 100) (2 / 100) (repeat 0 8) = Ok (l, g') /\ 0 < at_ l 0.
Proof.
  assert (Hc : 0 < 10 ^ 10) by (apply pow_lt; lra).
  destruct (w_asym (10 ^ 10) Hc) as [l [g' [E [_ H]]]].
  exists (wtab (10 ^ 10)), 10, w_g, l, g', (w_sig (10 ^ 10) (2 / 100)).
  split; [apply w_lin|]. split; [exact w_ok|]. split; [apply w_sig_ok|]. split; [|auto]. rewrite w_S.
  pose proof PI_RGT_0 as HP. pose proof PI_4 as HP4. assert (H2 : 0 < PI ^ 2 <= 16) by (cbn; nra).
  apply (Rmult_lt_reg_r (PI ^ 2)); [lra|].
  replace ((2 / 100 * (2 / 100) * (10 ^ 10 / (300 * PI ^ 2)) + 2 / 100 * (2 / 100) * (10 ^ 10 / (300 * PI ^ 2)) + 2 / 100 * (2 / 100) * (10 ^ 10 / (300 * PI ^ 2))) / 2 * PI ^ 2)
    with (10 ^ 10 * (2 / 1000000)) by (field; lra). lra.
Qed.
(** The second part does drop them. *)
Lemma II_III_dropped (pkl : Pk RNum) im uv lmin lmax k xx0 xx1 xx2 xx3 xx4 sk sp skp :
  let p := exp (lmin + (lmax - lmin) * xx0) in let mu := - (1) + 2 * xx1 in
  let kp := k * sqrt (1 + p / k * (p / k) - 2 * (p / k) * mu) in
  sigmad2_1 pkl uv k = Ok sk -> sigmad2_1 pkl uv p = Ok sp -> sigmad2_1 pkl uv kp = Ok skp ->
  100 <= (k * k * sk + p * p * sp + kp * kp * skp) / 2 ->
  kernel_A_tA_2loop_II_III (N := RNum) pkl im uv lmin lmax k [xx0; xx1; xx2; xx3; xx4] = Ok (repeat 0 12).
Proof.
  intros p mu kp H1 H2 H3 HE. unfold kernel_A_tA_2loop_II_III.
  rewrite !(rd_ok (0 : T RNum)) by (split; [discriminate|reflexivity]). cbn [bind].
  change (znth (0 : T RNum) [xx0; xx1; xx2; xx3; xx4] 0) with xx0. change (znth (0 : T RNum) [xx0; xx1; xx2; xx3; xx4] 1) with xx1.
  rn. cbn zeta. fold p. destruct (Rltb _ _); [reflexivity|]. rewrite H1. cbn [bind]. rewrite H2. cbn [bind].
  rn_in H3. unfold kp, mu in H3. cbn zeta in H3. rewrite H3. cbn [bind]. unfold kp, mu in HE.
  unfold Rleb. destruct (Rle_dec _ _); [reflexivity|contradiction].
Qed.

(** ** gamma3 *)
Lemma dot_sub u q : dot (vminus u q) (vminus u q) = dot u u - 2 * dot q u + dot q q.
Proof. destruct u as [[? ?] ?], q as [[? ?] ?]. cbn. ring. Qed.
Lemma norm_le u v : norm u <= norm v <-> dot u u <= dot v v.
Proof. unfold norm. pose proof (dot_nonneg u). pose proof (dot_nonneg v). split; intros H1; [apply sqrt_le_0; assumption|apply sqrt_le_1; assumption]. Qed.
Lemma norm2 u : norm u * norm u = dot u u.
Proof. unfold norm. apply sqrt_sqrt, dot_nonneg. Qed.
Lemma half_region u q : dot q u <= 5 / 10 * norm u * norm u <-> norm q <= norm (vminus u q).
Proof. rewrite norm_le, dot_sub. replace (5 / 10 * norm u * norm u) with (5 / 10 * (norm u * norm u)) by ring. rewrite norm2. lra. Qed.
Lemma vminus_vminus u q : vminus u (vminus u q) = q.
Proof. destruct u as [[? ?] ?], q as [[? ?] ?]. cbn. f_equal; [f_equal|]; ring. Qed.
Lemma density_sym P a b p q r : gamma3_density K3c P a b p r q = gamma3_density K3c P a b p q r.
Proof.
  unfold gamma3_density, K3c. replace (F3_sym (N := RNum) (flag_of a) (vec_of p) (vec_of r) (vec_of q)) with (F3_sym (N := RNum) (flag_of a) (vec_of p) (vec_of q) (vec_of r)).
  2: { rewrite (proj1 (F3_sym_perm (flag_of a) p q r)). rewrite (proj2 (F3_sym_perm (flag_of a) q p r)). reflexivity. }
  replace (F3_sym (N := RNum) (flag_of b) (vec_of p) (vec_of r) (vec_of q)) with (F3_sym (N := RNum) (flag_of b) (vec_of p) (vec_of q) (vec_of r)).
  2: { rewrite (proj1 (F3_sym_perm (flag_of b) p q r)). rewrite (proj2 (F3_sym_perm (flag_of b) q p r)). reflexivity. }
  ring.
Qed.
Lemma polar_norm (r t f : R) : 0 <= r -> norm (polar r t f) = r.
Proof.
  intros H. unfold norm, polar, dot. rewrite <- (sqrt_square r) at 7 by assumption. f_equal.
  pose proof (sin2_cos2 t) as E1. pose proof (sin2_cos2 f) as E2. unfold Rsqr in *.
  transitivity (r * r * (sin t * sin t * (sin f * sin f + cos f * cos f) + cos t * cos t)); [ring|]. rewrite E2, Rmult_1_r, E1. ring.
Qed.
Lemma gamma3_val (pkl : Pk RNum) im (P : R -> R) qmin qmax lmin lmax k a b xx0 xx1 xx2 xx3 xx4 : (forall k, find1 pkl im k = Ok (P k)) ->
  let pl := exp (lmin + (lmax - lmin) * xx0) in let ql := exp (lmin + (lmax - lmin) * xx3) in
  let p := polar pl (xx1 * PI) (xx2 * 2 * PI) in let q := polar ql (xx4 * PI) 0 in let r := vminus (vminus (0, 0, k) p) q in
  kernel_pk_gamma3_tree (N := RNum) pkl im qmin qmax lmin lmax k a b [xx0; xx1; xx2; xx3; xx4] =
  Ok (if Rle_dec qmin (norm r) then if Rle_dec (norm r) qmax then if Rle_dec (norm q) (norm r) then
        2 * (gamma3_density K3c P (is_theta a) (is_theta b) p q r * (pl ^ 3 * ql ^ 3 * sin (xx1 * PI) * sin (xx4 * PI) * ((lmax - lmin) * PI * (2 * PI)) ^ 2))
      else 0 else 0 else 0).
Proof.
  intros HP pl ql p q r. unfold kernel_pk_gamma3_tree.
  rewrite !(rd_ok (0 : T RNum)) by (split; [discriminate|reflexivity]). cbn [bind].
  change (znth (0 : T RNum) [xx0; xx1; xx2; xx3; xx4] 0) with xx0. change (znth (0 : T RNum) [xx0; xx1; xx2; xx3; xx4] 1) with xx1.
  change (znth (0 : T RNum) [xx0; xx1; xx2; xx3; xx4] 2) with xx2. change (znth (0 : T RNum) [xx0; xx1; xx2; xx3; xx4] 3) with xx3. change (znth (0 : T RNum) [xx0; xx1; xx2; xx3; xx4] 4) with xx4.
  cbn zeta. rn. fold pl ql. cbn [v0 v1 v2].
  assert (Hp : mkV (N := RNum) (pl * sin (xx1 * PI) * cos (xx2 * 2 * PI)) (pl * sin (xx1 * PI) * sin (xx2 * 2 * PI)) (pl * cos (xx1 * PI)) = vec_of p) by reflexivity.
  assert (Hq : mkV (N := RNum) (ql * sin (xx4 * PI)) 0 (ql * cos (xx4 * PI)) = vec_of q) by (unfold q, polar, vec_of; rewrite cos_0, sin_0, Rmult_1_r, Rmult_0_r; reflexivity).
  assert (Hr : mkV (N := RNum) (- (pl * sin (xx1 * PI) * cos (xx2 * 2 * PI)) - ql * sin (xx4 * PI)) (- (pl * sin (xx1 * PI) * sin (xx2 * 2 * PI)) - 0) (k - pl * cos (xx1 * PI) - ql * cos (xx4 * PI)) = vec_of r).
  { unfold r, q, p, polar, vminus, SpecPT.vopp, vplus, vec_of. rewrite cos_0, sin_0. f_equal; ring. }
  set (u := vminus (0, 0, k) p) in *.
  assert (Hu : mkV (N := RNum) (- (pl * sin (xx1 * PI) * cos (xx2 * 2 * PI))) (- (pl * sin (xx1 * PI) * sin (xx2 * 2 * PI))) (k - pl * cos (xx1 * PI)) = vec_of u).
  { unfold u, p, polar, vminus, SpecPT.vopp, vplus, vec_of. f_equal; ring. }
  change (T RNum) with R in *. rewrite Hr, Hu, Hq, Hp, !norm3_of, dot3_of, !HP. cbn [bind]. rewrite !K3c_a. lits.
  assert (Np : norm p = pl) by (apply polar_norm; left; apply exp_pos).
  assert (Nq : norm q = ql) by (apply polar_norm; left; apply exp_pos).
  assert (G : forall (c : bool) (x y : R), (if c then Ok x else Ok y) = Ok (if c then x else y)) by (intros [|]; reflexivity). rewrite G. f_equal.
  unfold Rleb. destruct (Rle_dec qmin (norm r)); [|reflexivity]. destruct (Rle_dec (norm r) qmax); [|reflexivity]. cbn [andb].
  pose proof (half_region u q) as HR. destruct (Rle_dec (dot q u) _) as [H|H]; destruct (Rle_dec (norm q) (norm r)) as [H'|H']; try tauto.
  unfold gamma3_density. rewrite Np, Nq. ring.
Qed.
Lemma gamma3_pt P a b p q r : p <> vzero -> q <> vzero -> r <> vzero ->
  guard_ok (vplus p q) -> guard_ok (vplus q r) -> guard_ok (vplus r p) -> guard_ok (vplus p (vplus q r)) ->
  gamma3_density K3c P a b p q r = gamma3_density pt3 P a b p q r.
Proof. intros. unfold gamma3_density, K3c. rewrite !F3_sym_pt by assumption. destruct a, b; reflexivity. Qed.
(** Folding: over a pair of mirror points the doubled half region counts each once. *)
Lemma fold_mirror P a b k p q (inside : vector -> vector -> Prop) (HI : forall q r, {inside q r} + {~ inside q r}) :
  (forall q r, inside q r <-> inside r q) -> let r := vminus (vminus k p) q in norm q <> norm r ->
  let full q r := if HI q r then gamma3_density K3c P a b p q r else 0 in
  let half q r := if HI q r then if Rle_dec (norm q) (norm r) then 2 * gamma3_density K3c P a b p q r else 0 else 0 in
  vminus (vminus k p) r = q /\ half q r + half r q = full q r + full r q.
Proof.
  intros HS r Hn full half. split; [apply vminus_vminus|]. unfold full, half.
  pose proof (HS q r) as H. destruct (HI q r), (HI r q); try tauto.
  rewrite (density_sym P a b p q r). destruct (Rle_dec (norm q) (norm r)), (Rle_dec (norm r) (norm q)); lra.
Qed.
Lemma asymmetric : exists pkl uv g l g', lin_table pkl /\ q_ok g /\
  bispectrum_1loop_I (N := RNum) pkl POLY uv g g g (2 / 100) (2 / 100) (2 / 100) (repeat 0 8) = Ok (l, g') /\ l <> exchange l.
Proof.
  destruct (w_asym 1 ltac:(lra)) as [l [g' [E [H _]]]]. exists (wtab 1), 10, w_g, l, g'. split; [apply w_lin|]. split; [exact w_ok|]. auto.
Qed.
Lemma overdamped_II : exists pkl uv s xx0, let k := 2 / 100 in let p := exp (0 + (1 - 0) * xx0) in
  let kp := k * sqrt (1 + p / k * (p / k) - 2 * (p / k) * (- (1) + 2 * (3 / 4))) in
  sigmad2_1 (N := RNum) pkl uv k = Ok s /\ sigmad2_1 (N := RNum) pkl uv p = Ok s /\ sigmad2_1 (N := RNum) pkl uv kp = Ok s /\
  100 <= (k * k * s + p * p * s + kp * kp * s) / 2.
Proof.
  exists (wtab (10 ^ 10)), 10, (w_sig (10 ^ 10) (2 / 100)), (ln (2 / 100)). intros k p kp.
  assert (Ep : p = 2 / 100) by (unfold p; rewrite Rplus_0_l, Rminus_0_r, Rmult_1_l; apply exp_ln; lra).
  assert (Ek : kp = 2 / 100).
  { unfold kp. rewrite Ep. unfold k. replace (1 + _ - _) with 1 by field. rewrite sqrt_1. ring. }
  rewrite Ep, Ek. unfold k. split; [apply w_sig_ok|]. split; [apply w_sig_ok|]. split; [apply w_sig_ok|]. rewrite w_S.
  pose proof PI_RGT_0 as HP. pose proof PI_4 as HP4. assert (H2 : 0 < PI ^ 2 <= 16) by (cbn; nra).
  apply (Rmult_le_reg_r (PI ^ 2)); [lra|].
  replace ((2 / 100 * (2 / 100) * (10 ^ 10 / (300 * PI ^ 2)) + 2 / 100 * (2 / 100) * (10 ^ 10 / (300 * PI ^ 2)) + 2 / 100 * (2 / 100) * (10 ^ 10 / (300 * PI ^ 2))) / 2 * PI ^ 2)
    with (10 ^ 10 * (2 / 1000000)) by (field; lra). lra.
Qed.
