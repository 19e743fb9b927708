(** ProofColumns: the 2-loop A terms. *)
From Coq Require Import ZArith Reals Lra Lia List Bool.
From Verif Require Import Base Num BaseFacts Common Kernels Gamma2 Integrals Spec SpecPT SpecIntegrals SpecLoops SpecScratch SpecBispectrum SpecBisp2 Sums ProofSearch ProofKernels
  ProofIntegrals ProofIntegrals2 ProofBispectrum ProofBispectrum2 SpecColumns.
Import ListNotations.
Local Open Scope R_scope.

Lemma rsum_scal n (f : nat -> R) c : rsum n (fun i => c * f i) = c * rsum n f.
Proof. induction n as [|n IH]; cbn; [ring|rewrite IH; ring]. Qed.
Lemma muquad_scal us ws lo hi c f : muquad us ws lo hi (fun mu => c * f mu) = c * muquad us ws lo hi f.
Proof.
  unfold muquad. destruct (Rlt_dec lo hi); [|ring]. rewrite <- rsum_scal. apply rsum_ext. intros. ring.
Qed.
Lemma itquad_scal half xs W us ws (f : nat -> R -> R) (s : nat -> R) :
  itquad half xs W us ws (fun i mu => s i * f i mu) = itquad half xs (fun i => s i * W i) us ws f.
Proof. unfold itquad. apply rsum_ext. intros i Hi. rewrite muquad_scal. ring. Qed.

Lemma five_tree wA wtA c k x mu pk pq pkq : (c < 5)%nat ->
  let q := qvec k x mu in let kq := kqvec k x mu in let mk := vopp (kvec k) in
  A_tree wA wtA c k x mu pk pq pkq =
  A_five (A_part wA wtA (fun b d => tree_bispectrum true b d q kq mk pq pkq pk) (fun b d => tree_bispectrum true b d kq q mk pkq pq pk)) c.
Proof.
  intros H. cbn zeta. do 5 (destruct c as [|c]; [unfold A_tree, A_five, A_part; ring|]). lia.
Qed.
Lemma A_first_kernel pkl im uv g1 gd gt P S G1 G2 (g0 g : glq RNum) k i mu : (forall k, find1 (N := RNum) pkl im k = Ok (P k)) ->
  (forall k, sigmad2_1 (N := RNum) pkl uv k = Ok (S k)) -> q_ok g1 -> propagator_is g1 G1 -> one_loop_is gd gt G2 ->
  q_table P g0 -> 0 < k -> update_gauss_legendre_q g0 k = Ok g -> (0 <= i < gq_nq g)%Z ->
  kernel_A_tA_2loop_I (N := RNum) pkl im uv g g1 gd gt i mu =
    Ok (comps 12 (fun c => at_ (xs_of g0 k) (Z.to_nat i) * A_first P S G1 G2 k (at_ (xs_of g0 k) (Z.to_nat i)) mu c)).
Proof.
  intros HP HS Hok H1 H2 Hg Hk E Hi. destruct (q_updated P g0 k Hg Hk) as [g' [E' [A1 [A2 [A3 [A4 [A5 [A6 [A7 [A8 [A9 A10]]]]]]]]]]].
  rewrite E in E'. injection E' as <-. destruct (A10 i Hi) as [R1 [R2 [R3 [R4 [R5 R6]]]]].
  unfold kernel_A_tA_2loop_I. rewrite R1. cbn [bind]. rewrite R4. cbn [bind]. rewrite A1, <- R3.
  set (x := znth 0 (gq_x g) i) in *. rn. fold (sep x mu).
  destruct (bisp_I_val pkl im uv g1 gd gt P S G1 G2 HP HS Hok H1 H2 k (k * x) (k * sep x mu) (repeat 0 8) eq_refl) as [u E1].
  change (T RNum) with R in *. unfold kernel_projection_A_tA. cbn zeta. rn_in E1. rn. rewrite E1. cbn [bind].
  unfold A_first. cbn zeta. match goal with |- context [A_components ?o _ _] => set (out := o) end.
  assert (Lo : zlen out = 8%Z) by reflexivity.
  unfold A_components. rewrite !(rd_ok (A := R) 0) by lia. cbn [bind]. apply f_equal. unfold comps. cbn [map seq app zipw].
  unfold A_part, fields_at, wA, wtA, kernel_projection_A_tA. cbn [fst snd nth]. rn.
  change (znth 0 out 0) with (at_ out 0). change (znth 0 out 1) with (at_ out 1). change (znth 0 out 2) with (at_ out 2). change (znth 0 out 3) with (at_ out 3).
  change (znth 0 out 4) with (at_ out 4). change (znth 0 out 5) with (at_ out 5). change (znth 0 out 6) with (at_ out 6). change (znth 0 out 7) with (at_ out 7).
  cbn [Nat.add].
  set (b0 := at_ out 0). set (b1 := at_ out 1). set (b2 := at_ out 2). set (b3 := at_ out 3). set (b4 := at_ out 4). set (b5 := at_ out 5). set (b6 := at_ out 6). set (b7 := at_ out 7).
  clearbody b0 b1 b2 b3 b4 b5 b6 b7. repeat (apply f_equal2; [now rewrite Rmult_comm|]). reflexivity.
Qed.
Lemma calc_A_I_val pkl im uv g1 gd gt P S G1 G2 (g : glq RNum) (m : glmu RNum) k : (forall k, find1 (N := RNum) pkl im k = Ok (P k)) ->
  (forall k, sigmad2_1 (N := RNum) pkl uv k = Ok (S k)) -> q_ok g1 -> propagator_is g1 G1 -> one_loop_is gd gt G2 ->
  q_table P g -> mu_rule m -> 0 < k ->
  exists g' m', calc_pk_A_2loop_I (N := RNum) pkl im uv g m g1 gd gt k =
    Ok (comps 12 (fun c => k * k * k / (2 * PI * PI) *
         itquad true (xs_of g k) (fun i => at_ (xs_of g k) i * at_ (gq_w g) i) (gm_muref m) (gm_wref m)
           (fun i mu => A_first P S G1 G2 k (at_ (xs_of g k) i) mu c)), g', m').
Proof.
  intros HP HS Hok H1 H2 Hg Hm Hk. unfold calc_pk_A_2loop_I.
  destruct (q_updated P g k Hg Hk) as [g' [E [A1 [A2 [A3 [A4 [A5 [A6 [A7 [A8 [A9 A10]]]]]]]]]]].
  rewrite E. cbn [bind].
  match goal with |- context [q_loop true g' m 12 ?kern ?add] =>
  destruct (q_loop_itquad true P g g' m 12 kern add
    (fun c i mu => at_ (xs_of g k) i * A_first P S G1 G2 k (at_ (xs_of g k) i) mu c) (fun i => at_ (gq_w g) i) k Hm Hg Hk E) as [m' [EQ _]] end.
  - intros i mu Hi Ha. exact (A_first_kernel pkl im uv g1 gd gt P S G1 G2 g g' k i mu HP HS Hok H1 H2 Hg Hk E Hi).
  - intros i f Hi. destruct (A10 i Hi) as [R1 [R2 [R3 [R4 [R5 R6]]]]]. rewrite R6. cbn [bind].
    unfold comps. rewrite map_map. reflexivity.
  - exists g', m'. change (T RNum) with R in *. rewrite EQ. cbn [bind]. apply f_equal. do 2 (apply f_equal2; [|reflexivity]).
    unfold comps. rewrite map_map. apply map_ext. intros c. rn. rewrite itquad_scal. ring.
Qed.
Lemma A_components_8 (b0 b1 b2 b3 b4 b5 b6 b7 a0 a1 a2 a3 a4 a5 t0 t1 t2 t3 t4 t5 : R) :
  A_components (N := RNum) [b0; b1; b2; b3; b4; b5; b6; b7] [a0; a1; a2; a3; a4; a5] [t0; t1; t2; t3; t4; t5] =
  Ok [a0 * b0; a1 * b1; a2 * b1; a3 * b2; a4 * b3; a5 * b3; t0 * b4; t1 * b5; t2 * b5; t3 * b6; t4 * b7; t5 * b7].
Proof. reflexivity. Qed.
Lemma A_second_kernel pkl im uv P S lmin lmax k xx0 xx1 xx2 xx3 xx4 : (forall k, find1 (N := RNum) pkl im k = Ok (P k)) ->
  (forall k, sigmad2_1 (N := RNum) pkl uv k = Ok (S k)) -> 0 < k -> 0 <= xx1 <= 1 ->
  kernel_A_tA_2loop_II_III (N := RNum) pkl im uv lmin lmax k [xx0; xx1; xx2; xx3; xx4] =
    Ok (comps 12 (fun c => A_second P S k (A_outer lmin lmax xx0 xx1) (A_loop lmin lmax xx2 xx3 xx4) c * A_volume lmin lmax xx2 xx3)).
Proof.
  intros HP HS Hk Hx. unfold kernel_A_tA_2loop_II_III.
  rewrite !(rd_ok (0 : T RNum)) by (split; [discriminate|reflexivity]). cbn [bind].
  change (znth (0 : T RNum) [xx0; xx1; xx2; xx3; xx4] 0) with xx0. change (znth (0 : T RNum) [xx0; xx1; xx2; xx3; xx4] 1) with xx1.
  change (znth (0 : T RNum) [xx0; xx1; xx2; xx3; xx4] 2) with xx2. change (znth (0 : T RNum) [xx0; xx1; xx2; xx3; xx4] 3) with xx3. change (znth (0 : T RNum) [xx0; xx1; xx2; xx3; xx4] 4) with xx4.
  cbn zeta. rn. unfold A_outer, A_loop, A_volume. cbn zeta.
  set (p := exp (lmin + (lmax - lmin) * xx0)). set (q := exp (lmin + (lmax - lmin) * xx2)).
  replace (- (1) + 2 * xx1) with (-1 + 2 * xx1) by ring. set (mu := -1 + 2 * xx1).
  assert (Hp : 0 < p) by apply exp_pos. assert (Hmu : -1 <= mu <= 1) by (unfold mu; lra).
  assert (Hs : 0 <= 1 - mu * mu) by nra.
  set (pp := (p * sqrt (1 - mu * mu), 0, p * mu)).
  assert (Np : norm pp = p).
  { unfold norm, pp, dot. rewrite <- (sqrt_square p) at 5 by lra. f_equal.
    replace (p * sqrt (1 - mu * mu) * (p * sqrt (1 - mu * mu))) with (p * p * (sqrt (1 - mu * mu) * sqrt (1 - mu * mu))) by ring.
    rewrite sqrt_sqrt by assumption. ring. }
  assert (Nk : norm (vminus (0, 0, k) pp) = k * sqrt (1 + p / k * (p / k) - 2 * (p / k) * mu)).
  { rewrite <- (sqrt_square k) at 2 by lra. rewrite <- sqrt_mult_alt by nra. unfold norm, pp, vminus, vplus, vopp, dot. f_equal.
    transitivity (p * p * (sqrt (1 - mu * mu) * sqrt (1 - mu * mu)) + (k - p * mu) * (k - p * mu)); [ring|].
    rewrite sqrt_sqrt by assumption. field. lra. }
  assert (Hreg : Rltb (5 / 10 / (p / k)) mu = negb (if Rle_dec (norm pp) (norm (vminus (0, 0, k) pp)) then true else false)).
  { unfold Rltb. assert (Q : mu <= 5 / 10 / (p / k) <-> norm pp <= norm (vminus (0, 0, k) pp)).
    { rewrite <- half_region. replace (norm (0, 0, k)) with k. 2: { unfold norm, dot. rewrite <- (sqrt_square k) at 1 by lra. f_equal. ring. }
      unfold pp, dot. replace (p * sqrt (1 - mu * mu) * 0 + 0 * 0 + p * mu * k) with (p * mu * k) by ring.
      replace (5 / 10 / (p / k)) with (5 / 10 * k / p) by (field; lra). split; intros H.
      - apply Rmult_le_compat_r with (r := p * k) in H; [|nra]. replace (5 / 10 * k / p * (p * k)) with (5 / 10 * k * k) in H by (field; lra). lra.
      - apply Rmult_le_reg_r with (r := p * k); [nra|]. replace (5 / 10 * k / p * (p * k)) with (5 / 10 * k * k) by (field; lra). lra. }
    destruct (Rlt_dec _ _), (Rle_dec _ _); cbn; try reflexivity; lra. }
  change (IZR (10 ^ 1)) with 10. rewrite Hreg. unfold A_second. destruct (Rle_dec (norm pp) _) as [Ha|Ha]; cbn [negb].
  2: { apply f_equal. unfold comps. cbn [map seq repeat]. repeat (apply f_equal2; [ring|]). reflexivity. }
  rewrite Nk, Np. rewrite HS. cbn [bind]. rewrite HS. cbn [bind]. rewrite HS. cbn [bind].
  set (kp := k * sqrt _). set (E := triangle_damping S k p kp).
  replace ((k * k * S k + p * p * S p + kp * kp * S kp) / 2) with E by (unfold E, triangle_damping; field).
  unfold Rleb. destruct (Rle_dec 100 E) as [He|He], (Rlt_dec E 100) as [He'|He']; try (exfalso; lra).
  { apply f_equal. unfold comps. cbn [map seq repeat]. repeat (apply f_equal2; [ring|]). reflexivity. }
  match goal with |- context [bispectrum_1loop_II_III _ _ ?a ?b ?c ?d THETA DELTA DELTA] =>
    change a with (vec_of pp); change c with (vec_of (0, 0, - k)); change d with (vec_of (polar q (xx3 * PI) (xx4 * 2 * PI))) end.
  match goal with |- context [bispectrum_1loop_II_III _ _ ?a ?b ?c ?d THETA DELTA DELTA] =>
    replace b with (vec_of (vminus (0, 0, k) pp)) by (unfold vec_of, vminus, vplus, vopp, pp; cbn [v0 v1 v2]; rn; f_equal; ring) end.
  set (qq := polar q _ _). set (kk := vminus (0, 0, k) pp). 
  assert (BV : forall u v b d, bispectrum_1loop_II_III (N := RNum) pkl im (vec_of u) (vec_of v) (vec_of (0, 0, - k)) (vec_of qq) THETA b d =
    Ok (loop222 K2c P qq (u, true) (v, is_theta b) (0, 0, - k, is_theta d), loop321 K2c K3c P qq (u, true) (v, is_theta b) (0, 0, - k, is_theta d)))
    by (intros; apply (bisp_II_val pkl im P u v (0, 0, - k) qq THETA b d HP)).
  rewrite !BV. cbn [bind is_theta].
  assert (Dm : dot pp (0, 0, 1) / p = mu) by (unfold pp, dot; field; lra). rewrite Dm.
  set (y := p / k). unfold A_part, wA, wtA, kernel_projection_A_tA. cbn zeta. cbn [map fst snd nth]. rn.
  rewrite A_components_8. apply f_equal. unfold comps. cbn [map seq].
  set (V := (lmax - lmin) * (lmax - lmin) * 4 * PI * PI).
  replace ((lmax - lmin) * 2) with (2 * (lmax - lmin)) by ring.
  replace (exp (- E) * y * q * q * q * sin (xx3 * PI) * V) with (y * exp (- E) * (q ^ 3 * sin (xx3 * PI) * (2 * (lmax - lmin)) * ((lmax - lmin) * PI * (2 * PI)))) by (unfold V; ring).
  set (W := q ^ 3 * _ * _ * _). set (X := exp (- E)). clearbody W X.
  repeat (apply f_equal2; [match goal with |- ?a * (y * X * W) * ?b = _ => generalize a b; intros ? ?; ring end|]). reflexivity.
Qed.
