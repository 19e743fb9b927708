(** ProofIntegrals5: the 1-loop A terms are the projection weights contracted with tree-level bispectra. *)
From Coq Require Import Reals Lra Lia List.
From Coquelicot Require Import Coquelicot.
From Verif Require Import Base Num BaseFacts Common Kernels Gamma2 Integrals Spec SpecPT SpecIntegrals SpecLoops SpecTable Sums ProofSearch ProofKernels ProofGL2 ProofIntegrals ProofIntegrals2 ProofIntegrals3 ProofIntegrals4.
Import ListNotations.
Local Open Scope R_scope.

Lemma pt2_dots t p q : p <> vzero -> q <> vzero -> pt2 t p q =
  (if t then 3 else 5) / 7 + dot p q * (1 / dot p p + 1 / dot q q) / 2 + (if t then 4 else 2) / 7 * dot p q ^ 2 / dot p p / dot q q.
Proof.
  intros Hp Hq. pose proof (F2_full_pt (if t then THETA else DELTA) p q Hp Hq) as E. rewrite F2_full_val in E.
  replace (is_theta (if t then THETA else DELTA)) with t in E by (destruct t; reflexivity). rewrite <- E.
  apply dot_pos in Hp. apply dot_pos in Hq. destruct t; unfold F2_sym_fast; rnl; field; lra.
Qed.
(** Kernels between the three sides, in terms of x and mu. *)
Definition f2v (t : bool) (p2 q2 pq : R) : R :=
  (if t then 3 else 5) / 7 + pq * (1 / p2 + 1 / q2) / 2 + (if t then 4 else 2) / 7 * pq ^ 2 / p2 / q2.
Section Sides.
Context (k x mu : R) (Hk : 0 < k) (Hx : 0 < x) (Hm : -1 <= mu <= 1) (Hs : 0 < sep x mu).
Let X := 1 + x * x - 2 * mu * x.
Lemma HXpos : 0 < X.
Proof. exact (X_pos x mu Hx Hm Hs). Qed.
Lemma nz_k : vopp (kvec k) <> vzero.
Proof. unfold kvec, vopp, vzero. intros E. injection E as E1. lra. Qed.
Lemma pt2_kq_q t : pt2 t (kqvec k x mu) (qvec k x mu) = f2v t X (x * x) (x * mu - x * x).
Proof.
  pose proof HXpos as HX. rewrite pt2_dots; [|apply kq_nonzero; assumption|apply q_nonzero; assumption].
  rewrite dot_q, dot_q_kq, dot_kq by (assumption || lra).
  replace (k * sep x mu * (k * sep x mu)) with (k * k * X) by (unfold X; rewrite <- sep_sq by lra; ring).
  unfold f2v. replace (x * mu - x * x) with ((1 - X - x * x) / 2) by (unfold X; field). clearbody X.
  destruct t; field; lra.
Qed.
Lemma pt2_q_k t : pt2 t (qvec k x mu) (vopp (kvec k)) = f2v t (x * x) 1 (- (x * mu)).
Proof.
  rewrite pt2_dots; [|apply q_nonzero; assumption|apply nz_k].
  rewrite dot_q by assumption. rewrite !dot_opp_r, !dot_opp_l, Ropp_involutive.
  unfold kvec, qvec, dot, f2v. destruct t; field; lra.
Qed.
Lemma pt2_kq_k t : pt2 t (kqvec k x mu) (vopp (kvec k)) = f2v t X 1 (- (1 - x * mu)).
Proof.
  pose proof HXpos as HX. rewrite pt2_dots; [|apply kq_nonzero; assumption|apply nz_k].
  rewrite dot_kq by (assumption || lra).
  replace (k * sep x mu * (k * sep x mu)) with (k * k * X) by (unfold X; rewrite <- sep_sq by lra; ring).
  rewrite !dot_opp_r, !dot_opp_l, Ropp_involutive. unfold kqvec. rewrite dot_plus_l, dot_opp_l.
  unfold kvec, qvec, dot, f2v. clearbody X. destruct t; field; lra.
Qed.
(** The tree-level bispectra in terms of x and mu. *)
Definition bq (b d : bool) (pk pq pkq : R) : R :=
  2 * (f2v true X 1 (- (1 - x * mu)) * pkq * pk + f2v b (x * x) 1 (- (x * mu)) * pq * pk + f2v d X (x * x) (x * mu - x * x) * pq * pkq).
Definition btq (b d : bool) (pk pq pkq : R) : R :=
  2 * (f2v true (x * x) 1 (- (x * mu)) * pq * pk + f2v b X 1 (- (1 - x * mu)) * pkq * pk + f2v d X (x * x) (x * mu - x * x) * pkq * pq).
Lemma bq_val b d pk pq pkq : tree_bispectrum true b d (qvec k x mu) (kqvec k x mu) (vopp (kvec k)) pq pkq pk = bq b d pk pq pkq.
Proof. unfold tree_bispectrum. rewrite (pt2_comm d), pt2_kq_q, pt2_q_k, pt2_kq_k. reflexivity. Qed.
Lemma btq_val b d pk pq pkq : tree_bispectrum true b d (kqvec k x mu) (qvec k x mu) (vopp (kvec k)) pkq pq pk = btq b d pk pq pkq.
Proof. unfold tree_bispectrum. rewrite pt2_kq_q, pt2_q_k, pt2_kq_k. reflexivity. Qed.
End Sides.
Definition At (c : nat) (x mu pk pq pkq : R) : R :=
  let bA b d := bq x mu b d pk pq pkq in
  let btA b d := btq x mu b d pk pq pkq in
  match c with
  | 0%nat => wA x mu 0 * bA false false + wtA x mu 0 * btA false false
  | 1%nat => wA x mu 1 * bA true false + wtA x mu 1 * btA true false
  | 2%nat => wA x mu 2 * bA true false + wtA x mu 2 * btA true false + wA x mu 0 * bA false true + wtA x mu 0 * btA false true
  | 3%nat => wA x mu 1 * bA true true + wtA x mu 1 * btA true true
  | _ => wA x mu 2 * bA true true + wtA x mu 2 * btA true true
  end.
Lemma A_tree_val c k x mu pk pq pkq : 0 < k -> 0 < x -> -1 <= mu <= 1 -> 0 < sep x mu ->
  A_tree (wA x mu) (wtA x mu) c k x mu pk pq pkq = At c x mu pk pq pkq.
Proof. intros. unfold A_tree, At. cbn zeta. rewrite !bq_val, !btq_val by assumption. reflexivity. Qed.
(** Terms in P(k)P(|k-q|) and P(q)P(|k-q|), and in P(k)P(q). *)
Definition At_kq (c : nat) (x mu pk pq pkq : R) : R := At c x mu pk pq pkq - At c x mu pk pq 0.
Ltac unA := unfold At_kq, At, bq, btq, f2v, wA, wtA, kernel_projection_A_tA; cbn [fst snd nth]; cbn zeta; rn.
Lemma kernel_A_tA_val pkl im P (g0 g : glq RNum) k pk i mu :
  lookup_is pkl im P -> q_table P g0 -> 0 < k -> update_gauss_legendre_q g0 k = Ok g -> (0 <= i < gq_nq g)%Z ->
  -1 <= mu <= 1 -> 0 < sep (znth 0 (gq_x g) i) mu ->
  kernel_A_tA_1loop pkl im g pk i mu = Ok (comps 5 (fun c => let x := at_ (xs_of g0 k) (Z.to_nat i) in
    At_kq c x mu pk (P (k * x)) (P (k * sep x mu)))).
Proof.
  intros HL Hg Hk E Hi Hm Hs. destruct (q_updated P g0 k Hg Hk) as [g' [E' [A1 [A2 [A3 [A4 [A5 [A6 [A7 [A8 [A9 A10]]]]]]]]]]].
  rewrite E in E'. injection E' as <-. destruct (A10 i Hi) as [R1 [R2 [R3 [R4 [R5 R6]]]]].
  unfold kernel_A_tA_1loop. rewrite R1. cbn [bind]. rewrite <- R3. rewrite !powers5. cbn [bind].
  set (x := znth 0 (gq_x g) i) in *. rd5.
  rewrite R5, A1. cbn [bind]. rn. fold (sep x mu).
  assert (Hks : 0 < k * sep x mu) by (apply Rmult_lt_0_compat; assumption).
  pose proof (X_pos x mu R2 Hm Hs) as HX. cbn zeta in HX.
  rewrite HL by assumption. cbn [bind]. apply f_equal. unfold comps. cbn [map seq zipw].
  set (pq := P (k * x)). set (pkq := P (k * sep x mu)). clearbody pq pkq x.
  repeat (apply f_equal2; [unA; field; split; lra|]). reflexivity.
Qed.

(** ** The part in P(k)P(q), integrated over mu *)
Definition a_coef (c : nat) (x mu : R) : R := At c x mu 1 1 0.
Lemma At_kq0 c x mu pk pq : At c x mu pk pq 0 = pk * pq * a_coef c x mu.
Proof. unfold a_coef, At, bq, btq. do 4 (destruct c as [|c]; [ring|]). ring. Qed.
Definition XLaurent (gm g0 g1 g2 g3 X : R) : R := gm / X + g0 + g1 * X + g2 * X ^ 2 + g3 * X ^ 3.
Definition XLint (gm g0 g1 g2 g3 x L : R) : R :=
  1 / (2 * x) * (gm * (2 * L) + g0 * ((1 + x) ^ 2 - (1 - x) ^ 2) + g1 / 2 * ((1 + x) ^ 4 - (1 - x) ^ 4)
   + g2 / 3 * ((1 + x) ^ 6 - (1 - x) ^ 6) + g3 / 4 * ((1 + x) ^ 8 - (1 - x) ^ 8)).
Lemma X_pos_ne x mu : 0 < x -> x <> 1 -> -1 <= mu <= 1 -> 0 < 1 + x * x - 2 * mu * x.
Proof.
  intros Hx H1 Hm. assert (0 < (1 - x) * (1 - x)). { destruct (Rtotal_order x 1) as [H|[H|H]]; [nra|lra|nra]. }
  assert (mu * x <= 1 * x) by (apply Rmult_le_compat_r; lra). lra.
Qed.
Lemma XLaurent_int gm g0 g1 g2 g3 x : 0 < x -> x <> 1 ->
  is_RInt (fun mu => XLaurent gm g0 g1 g2 g3 (1 + x * x - 2 * mu * x)) (-1) 1
    (XLint gm g0 g1 g2 g3 x (ln (Rabs ((x + 1) / (x - 1))))).
Proof.
  intros Hx H1.
  pose (F := fun mu => let X := 1 + x * x - 2 * mu * x in
    - (1 / (2 * x)) * (gm * ln X + g0 * X + g1 / 2 * X ^ 2 + g2 / 3 * X ^ 3 + g3 / 4 * X ^ 4)).
  assert (D : forall mu, -1 <= mu <= 1 -> is_derive F mu (XLaurent gm g0 g1 g2 g3 (1 + x * x - 2 * mu * x))).
  { intros mu Hm. pose proof (X_pos_ne x mu Hx H1 Hm) as HX. unfold F, XLaurent. auto_derive; [lra|]. field. lra. }
  replace (XLint gm g0 g1 g2 g3 x (ln (Rabs ((x + 1) / (x - 1))))) with (minus (G := R_AbelianGroup) (F 1) (F (-1))).
  - apply (is_RInt_derive (V := R_CompleteNormedModule)).
    + intros mu Hm. rewrite Rmin_left, Rmax_right in Hm by lra. apply D. exact Hm.
    + intros mu Hm. rewrite Rmin_left, Rmax_right in Hm by lra. pose proof (X_pos_ne x mu Hx H1 Hm) as HX.
      apply (ex_derive_continuous (fun u => XLaurent gm g0 g1 g2 g3 (1 + x * x - 2 * u * x))). unfold XLaurent.
      eexists. auto_derive; [lra|reflexivity].
  - match goal with |- @eq _ (minus ?u ?v) ?a => change (@eq R (u - v) a) end. unfold F, XLint. cbn zeta.
    replace (1 + x * x - 2 * 1 * x) with ((1 - x) ^ 2) by ring. replace (1 + x * x - 2 * -1 * x) with ((1 + x) ^ 2) by ring.
    assert (EL : ln ((1 + x) ^ 2) - ln ((1 - x) ^ 2) = 2 * ln (Rabs ((x + 1) / (x - 1)))).
    { unfold Rdiv. rewrite Rabs_mult, Rabs_inv. rewrite (Rabs_pos_eq (x + 1)) by lra.
      assert (Hp : 0 < Rabs (x - 1)) by (apply Rabs_pos_lt; lra).
      rewrite ln_mult by (try apply Rinv_0_lt_compat; lra). rewrite ln_Rinv by exact Hp.
      replace ((1 - x) ^ 2) with (Rabs (x - 1) * Rabs (x - 1)) by (rewrite <- Rabs_mult, Rabs_pos_eq; [ring|apply Rle_0_sqr]).
      replace ((1 + x) ^ 2) with ((x + 1) * (x + 1)) by ring. rewrite !ln_mult by lra. ring. }
    replace (ln ((1 + x) ^ 2)) with (ln ((1 - x) ^ 2) + 2 * ln (Rabs ((x + 1) / (x - 1)))) by lra. field. lra.
Qed.
Ltac acoef x mu X E :=
  unfold a_coef; unA; rewrite <- E; replace mu with ((1 + x * x - X) / (2 * x)) by (rewrite E; field; lra);
  unfold XLaurent; clear E; field; lra.
Lemma a_coef_0 (x mu X : R) : 0 < x -> 0 < X -> X = 1 + x * x - 2 * mu * x ->
  a_coef 0 x mu = XLaurent ((-3 / 28) + (9 / 28) * x ^ 2 + (-9 / 28) * x ^ 4 + (3 / 28) * x ^ 6) ((-5 / 28) / x ^ 2 + (1 / 28) + (11 / 28) * x ^ 2 + (-1 / 4) * x ^ 4) ((2 / 7) / x ^ 2 + (-1 / 28) + (3 / 28) * x ^ 2) ((-1 / 28) / x ^ 2 + (3 / 28)) ((-1 / 14) / x ^ 2) X.
Proof. intros Hx HX E. acoef x mu X E. Qed.
Lemma a_coef_1 (x mu X : R) : 0 < x -> 0 < X -> X = 1 + x * x - 2 * mu * x ->
  a_coef 1 x mu = XLaurent ((-3 / 112) / x ^ 2 + (3 / 28) + (-9 / 56) * x ^ 2 + (3 / 28) * x ^ 4 + (-3 / 112) * x ^ 6) ((5 / 112) / x ^ 2 + (-5 / 112) + (-5 / 112) * x ^ 2 + (5 / 112) * x ^ 4) ((3 / 112) / x ^ 2 + (1 / 56) + (3 / 112) * x ^ 2) ((-9 / 112) / x ^ 2 + (-9 / 112)) ((1 / 28) / x ^ 2) X.
Proof. intros Hx HX E. acoef x mu X E. Qed.
Lemma a_coef_2 (x mu X : R) : 0 < x -> 0 < X -> X = 1 + x * x - 2 * mu * x ->
  a_coef 2 x mu = XLaurent ((-3 / 112) / x ^ 2 + (-3 / 28) + (27 / 56) * x ^ 2 + (-15 / 28) * x ^ 4 + (3 / 16) * x ^ 6) ((-27 / 112) / x ^ 2 + (-5 / 112) + (75 / 112) * x ^ 2 + (-43 / 112) * x ^ 4) ((43 / 112) / x ^ 2 + (-11 / 56) + (3 / 112) * x ^ 2) ((1 / 16) / x ^ 2 + (39 / 112)) ((-5 / 28) / x ^ 2) X.
Proof. intros Hx HX E. acoef x mu X E. Qed.
Lemma a_coef_4 (x mu X : R) : 0 < x -> 0 < X -> X = 1 + x * x - 2 * mu * x ->
  a_coef 4 x mu = XLaurent ((-3 / 112) / x ^ 2 + (9 / 56) * x ^ 2 + (-3 / 14) * x ^ 4 + (9 / 112) * x ^ 6) ((-1 / 16) / x ^ 2 + (-9 / 112) + (31 / 112) * x ^ 2 + (-15 / 112) * x ^ 4) ((11 / 112) / x ^ 2 + (-9 / 56) + (-9 / 112) * x ^ 2) ((11 / 112) / x ^ 2 + (27 / 112)) ((-3 / 28) / x ^ 2) X.
Proof. intros Hx HX E. acoef x mu X E. Qed.
Lemma a_exact_0 (x L : R) : 0 < x ->
  XLint ((-3 / 28) + (9 / 28) * x ^ 2 + (-9 / 28) * x ^ 4 + (3 / 28) * x ^ 6) ((-5 / 28) / x ^ 2 + (1 / 28) + (11 / 28) * x ^ 2 + (-1 / 4) * x ^ 4) ((2 / 7) / x ^ 2 + (-1 / 28) + (3 / 28) * x ^ 2) ((-1 / 28) / x ^ 2 + (3 / 28)) ((-1 / 14) / x ^ 2) x L = (- (1)) / 84 / x * (2 * x * (19 - 24 * x ^ 2 + 9 * x ^ 4) - 9 * (x ^ 2 - 1) ^ 3 * L).
Proof. intros Hx. unfold XLint. field. lra. Qed.
Lemma a_exact_1 (x L : R) : 0 < x ->
  XLint ((-3 / 112) / x ^ 2 + (3 / 28) + (-9 / 56) * x ^ 2 + (3 / 28) * x ^ 4 + (-3 / 112) * x ^ 6) ((5 / 112) / x ^ 2 + (-5 / 112) + (-5 / 112) * x ^ 2 + (5 / 112) * x ^ 4) ((3 / 112) / x ^ 2 + (1 / 56) + (3 / 112) * x ^ 2) ((-9 / 112) / x ^ 2 + (-9 / 112)) ((1 / 28) / x ^ 2) x L = 1 / 112 / x ^ 3 * (2 * x * (x ^ 2 + 1) * (3 - 14 * x ^ 2 + 3 * x ^ 4) - 3 * (x ^ 2 - 1) ^ 4 * L).
Proof. intros Hx. unfold XLint. field. lra. Qed.
Lemma a_exact_2 (x L : R) : 0 < x ->
  XLint ((-3 / 112) / x ^ 2 + (-3 / 28) + (27 / 56) * x ^ 2 + (-15 / 28) * x ^ 4 + (3 / 16) * x ^ 6) ((-27 / 112) / x ^ 2 + (-5 / 112) + (75 / 112) * x ^ 2 + (-43 / 112) * x ^ 4) ((43 / 112) / x ^ 2 + (-11 / 56) + (3 / 112) * x ^ 2) ((1 / 16) / x ^ 2 + (39 / 112)) ((-5 / 28) / x ^ 2) x L = 1 / 336 / x ^ 3 * (2 * x * (9 - 185 * x ^ 2 + 159 * x ^ 4 - 63 * x ^ 6) + 9 * (x ^ 2 - 1) ^ 3 * (7 * x ^ 2 + 1) * L).
Proof. intros Hx. unfold XLint. field. lra. Qed.
Lemma a_exact_4 (x L : R) : 0 < x ->
  XLint ((-3 / 112) / x ^ 2 + (9 / 56) * x ^ 2 + (-3 / 14) * x ^ 4 + (9 / 112) * x ^ 6) ((-1 / 16) / x ^ 2 + (-9 / 112) + (31 / 112) * x ^ 2 + (-15 / 112) * x ^ 4) ((11 / 112) / x ^ 2 + (-9 / 56) + (-9 / 112) * x ^ 2) ((11 / 112) / x ^ 2 + (27 / 112)) ((-3 / 28) / x ^ 2) x L = 1 / 336 / x ^ 3 * (2 * x * (9 - 109 * x ^ 2 + 63 * x ^ 4 - 27 * x ^ 6) + 9 * (x ^ 2 - 1) ^ 3 * (3 * x ^ 2 + 1) * L).
Proof. intros Hx. unfold XLint. field. lra. Qed.
