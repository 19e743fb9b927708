(** ProofIntegrals2: the integrands of the mode-coupling integrals and the integrals as quadratures. *)
From Coq Require Import Reals Lra Lia List.
From Verif Require Import Base Num BaseFacts Common Kernels Gamma2 Integrals Spec SpecPT SpecIntegrals SpecLoops SpecTable Sums ProofSearch ProofKernels ProofGL2 ProofIntegrals.
Import ListNotations.
Local Open Scope R_scope.

(** ** Vectors *)
Lemma one_mu2 mu : -1 <= mu <= 1 -> 0 <= 1 - mu * mu.
Proof. intros. nra. Qed.
Lemma dot_q k x mu : -1 <= mu <= 1 -> dot (qvec k x mu) (qvec k x mu) = (k * x) * (k * x).
Proof. intros H. unfold qvec, dot. pose proof (sqrt_sqrt _ (one_mu2 mu H)) as E. set (s := sqrt (1 - mu * mu)) in *.
  replace (k * x * s * (k * x * s)) with (k * x * (k * x) * (s * s)) by ring. rewrite E. ring. Qed.
Lemma dot_kq k x mu : 0 <= x -> -1 <= mu <= 1 -> dot (kqvec k x mu) (kqvec k x mu) = (k * sep x mu) * (k * sep x mu).
Proof. intros Hx H. replace (k * sep x mu * (k * sep x mu)) with (k * k * (sep x mu * sep x mu)) by ring. rewrite sep_sq by lra.
  unfold kqvec. rewrite !dot_plus_l, !dot_plus_r, !dot_opp_l, !dot_opp_r, dot_q by exact H. unfold kvec, qvec, dot. ring. Qed.
Lemma dot_q_kq k x mu : 0 <= x -> -1 <= mu <= 1 ->
  dot (kqvec k x mu) (qvec k x mu) = (k * k - (k * sep x mu) * (k * sep x mu) - (k * x) * (k * x)) / 2.
Proof. intros Hx H. rewrite <- dot_kq by assumption. unfold kqvec. rewrite !dot_plus_l, !dot_plus_r, !dot_opp_l, !dot_opp_r, dot_q by exact H.
  unfold kvec, qvec, dot. field. Qed.
Lemma norm_q k x mu : 0 < k -> 0 <= x -> -1 <= mu <= 1 -> norm (qvec k x mu) = k * x.
Proof. intros. unfold norm. rewrite dot_q by assumption. apply sqrt_square. apply Rmult_le_pos; lra. Qed.
Lemma norm_kq k x mu : 0 < k -> 0 <= x -> -1 <= mu <= 1 -> norm (kqvec k x mu) = k * sep x mu.
Proof. intros. unfold norm. rewrite dot_kq by assumption. apply sqrt_square. apply Rmult_le_pos; [lra|apply sep_pos]. Qed.
Lemma q_nonzero k x mu : 0 < k -> 0 < x -> -1 <= mu <= 1 -> qvec k x mu <> vzero.
Proof. intros Hk Hx Hm E. pose proof (dot_q k x mu Hm) as D. rewrite E in D. cbn in D. assert (0 < k * x) by (apply Rmult_lt_0_compat; lra). nra. Qed.
Lemma kq_nonzero k x mu : 0 < k -> 0 < x -> -1 <= mu <= 1 -> 0 < sep x mu -> kqvec k x mu <> vzero.
Proof. intros Hk Hx Hm Hs E. pose proof (dot_kq k x mu ltac:(lra) Hm) as D. rewrite E in D. cbn in D. assert (0 < k * sep x mu) by (apply Rmult_lt_0_compat; lra). nra. Qed.

Lemma gamma2_tree_val a k x mu : 0 < k -> 0 < x -> -1 <= mu <= 1 -> 0 < sep x mu ->
  gamma2_tree (N := RNum) a (k * sep x mu) (k * x) k = pt2 (is_theta a) (kqvec k x mu) (qvec k x mu).
Proof.
  intros Hk Hx Hm Hs. rewrite <- F2_full_pt; [|apply kq_nonzero; assumption|apply q_nonzero; assumption].
  rewrite F2_full_val, dot_q, dot_kq, dot_q_kq by (assumption || lra). reflexivity.
Qed.
(** The same with the three sides of any triangle of vectors. *)
Lemma gamma2_tree_triangle a p q : p <> vzero -> q <> vzero ->
  gamma2_tree (N := RNum) a (norm p) (norm q) (norm (vplus p q)) = pt2 (is_theta a) p q.
Proof.
  intros Hp Hq. rewrite <- F2_full_pt by assumption. rewrite F2_full_val. unfold gamma2_tree. rn.
  rewrite !norm_sq. f_equal. rewrite dot_plus_l, !dot_plus_r, (dot_comm q p). field.
Qed.
Lemma allowed_sep half xmin xmax x mu : 0 < xmin -> allowed half xmin xmax x mu -> -1 <= mu <= 1 /\ 0 < sep x mu.
Proof. intros H [H1 [H2 H3]]. split; [exact H1|lra]. Qed.

(** ** calc_pk_gamma2_tree *)

Lemma flag_eqb_eq a b : flag_eqb a b = true -> a = b.
Proof. destruct a, b; cbn; congruence. Qed.
Lemma kernel_gamma2_tree_val pkl im P (g0 g : glq RNum) a b k i mu :
  lookup_is pkl im P -> q_table P g0 -> 0 < k -> update_gauss_legendre_q g0 k = Ok g -> (0 <= i < gq_nq g)%Z ->
  -1 <= mu <= 1 -> 0 < sep (znth 0 (gq_x g) i) mu ->
  kernel_pk_gamma2_tree pkl im g a b i mu = Ok [gamma2_integrand P (is_theta a) (is_theta b) k (at_ (xs_of g0 k) (Z.to_nat i)) mu].
Proof.
  intros HL Hg Hk E Hi Hm Hs. destruct (q_updated P g0 k Hg Hk) as [g' [E' [A1 [A2 [A3 [A4 [A5 [A6 [A7 [A8 [A9 A10]]]]]]]]]]].
  rewrite E in E'. injection E' as <-. destruct (A10 i Hi) as [R1 [R2 [R3 [R4 [R5 R6]]]]].
  unfold kernel_pk_gamma2_tree. rewrite R1. cbn [bind]. rewrite R4. cbn [bind]. rewrite R5. cbn [bind]. rewrite A1, <- R3.
  set (x := znth 0 (gq_x g) i) in *.
  rn. fold (sep x mu). rewrite HL by (apply Rmult_lt_0_compat; assumption). cbn [bind].
  assert (Ek : forall c, gamma2_tree (N := RNum) c (k * sep x mu) (k * x) k = pt2 (is_theta c) (kqvec k x mu) (qvec k x mu)).
  { intros c. apply gamma2_tree_val; assumption. }
  destruct (flag_eqb a b) eqn:F.
  - apply flag_eqb_eq in F. subst b. rewrite Ek. reflexivity.
  - rewrite !Ek. reflexivity.
Qed.
Lemma calc_gamma2_tree_val pkl im P (g : glq RNum) (m : glmu RNum) a b k :
  lookup_is pkl im P -> q_table P g -> mu_rule m -> 0 < k ->
  exists g' m', calc_pk_gamma2_tree pkl im g m a b k =
    Ok ([k * k * k / (2 * PI * PI) *
         itquad true (xs_of g k) (fun i => at_ (xs_of g k) i ^ 3 * at_ (gq_w g) i) (gm_muref m) (gm_wref m)
           (fun i mu => gamma2_integrand P (is_theta a) (is_theta b) k (at_ (xs_of g k) i) mu)], g', m').
Proof.
  intros HL Hg Hm Hk. unfold calc_pk_gamma2_tree.
  destruct (q_updated P g k Hg Hk) as [g' [E [A1 [A2 [A3 [A4 [A5 [A6 [A7 [A8 [A9 A10]]]]]]]]]]].
  rewrite E. cbn [bind].
  destruct (q_loop_itquad true P g g' m 1 (kernel_pk_gamma2_tree pkl im g' a b) (add_x3w g' false)
    (fun _ i mu => gamma2_integrand P (is_theta a) (is_theta b) k (at_ (xs_of g k) i) mu)
    (fun i => at_ (xs_of g k) i ^ 3 * at_ (gq_w g) i) k Hm Hg Hk E) as [m' [EQ _]].
  - intros i mu Hi Ha. destruct A9 as [A9 _]. destruct (allowed_sep _ _ _ _ _ A9 Ha) as [Hmu Hs].
    rewrite (kernel_gamma2_tree_val pkl im P g g' a b k i mu HL Hg Hk E Hi Hmu Hs). reflexivity.
  - intros i f Hi. destruct (A10 i Hi) as [R1 [R2 [R3 [R4 [R5 R6]]]]]. unfold add_x3w. rewrite R6. cbn [bind comps map seq].
    rewrite <- R3. rn. apply f_equal. apply f_equal2; [|reflexivity]. rn. ring.
  - exists g', m'. change (T RNum) with R in *. rewrite EQ. cbn [bind comps map seq]. rn. do 3 f_equal. apply f_equal2; [|reflexivity]. rn. ring.
Qed.

(** ** calc_pk_gamma2_1loop *)
Lemma stdPT1 gd gt G a k1 k2 k3 : one_loop_is gd gt G -> gamma2_stdPT (N := RNum) gd gt a 1 k1 k2 k3 = Ok (G (is_theta a) k1 k2 k3).
Proof. intros H. destruct (H k1 k2 k3) as [H1 H2]. destruct a; assumption. Qed.
Lemma kernel_gamma2_1loop_val pkl im P gd gt G (g0 g : glq RNum) a b k i mu :
  lookup_is pkl im P -> one_loop_is gd gt G -> q_table P g0 -> 0 < k -> update_gauss_legendre_q g0 k = Ok g -> (0 <= i < gq_nq g)%Z ->
  -1 <= mu <= 1 -> 0 < sep (znth 0 (gq_x g) i) mu ->
  kernel_pk_gamma2_1loop pkl im g gd gt a b i mu =
    Ok (comps 3 (fun c => gamma2_1loop_integrand P G (is_theta a) (is_theta b) c k (at_ (xs_of g0 k) (Z.to_nat i)) mu)).
Proof.
  intros HL HG Hg Hk E Hi Hm Hs. destruct (q_updated P g0 k Hg Hk) as [g' [E' [A1 [A2 [A3 [A4 [A5 [A6 [A7 [A8 [A9 A10]]]]]]]]]]].
  rewrite E in E'. injection E' as <-. destruct (A10 i Hi) as [R1 [R2 [R3 [R4 [R5 R6]]]]].
  unfold kernel_pk_gamma2_1loop. rewrite R1. cbn [bind]. rewrite R4. cbn [bind]. rewrite R5. cbn [bind]. rewrite A1, <- R3.
  set (x := znth 0 (gq_x g) i) in *.
  rn. fold (sep x mu). rewrite HL by (apply Rmult_lt_0_compat; assumption). cbn [bind].
  assert (Ek : forall c, gamma2_stdPT gd gt c 0 (k * sep x mu) (k * x) k = Ok (pt2 (is_theta c) (kqvec k x mu) (qvec k x mu))).
  { intros c. unfold gamma2_stdPT. cbn [Z.eqb]. rewrite gamma2_tree_val by assumption. reflexivity. }
  assert (El : forall c, gamma2_stdPT gd gt c 1 (k * sep x mu) (k * x) k = Ok (G (is_theta c) (k * sep x mu) (k * x) k)).
  { intros c. apply stdPT1. exact HG. }
  destruct (flag_eqb a b) eqn:F.
  - apply flag_eqb_eq in F. subst b. rewrite Ek, El. cbn [bind]. unfold comps, gamma2_1loop_integrand. cbn [map seq].
    rn. apply f_equal. repeat (apply f_equal2; [ring|]). reflexivity.
  - rewrite !Ek, !El. cbn [bind]. unfold comps, gamma2_1loop_integrand. cbn [map seq].
    rn. apply f_equal. repeat (apply f_equal2; [ring|]). reflexivity.
Qed.
Lemma calc_gamma2_1loop_val pkl im P gd gt G (g : glq RNum) (m : glmu RNum) a b k :
  lookup_is pkl im P -> one_loop_is gd gt G -> q_table P g -> mu_rule m -> 0 < k ->
  exists g' m', calc_pk_gamma2_1loop pkl im g m gd gt a b k =
    Ok (comps 3 (fun c => k * k * k / (2 * PI * PI) *
         itquad true (xs_of g k) (fun i => at_ (xs_of g k) i ^ 3 * at_ (gq_w g) i) (gm_muref m) (gm_wref m)
           (fun i mu => gamma2_1loop_integrand P G (is_theta a) (is_theta b) c k (at_ (xs_of g k) i) mu)), g', m').
Proof.
  intros HL HG Hg Hm Hk. unfold calc_pk_gamma2_1loop.
  destruct (q_updated P g k Hg Hk) as [g' [E [A1 [A2 [A3 [A4 [A5 [A6 [A7 [A8 [A9 A10]]]]]]]]]]].
  rewrite E. cbn [bind].
  destruct (q_loop_itquad true P g g' m 3 (kernel_pk_gamma2_1loop pkl im g' gd gt a b) (add_x3w g' false)
    (fun c i mu => gamma2_1loop_integrand P G (is_theta a) (is_theta b) c k (at_ (xs_of g k) i) mu)
    (fun i => at_ (xs_of g k) i ^ 3 * at_ (gq_w g) i) k Hm Hg Hk E) as [m' [EQ _]].
  - intros i mu Hi Ha. destruct A9 as [A9 _]. destruct (allowed_sep _ _ _ _ _ A9 Ha) as [Hmu Hs].
    exact (kernel_gamma2_1loop_val pkl im P gd gt G g g' a b k i mu HL HG Hg Hk E Hi Hmu Hs).
  - intros i f Hi. destruct (A10 i Hi) as [R1 [R2 [R3 [R4 [R5 R6]]]]]. unfold add_x3w. rewrite R6. cbn [bind].
    rewrite <- R3. unfold comps. rewrite map_map. apply f_equal. apply map_ext. intros c. rn. ring.
  - exists g', m'. change (T RNum) with R in *. rewrite EQ. cbn [bind]. apply f_equal. do 2 (apply f_equal2; [|reflexivity]).
    unfold comps. rewrite map_map. apply map_ext. intros c. rn. ring.
Qed.

(** ** calc_pk_bias_1loop *)
Lemma cosine_q_kq k x mu : 0 < k -> 0 < x -> -1 <= mu <= 1 -> 0 < sep x mu ->
  cosine (qvec k x mu) (kqvec k x mu) = (k * k - (k * sep x mu) * (k * sep x mu) - (k * x) * (k * x)) / 2 / (k * x) / (k * sep x mu).
Proof.
  intros Hk Hx Hm Hs. unfold cosine. rewrite dot_comm, dot_q_kq, norm_q, norm_kq by (assumption || lra). field. lra.
Qed.
Lemma cosine_k_q k x mu : 0 < k -> 0 < x -> -1 <= mu <= 1 -> cosine (kvec k) (qvec k x mu) = mu.
Proof.
  intros Hk Hx Hm. unfold cosine. rewrite norm_q by (assumption || lra). unfold norm, kvec, qvec, dot.
  replace (0 * 0 + 0 * 0 + k * k) with (k * k) by ring. rewrite sqrt_square by lra. field. lra.
Qed.
Lemma pt2_comm a p q : pt2 a p q = pt2 a q p.
Proof. unfold pt2. f_equal. ring. Qed.
Lemma kernel_bias_val pkl im P (g0 g : glq RNum) a t k i mu :
  lookup_is pkl im P -> q_table P g0 -> 0 < k -> update_gauss_legendre_q g0 k = Ok g -> (0 <= i < gq_nq g)%Z ->
  -1 <= mu <= 1 -> 0 < sep (znth 0 (gq_x g) i) mu ->
  kernel_pk_bias_1loop pkl im g a (bias_fun t) i mu =
    Ok [bias_integrand t P (is_theta a) k (at_ (xs_of g0 k) (Z.to_nat i)) mu].
Proof.
  intros HL Hg Hk E Hi Hm Hs. destruct (q_updated P g0 k Hg Hk) as [g' [E' [A1 [A2 [A3 [A4 [A5 [A6 [A7 [A8 [A9 A10]]]]]]]]]]].
  rewrite E in E'. injection E' as <-. destruct (A10 i Hi) as [R1 [R2 [R3 [R4 [R5 R6]]]]].
  unfold kernel_pk_bias_1loop. rewrite R1. cbn [bind]. rewrite R4. cbn [bind]. rewrite R5. cbn [bind]. rewrite A1, <- R3.
  set (x := znth 0 (gq_x g) i) in *.
  rn. fold (sep x mu). rewrite HL by (apply Rmult_lt_0_compat; assumption). cbn [bind].
  rewrite <- cosine_q_kq by assumption.
  apply f_equal. apply f_equal2; [|reflexivity]. unfold bias_integrand. cbn zeta. rewrite norm_q, norm_kq by (assumption || lra).
  rewrite cosine_k_q by assumption.
  assert (Ek : F2_sym_fast (N := RNum) a (k * x * (k * x)) (k * sep x mu * (k * sep x mu)) (cosine (qvec k x mu) (kqvec k x mu) * (k * x) * (k * sep x mu)) =
     pt2 (is_theta a) (qvec k x mu) (kqvec k x mu)).
  { rewrite pt2_comm, <- gamma2_tree_val by assumption. rewrite F2_fast_comm. unfold gamma2_tree. f_equal. rn. rewrite cosine_q_kq by assumption. field. lra. }
  destruct t; cbn [bias_fun]; unfold kernel_b2, kernel_bs2, kernel_b22, kernel_b2s2, kernel_bs22, kernel_sigma3sq; rn; rewrite ?Ek;
    rewrite ?D2_val; rewrite ?S2_val; unfold tidal; rnl; field.
Qed.
Lemma calc_bias_val pkl im P (g : glq RNum) (m : glmu RNum) a t half k :
  lookup_is pkl im P -> q_table P g -> mu_rule m -> 0 < k ->
  exists g' m', calc_pk_bias_1loop pkl im g m a k (bias_fun t) half =
    Ok (k * k * k / (4 * PI * PI) *
         itquad half (xs_of g k) (fun i => (if half then 2 else 1) * at_ (xs_of g k) i ^ 3 * at_ (gq_w g) i) (gm_muref m) (gm_wref m)
           (fun i mu => bias_integrand t P (is_theta a) k (at_ (xs_of g k) i) mu), g', m').
Proof.
  intros HL Hg Hm Hk. unfold calc_pk_bias_1loop.
  destruct (q_updated P g k Hg Hk) as [g' [E [A1 [A2 [A3 [A4 [A5 [A6 [A7 [A8 [A9 A10]]]]]]]]]]].
  rewrite E. cbn [bind].
  destruct (q_loop_itquad half P g g' m 1 (kernel_pk_bias_1loop pkl im g' a (bias_fun t)) (add_x3w g' half)
    (fun _ i mu => bias_integrand t P (is_theta a) k (at_ (xs_of g k) i) mu)
    (fun i => (if half then 2 else 1) * at_ (xs_of g k) i ^ 3 * at_ (gq_w g) i) k Hm Hg Hk E) as [m' [EQ _]].
  - intros i mu Hi Ha. destruct A9 as [A9 _]. destruct (allowed_sep _ _ _ _ _ A9 Ha) as [Hmu Hs].
    rewrite (kernel_bias_val pkl im P g g' a t k i mu HL Hg Hk E Hi Hmu Hs). reflexivity.
  - intros i f Hi. destruct (A10 i Hi) as [R1 [R2 [R3 [R4 [R5 R6]]]]]. unfold add_x3w. rewrite R6. cbn [bind comps map seq].
    rewrite <- R3. rn. apply f_equal. apply f_equal2; [|reflexivity]. destruct half; rn; ring.
  - exists g', m'. change (T RNum) with R in *. rewrite EQ. reflexivity.
Qed.
