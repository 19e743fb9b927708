(** ProofRsd: the components of the A and B terms, combined with the powers of f and nu, are the azimuthal averages of the formulas of Taruya, Nishimichi & Saito. *)
From Coq Require Import Reals Lra Lia List ZArith String.
From Coquelicot Require Import Coquelicot.
From Verif Require Import Base Num BaseFacts Common Kernels Integrals Spec SpecPT SpecQuad SpecKernels SpecLoops SpecIntegrals SpecColumns SpecConv SpecConv2 SpecPy SpecRsd
  ProofKernels ProofIntegrals ProofIntegrals2 ProofIntegrals3 ProofIntegrals5 ProofIntegrals7 ProofIntegrals10 ProofQuad ProofConv ProofConv2 ProofConv5 ProofConv6 ProofConv7 ProofPy4 ProofQuad2 Registry PyTerms Threads SpecScale SpecSamples SpecConv3 SpecThreads SpecScratch SpecDefined.
Import ListNotations.
Local Open Scope R_scope.

Lemma avg_val g v : azimuth_average g v -> average g = v.
Proof. intros H. unfold average. rewrite (is_RInt_unique _ _ _ _ H). field. apply PI_neq0. Qed.
Lemma avg_plus g h v w : azimuth_average g v -> azimuth_average h w -> azimuth_average (fun t => g t + h t) (v + w).
Proof. unfold azimuth_average. intros A B. rewrite Rmult_plus_distr_l. apply (is_RInt_plus (V := R_NormedModule) _ _ _ _ _ _ A B). Qed.
Lemma avg_scal c g v : azimuth_average g v -> azimuth_average (fun t => c * g t) (c * v).
Proof. unfold azimuth_average. intros A. replace (2 * PI * (c * v)) with (c * (2 * PI * v)) by ring. apply (is_RInt_scal (V := R_NormedModule) _ _ _ c _ A). Qed.
(** The second-order kernels do not depend on the azimuth. *)
Lemma pt2_same t p q p' q' : 0 < dot p p -> 0 < dot q q -> dot p' p' = dot p p -> dot q' q' = dot q q -> dot p' q' = dot p q -> pt2 t p' q' = pt2 t p q.
Proof.
  intros Hp Hq E1 E2 E3. assert (NZ : forall v : vector, 0 < dot v v -> v <> vzero) by (intros v H ->; unfold dot, vzero in H; lra).
  rewrite !pt2_dots; try (apply NZ; lra). rewrite E1, E2, E3. reflexivity.
Qed.
Section Azimuth.
Variables (k x mu t : R).
Hypothesis (Hk : 0 < k) (Hx : 0 < x) (Hm : -1 <= mu <= 1) (Hs : 0 < sep x mu).
Let q := qphi k x mu t. Let kq := kqphi k x mu t. Let mk := vopp (kvec k).
Lemma sq_mu : sqrt (1 - mu * mu) * sqrt (1 - mu * mu) = 1 - mu * mu.
Proof. apply sqrt_sqrt. nra. Qed.
Lemma cs : sin t * sin t = 1 - cos t * cos t.
Proof. pose proof (sin2_cos2 t) as H. unfold Rsqr in H. lra. Qed.
Lemma az_qq : dot q q = dot (qvec k x mu) (qvec k x mu).
Proof. unfold q, qphi, qvec, dot. pose proof sq_mu as S. set (s := sqrt (1 - mu * mu)) in *. clearbody s. pose proof cs as C. replace (k * x * s * cos t * (k * x * s * cos t) + k * x * s * sin t * (k * x * s * sin t) + k * x * mu * (k * x * mu)) with ((k * x) * (k * x) * ((s * s) * (cos t * cos t + sin t * sin t)) + k * x * mu * (k * x * mu)) by ring. rewrite C. ring. Qed.
Lemma az_qk : dot q (kvec k) = dot (qvec k x mu) (kvec k).
Proof. unfold q, qphi, qvec, kvec, dot. ring. Qed.
Lemma az_kq p : dot kq p = dot (kvec k) p - dot q p.
Proof. unfold kq, kqphi. rewrite dot_plus_l, dot_opp_l. unfold q. ring. Qed.
Lemma az0_kq p : dot (kqvec k x mu) p = dot (kvec k) p - dot (qvec k x mu) p.
Proof. unfold kqvec. rewrite dot_plus_l, dot_opp_l. ring. Qed.
Lemma az_comm (u v : vector) : dot u v = dot v u.
Proof. destruct u as [[a b] c], v as [[d e] f]. unfold dot. ring. Qed.
Lemma az_kqkq : dot kq kq = dot (kqvec k x mu) (kqvec k x mu).
Proof. rewrite az_kq, az0_kq, !(az_comm _ kq), !(az_comm _ (kqvec k x mu)), !az_kq, !az0_kq, (az_comm (kvec k) q), (az_comm (kvec k) (qvec k x mu)), az_qq, az_qk. reflexivity. Qed.
Lemma az_qkq : dot q kq = dot (qvec k x mu) (kqvec k x mu).
Proof. rewrite !(az_comm _ kq), !(az_comm _ (kqvec k x mu)), az_kq, az0_kq, (az_comm (kvec k) q), (az_comm (kvec k) (qvec k x mu)), az_qq, az_qk. reflexivity. Qed.
Lemma az_kqk : dot kq (kvec k) = dot (kqvec k x mu) (kvec k).
Proof. rewrite az_kq, az0_kq, az_qk. reflexivity. Qed.
Lemma az_pos : 0 < dot (qvec k x mu) (qvec k x mu) /\ 0 < dot (kqvec k x mu) (kqvec k x mu) /\ 0 < dot (kvec k) (kvec k).
Proof.
  split; [apply dot_pos, q_nonzero; assumption|]. split; [apply dot_pos, kq_nonzero; assumption|]. unfold kvec, dot. nra.
Qed.
Lemma az_mk p : dot p mk = - dot p (kvec k).
Proof. unfold mk. apply dot_opp_r. Qed.
Lemma az_mkmk : dot mk mk = dot (kvec k) (kvec k).
Proof. unfold mk. rewrite dot_opp_r, dot_opp_l. ring. Qed.
Lemma tree_azimuth a b c p1 p2 p3 : tree_bispectrum a b c q kq mk p1 p2 p3 = tree_bispectrum a b c (qvec k x mu) (kqvec k x mu) mk p1 p2 p3.
Proof.
  destruct az_pos as (P1 & P2 & P3). unfold tree_bispectrum.
  rewrite (pt2_same a (kqvec k x mu) mk kq mk), (pt2_same b (qvec k x mu) mk q mk), (pt2_same c (qvec k x mu) (kqvec k x mu) q kq); try assumption; try reflexivity;
    rewrite ?az_mkmk, ?az_mk, ?az_kqk, ?az_qk; try assumption; try reflexivity; [apply az_qq|apply az_kqkq|apply az_qkq|apply az_qq|apply az_kqkq].
Qed.
Lemma tree_azimuth' a b c p1 p2 p3 : tree_bispectrum a b c kq q mk p1 p2 p3 = tree_bispectrum a b c (kqvec k x mu) (qvec k x mu) mk p1 p2 p3.
Proof.
  destruct az_pos as (P1 & P2 & P3). unfold tree_bispectrum.
  rewrite (pt2_same a (qvec k x mu) mk q mk), (pt2_same b (kqvec k x mu) mk kq mk), (pt2_same c (kqvec k x mu) (qvec k x mu) kq q); try assumption; try reflexivity;
    rewrite ?az_mkmk, ?az_mk, ?az_kqk, ?az_qk; try assumption; try reflexivity; [apply az_kqkq|apply az_qq| |apply az_kqkq|apply az_qq].
  rewrite (az_comm kq), (az_comm (kqvec k x mu)). apply az_qkq.
Qed.
Lemma kaiser_mk f nu : kaiser f mk (los nu) = f * nu ^ 2.
Proof. unfold kaiser. rewrite az_mkmk. unfold mk. rewrite dot_opp_l. unfold kvec, los, dot. field. lra. Qed.
End Azimuth.
Lemma A_average f nu k x mu pk pq pkq : 0 < k -> 0 < x -> -1 <= mu <= 1 -> -1 <= nu <= 1 -> 0 < sep x mu ->
  azimuth_average (fun t => let q := qphi k x mu t in let kq := kqphi k x mu t in let mk := vopp (kvec k) in let n := los nu in
    x ^ 2 * (k * nu * f * (coup1 q n * sigma_bispectrum f n q kq mk pq pkq pk + coup1 kq n * sigma_bispectrum f n kq q mk pkq pq pk)))
  (combine_components A_powers (nu ^ 2) f (fun c => A_tree (wA x mu) (wtA x mu) c k x mu pk pq pkq)).
Proof.
  intros Hk Hx Hm Hn Hs. destruct (A_weights k x mu nu Hk Hx Hm Hn Hs) as (W1 & W2 & W3 & W4). cbv zeta in *.
  set (B b d := tree_bispectrum true b d (qvec k x mu) (kqvec k x mu) (vopp (kvec k)) pq pkq pk). set (Bt b d := tree_bispectrum true b d (kqvec k x mu) (qvec k x mu) (vopp (kvec k)) pkq pq pk).
  eapply avg_ext; [| |apply (avg_plus _ _ _ _ (avg_plus _ _ _ _ (avg_scal (f * (B false false + f * nu ^ 2 * B false true)) _ _ W1) (avg_scal (f * (f * B true false + f * f * nu ^ 2 * B true true)) _ _ W3))
    (avg_plus _ _ _ _ (avg_scal (f * (Bt false false + f * nu ^ 2 * Bt false true)) _ _ W2) (avg_scal (f * (f * Bt true false + f * f * nu ^ 2 * Bt true true)) _ _ W4)))].
  - intros t. unfold sigma_bispectrum. rewrite !kaiser_mk by assumption. rewrite !(tree_azimuth k x mu t Hk Hx Hm Hs), !(tree_azimuth' k x mu t Hk Hx Hm Hs). fold (B false false) (B true false) (B false true) (B true true) (Bt false false) (Bt true false) (Bt false true) (Bt true true). unfold kaiser. ring.
  - unfold combine_components, A_powers, weight, A_tree. cbn [List.length rsum nth fst snd]. cbv zeta. fold (B false false) (B true false) (B false true) (B true true) (Bt false false) (Bt true false) (Bt false true) (Bt true true). ring.
Qed.
Lemma A_integrand_val f nu k x mu pk pq pkq : 0 < k -> 0 < x -> -1 <= mu <= 1 -> -1 <= nu <= 1 -> 0 < sep x mu ->
  A_integrand f nu k x mu pk pq pkq = combine_components A_powers (nu ^ 2) f (fun c => A_tree (wA x mu) (wtA x mu) c k x mu pk pq pkq).
Proof. intros. apply avg_val, A_average; assumption. Qed.
Lemma B_average Pd Pt K f nu k x mu : B_averaged Pd Pt K k x mu nu ->
  azimuth_average (fun t => let n := los nu in x ^ 2 * ((k * nu * f) ^ 2 *
    (velocity_power f (Pd (k * x)) (Pt (k * x)) (qphi k x mu t) n * velocity_power f (Pd (k * sep x mu)) (Pt (k * sep x mu)) (kqphi k x mu t) n)))
  (combine_components B_powers (nu ^ 2) f (B_nine K)).
Proof.
  intros (W1 & W2 & W3 & W4). cbv zeta in *.
  eapply avg_ext; [| |apply (avg_plus _ _ _ _ (avg_plus _ _ _ _ (avg_scal (f ^ 2) _ _ W1) (avg_scal (f ^ 3) _ _ W2)) (avg_plus _ _ _ _ (avg_scal (f ^ 3) _ _ W3) (avg_scal (f ^ 4) _ _ W4)))].
  - intros t. unfold velocity_power, kaiser. set (n := los nu). set (q := qphi k x mu t). set (kq := kqphi k x mu t).
    assert (E : forall p, coup3 p n = coup1 p n * (dot p n ^ 2 / dot p p)).
    { intros p. unfold coup3, coup1, Rdiv. rewrite <- pow_inv. ring. }
    rewrite !E. ring.
  - unfold combine_components, B_powers, weight. cbn [List.length rsum nth fst snd B_nine]. ring.
Qed.
Lemma B_integrand_val Pd Pt K f nu k x mu : B_averaged Pd Pt K k x mu nu -> B_integrand Pd Pt f nu k x mu = combine_components B_powers (nu ^ 2) f (B_nine K).
Proof. intros. apply avg_val, B_average; assumption. Qed.

(** ** The integrals of a combination *)
Lemma RInt_combination n (w : nat -> R) (g : nat -> R -> R) a b : (forall j, (j < n)%nat -> ex_RInt (g j) a b) -> is_RInt (fun t => rsum n (fun j => w j * g j t)) a b (rsum n (fun j => w j * RInt (g j) a b)).
Proof.
  induction n as [|n IH]; intros H; cbn [rsum].
  - pose proof (is_RInt_const (V := R_NormedModule) a b 0) as Z. unfold scal in Z; cbn in Z; unfold mult in Z; cbn in Z; rewrite Rmult_0_r in Z; exact Z.
  - apply (is_RInt_plus (V := R_NormedModule)); [apply IH; intros j Hj; apply H; lia|]. apply (is_RInt_scal (V := R_NormedModule)). apply (RInt_correct (V := R_CompleteNormedModule)), H. lia.
Qed.
Lemma rsum_scaled n c f : rsum n (fun j => c * f j) = c * rsum n f.
Proof. induction n as [|n IH]; cbn [rsum]; [ring|]. rewrite IH. ring. Qed.
Lemma in_range k qmin qmax s : 0 < k -> 0 < qmin < qmax -> ln qmin <= s <= ln qmax -> qmin / k <= exp s / k <= qmax / k.
Proof.
  intros Hk Hq Hs. assert (0 < / k) by (apply Rinv_0_lt_compat; exact Hk). unfold Rdiv. split; apply Rmult_le_compat_r; try lra.
  - rewrite <- (exp_ln qmin) by lra. apply exp_le. lra.
  - rewrite <- (exp_ln qmax) by lra. apply exp_le. lra.
Qed.
Lemma mode_combination n (w : nat -> R) g half p k qmin qmax lam M : 0 < k -> 0 < qmin < qmax -> 0 <= lam -> 0 <= M -> (forall j, (j < n)%nat -> smooth half (qmin / k) (qmax / k) (g j) lam M) ->
  mode_integral half p k qmin qmax (fun x mu => rsum n (fun j => w j * g j x mu)) = rsum n (fun j => w j * mode_integral half p k qmin qmax (g j)).
Proof.
  intros Hk Hq Hlam HM HS. assert (Hl : ln qmin < ln qmax) by (apply ln_increasing; lra). set (u := qmin / k) in *. set (v := qmax / k) in *.
  assert (Hu : 0 < u) by (apply Rdiv_lt_0_compat; lra).
  assert (EX : forall j, (j < n)%nat -> ex_RInt (fun s => (exp s / k) ^ p * angle_integral half u v (g j) (exp s / k)) (ln qmin) (ln qmax)).
  { intros j Hj. pose proof (radial_lip half k qmin qmax (g j) lam M p Hk ltac:(lra) ltac:(lra) Hlam HM (HS j Hj)) as RL. cbn zeta in RL. fold u v in RL.
    assert (C0 : 0 <= 2 * v ^ p * (INR p * M + v * (lam + M * slope u v))).
    { assert (0 < v) by (apply Rdiv_lt_0_compat; lra). pose proof (pow_le v p ltac:(lra)). pose proof (slope_pos u v Hu). pose proof (pos_INR p). apply Rmult_le_pos; [lra|]. apply Rplus_le_le_0_compat; [apply Rmult_le_pos; assumption|]. apply Rmult_le_pos; [lra|]. apply Rplus_le_le_0_compat; [assumption|]. apply Rmult_le_pos; assumption. }
    exact (lip_int _ _ _ _ Hl C0 (proj2 RL)). }
  unfold mode_integral. fold u v. apply is_RInt_unique.
  apply (is_RInt_ext (fun s => rsum n (fun j => w j * ((exp s / k) ^ p * angle_integral half u v (g j) (exp s / k))))); [|apply RInt_combination; exact EX].
  intros s Hs. rewrite Rmin_left, Rmax_right in Hs by lra. assert (B : u <= exp s / k <= v) by (apply in_range; [assumption|assumption|lra]).
  match goal with |- @eq _ ?l ?r => change (@eq R l r) end.
  transitivity ((exp s / k) ^ p * rsum n (fun j => w j * angle_integral half u v (g j) (exp s / k))).
  - rewrite <- rsum_scaled. apply ProofNewton7.rsum_eq. intros j _. ring.
  - f_equal. unfold angle_integral. destruct (Rlt_dec _ _) as [Hm|Hm].
    + symmetry. apply is_RInt_unique, RInt_combination. intros j Hj. apply (row_int half u v (g j) lam M); auto.
    + transitivity (rsum n (fun j => 0 * w j)); [apply ProofNewton7.rsum_eq; intros; ring|]. rewrite rsum_scaled. ring.
Qed.

(** ** The formulas of Taruya, Nishimichi & Saito are the combinations of the integrals of the columns. *)
Section Combination.
Variables (f nu k qmin qmax : R).
Hypotheses (Hk : 0 < k) (Hq : 0 < qmin < qmax) (Hn : -1 <= nu <= 1).
Let Hu : 0 < qmin / k. Proof. apply Rdiv_lt_0_compat; lra. Qed.
Lemma A_combination P lam M lam1 M1 : 0 <= lam -> 0 <= M -> 0 <= lam1 -> (forall c, (c < 5)%nat -> smooth false (qmin / k) (qmax / k) (A_with P c k) lam M) ->
  (forall c, (c < 5)%nat -> bounded_lipschitz (fun s => exp s / k * A_without P c k (exp s / k)) (ln qmin) (ln qmax) lam1 M1) ->
  A_redshift P f nu k qmin qmax = combine_components A_powers (nu ^ 2) f (fun c => A_continuum P c k qmin qmax).
Proof.
  intros Hlam HM Hlam1 HS HL. assert (Hl : ln qmin < ln qmax) by (apply ln_increasing; lra). set (w j := weight (nu ^ 2) f (nth j A_powers (0, 0)%nat)).
  assert (E1 : mode_integral false 1 k qmin qmax (fun x mu => A_integrand f nu k x mu (P k) (P (k * x)) (P (k * sep x mu)) - A_integrand f nu k x mu (P k) (P (k * x)) 0) =
    rsum 5 (fun j => w j * mode_integral false 1 k qmin qmax (A_with P j k))).
  { rewrite <- (mode_combination 5 w (fun j => A_with P j k) false 1 k qmin qmax lam M Hk Hq Hlam HM HS). apply mode_integral_ext; [assumption..|]. intros x mu Hr. destruct (region_in _ _ _ _ _ Hu Hr) as (R1 & R2 & R3).
    rewrite !A_integrand_val by assumption. unfold combine_components, A_with, A_powers. cbn [List.length rsum]. unfold w, A_powers. cbn [nth]. ring. }
  assert (E2 : RInt (fun s => exp s / k * RInt (fun mu => A_integrand f nu k (exp s / k) mu (P k) (P (k * (exp s / k))) 0) (-1) 1) (ln qmin) (ln qmax) =
    rsum 5 (fun j => w j * RInt (fun s => exp s / k * A_without P j k (exp s / k)) (ln qmin) (ln qmax))).
  { apply is_RInt_unique. apply (is_RInt_ext (fun s => rsum 5 (fun j => w j * (exp s / k * A_without P j k (exp s / k))))).
    - intros s Hs. match goal with |- @eq _ ?l ?r => change (@eq R l r) end. set (x := exp s / k). assert (Hx : 0 < x) by (apply Rdiv_lt_0_compat; [apply exp_pos|lra]).
      transitivity (x * rsum 5 (fun j => w j * A_without P j k x)); [rewrite <- rsum_scaled; apply ProofNewton7.rsum_eq; intros; ring|]. f_equal. symmetry. unfold A_without. apply is_RInt_unique.
      apply (is_RInt_ext (fun mu => rsum 5 (fun j => w j * A_tree (wA x mu) (wtA x mu) j k x mu (P k) (P (k * x)) 0))).
      + intros mu Hm. rewrite Rmin_left, Rmax_right in Hm by lra. rewrite A_integrand_val; [reflexivity|assumption|assumption|lra|assumption|apply sep_open; assumption].
      + apply (RInt_combination 5 w (fun j mu => A_tree (wA x mu) (wtA x mu) j k x mu (P k) (P (k * x)) 0)). intros j Hj. eexists. apply A_tree_integral; assumption.
    - apply (RInt_combination 5 w (fun j s => exp s / k * A_without P j k (exp s / k))). intros j Hj. apply (lip_int _ _ _ lam1 Hl Hlam1). exact (proj2 (HL j Hj)). }
  unfold A_redshift. rewrite E1, E2. unfold combine_components, A_continuum, A_powers. cbn [List.length rsum]. unfold w, A_powers. cbn [nth]. ring.
Qed.
(** The twelve weights of the components of the B terms *)
Definition twelve (v : nat -> R) (c : nat) : R := match c with 0 => v 0%nat | 1 | 2 => - v 1%nat | 3 => v 2%nat | 4 => v 3%nat | 5 | 6 => - v 4%nat | 7 => v 5%nat | 8 | 9 => - v 6%nat | 10 => v 7%nat | _ => v 8%nat end%nat.
Lemma B_twelve I : combine_components B_powers (nu ^ 2) f (B_nine I) = rsum 12 (fun c => twelve (fun j => weight (nu ^ 2) f (nth j B_powers (0, 0)%nat)) c * I c).
Proof. unfold combine_components, B_powers. cbn [List.length rsum nth B_nine twelve]. ring. Qed.
Lemma B_combination Pd Pt (K : nat -> R -> R -> R) lam M : 0 <= lam -> 0 <= M -> (forall c, (c < 12)%nat -> smooth true (qmin / k) (qmax / k) (K c) lam M) ->
  (forall x mu, 0 < x -> -1 <= mu <= 1 -> 0 < sep x mu -> B_averaged Pd Pt (fun c => K c x mu) k x mu nu) ->
  B_redshift Pd Pt f nu k qmin qmax = combine_components B_powers (nu ^ 2) f (fun c => k ^ 3 / (2 * PI ^ 2) * B_nine (fun c => mode_integral true 1 k qmin qmax (K c)) c).
Proof.
  intros Hlam HM HS HA.
  assert (E : mode_integral true 1 k qmin qmax (B_integrand Pd Pt f nu k) = combine_components B_powers (nu ^ 2) f (B_nine (fun c => mode_integral true 1 k qmin qmax (K c)))).
  { rewrite B_twelve. rewrite <- (mode_combination 12 _ K true 1 k qmin qmax lam M Hk Hq Hlam HM HS). apply mode_integral_ext; [assumption..|]. intros x mu Hr. destruct (region_in _ _ _ _ _ Hu Hr) as (R1 & R2 & R3).
    rewrite (B_integrand_val Pd Pt (fun c => K c x mu)) by (apply HA; assumption). apply B_twelve. }
  unfold B_redshift. rewrite E. unfold combine_components at 2. rewrite (ProofNewton7.rsum_eq _ _ (fun j => k ^ 3 / (2 * PI ^ 2) * (weight (nu ^ 2) f (nth j B_powers (0, 0)%nat) * B_nine (fun c => mode_integral true 1 k qmin qmax (K c)) j))) by (intros; ring).
  rewrite rsum_scaled. fold (combine_components B_powers (nu ^ 2) f (B_nine (fun c => mode_integral true 1 k qmin qmax (K c)))). set (X := combine_components _ _ _ _). field. apply PI_neq0.
Qed.
End Combination.
Lemma combine_error powers mu2 f v w e : 0 <= mu2 -> (forall j, (j < List.length powers)%nat -> Rabs (v j - w j) <= e) ->
  Rabs (combine_components powers mu2 f v - combine_components powers mu2 f w) <= combine_components powers mu2 (Rabs f) (fun _ => e).
Proof.
  intros Hm H. unfold combine_components. set (n := List.length powers) in *. clearbody n. induction n as [|n IH]; cbn [rsum]; [rewrite Rminus_0_r, Rabs_R0; lra|].
  set (W g := weight mu2 g (nth n powers (0, 0)%nat)). fold (W f) (W (Rabs f)). match goal with |- Rabs (?a + W f * ?b - (?c + W f * ?d)) <= _ => replace (a + W f * b - (c + W f * d)) with ((a - c) + W f * (b - d)) by ring end.
  eapply Rle_trans; [apply Rabs_triang|]. apply Rplus_le_compat; [apply IH; intros j Hj; apply H; lia|]. rewrite Rabs_mult. replace (Rabs (W f)) with (W (Rabs f)).
  - apply Rmult_le_compat_l; [|apply H; lia]. unfold W, weight. apply Rmult_le_pos; apply pow_le; [exact Hm|apply Rabs_pos].
  - unfold W, weight. rewrite Rabs_mult, <- !RPow_abs. rewrite (Rabs_right mu2) by lra. reflexivity.
Qed.
Lemma combine_scal powers mu2 f c v : combine_components powers mu2 f (fun j => c * v j) = c * combine_components powers mu2 f v.
Proof. unfold combine_components. rewrite <- rsum_scaled. apply ProofNewton7.rsum_eq. intros. ring. Qed.
