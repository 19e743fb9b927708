(** ProofIntegrals10: the values of the integrals in the terms of SpecIntegrals. *)
From Coq Require Import Reals Lra Lia List.
From Coquelicot Require Import Coquelicot.
From Verif Require Import Base Num BaseFacts Common Kernels Gamma2 Integrals Spec SpecPT SpecIntegrals SpecLoops SpecTable Sums ProofSearch ProofKernels ProofGL2 ProofIntegrals ProofIntegrals2 ProofIntegrals3 ProofIntegrals4 ProofIntegrals5 ProofIntegrals6 ProofIntegrals7 ProofIntegrals8 ProofIntegrals9.
Import ListNotations.
Local Open Scope R_scope.

Lemma comps_ext_lt {A} nc (f g : nat -> A) : (forall c, (c < nc)%nat -> f c = g c) -> comps nc f = comps nc g.
Proof. intros H. apply map_ext_in. intros c Hc. apply in_seq in Hc. apply H. lia. Qed.
(** ** A *)
Lemma At_kq_tree c k x mu pk pq pkq : 0 < k -> 0 < x -> -1 <= mu <= 1 -> 0 < sep x mu ->
  At_kq c x mu pk pq pkq = A_tree (wA x mu) (wtA x mu) c k x mu pk pq pkq - A_tree (wA x mu) (wtA x mu) c k x mu pk pq 0.
Proof. intros. rewrite !A_tree_val by assumption. reflexivity. Qed.
Lemma A_kernel pkl im P (g0 g : glq RNum) k pk i mu :
  lookup_is pkl im P -> q_table P g0 -> 0 < k -> update_gauss_legendre_q g0 k = Ok g -> (0 <= i < gq_nq g)%Z ->
  let x := at_ (xs_of g0 k) (Z.to_nat i) in
  -1 <= mu <= 1 -> 0 < sep x mu ->
  kernel_A_tA_1loop pkl im g pk i mu = Ok (comps 5 (fun c =>
    A_tree (wA x mu) (wtA x mu) c k x mu pk (P (k * x)) (P (k * sep x mu)) - A_tree (wA x mu) (wtA x mu) c k x mu pk (P (k * x)) 0)).
Proof.
  intros HL Hg Hk E Hi x Hm Hs. destruct (q_updated P g0 k Hg Hk) as [g' [E' [A1 [A2 [A3 [A4 [A5 [A6 [A7 [A8 [A9 A10]]]]]]]]]]].
  rewrite E in E'. injection E' as <-. destruct (A10 i Hi) as [R1 [R2 [R3 [R4 [R5 R6]]]]].
  rewrite (kernel_A_tA_val pkl im P g0 g k pk i mu); try assumption.
  - apply (f_equal (@Ok (list R))). apply comps_ext_lt. intros c Hc. cbn zeta. fold x. apply At_kq_tree; try assumption. unfold x. rewrite <- R3. exact R2.
  - rewrite R3. exact Hs.
Qed.
Lemma a_kernel_err P (g0 g : glq RNum) k pk i :
  q_table P g0 -> 0 < k -> update_gauss_legendre_q g0 k = Ok g -> (0 <= i < gq_nq g)%Z ->
  let x := at_ (xs_of g0 k) (Z.to_nat i) in
  exists v, kernel_a_1loop g i pk = Ok v /\ length v = 5%nat /\
    forall c, (c < 5)%nat -> exists J, is_RInt (fun mu => A_tree (wA x mu) (wtA x mu) c k x mu pk (P (k * x)) 0) (-1) 1 J /\
      Rabs (nth c v 0 - J) <= Rabs (pk * P (k * x)) * series_tolerance x.
Proof.
  intros Hg Hk E Hi x. destruct (q_updated P g0 k Hg Hk) as [g' [E' [A1 [A2 [A3 [A4 [A5 [A6 [A7 [A8 [A9 A10]]]]]]]]]]].
  rewrite E in E'. injection E' as <-. destruct (A10 i Hi) as [R1 [R2 [R3 [R4 [R5 R6]]]]].
  assert (Hx : 0 < x) by (unfold x; rewrite <- R3; exact R2).
  rewrite (kernel_a_val P g0 g k pk i) by assumption. eexists. split; [reflexivity|]. split; [reflexivity|].
  intros c Hc. exists (pk * P (k * x) * a_int c x (logx x)). split; [apply A_tree_integral; assumption|].
  unfold comps. rewrite (nth_indep _ 0 (pk * P (k * at_ (xs_of g0 k) (Z.to_nat i)) * a_code 0 (at_ (xs_of g0 k) (Z.to_nat i)))) by (rewrite map_length, seq_length; exact Hc).
  rewrite (map_nth (fun c => pk * P (k * at_ (xs_of g0 k) (Z.to_nat i)) * a_code c (at_ (xs_of g0 k) (Z.to_nat i))) (seq 0 5) 0%nat c), seq_nth by exact Hc.
  cbn [Nat.add]. fold x. rewrite <- Rmult_minus_distr_l, Rabs_mult. apply Rmult_le_compat_l; [apply Rabs_pos|].
  apply a_code_err; assumption.
Qed.

Lemma muquad_ext us ws lo hi f g : (forall u, In u us -> -1 <= u <= 1) ->
  (forall mu, lo <= mu <= hi -> f mu = g mu) -> muquad us ws lo hi f = muquad us ws lo hi g.
Proof.
  intros Hu H. unfold muquad. destruct (Rlt_dec lo hi); [|reflexivity]. apply rsum_ext. intros j Hj. rewrite H; [reflexivity|].
  pose proof (Hu (at_ us j) (nth_In us 0 Hj)). nra.
Qed.
Lemma calc_A_spec pkl imq im P Pk0 (g : glq RNum) (m : glmu RNum) k :
  lookup_is pkl im P -> find1 pkl imq k = Ok Pk0 -> q_table P g -> mu_rule m -> 0 < k ->
  exists g' m' err, calc_pk_A_1loop pkl imq im g m k =
    Ok (comps 5 (fun c => k * k * k / (4 * PI * PI) *
      rsum (length (xs_of g k)) (fun i => let x := at_ (xs_of g k) i in
        let lo := mu_lo (at_ (xs_of g k) (length (xs_of g k) - 1)) x in let hi := mu_hi false (at_ (xs_of g k) 0) x in
        let A mu pkq := A_tree (wA x mu) (wtA x mu) c k x mu Pk0 (P (k * x)) pkq in
        if Rlt_dec lo hi then x * at_ (gq_w g) i *
          (muquad (gm_muref m) (gm_wref m) lo hi (fun mu => A mu (P (k * sep x mu)) - A mu 0) + (RInt (fun mu => A mu 0) (-1) 1 + err c i)) else 0)), g', m') /\
    forall c i, (c < 5)%nat -> (i < length (xs_of g k))%nat -> let x := at_ (xs_of g k) i in Rabs (err c i) <= Rabs (Pk0 * P (k * x)) * series_tolerance x.
Proof.
  intros HL HF Hg Hm Hk. destruct (calc_A_1loop_val pkl imq im P Pk0 g m k HL HF Hg Hm Hk) as [g' [m' E]].
  exists g', m', (fun c i => let x := at_ (xs_of g k) i in Pk0 * P (k * x) * (a_code c x - a_int c x (logx x))). 
  assert (HX : forall i, (i < length (xs_of g k))%nat -> let x := at_ (xs_of g k) i in 0 < x /\ at_ (xs_of g k) 0 <= x <= at_ (xs_of g k) (length (xs_of g k) - 1)).
  { intros i Hi x. unfold xs_of in *. rewrite map_length in *. destruct Hg as [B1 [B2 [B3 [B4 [B5 [B6 B7]]]]]].
    change (T RNum) with R in *. unfold zlen in B2.
    assert (M : forall j, (j < length (gq_q g))%nat -> at_ (map (fun q => q / k) (gq_q g)) j = at_ (gq_q g) j / k).
    { intros j Hj. unfold at_. rewrite (nth_indep _ 0 (0 / k)) by (rewrite map_length; exact Hj). exact (map_nth (fun q => q / k) (gq_q g) 0 j). }
    assert (HL0 : (0 < length (gq_q g))%nat) by (eapply Nat.le_lt_trans; [apply Nat.le_0_l|exact Hi]).
    unfold x. rewrite !M by (assumption || (apply Nat.sub_lt; [exact HL0|apply Nat.lt_0_1])). pose proof (B7 (Z.of_nat i) ltac:(lia)) as [B8 _]. unfold znth in *. rewrite Nat2Z.id in B8.
    assert (Gl : forall l z, Z.of_nat l = z -> Z.to_nat (z - 1) = (l - 1)%nat) by (intros; lia).
    rewrite (Gl _ _ B2) in B8. change (Z.to_nat 0) with 0%nat in *. unfold at_.
    pose proof (Rinv_0_lt_compat k Hk).
    split; [apply Rdiv_lt_0_compat; lra|]. unfold Rdiv; split; apply Rmult_le_compat_r; lra. }
  split.
  - rewrite E. f_equal. f_equal. f_equal. apply comps_ext_lt. intros c Hc. f_equal. apply rsum_ext. intros i Hi. destruct (HX i Hi) as [X1 X3]. destruct (HX 0%nat ltac:(lia)) as [X4 _].
    cbn zeta. set (x := at_ (xs_of g k) i) in *. destruct (Rlt_dec _ _) as [l|]; [|reflexivity]. f_equal. f_equal.
    + apply muquad_ext; [apply Hm|]. intros mu Hmu. 
      assert (Hmr : -1 <= mu <= 1). { unfold mu_lo in Hmu. unfold mu_hi in Hmu. pose proof (Rmax_l (-1) ((1 + x * x - at_ (xs_of g k) (length (xs_of g k) - 1) * at_ (xs_of g k) (length (xs_of g k) - 1)) / (2 * x))).
        pose proof (Rmin_l 1 ((1 + x * x - at_ (xs_of g k) 0 * at_ (xs_of g k) 0) / (2 * x))). lra. }
      apply At_kq_tree; try assumption. apply (allowed_iff false _ _ _ mu X4 X3) in Hmu. destruct Hmu as [_ [Hs _]]. lra.
    + rewrite (is_RInt_unique _ _ _ _ (A_tree_integral c k x Pk0 (P (k * x)) Hc Hk X1)). ring.
  - intros c i Hc Hi x. destruct (HX i Hi) as [X1 _]. rewrite Rabs_mult. apply Rmult_le_compat_l; [apply Rabs_pos|]. apply a_code_err; assumption.
Qed.
Lemma A_weights k x mu nu : 0 < k -> 0 < x -> -1 <= mu <= 1 -> -1 <= nu <= 1 -> 0 < sep x mu ->
  let q := qphi k x mu in let kq := kqphi k x mu in let n := los nu in
  azimuth_average (fun t => k * nu * x ^ 2 * coup1 (q t) n) (nu ^ 2 * wA x mu 0) /\
  azimuth_average (fun t => k * nu * x ^ 2 * coup1 (kq t) n) (nu ^ 2 * wtA x mu 0) /\
  azimuth_average (fun t => k * nu * x ^ 2 * (coup1 (q t) n * (dot (kq t) n ^ 2 / dot (kq t) (kq t)))) (nu ^ 2 * wA x mu 1 + nu ^ 4 * wA x mu 2) /\
  azimuth_average (fun t => k * nu * x ^ 2 * (coup1 (kq t) n * (dot (q t) n ^ 2 / dot (q t) (q t)))) (nu ^ 2 * wtA x mu 1 + nu ^ 4 * wtA x mu 2).
Proof.
  intros Hk Hx Hm Hn Hs. pose proof (X_pos x mu Hx Hm Hs) as HX. cbn zeta in HX.
  destruct (A_averages k x mu nu _ Hk Hx Hm Hn Hs eq_refl) as [H1 [H2 [H3 H4]]].
  cbn zeta. unfold wA, wtA, kernel_projection_A_tA. cbn [fst snd nth]. cbn zeta. rn.
  split; [|split; [|split]].
  - eapply avg_ext; [| |exact H1]; [reflexivity|field; lra].
  - eapply avg_ext; [| |exact H2]; [reflexivity|field; lra].
  - eapply avg_ext; [| |exact H3]; [reflexivity|field; lra].
  - eapply avg_ext; [| |exact H4]; [reflexivity|field; lra].
Qed.

(** ** B *)
Lemma B_spec : exists K : nat -> R -> R -> R -> R -> R -> R -> R,
  (forall pk_dt pk_tt im Pd Pt P (g : glq RNum) (m : glmu RNum) k,
    lookup_is pk_dt im Pd -> lookup_is pk_tt im Pt -> q_table P g -> mu_rule m -> 0 < k ->
    exists g' m', calc_pk_B pk_dt pk_tt im g m k =
      Ok (comps 12 (fun c => k * k * k / (2 * PI * PI) *
         itquad true (xs_of g k) (fun i => at_ (xs_of g k) i * at_ (gq_w g) i) (gm_muref m) (gm_wref m)
           (fun i mu => let x := at_ (xs_of g k) i in K c (Pd (k * x)) (Pd (k * sep x mu)) (Pt (k * x)) (Pt (k * sep x mu)) x mu)), g', m')) /\
  (forall Pd Pt k x mu nu, 0 < k -> 0 < x -> -1 <= mu <= 1 -> -1 <= nu <= 1 -> 0 < sep x mu ->
    B_averaged Pd Pt (fun c => K c (Pd (k * x)) (Pd (k * sep x mu)) (Pt (k * x)) (Pt (k * sep x mu)) x mu) k x mu nu) /\
  (forall c dq dkq tq tkq x mu, (c < 12)%nat -> 0 < x -> -1 <= mu <= 1 -> 0 < sep x mu ->
    let s := sep x mu in let nu := mirror_mu x mu in
    K (B_mirror c) dkq dq tkq tq s nu / s ^ 2 = K c dq dkq tq tkq x mu / x ^ 2).
Proof.
  exists kB. split; [|split].
  - intros. eapply calc_B_val; eassumption.
  - intros. apply kB_averaged; assumption.
  - intros. apply kB_mirror; [assumption|]. apply mirror_coords; assumption.
Qed.

(** ** Example tables *)
Lemma q_table_ex (P : R -> R) : q_table P (mkGlq (N := RNum) 1 2 [1; 2] [1; 2] [1; 1] [P 1; P 2]).
Proof.
  unfold q_table; cbn [gq_nq gq_q gq_x gq_w gq_pk]. split; [lia|]. do 4 (split; [reflexivity|]). split; [change (0 < 1); lra|].
  intros i Hi. assert (i = 0 \/ i = 1)%Z as [->| ->] by lia; (split; [|reflexivity]); [change (1 <= 1 <= 2)|change (1 <= 2 <= 2)]; lra.
Qed.
Lemma mu_rule_ex : mu_rule (mkGlmu (N := RNum) 1 [0] [2] [0] [2]).
Proof.
  unfold mu_rule, mu_ok; cbn [gm_nmu gm_muref gm_wref gm_mu gm_w]. split; [repeat split; reflexivity || lia|]. intros u [<-|[]]. lra.
Qed.
Lemma lookup_ex : lookup_is (mk_table (N := RNum) [1; 2; 3] [5; 6; 4]) POLY (lookup_of (mk_table (N := RNum) [1; 2; 3] [5; 6; 4]) POLY).
Proof. apply lookup_poly; reflexivity || (split; [discriminate|reflexivity]). Qed.
Lemma bias_b22_mirror : exists P k x mu, 0 < k /\ 0 < x /\ -1 <= mu <= 1 /\ 0 < sep x mu /\
  bias_integrand BiasB22 P false k (sep x mu) (mirror_mu x mu) <> bias_integrand BiasB22 P false k x mu.
Proof.
  destruct bias_b22_not as [P [k [x [mu [s [nu [Hk [HM H]]]]]]]]. exists P, k, x, mu.
  pose proof (mirrored_sep _ _ _ _ HM) as E1. pose proof (mirrored_mirror _ _ _ _ HM) as E2. rewrite E1, E2.
  destruct HM as [A1 [A2 [A3 _]]]. repeat (split; [assumption|]). exact H.
Qed.
Lemma mirror_concrete : 0 < 1 / 2 /\ sep (1 / 2) (-1) = 3 / 2 /\ mirror_mu (1 / 2) (-1) = 1 /\ allowed false (1 / 10) 2 (1 / 2) (-1).
Proof.
  pose proof (mirrored_sep _ _ _ _ mirror_ex) as E1. pose proof (mirrored_mirror _ _ _ _ mirror_ex) as E2.
  split; [lra|]. split; [exact E1|]. split; [exact E2|]. unfold allowed. change (- (1))%R with (-1) in E1. rewrite E1. repeat split; try lra; discriminate.
Qed.
