(** ProofConv6: the 1-loop A terms against the integrals of perturbation theory. *)
From Coq Require Import Reals Lra Lia List ZArith String.
From Coquelicot Require Import Coquelicot.
From Verif Require Import Base Num BaseFacts Common Kernels Integrals Registry Threads Spec SpecPT SpecQuad SpecKernels SpecLoops SpecIntegrals SpecThreads SpecScratch SpecDefined SpecColumns SpecConv SpecConv2 Poly ProofKernels ProofThreads8 ProofDefined12
  ProofSearch ProofGL ProofGL2 ProofCommon2 ProofNewton6 ProofNewton7
  ProofIntegrals ProofIntegrals2 ProofIntegrals4 ProofIntegrals5 ProofIntegrals6 ProofIntegrals7 ProofIntegrals10 ProofColumns3 ProofColumns4 ProofNewton8 ProofQuad ProofQuad2 ProofQuad3 ProofConv ProofConv2 ProofConv3 ProofConv4 ProofConv5.
Import ListNotations.
Local Open Scope R_scope.

Lemma series_small x : 0 < x -> series_tolerance x <= 1 / 10 ^ 22.
Proof.
  intros Hx. unfold series_tolerance. destruct (Rlt_dec x (1 / 10000)) as [H|H].
  - assert (x ^ 10 <= (1 / 10000) ^ 10) by (apply pow_incr; lra). lra.
  - destruct (Rlt_dec 100 x) as [H1|H1].
    + assert (100 ^ 10 <= x ^ 10) by (apply pow_incr; lra). apply (Rle_trans _ (1 / (100 * 100 ^ 10))); [|lra]. unfold Rdiv. apply Rmult_le_compat_l; [lra|]. apply Rinv_le_contravar; lra.
    + destruct (Rlt_dec _ _) as [H2|H2]; [lra|]. assert (Rabs (x - 1) ^ 2 <= (3 / 10 ^ 14) ^ 2) by (apply pow_incr; split; [apply Rabs_pos|lra]). lra.
Qed.
Lemma series_pos x : 0 < x -> 0 <= series_tolerance x.
Proof.
  intros Hx. assert (0 < x ^ 10) by (apply pow_lt, Hx). unfold series_tolerance. destruct (Rlt_dec x _); [lra|]. destruct (Rlt_dec 100 x); [apply Rdiv_le_0_compat; lra|]. destruct (Rlt_dec _ _); [lra|].
  pose proof (pow_le (Rabs (x - 1)) 2 (Rabs_pos _)). lra.
Qed.
Lemma rsum_add n (f g : nat -> R) : rsum n (fun i => f i + g i) = rsum n f + rsum n g.
Proof. induction n as [|n IH]; cbn [rsum]; [ring|]. rewrite IH. ring. Qed.
(** With two nodes or more, the first and the last of which add up to more than 1, the region has an angle at every node. *)
Lemma region_open a L x : 0 < a -> a < L -> a <= x <= L -> 1 < a + L -> mu_lo L x < mu_hi false a x.
Proof.
  intros Ha HL Hx H1. unfold mu_lo, mu_hi. assert (I : 0 < / (2 * x)) by (apply Rinv_0_lt_compat; lra).
  apply Rmax_lub_lt; apply Rmin_glb_lt; [lra| | |].
  - apply (Rmult_lt_reg_r (2 * x)); [lra|]. replace ((1 + x * x - a * a) / (2 * x) * (2 * x)) with (1 + x * x - a * a) by (field; lra). nra.
  - apply (Rmult_lt_reg_r (2 * x)); [lra|]. replace ((1 + x * x - L * L) / (2 * x) * (2 * x)) with (1 + x * x - L * L) by (field; lra). nra.
  - unfold Rdiv. apply Rmult_lt_compat_r; [exact I|nra].
Qed.
Lemma makes_A fuel st suave1 suave12 pkl dt ptt k v : value_of (N := RNum) fuel st suave1 suave12 D_A_1loop pkl dt ptt k = Ok v ->
  exists g m, new_q (N := RNum) fuel st pkl "A_1loop_q" = Ok g /\ new_mu (N := RNum) fuel st "A_1loop_mu" = Ok m.
Proof.
  intros V; cbn [value_of] in V. unfold value_A_1loop in V. apply bind_inv in V. destruct V as (g & E & V). apply bind_inv in V. destruct V as (m & E' & _). exists g, m. split; assumption.
Qed.
Lemma table_ends fuel (p : precision RNum) pkl (g : glq RNum) qmin qmax : (1 <= pr_n p < 2 ^ 62)%Z ->
  init_gauss_legendre_q (N := RNum) fuel p pkl = Ok g -> q_range (N := RNum) p pkl = Ok (qmin, qmax) -> 0 < qmin < qmax ->
  let N := Z.to_nat (pr_n p) in List.length (gq_q g) = N /\ increasing (gq_q g) /\ qmax * exp (- end_gap (pr_n p) qmin qmax) <= at_ (gq_q g) (N - 1).
Proof.
  intros Hn HI ER Hq N. destruct (init_q_inv fuel p pkl g (nZ RNum 0) ltac:(lia) HI) as [qm [qM [x [E [EN [A1 [A2 [A3 [A4 [A5 [A6 [A7 A8]]]]]]]]]]]].
  change (T RNum) with R in *. rewrite ER in E. injection E as <- <-.
  set (z := repeat (nZ RNum 0) (Z.to_nat (pr_n p))) in EN. assert (Hz : zlen z = pr_n p) by (unfold z; apply zlen_repeat; lia).
  destruct (gl_order fuel (ln qmin) (ln qmax) z z (pr_n p) Hn Hz Hz ltac:(apply ln_increasing; lra) _ _ EN) as (Lx & Lw & Inc & HV).
  destruct (end_nodes fuel (ln qmin) (ln qmax) z z (pr_n p) Hn Hz Hz ltac:(apply ln_increasing; lra) _ _ EN) as (_ & N1).
  assert (LN : List.length (gq_q g) = N) by (unfold N; unfold zlen in A4; change (T RNum) with R in *; lia). split; [exact LN|].
  assert (Q : forall i, (i < N)%nat -> at_ (gq_q g) i = exp (at_ x i)).
  { intros i Hi. unfold N in Hi. specialize (A7 (Z.of_nat i) ltac:(lia)). unfold znth in A7. rewrite Nat2Z.id in A7. exact A7. }
  split.
  - intros i j Hij. change (T RNum) with R in *. rewrite !Q by lia. apply exp_increasing, Inc. unfold N in LN. lia.
  - unfold N in Q |- *. rewrite Q by lia. unfold end_gap.
    apply (Rle_trans _ (exp (ln qmax - (ln qmax - ln qmin) * (11 / 4) / (IZR (pr_n p) + 1 / 2) ^ 2))).
    + set (e := _ / (IZR (pr_n p) + 1 / 2) ^ 2). replace (exp (ln qmax - e)) with (qmax * exp (- e)); [lra|]. unfold Rminus. rewrite exp_plus, exp_ln by lra. reflexivity.
    + apply exp_le. lra.
Qed.
Lemma A_columns_error fuel st suave1 suave12 pkl dt ptt ks ps ss vals ik qmin qmax lam M lam1 M1 MP c : two_points pkl -> regular_run st pkl D_A_1loop ->
  let n := pr_n (s_prec st "A_1loop_q") in let m := pr_n (s_prec st "A_1loop_mu") in let P := lookup_of pkl POLY in let k := k_ (N := RNum) ks ik in
  q_range (N := RNum) (s_prec st "A_1loop_q") pkl = Ok (qmin, qmax) -> 0 < qmin < qmax ->
  computes (N := RNum) fuel st suave1 suave12 D_A_1loop pkl dt ptt ks ps ss vals -> (0 <= ik < zlen ks)%Z -> 0 < k -> (2 <= n)%Z -> k < qmin + qmax * exp (- end_gap n qmin qmax) ->
  0 <= lam -> 0 <= M -> 0 <= lam1 -> (c < 5)%nat ->
  smooth false (qmin / k) (qmax / k) (A_with P c k) lam M ->
  bounded_lipschitz (fun s => exp s / k * A_without P c k (exp s / k)) (ln qmin) (ln qmax) lam1 M1 -> (forall q, qmin <= q <= qmax -> Rabs (P q) <= MP) ->
  Rabs (at_ (vals ik) c - A_continuum P c k qmin qmax) <= A_bound n m k qmin qmax lam M lam1 M1 (P k) MP.
Proof.
  intros HT HR n m P k ER Hq HC Hik Hk Hn2 Hin Hlam HM Hlam1 Hc HS HL HP.
  pose proof (run_contents fuel st suave1 suave12 D_A_1loop pkl dt ptt ks ps ss vals HT ltac:(discriminate) HR HC ik Hik Hk) as V.
  destruct (makes_A fuel st suave1 suave12 pkl dt ptt _ _ (proj2 (proj2 HC) ik Hik)) as (g & mt & E & E').
  assert (Hn : (1 <= n < 2 ^ 62)%Z) by (apply (rr_q _ _ _ HR); cbn; tauto).
  assert (Hm : (1 <= m < 2 ^ 62)%Z) by (apply (rr_mu _ _ _ HR "A_1loop_mu"); cbn; tauto).
  change (T RNum) with R in *. fold k in V. cbn [contents] in V. unfold the_P in V. fold P in V.
  rewrite (the_q_is fuel st pkl _ g E), (the_mu_is fuel st _ mt E') in V. destruct V as (err & V & He).
  pose proof (proj2 (mode_error fuel fuel _ _ pkl g mt false 1 k qmin qmax _ lam M Hn Hm E E' ER Hq Hk Hlam HM HS)) as B1. fold n m in B1.
  destruct (radial_rule fuel _ pkl g qmin qmax (fun q => q / k * A_without P c k (q / k)) lam1 M1 Hn E ER Hq Hlam1 (proj1 HL) (proj2 HL)) as (_ & B2). fold n in B2.
  destruct (weights_sum fuel _ pkl g qmin qmax Hn E ER Hq) as (W1 & W2). fold n in W2.
  destruct (table_ends fuel _ pkl g qmin qmax Hn E ER Hq) as (LN & Inc & End). fold n in LN, End.
  set (N := List.length (gq_q g)) in *. assert (N2 : (2 <= N)%nat) by lia.
  assert (Inc' : forall i j, (i < j < N)%nat -> at_ (gq_q g) i < at_ (gq_q g) j) by exact Inc. set (w := at_ (gq_w g)) in *. set (xs := xs_of g k) in *.
  assert (Lxs : List.length xs = N) by (unfold xs, xs_of; apply map_length).
  assert (Xs : forall i, (i < N)%nat -> at_ xs i = at_ (gq_q g) i / k).
  { intros i Hi. unfold xs, xs_of, at_. rewrite (nth_indep _ 0 (0 / k)) by (rewrite map_length; exact Hi). exact (map_nth (fun q => q / k) (gq_q g) 0 i). }
  assert (Ik : 0 < / k) by (apply Rinv_0_lt_compat; exact Hk).
  assert (Op : forall i, (i < N)%nat -> mu_lo (at_ xs (N - 1)) (at_ xs i) < mu_hi false (at_ xs 0) (at_ xs i)).
  { intros i Hi. rewrite !Xs by lia. unfold Rdiv. destruct (W1 0%nat ltac:(lia)) as (_ & Q0).
    assert (M0 : at_ (gq_q g) 0 <= at_ (gq_q g) i) by (destruct i; [lra|left; apply Inc'; lia]).
    assert (M2 : at_ (gq_q g) i <= at_ (gq_q g) (N - 1)) by (destruct (Nat.eq_dec i (N - 1)) as [->|]; [lra|left; apply Inc'; lia]).
    apply region_open.
    - apply Rmult_lt_0_compat; lra.
    - apply Rmult_lt_compat_r; [exact Ik|]. apply Inc'; lia.
    - split; (apply Rmult_le_compat_r; [lra|assumption]).
    - rewrite <- LN in End. assert (k < at_ (gq_q g) 0 + at_ (gq_q g) (N - 1)) by lra. rewrite <- Rmult_plus_distr_r. apply (Rmult_lt_reg_r k); [exact Hk|].
      replace ((at_ (gq_q g) 0 + at_ (gq_q g) (N - 1)) * / k * k) with (at_ (gq_q g) 0 + at_ (gq_q g) (N - 1)) by (field; lra). lra. }
  set (S1 := itquad _ _ _ _ _ _) in B1. set (J1 := mode_integral _ _ _ _ _ _) in B1. set (S2 := rsum N _) in B2. set (J2 := RInt _ _ _) in B2.
  set (S3 := rsum N (fun i => w i * (at_ xs i * err c i))).
  assert (EA : at_ (vals ik) c = k ^ 3 / (4 * PI ^ 2) * (S1 + S2 + S3)).
  { rewrite V. transitivity (k ^ 3 / (4 * PI ^ 2) * rsum N (fun i => at_ xs i ^ 1 * w i * muquad (gm_muref mt) (gm_wref mt) (mu_lo (at_ xs (N - 1)) (at_ xs i)) (mu_hi false (at_ xs 0) (at_ xs i)) (A_with P c k (at_ xs i)) + w i * (at_ (gq_q g) i / k * A_without P c k (at_ (gq_q g) i / k)) + w i * (at_ xs i * err c i))).
    - rewrite Lxs. do 5 (destruct c as [|c]; [unfold comps; cbn [map seq at_ nth]; apply f_equal; apply ProofNewton7.rsum_eq; intros i Hi; cbv zeta; destruct (Rlt_dec _ _) as [H|H]; [|exfalso; exact (H (Op i Hi))];
        rewrite <- Xs by exact Hi; unfold A_without; unfold A_with; ring|]). lia.
    - apply f_equal. rewrite !rsum_add. unfold S1, itquad. rewrite Lxs. reflexivity. }
  assert (B3 : Rabs S3 <= (ln qmax - ln qmin) * (1 + 2 * (IZR n + 1 / 2) ^ 2 * (3 / 10 ^ 14)) * (qmax / k * (Rabs (P k) * MP * (1 / 10 ^ 22)))).
  { assert (PM : 0 <= MP) by (eapply Rle_trans; [apply Rabs_pos|apply (HP qmin); lra]). set (b := qmax / k * (Rabs (P k) * MP * (1 / 10 ^ 22))).
    assert (Hb : 0 <= b). { unfold b. apply Rmult_le_pos; [unfold Rdiv; apply Rmult_le_pos; lra|]. pose proof (Rabs_pos (P k)). pose proof (Rmult_le_pos _ _ H PM). lra. }
    apply (Rle_trans _ (rsum N w * b)); [|apply Rmult_le_compat_r; assumption].
    apply (Rle_trans _ (rsum N (fun i => w i * b))); [|rewrite ProofNewton7.rsum_scal; lra].
    apply ProofColumns2.rsum_abs_le. intros i Hi. destruct (W1 i Hi) as (Wp & Wq). fold (w i) in Wp.
    rewrite !Rabs_mult, (Rabs_right (w i)) by lra. apply Rmult_le_compat_l; [lra|]. unfold b.
    assert (Hx : 0 < at_ xs i) by (rewrite Xs by exact Hi; apply Rdiv_lt_0_compat; lra).
    apply Rmult_le_compat; try apply Rabs_pos.
    - rewrite Rabs_right by lra. rewrite Xs by exact Hi. unfold Rdiv. apply Rmult_le_compat_r; lra.
    - eapply Rle_trans; [apply (He c i Hc); rewrite Lxs; exact Hi|]. cbv zeta. pose proof (series_small _ Hx). rewrite Rabs_mult.
      apply Rmult_le_compat; [apply Rmult_le_pos; apply Rabs_pos| | |exact H].
      + apply series_pos, Hx.
      + apply Rmult_le_compat_l; [apply Rabs_pos|]. apply HP. rewrite Xs by exact Hi. replace (k * (at_ (gq_q g) i / k)) with (at_ (gq_q g) i) by (field; lra). lra. }
  rewrite EA. unfold A_continuum, A_bound. fold J1 J2. apply scaled_error; [apply norm_const; lra|].
  replace (S1 + S2 + S3 - (J1 + J2)) with ((S1 - J1) + (S2 - J2) + S3) by ring.
  eapply Rle_trans; [apply Rabs_triang|]. apply Rplus_le_compat; [|exact B3]. eapply Rle_trans; [apply Rabs_triang|]. apply Rplus_le_compat; assumption.
Qed.

(** With one node the first and the last separation are the same: no angle is left. *)
Lemma A_one_node fuel st suave1 suave12 pkl dt ptt ks ps ss vals ik c : two_points pkl -> regular_run st pkl D_A_1loop -> pr_n (s_prec st "A_1loop_q") = 1%Z ->
  computes (N := RNum) fuel st suave1 suave12 D_A_1loop pkl dt ptt ks ps ss vals -> (0 <= ik < zlen ks)%Z -> 0 < k_ (N := RNum) ks ik -> (c < 5)%nat -> at_ (vals ik) c = 0.
Proof.
  intros HT HR Hn HC Hik Hk Hc.
  pose proof (run_contents fuel st suave1 suave12 D_A_1loop pkl dt ptt ks ps ss vals HT ltac:(discriminate) HR HC ik Hik Hk) as V.
  destruct (makes_A fuel st suave1 suave12 pkl dt ptt _ _ (proj2 (proj2 HC) ik Hik)) as (g & mt & E & E').
  destruct (rr_q _ _ _ HR "A_1loop_q" ltac:(cbn; tauto)) as (_ & qmin & qmax & ER & Hq).
  destruct (table_ends fuel _ pkl g qmin qmax ltac:(rewrite Hn; lia) E ER Hq) as (LN & _ & _). rewrite Hn in LN. change (Z.to_nat 1) with 1%nat in LN.
  change (T RNum) with R in *. cbn [contents] in V. rewrite (the_q_is fuel st pkl _ g E) in V. destruct V as (err & V & _).
  assert (Lxs : List.length (xs_of g (k_ (N := RNum) ks ik)) = 1%nat) by (unfold xs_of; rewrite map_length; exact LN).
  assert (Cl : forall y, ~ mu_lo y y < mu_hi false y y).
  { intros y H. unfold mu_lo, mu_hi in H. pose proof (Rmax_r (-1) ((1 + y * y - y * y) / (2 * y))). pose proof (Rmin_r 1 ((1 + y * y - y * y) / (2 * y))). lra. }
  rewrite V, Lxs. do 5 (destruct c as [|c]; [unfold comps; cbn [map seq at_ nth rsum Nat.sub]; destruct (Rlt_dec _ _) as [H|H]; [exfalso; exact (Cl _ H)|ring]|]). lia.
Qed.

(** ** The bounds exist for every table *)
Lemma logx_cubelog x : 0 < x -> (x - 1) ^ 3 * logx x = - (cubelog (x - 1) + (-1) * ((x - 1) ^ 3 * ln (x + 1))).
Proof.
  intros Hx. rewrite <- ln_ratio by exact Hx. destruct (Req_dec x 1) as [->|H]; [ring|]. unfold logx.
  replace ((x + 1) / (x - 1)) with (/ ((x - 1) / (x + 1))) by (field; lra). rewrite Rabs_inv, ln_Rinv; [ring|]. apply Rabs_pos_lt. unfold Rdiv. apply Rmult_integral_contrapositive_currified; [lra|apply Rinv_neq_0_compat; lra].
Qed.
Lemma lip_a_int c a b : (c < 5)%nat -> 0 < a -> a <= b -> lip a b (fun x => a_int c x (logx x)).
Proof.
  intros Hc Ha Hab. pose proof (lip_rest a b Ha Hab) as HR. pose proof (lip_inv a b Ha Hab) as HI. set (rest := fun x => cubelog (x - 1) + (-1) * ((x - 1) ^ 3 * ln (x + 1))) in *.
  assert (EL : forall x, a <= x <= b -> (x - 1) ^ 3 * logx x = - rest x) by (intros x Hx; apply logx_cubelog; lra).
  destruct c as [|[|[|[|[|c]]]]]; [..|lia]; unfold a_int.
  - apply (lip_ext a b (fun x => (-1 / 84) * / x * (2 * x * (19 + (-24) * x ^ 2 + 9 * x ^ 4) + 9 * (x + 1) ^ 3 * rest x))); [|lips].
    intros x Hx. specialize (EL x Hx). replace (9 * (x ^ 2 - 1) ^ 3 * logx x) with (9 * (x + 1) ^ 3 * ((x - 1) ^ 3 * logx x)) by ring. rewrite EL. field. lra.
  - apply (lip_ext a b (fun x => (1 / 112) * (/ x) ^ 3 * (2 * x * (x ^ 2 + 1) * (3 + (-14) * x ^ 2 + 3 * x ^ 4) + 3 * (x + 1) ^ 4 * (x + -1) * rest x))); [|lips].
    intros x Hx. specialize (EL x Hx). replace (3 * (x ^ 2 - 1) ^ 4 * logx x) with (3 * (x + 1) ^ 4 * (x + -1) * ((x - 1) ^ 3 * logx x)) by ring. rewrite EL. field. lra.
  - apply (lip_ext a b (fun x => (1 / 336) * (/ x) ^ 3 * (2 * x * (9 + (-185) * x ^ 2 + 159 * x ^ 4 + (-63) * x ^ 6) + (-9) * (x + 1) ^ 3 * (7 * x ^ 2 + 1) * rest x))); [|lips].
    intros x Hx. specialize (EL x Hx). replace (9 * (x ^ 2 - 1) ^ 3 * (7 * x ^ 2 + 1) * logx x) with (9 * (x + 1) ^ 3 * (7 * x ^ 2 + 1) * ((x - 1) ^ 3 * logx x)) by ring. rewrite EL. field. lra.
  - apply (lip_ext a b (fun x => (1 / 112) * (/ x) ^ 3 * (2 * x * (x ^ 2 + 1) * (3 + (-14) * x ^ 2 + 3 * x ^ 4) + 3 * (x + 1) ^ 4 * (x + -1) * rest x))); [|lips].
    intros x Hx. specialize (EL x Hx). replace (3 * (x ^ 2 - 1) ^ 4 * logx x) with (3 * (x + 1) ^ 4 * (x + -1) * ((x - 1) ^ 3 * logx x)) by ring. rewrite EL. field. lra.
  - apply (lip_ext a b (fun x => (1 / 336) * (/ x) ^ 3 * (2 * x * (9 + (-109) * x ^ 2 + 63 * x ^ 4 + (-27) * x ^ 6) + (-9) * (x + 1) ^ 3 * (3 * x ^ 2 + 1) * rest x))); [|lips].
    intros x Hx. specialize (EL x Hx). replace (9 * (x ^ 2 - 1) ^ 3 * (3 * x ^ 2 + 1) * logx x) with (9 * (x + 1) ^ 3 * (3 * x ^ 2 + 1) * ((x - 1) ^ 3 * logx x)) by ring. rewrite EL. field. lra.
Qed.
Section Region.
Variables (D : R -> R -> Prop) (half : bool) (u v : R).
Hypothesis (Hu : 0 < u) (Huv : u <= v) (HD : forall x m, D x m -> region half u v x m).
Variables (P : R -> R) (k : R).
Hypothesis (Hk : 0 < k) (HP : lip (k * u) (k * v) P).
Lemma lip2_A c : (c < 5)%nat -> lip2 D (A_with P c k).
Proof.
  intros Hc. apply (lip2_ext D (fun x m => At_kq c x m (P k) (P (k * x)) (P (k * sep x m)))).
  { intros x m HDx. destruct (region_in _ _ _ x m Hu (HD x m HDx)) as (D1 & D2 & D3). unfold A_with. apply At_kq_tree; assumption. }
  pose proof (lip2_x D half u v Hu Huv HD) as L1. pose proof (lip2_m D half u v Hu HD) as L2. pose proof (lip2_iX D half u v Hu Huv HD) as L3. pose proof (lip2_ix D half u v Hu Huv HD) as L3'.
  pose proof (lip2_Px D half u v Hu Huv HD P k Hk HP) as L4. pose proof (lip2_Ps D half u v Hu Huv HD P k Hk HP) as L5.
  assert (L6 : lip2 D (fun x _ => / (x * x))).
  { apply (lip2_ext D (fun x _ => / x * / x)); [|apply lip2_mult; assumption]. intros x m HDx. destruct (region_in _ _ _ x m Hu (HD x m HDx)) as (D1 & _). field. lra. }
  do 5 (destruct c as [|c]; [unA; lip2_auto|]). lia.
Qed.
End Region.
Lemma A_exist K Pv k qmin qmax c : List.length Pv = List.length K -> (2 <= zlen K < 2 ^ 62)%Z -> increasing K -> 0 < qmin -> qmin <= qmax -> at_ K 0 <= qmin -> qmax <= at_ K (List.length K - 1) -> 0 < k -> (c < 5)%nat ->
  let P := lookup_of (mk_table (N := RNum) K Pv) POLY in
  exists lam M lam1 M1 MP, 0 <= lam /\ 0 <= M /\ 0 <= lam1 /\ smooth false (qmin / k) (qmax / k) (A_with P c k) lam M /\
    bounded_lipschitz (fun s => exp s / k * A_without P c k (exp s / k)) (ln qmin) (ln qmax) lam1 M1 /\ forall q, qmin <= q <= qmax -> Rabs (P q) <= MP.
Proof.
  intros HL HB HI Hq Hqq H0 H1 Hk Hc P.
  pose proof (lookup_lip K Pv k qmin qmax HL HB HI H0 H1 Hk) as LP. fold P in LP.
  assert (Hu : 0 < qmin / k) by (apply Rdiv_lt_0_compat; lra). assert (Huv : qmin / k <= qmax / k) by (unfold Rdiv; apply Rmult_le_compat_r; [apply Rlt_le, Rinv_0_lt_compat|]; lra).
  destruct (smooth_lip2 false (qmin / k) (qmax / k) (A_with P c k)) as (lam & M & A1 & A2 & A3).
  { apply (lip2_A _ false (qmin / k) (qmax / k)); auto. }
  assert (LQ : lip qmin qmax P). { apply (lip_sub (at_ K 0) (at_ K (List.length K - 1))); [exact H0|exact H1|]. apply lip_lookup; assumption. }
  assert (Hl : ln qmin <= ln qmax) by (destruct (Req_dec qmin qmax) as [->|]; [lra|left; apply ln_increasing; lra]).
  assert (HE : forall s, ln qmin <= s <= ln qmax -> qmin <= exp s <= qmax).
  { intros s [A B]. rewrite <- (exp_ln qmin), <- (exp_ln qmax) by lra. split; apply exp_le; assumption. }
  assert (LE : lip (ln qmin) (ln qmax) (fun s => exp s / k)) by (apply lip_mult; [apply lip_exp; exact Hl|apply lip_const]).
  destruct (lip_ext (ln qmin) (ln qmax) (fun s => exp s / k * (P k * P (exp s) * a_int c (exp s / k) (logx (exp s / k)))) (fun s => exp s / k * A_without P c k (exp s / k))) as (lam1 & M1 & B1 & B2 & B3).
  { intros s Hs. specialize (HE s Hs). f_equal. unfold A_without. symmetry. replace (P (exp s)) with (P (k * (exp s / k))) by (f_equal; field; lra).
    apply is_RInt_unique, A_tree_integral; [exact Hc|exact Hk|apply Rdiv_lt_0_compat; lra]. }
  { apply lip_mult; [exact LE|]. apply lip_mult; [apply lip_mult; [apply lip_const|]|].
    - apply (lip_comp _ _ qmin qmax P exp); [apply lip_exp; exact Hl|exact HE|exact LQ].
    - apply (lip_comp _ _ (qmin / k) (qmax / k) (fun x => a_int c x (logx x)) (fun s => exp s / k)); [exact LE| |apply lip_a_int; assumption].
      intros s Hs. specialize (HE s Hs). assert (0 < / k) by (apply Rinv_0_lt_compat; exact Hk). unfold Rdiv. split; apply Rmult_le_compat_r; lra. }
  destruct LQ as (l2 & MP & _ & HM & _). exists lam, M, lam1, M1, MP. split; [exact A1|]. split; [exact A2|]. split; [exact B1|]. split; [exact A3|]. split; [split; assumption|exact HM].
Qed.
(** A run with n nodes in every table *)
Lemma A_runs_ex n : (2 <= n < 2 ^ 62)%Z -> two_points pk_ex /\ regular_run (st_n n) pk_ex D_A_1loop /\ q_range (N := RNum) (s_prec (st_n n) "A_1loop_q") pk_ex = Ok (1, 2) /\ pr_n (s_prec (st_n n) "A_1loop_q") = n /\
  k_ (N := RNum) ks_ex 0 = 1 /\ 1 < 1 + 2 * exp (- end_gap n 1 2) /\ exists ps ss vals, computes 7 (st_n n) suave1_ex suave12_ex D_A_1loop pk_ex pk_ex pk_ex ks_ex ps ss vals.
Proof.
  intros Hn. assert (R12 : q_range (N := RNum) (mkPrec (N := RNum) n 1 2 POLY) pk_ex = Ok (1, 2)).
  { unfold q_range. cbn [pr_min pr_max]. rn. rewrite !(proj2 (Rleb_false _ _)) by lra. reflexivity. }
  assert (TP : two_points pk_ex). { exists [1; 2], [5; 6]. split; [reflexivity|]. split; [reflexivity|]. split; [cbn; lia|]. intros i j Hij. cbn in Hij. assert (i = 0 /\ j = 1)%nat as [-> ->] by lia. cbn. lra. }
  split; [exact TP|]. split.
  - constructor; [split; reflexivity| |intros x _; cbn; unfold rule_ok; cbn; lia]. intros x _. split; [cbn; lia|]. exists 1, 2. split; [exact R12|lra].
  - split; [exact R12|]. split; [reflexivity|]. split; [reflexivity|]. split; [pose proof (exp_pos (- end_gap n 1 2)); lra|].
    destruct (total_ex n D_A_1loop ltac:(lia)) as (A & B & C & D & E & F & _).
    destruct (run_total 7 (st_n n) suave1_ex suave12_ex D_A_1loop h_ex pk_ex pk_ex pk_ex ks_ex [[0; 1]; [2]]%Z ltac:(lia) A B C (fun x _ => D x) E F ltac:(discriminate)) as (ps & ss & vals & X & _).
    exists ps, ss, vals. exact X.
Qed.
Lemma A_bounds_ex c : (c < 5)%nat -> let P := lookup_of pk_ex POLY in exists lam M lam1 M1 MP, 0 <= lam /\ 0 <= M /\ 0 <= lam1 /\ smooth false (1 / 1) (2 / 1) (A_with P c 1) lam M /\
    bounded_lipschitz (fun s => exp s / 1 * A_without P c 1 (exp s / 1)) (ln 1) (ln 2) lam1 M1 /\ forall q, 1 <= q <= 2 -> Rabs (P q) <= MP.
Proof.
  intros Hc. apply (A_exist [1; 2] [5; 6] 1 1 2 c); try (cbn; lra); try lra; try reflexivity; try exact Hc; [cbn; lia|].
  intros i j Hij. cbn in Hij. assert (i = 0 /\ j = 1)%nat as [-> ->] by lia. cbn. lra.
Qed.
