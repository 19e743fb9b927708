(** ProofConv7: the A and B columns of a table close to a spectrum. *)
From Coq Require Import Reals Lra Lia List ZArith String.
From Coquelicot Require Import Coquelicot.
From Verif Require Import Base Num BaseFacts Common Kernels Integrals Registry Threads Spec SpecPT SpecQuad SpecKernels SpecLoops SpecIntegrals SpecThreads SpecScratch SpecDefined SpecColumns SpecConv SpecConv2 Poly ProofKernels ProofThreads8 ProofDefined12
  ProofSearch ProofGL ProofGL2 ProofCommon2 ProofNewton6 ProofNewton7
  ProofIntegrals ProofIntegrals2 ProofIntegrals4 ProofIntegrals5 ProofIntegrals6 ProofIntegrals7 ProofIntegrals10 ProofColumns3 ProofColumns4 ProofNewton8 ProofQuad ProofQuad2 ProofQuad3 ProofConv ProofConv2 ProofConv3 ProofConv4 ProofConv5 ProofConv6
  SpecSamples SpecConv3 ProofSamples3 ProofSamples4 ProofSamples5 ProofSamples6 ProofSamples8.
Import ListNotations.
Local Open Scope R_scope.

Lemma prod_near a b a' b' M d : 0 <= d <= 1 -> Rabs (a' - a) <= d -> Rabs (b' - b) <= d -> Rabs a <= M -> Rabs b <= M -> Rabs (a' * b' - a * b) <= (2 * M + 1) * d.
Proof.
  intros Hd A B HA HB. replace (a' * b' - a * b) with ((a' - a) * b + (a' - a) * (b' - b) + a * (b' - b)) by ring.
  eapply Rle_trans; [apply Rabs_triang|]. eapply Rle_trans; [apply Rplus_le_compat_r, Rabs_triang|]. rewrite !Rabs_mult.
  assert (X : Rabs (a' - a) * Rabs b <= d * M) by (apply Rmult_le_compat; try apply Rabs_pos; assumption).
  assert (Y : Rabs (a' - a) * Rabs (b' - b) <= d * 1) by (apply Rmult_le_compat; try apply Rabs_pos; lra).
  assert (Z : Rabs a * Rabs (b' - b) <= M * d) by (apply Rmult_le_compat; try apply Rabs_pos; assumption). lra.
Qed.
Lemma A_near_error fuel st suave1 suave12 pkl dt ptt ks ps ss vals ik qmin qmax lam M lam1 M1 MP c F C C1 delta : two_points pkl -> regular_run st pkl D_A_1loop ->
  let n := pr_n (s_prec st "A_1loop_q") in let m := pr_n (s_prec st "A_1loop_mu") in let k := k_ (N := RNum) ks ik in
  q_range (N := RNum) (s_prec st "A_1loop_q") pkl = Ok (qmin, qmax) -> 0 < qmin < qmax ->
  computes (N := RNum) fuel st suave1 suave12 D_A_1loop pkl dt ptt ks ps ss vals -> (0 <= ik < zlen ks)%Z -> 0 < k -> (2 <= n)%Z -> k < qmin + qmax * exp (- end_gap n qmin qmax) ->
  0 <= lam -> 0 <= M -> 0 <= lam1 -> (c < 5)%nat ->
  smooth false (qmin / k) (qmax / k) (A_with F c k) lam M -> stable false k qmin qmax (fun Q => A_with Q c k) F C ->
  bounded_lipschitz (fun s => exp s / k * A_without F c k (exp s / k)) (ln qmin) (ln qmax) lam1 M1 -> stable_without c k qmin qmax F C1 -> (forall q, qmin <= q <= qmax -> Rabs (F q) <= MP) ->
  0 <= C -> 0 <= C1 -> 0 <= delta <= 1 -> close_on qmin qmax (lookup_of pkl POLY) F delta -> qmin <= k <= qmax ->
  Rabs (at_ (vals ik) c - A_continuum F c k qmin qmax) <= A_bound n m k qmin qmax lam M lam1 M1 (MP + 1) (MP + 1) + A_change n m k qmin qmax C C1 delta.
Proof.
  intros HT HR n m k ER Hq HC Hik Hk Hn2 Hin Hlam HM Hlam1 Hc HS HSt HL HSw HF HCp HC1p Hd Hcl Hkr. set (P := lookup_of pkl POLY) in *.
  assert (HP : forall q, qmin <= q <= qmax -> Rabs (P q) <= MP + 1).
  { intros q Hq'. specialize (Hcl q Hq'). specialize (HF q Hq'). replace (P q) with ((P q - F q) + F q) by ring. eapply Rle_trans; [apply Rabs_triang|]. lra. }
  pose proof (run_contents fuel st suave1 suave12 D_A_1loop pkl dt ptt ks ps ss vals HT ltac:(discriminate) HR HC ik Hik Hk) as V.
  destruct (makes_A fuel st suave1 suave12 pkl dt ptt _ _ (proj2 (proj2 HC) ik Hik)) as (g & mt & E & E').
  assert (Hn : (1 <= n < 2 ^ 62)%Z) by (apply (rr_q _ _ _ HR); cbn; tauto).
  assert (Hm : (1 <= m < 2 ^ 62)%Z) by (apply (rr_mu _ _ _ HR "A_1loop_mu"); cbn; tauto).
  change (T RNum) with R in *. fold k in V. cbn [contents] in V. unfold the_P in V. fold P in V.
  rewrite (the_q_is fuel st pkl _ g E), (the_mu_is fuel st _ mt E') in V. destruct V as (err & V & He).
  pose proof (proj2 (mode_error fuel fuel _ _ pkl g mt false 1 k qmin qmax _ lam M Hn Hm E E' ER Hq Hk Hlam HM HS)) as B1. fold n m in B1.
  pose proof (mode_change fuel fuel _ _ pkl g mt false 1 k qmin qmax (A_with P c k) (A_with F c k) (C * delta) Hn Hm E E' ER Hq Hk ltac:(apply Rmult_le_pos; lra) (fun x mu HRg => HSt P delta x mu Hd Hcl HRg)) as D1. fold n m in D1.
  destruct (radial_rule fuel _ pkl g qmin qmax (fun q => q / k * A_without F c k (q / k)) lam1 M1 Hn E ER Hq Hlam1 (proj1 HL) (proj2 HL)) as (_ & B2). fold n in B2.
  destruct (weights_sum fuel _ pkl g qmin qmax Hn E ER Hq) as (W1 & W2). fold n in W2.
  destruct (table_ends fuel _ pkl g qmin qmax Hn E ER Hq) as (LN & Inc & End). fold n in LN, End.
  set (N := List.length (gq_q g)) in *. assert (N2 : (2 <= N)%nat) by lia.
  assert (Inc' : forall i j, (i < j < N)%nat -> at_ (gq_q g) i < at_ (gq_q g) j) by exact Inc. set (w := at_ (gq_w g)) in *. set (xs := xs_of g k) in *.
  assert (Lxs : List.length xs = N) by (unfold xs, xs_of; apply map_length).
  assert (Xs : forall i, (i < N)%nat -> at_ xs i = at_ (gq_q g) i / k).
  { intros i Hi. unfold xs, xs_of, at_. rewrite (nth_indep _ 0 (0 / k)) by (rewrite map_length; exact Hi). exact (map_nth (fun q => q / k) (gq_q g) 0 i). }
  assert (Ik : 0 < / k) by (apply Rinv_0_lt_compat; exact Hk).
  assert (Op : forall i, (i < N)%nat -> mu_lo (at_ xs (N - 1)) (at_ xs i) < mu_hi false (at_ xs 0) (at_ xs i)).
  { intros i Hi. rewrite !Xs by lia. unfold Rdiv. destruct (W1 0%nat ltac:(lia)) as (_ & Q0).
    assert (M0 : at_ (gq_q g) 0 <= at_ (gq_q g) i) by (destruct i; [lra|left; apply Inc'; lia]).
    assert (M2 : at_ (gq_q g) i <= at_ (gq_q g) (N - 1)) by (destruct (Nat.eq_dec i (N - 1)) as [->|]; [lra|left; apply Inc'; lia]).
    apply region_open.
    - apply Rmult_lt_0_compat; lra.
    - apply Rmult_lt_compat_r; [exact Ik|]. apply Inc'; lia.
    - split; (apply Rmult_le_compat_r; [lra|assumption]).
    - rewrite <- LN in End. assert (k < at_ (gq_q g) 0 + at_ (gq_q g) (N - 1)) by lra. rewrite <- Rmult_plus_distr_r. apply (Rmult_lt_reg_r k); [exact Hk|].
      replace ((at_ (gq_q g) 0 + at_ (gq_q g) (N - 1)) * / k * k) with (at_ (gq_q g) 0 + at_ (gq_q g) (N - 1)) by (field; lra). lra. }
  set (S1F := itquad _ _ _ _ _ _) in B1. set (S1 := itquad _ _ _ _ _ (fun i mu => A_with P c k _ mu)) in D1. fold S1F in D1. set (J1 := mode_integral _ _ _ _ _ _) in B1. set (S2F := rsum N _) in B2. set (S2 := rsum N (fun i => w i * (at_ (gq_q g) i / k * A_without P c k (at_ (gq_q g) i / k)))). set (J2 := RInt _ _ _) in B2.
  set (S3 := rsum N (fun i => w i * (at_ xs i * err c i))).
  assert (EA : at_ (vals ik) c = k ^ 3 / (4 * PI ^ 2) * (S1 + S2 + S3)).
  { rewrite V. transitivity (k ^ 3 / (4 * PI ^ 2) * rsum N (fun i => at_ xs i ^ 1 * w i * muquad (gm_muref mt) (gm_wref mt) (mu_lo (at_ xs (N - 1)) (at_ xs i)) (mu_hi false (at_ xs 0) (at_ xs i)) (A_with P c k (at_ xs i)) + w i * (at_ (gq_q g) i / k * A_without P c k (at_ (gq_q g) i / k)) + w i * (at_ xs i * err c i))).
    - rewrite Lxs. do 5 (destruct c as [|c]; [unfold comps; cbn [map seq at_ nth]; apply f_equal; apply ProofNewton7.rsum_eq; intros i Hi; cbv zeta; destruct (Rlt_dec _ _) as [H|H]; [|exfalso; exact (H (Op i Hi))];
        rewrite <- Xs by exact Hi; unfold A_without; unfold A_with; ring|]). lia.
    - apply f_equal. rewrite !rsum_add. unfold S1, itquad. rewrite Lxs. reflexivity. }
  assert (B3 : Rabs S3 <= (ln qmax - ln qmin) * (1 + 2 * (IZR n + 1 / 2) ^ 2 * (3 / 10 ^ 14)) * (qmax / k * (Rabs (MP + 1) * (MP + 1) * (1 / 10 ^ 22)))).
  { assert (PM : 0 <= MP + 1) by (eapply Rle_trans; [apply Rabs_pos|apply (HP qmin); lra]). set (b := qmax / k * (Rabs (MP + 1) * (MP + 1) * (1 / 10 ^ 22))).
    assert (Hb : 0 <= b). { unfold b. apply Rmult_le_pos; [unfold Rdiv; apply Rmult_le_pos; lra|]. pose proof (Rabs_pos (MP + 1)). pose proof (Rmult_le_pos _ _ H PM). lra. }
    apply (Rle_trans _ (rsum N w * b)); [|apply Rmult_le_compat_r; assumption].
    apply (Rle_trans _ (rsum N (fun i => w i * b))); [|rewrite ProofNewton7.rsum_scal; lra].
    apply ProofColumns2.rsum_abs_le. intros i Hi. destruct (W1 i Hi) as (Wp & Wq). fold (w i) in Wp.
    rewrite !Rabs_mult, (Rabs_right (w i)) by lra. apply Rmult_le_compat_l; [lra|]. unfold b.
    assert (Hx : 0 < at_ xs i) by (rewrite Xs by exact Hi; apply Rdiv_lt_0_compat; lra).
    apply Rmult_le_compat; try apply Rabs_pos.
    - rewrite Rabs_right by lra. rewrite Xs by exact Hi. unfold Rdiv. apply Rmult_le_compat_r; lra.
    - eapply Rle_trans; [apply (He c i Hc); rewrite Lxs; exact Hi|]. cbv zeta. pose proof (series_small _ Hx). rewrite Rabs_mult.
      apply Rmult_le_compat; [apply Rmult_le_pos; apply Rabs_pos| | |exact H].
      + apply series_pos, Hx.
      + rewrite (Rabs_right (MP + 1)) by lra. apply Rmult_le_compat; try apply Rabs_pos; [apply HP; exact Hkr|]. apply HP. rewrite Xs by exact Hi. replace (k * (at_ (gq_q g) i / k)) with (at_ (gq_q g) i) by (field; lra). lra. }
  assert (D2 : Rabs (S2 - S2F) <= (ln qmax - ln qmin) * (1 + 2 * (IZR n + 1 / 2) ^ 2 * (3 / 10 ^ 14)) * (qmax / k * (C1 * delta))).
  { assert (Hb : 0 <= qmax / k * (C1 * delta)) by (apply Rmult_le_pos; [unfold Rdiv; apply Rmult_le_pos; lra|apply Rmult_le_pos; lra]).
    apply (Rle_trans _ (rsum N w * (qmax / k * (C1 * delta)))); [|apply Rmult_le_compat_r; assumption].
    unfold S2, S2F. eapply Rle_trans; [apply rsum_dist|]. rewrite <- ProofNewton7.rsum_scal. apply rsum_le. intros i Hi. destruct (W1 i Hi) as (Wp & Wq). fold (w i) in Wp |- *.
    set (q := at_ (gq_q g) i) in *.
    replace (w i * (q / k * A_without P c k (q / k)) - w i * (q / k * A_without F c k (q / k))) with (w i * (q / k * (A_without P c k (q / k) - A_without F c k (q / k)))) by ring.
    rewrite !Rabs_mult, (Rabs_right (w i)) by lra. apply Rmult_le_compat_l; [lra|]. apply Rmult_le_compat; try apply Rabs_pos.
    - rewrite Rabs_right by (apply Rle_ge, Rlt_le, Rdiv_lt_0_compat; lra). unfold Rdiv. apply Rmult_le_compat_r; lra.
    - apply (HSw P delta q Hd Hcl). lra. }
  rewrite EA. unfold A_continuum, A_bound, A_change. fold J1 J2. rewrite <- Rmult_plus_distr_l. apply scaled_error; [apply norm_const; lra|].
  replace (S1 + S2 + S3 - (J1 + J2)) with ((S1F - J1) + (S2F - J2) + S3 + ((S1 - S1F) + (S2 - S2F))) by ring.
  eapply Rle_trans; [apply Rabs_triang|]. apply Rplus_le_compat; [|eapply Rle_trans; [apply Rabs_triang|]; apply Rplus_le_compat; assumption].
  eapply Rle_trans; [apply Rabs_triang|]. apply Rplus_le_compat; [|exact B3]. eapply Rle_trans; [apply Rabs_triang|]. apply Rplus_le_compat; assumption.
Qed.
Lemma B_near_error fuel st suave1 suave12 pkl dt ptt ks ps ss vals ik qmin qmax K lam M c Pd Pt C delta : two_points pkl -> two_points dt -> two_points ptt -> regular_run st pkl D_B ->
  let n := pr_n (s_prec st "B_q") in let m := pr_n (s_prec st "B_mu") in let k := k_ (N := RNum) ks ik in
  q_range (N := RNum) (s_prec st "B_q") pkl = Ok (qmin, qmax) -> 0 < qmin < qmax ->
  computes (N := RNum) fuel st suave1 suave12 D_B pkl dt ptt ks ps ss vals -> (0 <= ik < zlen ks)%Z -> 0 < k -> 0 <= lam -> 0 <= M ->
  0 <= C -> 0 <= delta <= 1 -> close_on qmin qmax (lookup_of dt POLY) Pd delta -> close_on qmin qmax (lookup_of ptt POLY) Pt delta -> stable_B k qmin qmax Pd Pt K C ->
  (forall c, (c < 12)%nat -> smooth true (qmin / k) (qmax / k) (K c) lam M) -> (c < 9)%nat ->
  Rabs (at_ (vals ik) c - k ^ 3 / (2 * PI ^ 2) * B_nine (fun c => mode_integral true 1 k qmin qmax (K c)) c) <= k ^ 3 / (2 * PI ^ 2) * (2 * (mode_bound n m 1 k qmin qmax lam M + mode_change_bound n m 1 k qmin qmax (C * delta))).
Proof.
  intros HT HT1 HT2 HR n m k ER Hq HC Hik Hk Hlam HM HCp Hd Hcd Hct HK HS Hc.
  pose proof (run_contents fuel st suave1 suave12 D_B pkl dt ptt ks ps ss vals HT ltac:(split; assumption) HR HC ik Hik Hk) as V.
  destruct (makes_B fuel st suave1 suave12 pkl dt ptt _ _ (proj2 (proj2 HC) ik Hik)) as (g & mt & E & E').
  assert (Hn : (1 <= n < 2 ^ 62)%Z) by (apply (rr_q _ _ _ HR); cbn; tauto).
  assert (Hm : (1 <= m < 2 ^ 62)%Z) by (apply (rr_mu _ _ _ HR "B_mu"); cbn; tauto).
  change (T RNum) with R in *. fold k in V. cbn [contents] in V. destruct V as (L & HL & V).
  set (L' := fun c x mu => L c (lookup_of dt POLY (k * x)) (lookup_of dt POLY (k * sep x mu)) (lookup_of ptt POLY (k * x)) (lookup_of ptt POLY (k * sep x mu)) x mu) in *.
  assert (Hu : 0 < qmin / k) by (apply Rdiv_lt_0_compat; lra).
  assert (B : forall c, (c < 12)%nat -> Rabs (mode_sum fuel st pkl k true 1 "B_q" "B_mu" (L' c) - mode_integral true 1 k qmin qmax (K c)) <= (mode_bound n m 1 k qmin qmax lam M + mode_change_bound n m 1 k qmin qmax (C * delta))).
  { intros c' Hc'. apply (add_error _ (mode_sum fuel st pkl k true 1 "B_q" "B_mu" (K c'))).
    - unfold mode_sum. rewrite (the_q_is fuel st pkl _ g E), (the_mu_is fuel st _ mt E').
      apply (mode_change fuel fuel _ _ pkl g mt true 1 k qmin qmax _ _ (C * delta) Hn Hm E E' ER Hq Hk); [apply Rmult_le_pos; lra|].
      intros x mu HD. destruct (region_in _ _ _ x mu Hu HD) as (D1 & D2 & D3). apply (HK (lookup_of dt POLY) (lookup_of ptt POLY) delta (fun c => L' c x mu) x mu c' Hd Hcd Hct HD); [|exact Hc'].
      intros nu Hnu. exact (HL x mu nu D1 D2 Hnu D3).
    - apply (mode_sum_error fuel st pkl k true 1 _ _ g mt qmin qmax _ lam M E E' Hn Hm ER Hq Hk Hlam HM). exact (HS c' Hc'). }
  assert (Pb : 0 <= (mode_bound n m 1 k qmin qmax lam M + mode_change_bound n m 1 k qmin qmax (C * delta))) by (eapply Rle_trans; [apply Rabs_pos|exact (B 0%nat ltac:(lia))]).
  assert (CN : Rabs (B_nine (fun c => mode_sum fuel st pkl k true 1 "B_q" "B_mu" (L' c)) c - B_nine (fun c => mode_integral true 1 k qmin qmax (K c)) c) <= 2 * (mode_bound n m 1 k qmin qmax lam M + mode_change_bound n m 1 k qmin qmax (C * delta))).
  { assert (B1 : forall c, (c < 12)%nat -> Rabs (mode_sum fuel st pkl k true 1 "B_q" "B_mu" (L' c) - mode_integral true 1 k qmin qmax (K c)) <= 2 * (mode_bound n m 1 k qmin qmax lam M + mode_change_bound n m 1 k qmin qmax (C * delta))) by (intros c' Hc'; specialize (B c' Hc'); lra).
    assert (B2 : forall c d, (c < 12)%nat -> (d < 12)%nat -> Rabs (- (mode_sum fuel st pkl k true 1 "B_q" "B_mu" (L' c) + mode_sum fuel st pkl k true 1 "B_q" "B_mu" (L' d)) -
      - (mode_integral true 1 k qmin qmax (K c) + mode_integral true 1 k qmin qmax (K d))) <= 2 * (mode_bound n m 1 k qmin qmax lam M + mode_change_bound n m 1 k qmin qmax (C * delta))).
    { intros c' d' Hc' Hd'. pose proof (B c' Hc') as X. pose proof (B d' Hd') as Y. apply Rabs_le_between in X. apply Rabs_le_between in Y. apply Rabs_le. lra. }
    do 9 (destruct c as [|c]; [cbn [B_nine]; first [apply B1; lia|apply B2; lia]|]). lia. }
  assert (EA : at_ (vals ik) c = k ^ 3 / (2 * PI ^ 2) * B_nine (fun n => mode_sum fuel st pkl k true 1 "B_q" "B_mu" (L' n)) c).
  { rewrite V. do 9 (destruct c as [|c]; [reflexivity|]). lia. }
  rewrite EA. apply scaled_error; [apply norm_const; lra|exact CN].
Qed.

(** ** The constants exist for every differentiable spectrum *)
Lemma At_kq_lin c x mu p q r : (c < 5)%nat -> At_kq c x mu p q r = (At_kq c x mu 1 0 1 * p + At_kq c x mu 0 1 1 * q) * r.
Proof. intros Hc. destruct c as [|[|[|[|[|c]]]]]; [..|lia]; unfold At_kq, At, bq, btq; ring. Qed.
Lemma lip2_At half u v c p q r : 0 < u -> u <= v -> (c < 5)%nat -> lip2 (region half u v) (fun x m => At_kq c x m p q r).
Proof.
  intros Hu Huv Hc. set (D := region half u v). assert (HD : forall x m, D x m -> region half u v x m) by (intros x m H; exact H).
  pose proof (lip2_x D half u v Hu Huv HD) as L1. pose proof (lip2_m D half u v Hu HD) as L2. pose proof (lip2_iX D half u v Hu Huv HD) as L3. pose proof (lip2_ix D half u v Hu Huv HD) as L3'.
  assert (L6 : lip2 D (fun x _ => / (x * x))).
  { apply (lip2_ext D (fun x _ => / x * / x)); [|apply lip2_mult; assumption]. intros x m HDx. destruct (region_in _ _ _ x m Hu (HD x m HDx)) as (D1 & _). field. lra. }
  do 5 (destruct c as [|c]; [unA; lip2_auto|]). lia.
Qed.
Lemma stab_A half u v k P c : 0 < u -> u <= v -> 0 < k -> lip (k * u) (k * v) P -> (c < 5)%nat -> k * u <= k <= k * v -> stab half u v k P (fun Q => A_with Q c k).
Proof.
  intros Hu Huv Hk HP Hc Hkr.
  apply (stab_ext half u v k P (fun Q x m => (At_kq c x m 1 0 1 * Q k + At_kq c x m 0 1 1 * Q (k * x)) * Q (k * sep x m))).
  { intros Q x m HDx. destruct (region_in _ _ _ x m Hu HDx) as (D1 & D2 & D3). unfold A_with. rewrite <- At_kq_tree by assumption. symmetry. apply At_kq_lin, Hc. }
  apply stab_mult; [|apply stab_Ps; assumption]. apply stab_plus; apply stab_mult.
  - apply (stab_fixed half u v k P (fun x m => At_kq c x m 1 0 1)). apply lip2_At; assumption.
  - destruct (P_pos u v k P Huv Hk HP) as (M & HM & B). exists 1, M. repeat split; try lra; [intros; apply B, Hkr|]. intros Q d x m Hd Hn _. rewrite Rmult_1_l. apply Hn, Hkr.
  - apply (stab_fixed half u v k P (fun x m => At_kq c x m 0 1 1)). apply lip2_At; assumption.
  - apply stab_Px; assumption.
Qed.
Lemma A_constants (F F' : R -> R) D k qmin qmax c : 0 < qmin -> qmin <= qmax -> qmin <= k <= qmax -> (forall q, qmin <= q <= qmax -> is_derive F q (F' q) /\ Rabs (F' q) <= D) -> (c < 5)%nat ->
  exists lam M lam1 M1 MP C C1, 0 <= lam /\ 0 <= M /\ 0 <= lam1 /\ 0 <= C /\ 0 <= C1 /\ smooth false (qmin / k) (qmax / k) (A_with F c k) lam M /\ stable false k qmin qmax (fun Q => A_with Q c k) F C /\
    bounded_lipschitz (fun s => exp s / k * A_without F c k (exp s / k)) (ln qmin) (ln qmax) lam1 M1 /\ stable_without c k qmin qmax F C1 /\ forall q, qmin <= q <= qmax -> Rabs (F q) <= MP.
Proof.
  intros Hq Hqq Hkr HF Hc. assert (Hk : 0 < k) by lra. assert (HDp : 0 <= D) by (eapply Rle_trans; [apply Rabs_pos|apply (HF qmin); lra]).
  pose proof (lip_derive qmin qmax F F' D Hqq HDp HF) as LQ.
  assert (I0 : 0 < / k) by (apply Rinv_0_lt_compat, Hk). set (u := qmin / k). set (v := qmax / k). assert (Hu : 0 < u) by (apply Rmult_lt_0_compat; assumption). assert (Huv : u <= v) by (apply Rmult_le_compat_r; lra).
  assert (Eu : k * u = qmin) by (unfold u; field; lra). assert (Ev : k * v = qmax) by (unfold v; field; lra).
  assert (LP : lip (k * u) (k * v) F) by (rewrite Eu, Ev; exact LQ).
  destruct (smooth_lip2 false u v (A_with F c k)) as (lam & M & A1 & A2 & A3).
  { apply (lip2_A _ false u v); auto. }
  destruct (stab_A false u v k F c Hu Huv Hk LP Hc ltac:(rewrite Eu, Ev; exact Hkr)) as (C & M' & HC & _ & _ & S).
  assert (Hl : ln qmin <= ln qmax) by (destruct (Req_dec qmin qmax) as [->|]; [lra|left; apply ln_increasing; lra]).
  assert (HE : forall s, ln qmin <= s <= ln qmax -> qmin <= exp s <= qmax).
  { intros s [A B]. rewrite <- (exp_ln qmin), <- (exp_ln qmax) by lra. split; apply exp_le; assumption. }
  assert (LE : lip (ln qmin) (ln qmax) (fun s => exp s / k)) by (apply lip_mult; [apply lip_exp; exact Hl|apply lip_const]).
  assert (EW : forall Q q, qmin <= q <= qmax -> A_without Q c k (q / k) = Q k * Q q * a_int c (q / k) (logx (q / k))).
  { intros Q q Hq'. unfold A_without. replace (Q q) with (Q (k * (q / k))) by (f_equal; field; lra). apply is_RInt_unique, A_tree_integral; [exact Hc|exact Hk|apply Rdiv_lt_0_compat; lra]. }
  destruct (lip_ext (ln qmin) (ln qmax) (fun s => exp s / k * (F k * F (exp s) * a_int c (exp s / k) (logx (exp s / k)))) (fun s => exp s / k * A_without F c k (exp s / k))) as (lam1 & M1 & B1 & B2 & B3).
  { intros s Hs. specialize (HE s Hs). f_equal. symmetry. apply EW, HE. }
  { apply lip_mult; [exact LE|]. apply lip_mult; [apply lip_mult; [apply lip_const|]|].
    - apply (lip_comp _ _ qmin qmax F exp); [apply lip_exp; exact Hl|exact HE|exact LQ].
    - apply (lip_comp _ _ u v (fun x => a_int c x (logx x)) (fun s => exp s / k)); [exact LE| |apply lip_a_int; assumption].
      intros s Hs. specialize (HE s Hs). unfold u, v, Rdiv. split; apply Rmult_le_compat_r; lra. }
  destruct (lip_a_int c u v Hc Hu Huv) as (la & Ma & _ & Ba & _). assert (PMa : 0 <= Ma) by (eapply Rle_trans; [apply Rabs_pos|apply (Ba u); lra]).
  destruct LQ as (l2 & MP & _ & HM & _). assert (PMP : 0 <= MP) by (eapply Rle_trans; [apply Rabs_pos|apply (HM k); lra]).
  exists lam, M, lam1, M1, MP, C, ((2 * MP + 1) * Ma).
  split; [exact A1|]. split; [exact A2|]. split; [exact B1|]. split; [exact HC|]. split; [apply Rmult_le_pos; lra|]. split; [exact A3|]. split; [|split; [split; assumption|split; [|exact HM]]].
  - intros Q d x mu Hd HQ HR. apply (S Q d x mu Hd); [|exact HR]. intros q Hq'. rewrite Eu, Ev in Hq'. apply HQ, Hq'.
  - intros Q d q Hd HQ Hq'. rewrite !EW by exact Hq'. rewrite <- Rmult_minus_distr_r, Rabs_mult. pose proof (HQ k Hkr) as Q1. pose proof (HQ q Hq') as Q2. pose proof (HM k Hkr) as F1. pose proof (HM q Hq') as F2.
    replace ((2 * MP + 1) * Ma * d) with ((2 * MP + 1) * d * Ma) by ring. apply Rmult_le_compat; try apply Rabs_pos; [apply prod_near; assumption|].
    apply Ba. unfold u, v, Rdiv. split; apply Rmult_le_compat_r; lra.
Qed.
(** The component c as a weight times two values *)
Definition first_of (c : nat) (d t : R) : R := match c with 0 | 1 | 4 | 5 | 8 => d | _ => t end%nat.
Definition second_of (c : nat) (d t : R) : R := match c with 0 | 2 | 4 | 6 | 9 => d | _ => t end%nat.
Lemma kB_split c dq dkq tq tkq x mu : (c < 12)%nat -> kB c dq dkq tq tkq x mu = kB c 1 1 1 1 x mu * (first_of c dkq tkq * second_of c dq tq).
Proof. intros Hc. do 12 (destruct c as [|c]; [unfold kB; cbn [nth first_of second_of]; cbv zeta; unfold Rdiv; ring|]). lia. Qed.
Lemma B_constants (Pd Pd' Pt Pt' : R -> R) D k qmin qmax : 0 < qmin -> qmin <= qmax -> 0 < k ->
  (forall q, qmin <= q <= qmax -> is_derive Pd q (Pd' q) /\ Rabs (Pd' q) <= D) -> (forall q, qmin <= q <= qmax -> is_derive Pt q (Pt' q) /\ Rabs (Pt' q) <= D) ->
  exists K lam M C, 0 <= lam /\ 0 <= M /\ 0 <= C /\ (forall c, (c < 12)%nat -> smooth true (qmin / k) (qmax / k) (K c) lam M) /\ stable_B k qmin qmax Pd Pt K C /\
    (forall x mu nu, 0 < x -> -1 <= mu <= 1 -> -1 <= nu <= 1 -> 0 < sep x mu -> B_averaged Pd Pt (fun c => K c x mu) k x mu nu).
Proof.
  intros Hq Hqq Hk Hd Ht. assert (HDp : 0 <= D) by (eapply Rle_trans; [apply Rabs_pos|apply (Hd qmin); lra]).
  pose proof (lip_derive qmin qmax Pd Pd' D Hqq HDp Hd) as LQd. pose proof (lip_derive qmin qmax Pt Pt' D Hqq HDp Ht) as LQt.
  assert (I0 : 0 < / k) by (apply Rinv_0_lt_compat, Hk). set (u := qmin / k). set (v := qmax / k). assert (Hu : 0 < u) by (apply Rmult_lt_0_compat; assumption). assert (Huv : u <= v) by (apply Rmult_le_compat_r; lra).
  assert (Eu : k * u = qmin) by (unfold u; field; lra). assert (Ev : k * v = qmax) by (unfold v; field; lra).
  destruct (lip2_both (region true u v) 12 (fun c x m => kB c (Pd (k * x)) (Pd (k * sep x m)) (Pt (k * x)) (Pt (k * sep x m)) x m) 0 0 ltac:(lra) ltac:(lra)) as (lam & M & A & B & CC).
  { intros c Hc. apply (lip2_kB _ true u v); auto; rewrite Eu, Ev; assumption. }
  destruct (lip2_both (region true u v) 12 (fun c x m => kB c 1 1 1 1 x m) 0 0 ltac:(lra) ltac:(lra)) as (lw & W & _ & PW & CW).
  { intros c Hc. apply (lip2_kB (region true u v) true u v Hu Huv (fun _ _ H => H) (fun _ => 1) (fun _ => 1) k Hk (lip_const _ _ 1) (lip_const _ _ 1) c Hc). }
  destruct LQd as (l1 & Md & _ & Bd & _). destruct LQt as (l2 & Mt & _ & Bt & _). assert (PMd : 0 <= Md) by (eapply Rle_trans; [apply Rabs_pos|apply (Bd qmin); lra]). assert (PMt : 0 <= Mt) by (eapply Rle_trans; [apply Rabs_pos|apply (Bt qmin); lra]).
  exists (fun c x m => kB c (Pd (k * x)) (Pd (k * sep x m)) (Pt (k * x)) (Pt (k * sep x m)) x m), lam, M, (W * (2 * (Md + Mt) + 1)).
  split; [exact A|]. split; [exact B|]. split; [apply Rmult_le_pos; lra|]. split; [intros c Hc; exact (CC c Hc)|]. split; [|intros x mu nu H1 H2 H3 H4; apply kB_averaged; assumption].
  intros Qd Qt d L x mu c Hd1 Cd Ct HR HL Hc. destruct (region_in _ _ _ x mu Hu HR) as (D1 & D2 & D3). destruct (in_region (region true u v) true u v Hu (fun _ _ H => H) x mu HR) as (R1 & _ & R3).
  rewrite (averaged_unique Qd Qt L (fun c => kB c (Qd (k * x)) (Qd (k * sep x mu)) (Qt (k * x)) (Qt (k * sep x mu)) x mu) k x mu HL ltac:(intros nu Hnu; apply kB_averaged; assumption) c Hc).
  rewrite (kB_split c (Qd _)), (kB_split c (Pd _)) by exact Hc. rewrite <- Rmult_minus_distr_l, Rabs_mult, Rmult_assoc.
  assert (K1 : qmin <= k * x <= qmax) by (rewrite <- Eu, <- Ev; split; apply Rmult_le_compat_l; lra). assert (K2 : qmin <= k * sep x mu <= qmax) by (rewrite <- Eu, <- Ev; split; apply Rmult_le_compat_l; lra).
  apply Rmult_le_compat; try apply Rabs_pos; [apply (proj1 (CW c Hc)), HR|]. pose proof (Cd _ K1). pose proof (Cd _ K2). pose proof (Ct _ K1). pose proof (Ct _ K2). pose proof (Bd _ K1). pose proof (Bd _ K2). pose proof (Bt _ K1). pose proof (Bt _ K2).
  apply prod_near; try assumption; do 12 (destruct c as [|c]; [cbn [first_of second_of]; lra|]); lia.
Qed.
(** ** A table within 1/8 of a spectrum with a bump between its two points *)
Lemma sampled_close P M h K Pv d qmin qmax : samples P 5 M h K Pv -> (3 <= zlen K < 2 ^ 62)%Z -> (forall m, (3 <= m <= 5)%nat -> poly_error M h m <= d) -> at_ K 0 <= qmin -> qmax <= at_ K (List.length K - 1) ->
  close_on qmin qmax (lookup_of (mk_table (N := RNum) K Pv) POLY) (P 0%nat) d.
Proof. intros HS HB Hd H0 H1 q Hq. apply (lookup_near P M h); try assumption. lra. Qed.
Definition bump (j : nat) (q : R) : R := match j with 0%nat => 3 + 5 / 2 * q - 1 / 2 * q ^ 2 | 1%nat => 5 / 2 - q | 2%nat => -1 | _ => 0 end.
Definition bump_bound (j : nat) : R := match j with 0%nat => 7 | 1%nat => 2 | 2%nat => 1 | _ => 0 end.
Lemma bump_derive j t : is_derive (bump j) t (bump (S j) t).
Proof. destruct j as [|[|[|j]]]; unfold bump; auto_derive; trivial; field. Qed.
Lemma bump_samples : samples bump 5 bump_bound 1 [1; 2] [5; 6].
Proof.
  split.
  - reflexivity.
  - intros i j Hij. cbn [List.length] in Hij. destruct i as [|[|i]], j as [|[|j]]; try lia; cbn [at_ nth]; lra.
  - intros i Hi. cbn [List.length] in Hi. destruct i as [|[|i]]; try lia; unfold at_, bump; cbn [nth]; lra.
  - intros i Hi. cbn [List.length] in Hi. destruct i as [|i]; try lia; cbn [at_ nth]; lra.
  - intros j t _ _. apply bump_derive.
  - intros j t _ Ht. cbn [List.length Nat.sub at_ nth] in Ht. unfold bump, bump_bound. assert (H : 0 <= (t - 1) * (2 - t)) by (apply Rmult_le_pos; lra). destruct j as [|[|[|j]]]; apply Rabs_le; split; try lra; nra.
Qed.
Lemma bump_close : close_on 1 2 (lookup_of pk_ex POLY) (bump 0) (1 / 8) /\ (forall q, 1 <= q <= 2 -> is_derive (bump 0) q (bump 1 q) /\ Rabs (bump 1 q) <= 2).
Proof.
  assert (A : forall q, 1 <= q <= 2 -> Rabs (lookup_of pk_ex POLY q - bump 0 q) <= 1 / 8).
  { intros q Hq. destruct (sampled_poly bump bump_bound 1 [1; 2] [5; 6] q bump_samples ltac:(cbn; lia) ltac:(cbn; lra)) as (i & v & Hi & _ & _ & E & B).
    unfold pk_ex. rewrite (F_of [1; 2] [5; 6] q v E). eapply Rle_trans; [exact B|]. cbn [List.length] in Hi |- *. destruct i as [|[|i]]; [| |lia]; cbn [Nat.min Nat.sub Nat.add poly_error bump_bound]; lra. }
  split; [exact A|]. intros q Hq. split; [apply bump_derive|]. cbn [bump]. apply Rabs_le. lra.
Qed.
