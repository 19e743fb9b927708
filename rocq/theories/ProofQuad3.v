(** ProofQuad3: sums over the radial nodes against integrals over ln q; the propagator columns. *)
From Coq Require Import Reals Lra Lia List ZArith String.
From Coquelicot Require Import Coquelicot.
From Verif Require Import Base Num BaseFacts Common Kernels Integrals Registry Threads Spec SpecPT SpecQuad SpecKernels SpecLoops SpecIntegrals SpecThreads SpecDefined SpecColumns SpecConv Poly ProofSearch ProofGL ProofGL2 ProofCommon2
  ProofNewton6 ProofNewton7 ProofThreads8 ProofDefined12 ProofColumns2 ProofKernels ProofColumns3 ProofColumns4 ProofNewton8 ProofQuad ProofQuad2.
Import ListNotations.
Local Open Scope R_scope.

Lemma radial_rule fuel (p : precision RNum) pkl (g : glq RNum) qmin qmax F lam M : (1 <= pr_n p < 2 ^ 62)%Z ->
  init_gauss_legendre_q (N := RNum) fuel p pkl = Ok g -> q_range (N := RNum) p pkl = Ok (qmin, qmax) -> 0 < qmin < qmax -> 0 <= lam ->
  (forall s, ln qmin <= s <= ln qmax -> Rabs (F (exp s)) <= M) -> lip_on (ln qmin) (ln qmax) (fun s => F (exp s)) lam ->
  ex_RInt (fun s => F (exp s)) (ln qmin) (ln qmax) /\
  Rabs (rsum (List.length (gq_q g)) (fun i => at_ (gq_w g) i * F (at_ (gq_q g) i)) - RInt (fun s => F (exp s)) (ln qmin) (ln qmax)) <= rule_error (pr_n p) (ln qmax - ln qmin) lam M.
Proof.
  intros Hn HI ER Hq Hl HM HL. destruct (init_q_inv fuel p pkl g (nZ RNum 0) ltac:(lia) HI) as [qm [qM [x [E [EN [A1 [A2 [A3 [A4 [A5 [A6 [A7 A8]]]]]]]]]]]].
  change (T RNum) with R in *. rewrite ER in E. injection E as <- <-.
  set (z := repeat (nZ RNum 0) (Z.to_nat (pr_n p))) in EN. assert (Hz : zlen z = pr_n p) by (unfold z; apply zlen_repeat; lia).
  destruct (gl_lipschitz fuel (ln qmin) (ln qmax) z z (pr_n p) _ M lam Hn Hz Hz ltac:(apply ln_increasing; lra) Hl HM HL _ _ EN) as (HX & HB).
  split; [exact HX|]. unfold zlen in A4, A5. change (T RNum) with R in *.
  assert (EL : List.length (gq_q g) = List.length x) by (apply Nat2Z.inj; rewrite A5; exact A4).
  assert (EQ : rsum (List.length (gq_q g)) (fun i => at_ (gq_w g) i * F (at_ (gq_q g) i)) = rsum (List.length x) (fun i => at_ (gq_w g) i * F (exp (at_ x i)))).
  { transitivity (rsum (List.length x) (fun i => at_ (gq_w g) i * F (at_ (gq_q g) i))); [exact (f_equal (fun n => rsum n (fun i => at_ (gq_w g) i * F (at_ (gq_q g) i))) EL)|]. apply ProofNewton7.rsum_eq. intros i Hi. apply f_equal.
    specialize (A7 (Z.of_nat i) ltac:(lia)). unfold znth in A7. rewrite Nat2Z.id in A7. change (at_ (gq_q g) i = exp (at_ x i)) in A7. rewrite A7. reflexivity. }
  exact (Rle_trans _ _ _ (Req_le _ _ (f_equal (fun a => Rabs (a - RInt (fun s => F (exp s)) (ln qmin) (ln qmax))) EQ)) HB).
Qed.
Lemma weights_sum fuel (p : precision RNum) pkl (g : glq RNum) qmin qmax : (1 <= pr_n p < 2 ^ 62)%Z ->
  init_gauss_legendre_q (N := RNum) fuel p pkl = Ok g -> q_range (N := RNum) p pkl = Ok (qmin, qmax) -> 0 < qmin < qmax ->
  (forall i, (i < List.length (gq_q g))%nat -> 0 < at_ (gq_w g) i /\ qmin < at_ (gq_q g) i < qmax) /\
  rsum (List.length (gq_q g)) (at_ (gq_w g)) <= (ln qmax - ln qmin) * (1 + 2 * (IZR (pr_n p) + 1 / 2) ^ 2 * (3 / 10 ^ 14)).
Proof.
  intros Hn HI ER Hq. split.
  - destruct (init_q_inv fuel p pkl g (nZ RNum 0) ltac:(lia) HI) as [qm [qM [x [E [EN [A1 [A2 [A3 [A4 [A5 [A6 [A7 A8]]]]]]]]]]]].
    change (T RNum) with R in *. rewrite ER in E. injection E as <- <-.
    set (z := repeat (nZ RNum 0) (Z.to_nat (pr_n p))) in EN. assert (Hz : zlen z = pr_n p) by (unfold z; apply zlen_repeat; lia).
    destruct (gl_order fuel (ln qmin) (ln qmax) z z (pr_n p) Hn Hz Hz ltac:(apply ln_increasing; lra) _ _ EN) as (Lx & Lw & _ & HV).
    intros i Hi. unfold zlen in A4. change (T RNum) with R in *. destruct (HV i ltac:(lia)) as (V1 & V2). split; [exact V2|].
    specialize (A7 (Z.of_nat i) ltac:(lia)). unfold znth in A7. rewrite Nat2Z.id in A7. change (at_ (gq_q g) i = exp (at_ x i)) in A7. rewrite A7.
    destruct V1 as [V1 V3]. apply exp_increasing in V1, V3. rewrite !exp_ln in * by lra. lra.
  - destruct (radial_rule fuel p pkl g qmin qmax (fun _ => 1) 0 1 Hn HI ER Hq ltac:(lra)) as (_ & H).
    + intros s _. rewrite Rabs_R1. lra.
    + intros s t _ _. rewrite Rminus_eq_0, Rabs_R0. lra.
    + rewrite RInt_const in H. unfold scal in H; cbn in H. unfold mult in H; cbn in H.
      rewrite (rsum_eq _ (fun i => at_ (gq_w g) i * 1) (at_ (gq_w g))) in H by (intros; ring). unfold rule_error in H.
      set (S := rsum _ _) in *. set (e := 2 * (IZR (pr_n p) + 1 / 2) ^ 2 * (3 / 10 ^ 14)) in *. set (l := ln qmax - ln qmin) in *.
      pose proof (Rle_abs (S - l * 1)). unfold Rdiv in H. rewrite !Rmult_0_l in H. lra.
Qed.
Lemma tolerance_small x : 0 < x -> prop_tolerance x <= 3 / 10 ^ 5.
Proof.
  intros Hx. unfold prop_tolerance. destruct (Rlt_dec (Rabs (x - 1)) (1 / 100)) as [H|H].
  - set (u := Rabs (x - 1)) in *. destruct (Req_dec u 0) as [->|Hu]; [rewrite pow_ne_zero by discriminate; lra|].
    assert (Hp : 0 < u) by (pose proof (Rabs_pos (x - 1)); fold u in H0; lra).
    set (r := sqrt u). assert (Hr : 0 < r) by (apply sqrt_lt_R0; exact Hp). assert (Hrr : r * r = u) by (apply sqrt_sqrt; lra).
    assert (Hr1 : r <= 1 / 10) by nra.
    assert (HL : Rabs (ln u) <= 2 * / r).
    { rewrite <- Hrr, ln_mult by exact Hr. pose proof (ln_small r ltac:(lra)) as [A B]. rewrite Rabs_left1 by lra. lra. }
    apply (Rle_trans _ (u ^ 3 * (1 + 2 * / r))); [apply Rmult_le_compat_l; [apply pow_le; lra|lra]|].
    replace (u ^ 3 * (1 + 2 * / r)) with (r ^ 6 + 2 * r ^ 5) by (rewrite <- Hrr; field; lra).
    assert (r ^ 5 <= (1 / 10) ^ 5) by (apply pow_incr; lra). assert (r ^ 6 <= (1 / 10) ^ 6) by (apply pow_incr; lra). lra.
  - destruct (Rlt_dec 10 x) as [H1|H1]; [|lra]. assert (10 ^ 5 <= x ^ 5) by (apply pow_incr; lra).
    apply (Rle_trans _ (1 / (100 * 10 ^ 5))); [|lra]. unfold Rdiv. apply Rmult_le_compat_l; [lra|]. apply Rinv_le_contravar; lra.
Qed.
Lemma propagator_error fuel (p : precision RNum) pkl g t k qmin qmax lam M1 M : (1 <= pr_n p < 2 ^ 62)%Z -> q_range (N := RNum) p pkl = Ok (qmin, qmax) -> 0 < qmin < qmax -> 0 < k -> 0 <= lam ->
  init_gauss_legendre_q (N := RNum) fuel p pkl = Ok g -> let P := lookup_of pkl POLY in
  bounded_lipschitz (fun s => prop_exact t (exp s / k) * P (exp s)) (ln qmin) (ln qmax) lam M1 -> (forall q, qmin <= q <= qmax -> Rabs (P q) <= M) ->
  ex_RInt (fun s => prop_exact t (exp s / k) * P (exp s)) (ln qmin) (ln qmax) /\
  Rabs (single_sum P g k (prop_kernel t) - exact_integral P t k qmin qmax) <= propagator_bound (pr_n p) k qmin qmax lam M1 M.
Proof.
  intros Hn ER Hq Hk Hlam EI P (HM1 & HLip) HM. unfold propagator_bound.
  assert (Hlq : ln qmin < ln qmax) by (apply ln_increasing; lra). set (l := ln qmax - ln qmin) in *. set (c := k ^ 3 / (2 * PI ^ 2)).
  assert (Hc : 0 < c) by (unfold c; apply Rdiv_lt_0_compat; [apply pow_lt, Hk|]; pose proof PI_RGT_0; nra).
  assert (PM : 0 <= M) by (eapply Rle_trans; [apply Rabs_pos|apply (HM qmin); lra]).
  unfold single_sum, exact_integral. fold c. set (n := IZR (pr_n p)).
  destruct (radial_rule fuel p pkl g qmin qmax (fun q => prop_exact t (q / k) * P q) lam M1 Hn EI ER Hq Hlam HM1 HLip) as (X & A). split; [exact X|].
  destruct (weights_sum fuel p pkl g qmin qmax Hn EI ER Hq) as (W1 & W2). fold l in A, W2. fold n in W2.
  set (N := List.length (gq_q g)) in *. set (w := at_ (gq_w g)) in *. set (q := at_ (gq_q g)) in *. set (J := RInt _ _ _) in *. cbv beta in A.
  assert (B : Rabs (rsum N (fun i => w i * (prop_kernel t (q i / k) * P (q i))) - rsum N (fun i => w i * (prop_exact t (q i / k) * P (q i)))) <= rsum N w * (3 / 10 ^ 5 * M)).
  { eapply Rle_trans; [apply rsum_dist|]. rewrite <- rsum_scal. apply rsum_le. intros i Hi. destruct (W1 i Hi) as (Wp & Wq). fold (w i) in Wp. fold (q i) in Wq.
    replace (w i * (prop_kernel t (q i / k) * P (q i)) - w i * (prop_exact t (q i / k) * P (q i))) with (w i * ((prop_kernel t (q i / k) - prop_exact t (q i / k)) * P (q i))) by ring.
    rewrite !Rabs_mult, (Rabs_right (w i)) by lra. apply Rmult_le_compat_l; [lra|].
    assert (Hx : 0 < q i / k) by (apply Rdiv_lt_0_compat; lra). pose proof (prop_close t (q i / k) Hx) as D1. pose proof (tolerance_small (q i / k) Hx) as D2.
    apply Rmult_le_compat; try apply Rabs_pos; [lra|apply HM; lra]. }
  set (S1 := rsum N (fun i => w i * (prop_kernel t (q i / k) * P (q i)))) in *. set (S2 := rsum N (fun i => w i * (prop_exact t (q i / k) * P (q i)))) in *.
  replace (c * S1 - c * J) with (c * ((S1 - S2) + (S2 - J))) by ring. rewrite Rabs_mult, (Rabs_right c) by lra. apply Rmult_le_compat_l; [lra|].
  apply (Rle_trans _ (Rabs (S1 - S2) + Rabs (S2 - J))); [apply Rabs_triang|].
  assert (E1 : rsum N w * (3 / 10 ^ 5 * M) <= l * (1 + 2 * (n + 1 / 2) ^ 2 * (3 / 10 ^ 14)) * (3 / 10 ^ 5 * M)) by (apply Rmult_le_compat_r; lra). lra.
Qed.
(** Such bounds exist for every table *)
Lemma bounds_exist K Pv t k qmin qmax : List.length Pv = List.length K -> (2 <= zlen K < 2 ^ 62)%Z -> increasing K -> 0 < qmin -> qmin <= qmax -> at_ K 0 <= qmin -> qmax <= at_ K (List.length K - 1) -> 0 < k ->
  let P := lookup_of (mk_table (N := RNum) K Pv) POLY in
  exists lam M1 M, 0 <= lam /\ bounded_lipschitz (fun s => prop_exact t (exp s / k) * P (exp s)) (ln qmin) (ln qmax) lam M1 /\ forall q, qmin <= q <= qmax -> Rabs (P q) <= M.
Proof.
  intros HL HB HI Hq Hqq H0 H1 Hk P. destruct (lip_integrand K Pv t k qmin qmax HL HB HI ltac:(lra) H0 H1 Hk) as (lam & M1 & Hlam & HM1 & HLip).
  destruct (lip_lookup K Pv HL HB HI) as (l2 & M & _ & HM & _). exists lam, M1, M. split; [exact Hlam|]. split; [split; assumption|].
  intros q Hq2. apply HM. lra.
Qed.
Lemma makes_gamma1 fuel st suave1 suave12 a b pkl dt ptt k d v : d = D_1loop a b \/ d = D_2loop a b ->
  value_of (N := RNum) fuel st suave1 suave12 d pkl dt ptt k = Ok v -> exists g, new_q (N := RNum) fuel st pkl "gamma1_1loop_q" = Ok g.
Proof.
  intros [->| ->] V; cbn [value_of] in V.
  - unfold value_1loop in V. apply bind_inv in V. destruct V as (g & E & _). exists g. exact E.
  - apply bind_inv in V. destruct V as (u & V & _). unfold value_2loop in V. apply bind_inv in V. destruct V as (g & E & _). exists g. exact E.
Qed.
Lemma gamma1_columns fuel st suave1 suave12 a b d pkl dt ptt ks ps ss vals ik qmin qmax lam M1 M : two_points pkl -> d = D_1loop a b \/ d = D_2loop a b -> regular_run st pkl d ->
  let n := pr_n (s_prec st "gamma1_1loop_q") in let P := lookup_of pkl POLY in let k := k_ (N := RNum) ks ik in
  q_range (N := RNum) (s_prec st "gamma1_1loop_q") pkl = Ok (qmin, qmax) -> 0 < qmin < qmax ->
  computes (N := RNum) fuel st suave1 suave12 d pkl dt ptt ks ps ss vals -> (0 <= ik < zlen ks)%Z -> 0 < k -> 0 <= lam ->
  (forall t, bounded_lipschitz (fun s => prop_exact t (exp s / k) * P (exp s)) (ln qmin) (ln qmax) lam M1) -> (forall q, qmin <= q <= qmax -> Rabs (P q) <= M) ->
  Rabs (at_ (vals ik) 0 - exact_integral P (is_theta a) k qmin qmax) <= propagator_bound n k qmin qmax lam M1 M /\
  Rabs (at_ (vals ik) (match d with D_1loop _ _ => 1 | _ => 2 end) - exact_integral P (is_theta b) k qmin qmax) <= propagator_bound n k qmin qmax lam M1 M.
Proof.
  intros HT Hd HR n P k ER Hq HC Hik Hk Hlam HL HM.
  assert (HD : d = D_B -> two_points dt /\ two_points ptt) by (intros ->; destruct Hd; discriminate).
  pose proof (run_contents fuel st suave1 suave12 d pkl dt ptt ks ps ss vals HT HD HR HC ik Hik Hk) as V.
  destruct (makes_gamma1 fuel st suave1 suave12 a b pkl dt ptt _ d _ Hd (proj2 (proj2 HC) ik Hik)) as [g E].
  assert (Hn : (1 <= n < 2 ^ 62)%Z) by (apply (rr_q _ _ _ HR); destruct Hd as [->| ->]; cbn; tauto).
  assert (A : forall t, Rabs (prop1 fuel st pkl t k - exact_integral P t k qmin qmax) <= propagator_bound n k qmin qmax lam M1 M).
  { intros t. unfold prop1. rewrite (the_q_is fuel st pkl _ g E). exact (proj2 (propagator_error fuel _ pkl g t k qmin qmax lam M1 M Hn ER Hq Hk Hlam E (HL t) HM)). }
  change (T RNum) with R in *. fold k in V. destruct Hd as [->| ->]; cbn [contents] in V.
  - rewrite V. split; apply A.
  - destruct V as (a1 & b1 & I & _ & _ & V). rewrite V. split; apply A.
Qed.
(** A spectrum, and rules of any number of nodes, for which all this holds *)
Lemma propagator_ex n t : (1 <= n < 2 ^ 62)%Z -> let p := mkPrec (N := RNum) n 1 2 POLY in let P := lookup_of pk_three POLY in
  q_range (N := RNum) p pk_three = Ok (1, 2) /\ (exists g, init_gauss_legendre_q (N := RNum) 7 p pk_three = Ok g) /\
  exists lam M1 M, 0 <= lam /\ bounded_lipschitz (fun s => prop_exact t (exp s / 1) * P (exp s)) (ln 1) (ln 2) lam M1 /\ forall q, 1 <= q <= 2 -> Rabs (P q) <= M.
Proof.
  intros Hn p P. split; [|split].
  - unfold q_range. cbn [p pr_min pr_max]. rn. rewrite !(proj2 (Rleb_false _ _)) by lra. reflexivity.
  - apply init_q_total; [exact Hn|lia|reflexivity|]. repeat split; cbn; lia.
  - destruct three_points as (K & Pv & EK & H1 & H2 & H3). assert (EK2 : K = [1; 2; 3]) by (apply (f_equal (@pk_k RNum)) in EK; symmetry; exact EK).
    unfold P. rewrite EK. apply bounds_exist; try assumption; try lra; rewrite EK2; cbn; lra.
Qed.
