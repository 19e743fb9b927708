(** ProofGL2: roots stay away from the ends; quadrature tables in q and mu. *)
From Coq Require Import Reals Lra.
From Coquelicot Require Import Coquelicot.
From Verif Require Import Base Num BaseFacts Common Spec SpecQuad Poly Legendre LegendreRoots LegendreSpec ProofGL ProofNewton3 ProofNewton4 ProofNewton5 ProofNewton6.
Local Open Scope R_scope.

Lemma DL_at_1 n : DL n 1 = INR n * (INR n + 1) / 2.
Proof.
  induction n as [|n IH]; [change (DL 0 1) with 0; cbn [INR]; field|].
  destruct (leg_AB n 1) as [HA _]. rewrite L_at_1, IH in HA. rewrite S_INR in *. lra.
Qed.
Lemma dprodr_nonneg rs x : (forall r, In r rs -> r < x) -> 0 <= dprodr rs x.
Proof.
  induction rs as [|r rs IH]; intros H; cbn [dprodr]; [lra|].
  assert (0 < prodr rs x) by (apply prodr_pos; intros; apply H; cbn; auto).
  assert (0 <= dprodr rs x) by (apply IH; intros; apply H; cbn; auto).
  specialize (H r (or_introl eq_refl)). assert (0 <= (x - r) * dprodr rs x) by (apply Rmult_le_pos; lra). lra.
Qed.
Lemma dprodr_ge rs x r : (forall q, In q rs -> q < x) -> In r rs -> prodr rs x <= (x - r) * dprodr rs x.
Proof.
  induction rs as [|q rs IH]; intros H Hin; [destruct Hin|]. cbn [prodr dprodr].
  assert (Hq : q < x) by (apply H; cbn; auto).
  assert (Hr : r < x) by (apply H; exact Hin).
  assert (H0 : 0 <= dprodr rs x) by (apply dprodr_nonneg; intros; apply H; cbn; auto).
  assert (H1 : 0 < prodr rs x) by (apply prodr_pos; intros; apply H; cbn; auto).
  destruct Hin as [->|Hin].
  - assert (0 <= (x - r) * ((x - r) * dprodr rs x)) by (apply Rmult_le_pos; [lra|apply Rmult_le_pos; lra]). lra.
  - assert (IH' : prodr rs x <= (x - r) * dprodr rs x) by (apply IH; [intros; apply H; cbn; auto|exact Hin]).
    assert ((x - q) * prodr rs x <= (x - q) * ((x - r) * dprodr rs x)) by (apply Rmult_le_compat_l; lra).
    assert (0 <= (x - r) * prodr rs x) by (apply Rmult_le_pos; lra). lra.
Qed.
(** Every root of P_n is at least 2/(n(n+1)) away from 1 (and, by parity, from -1). *)
Lemma root_margin n r : (1 <= n)%nat -> L n r = 0 -> 2 <= INR n * (INR n + 1) * (1 - r).
Proof.
  intros Hn Hr. destruct (L_roots n) as [rs [H1 [H2 H3]]].
  assert (H3' : forall q, In q rs -> L n q = 0 /\ q < 1) by (intros q Hq; destruct (H3 _ Hq); split; [assumption|lra]).
  destruct (L_factor n rs H2 H1 H3') as [c [Hc Ec]].
  assert (Hin : In r rs).
  { rewrite Ec in Hr. apply Rmult_integral in Hr. destruct Hr as [Hr|Hr]; [lra|].
    clear - Hr. induction rs as [|q rs IH]; cbn [prodr] in Hr; [lra|].
    apply Rmult_integral in Hr. destruct Hr as [Hr|Hr]; [left; lra|right; auto]. }
  assert (ED : DL n 1 = c * dprodr rs 1).
  { pose proof (is_derive_L n 1) as D1.
    pose proof (is_derive_scal (prodr rs) 1 c _ (is_derive_prodr rs 1)) as D2.
    apply (is_derive_ext _ (L n)) in D2; [|intros t; rewrite Ec; reflexivity].
    apply is_derive_unique in D1. apply is_derive_unique in D2. rewrite D1 in D2. exact D2. }
  pose proof (dprodr_ge rs 1 r (fun q Hq => proj2 (H3' q Hq)) Hin) as HG.
  assert (E1 : 1 = c * prodr rs 1) by (rewrite <- Ec; symmetry; apply L_at_1).
  assert (HM : c * prodr rs 1 <= c * ((1 - r) * dprodr rs 1)) by (apply Rmult_le_compat_l; lra).
  replace (c * ((1 - r) * dprodr rs 1)) with ((1 - r) * DL n 1) in HM by (rewrite ED; ring).
  rewrite DL_at_1 in HM. lra.
Qed.
Lemma root_margin_abs n r : (1 <= n)%nat -> L n r = 0 -> Rabs r <= 1 - 2 / (INR n * (INR n + 1)).
Proof.
  intros Hn Hr.
  assert (Hp : 0 < INR n) by (apply lt_0_INR; lia).
  assert (Hq : 0 < INR n * (INR n + 1)) by nra.
  pose proof (root_margin n r Hn Hr) as H1.
  assert (Hr' : L n (- r) = 0) by (rewrite L_parity, Hr; ring).
  pose proof (root_margin n (- r) Hn Hr') as H2.
  assert (G : forall t, 2 <= INR n * (INR n + 1) * (1 - t) -> t <= 1 - 2 / (INR n * (INR n + 1))).
  { intros t Ht. assert (2 / (INR n * (INR n + 1)) <= 1 - t); [|lra].
    apply Rle_div_l; [exact Hq|]. lra. }
  apply Rabs_le. split; [|apply G; exact H1]. specialize (G _ H2). lra.
Qed.

(** ** update_gauss_legendre_q and _mu, for every Num *)
Section Gen.
Context {N : Num}.
Local Open Scope Z_scope.

Lemma update_q_val (g : glq N) (k d : T N) : 0 <= gq_nq g -> zlen (gq_q g) = gq_nq g -> zlen (gq_x g) = gq_nq g ->
  exists g', update_gauss_legendre_q g k = Ok g' /\ gq_k g' = k /\ gq_nq g' = gq_nq g /\ gq_q g' = gq_q g /\
    gq_w g' = gq_w g /\ gq_pk g' = gq_pk g /\ zlen (gq_x g') = gq_nq g /\
    forall i, 0 <= i < gq_nq g -> znth d (gq_x g') i = ndiv N (znth d (gq_q g) i) k.
Proof.
  intros Hn Hq Hx. unfold update_gauss_legendre_q.
  pose (P := fun (j : Z) (x : list (T N)) => zlen x = gq_nq g /\ forall i, 0 <= i < j -> znth d x i = ndiv N (znth d (gq_q g) i) k).
  for_with P; [lia| | |destruct HF as [x' [E [H1 H2]]]].
  - unfold P. split; [exact Hx|intros; lia].
  - intros j x Hj [H1 H2]. rewrite (rd_ok d) by lia. cbn [bind]. rewrite wr_ok by lia. eexists; split; [reflexivity|].
    unfold P. rewrite zlen_upd. split; [exact H1|]. intros i Hi. rewrite znth_upd by lia.
    destruct (Z.eqb_spec i j) as [->|]; [reflexivity|]. apply H2; lia.
  - rewrite E. cbn [bind]. eexists; split; [reflexivity|]. cbn. repeat split; auto.
Qed.

Lemma update_mu_val (g : glmu N) (mumin mumax d : T N) : 0 <= gm_nmu g ->
  zlen (gm_muref g) = gm_nmu g -> zlen (gm_wref g) = gm_nmu g -> zlen (gm_mu g) = gm_nmu g -> zlen (gm_w g) = gm_nmu g ->
  exists g', update_gauss_legendre_mu g mumin mumax = Ok g' /\ gm_nmu g' = gm_nmu g /\ gm_muref g' = gm_muref g /\
    gm_wref g' = gm_wref g /\ zlen (gm_mu g') = gm_nmu g /\ zlen (gm_w g') = gm_nmu g /\
    forall i, 0 <= i < gm_nmu g ->
      znth d (gm_mu g') i = nadd N (nmul N (nadd N (znth d (gm_muref g) i) (nZ N 1)) (ndiv N (nsub N mumax mumin) (nZ N 2))) mumin /\
      znth d (gm_w g') i = nmul N (znth d (gm_wref g) i) (ndiv N (nsub N mumax mumin) (nZ N 2)).
Proof.
  intros Hn Hm Hr Hx Hw. unfold update_gauss_legendre_mu.
  pose (P := fun (j : Z) (s : list (T N) * list (T N)) => zlen (fst s) = gm_nmu g /\ zlen (snd s) = gm_nmu g /\
     forall i, 0 <= i < j ->
      znth d (fst s) i = nadd N (nmul N (nadd N (znth d (gm_muref g) i) (nZ N 1)) (ndiv N (nsub N mumax mumin) (nZ N 2))) mumin /\
      znth d (snd s) i = nmul N (znth d (gm_wref g) i) (ndiv N (nsub N mumax mumin) (nZ N 2))).
  for_with P; [lia| | |destruct HF as [[m' w'] [E [H1 [H2 H3]]]]].
  - unfold P. cbn. repeat split; auto; intros; lia.
  - intros j [m w] Hj [H1 [H2 H3]]. cbn [fst snd] in *. rewrite (rd_ok d) by lia. cbn [bind]. rewrite wr_ok by lia. cbn [bind].
    rewrite (rd_ok d) by lia. cbn [bind]. rewrite wr_ok by lia. eexists; split; [reflexivity|].
    unfold P. cbn [fst snd]. rewrite !zlen_upd. split; [exact H1|]. split; [exact H2|]. intros i Hi.
    rewrite !znth_upd by lia. destruct (Z.eqb_spec i j) as [->|]; [auto|]. apply H3; lia.
  - rewrite E. cbn [bind]. eexists; split; [reflexivity|]. cbn. repeat split; auto; apply H3; assumption.
Qed.

(** Updating twice is updating once with the last argument. *)
Lemma update_q_twice (g g1 g2 : glq N) (k1 k2 : T N) : 0 <= gq_nq g -> zlen (gq_q g) = gq_nq g -> zlen (gq_x g) = gq_nq g ->
  update_gauss_legendre_q g k1 = Ok g1 -> update_gauss_legendre_q g1 k2 = Ok g2 -> update_gauss_legendre_q g k2 = Ok g2.
Proof.
  intros Hn Hq Hx E1 E2. set (d := nZ N 0).
  destruct (update_q_val g k1 d Hn Hq Hx) as [a [A0 [A1 [A2 [A3 [A4 [A5 [A6 A7]]]]]]]].
  rewrite E1 in A0. injection A0 as ->.
  destruct (update_q_val a k2 d) as [b [B0 [B1 [B2 [B3 [B4 [B5 [B6 B7]]]]]]]]; try (rewrite ?A2, ?A3; assumption).
  rewrite E2 in B0. injection B0 as ->.
  destruct (update_q_val g k2 d Hn Hq Hx) as [c [C0 [C1 [C2 [C3 [C4 [C5 [C6 C7]]]]]]]].
  rewrite C0. f_equal. destruct b as [bk bn bx bq bw bp], c as [ck cn cx cq cw cp]; cbn [gq_k gq_nq gq_x gq_q gq_w gq_pk] in *. f_equal; try congruence.
  apply (znth_ext d); [lia|]. intros i Hi. rewrite C7, B7 by lia. rewrite A3. reflexivity.
Qed.
Lemma update_mu_twice (g g1 g2 : glmu N) a1 b1 a2 b2 : 0 <= gm_nmu g ->
  zlen (gm_muref g) = gm_nmu g -> zlen (gm_wref g) = gm_nmu g -> zlen (gm_mu g) = gm_nmu g -> zlen (gm_w g) = gm_nmu g ->
  update_gauss_legendre_mu g a1 b1 = Ok g1 -> update_gauss_legendre_mu g1 a2 b2 = Ok g2 ->
  update_gauss_legendre_mu g a2 b2 = Ok g2.
Proof.
  intros Hn H1 H2 H3 H4 E1 E2. set (d := nZ N 0).
  destruct (update_mu_val g a1 b1 d Hn H1 H2 H3 H4) as [u [A0 [A1 [A2 [A3 [A4 [A5 A6]]]]]]].
  rewrite E1 in A0. injection A0 as ->.
  destruct (update_mu_val u a2 b2 d) as [v [B0 [B1 [B2 [B3 [B4 [B5 B6]]]]]]]; try (rewrite ?A1, ?A2, ?A3; assumption).
  rewrite E2 in B0. injection B0 as ->.
  destruct (update_mu_val g a2 b2 d Hn H1 H2 H3 H4) as [w [C0 [C1 [C2 [C3 [C4 [C5 C6]]]]]]].
  rewrite C0. f_equal. destruct v as [vn vr vw vm vww], w as [wn wr' ww wm www]; cbn [gm_nmu gm_muref gm_wref gm_mu gm_w] in *. f_equal; try congruence.
  - apply (znth_ext d); [lia|]. intros i Hi. destruct (C6 i ltac:(lia)) as [-> _]. destruct (B6 i ltac:(lia)) as [-> _]. rewrite A2. reflexivity.
  - apply (znth_ext d); [lia|]. intros i Hi. destruct (C6 i ltac:(lia)) as [_ ->]. destruct (B6 i ltac:(lia)) as [_ ->]. rewrite A3. reflexivity.
Qed.

(** init_gauss_legendre_q *)
Lemma init_q_inv fuel (p : precision N) (pkl : Pk N) (g : glq N) d : 0 <= pr_n p < 2 ^ 62 ->
  init_gauss_legendre_q fuel p pkl = Ok g ->
  exists qmin qmax x, q_range p pkl = Ok (qmin, qmax) /\
    nodes_weights_gauss_legendre fuel (nlog qmin) (nlog qmax) (repeat (nZ N 0) (Z.to_nat (pr_n p))) (repeat (nZ N 0) (Z.to_nat (pr_n p))) (pr_n p)
      = Ok (x, gq_w g) /\
    gq_nq g = pr_n p /\ gq_k g = nZ N 1 /\ gq_x g = gq_q g /\ zlen (gq_q g) = pr_n p /\ zlen x = pr_n p /\ zlen (gq_w g) = pr_n p /\
    (forall i, 0 <= i < pr_n p -> znth d (gq_q g) i = nexp (znth d x i)) /\
    find_pk pkl (gq_q g) (pr_interpol p) = Ok (gq_pk g).
Proof.
  intros Hn. unfold init_gauss_legendre_q.
  destruct (q_range p pkl) as [[qmin qmax]|]; cbn [bind]; [|discriminate].
  set (z := repeat (nZ N 0) (Z.to_nat (pr_n p))).
  assert (Hz : zlen z = pr_n p) by (unfold z; apply zlen_repeat; lia).
  destruct (gl_safe fuel (nlog qmin) (nlog qmax) z z (pr_n p) ltac:(lia) Hz Hz) as [[x [w [E [Hx Hw]]]]|E]; rewrite E; cbn [bind]; [|discriminate].
  pose (P := fun (j : Z) (s : list (T N) * list (T N)) => zlen (fst s) = pr_n p /\ zlen (snd s) = pr_n p /\
     (forall i, 0 <= i < j -> znth d (fst s) i = nexp (znth d x i) /\ znth d (snd s) i = nexp (znth d x i)) /\
     (forall i, j <= i < pr_n p -> znth d (fst s) i = znth d x i)).
  for_with P; [lia| | |destruct HF as [[x' q] [E' [H1 [H2 [H3 _]]]]]].
  - unfold P. cbn. repeat split; auto; intros; lia.
  - intros j [x1 q1] Hj [H1 [H2 [H3 H4]]]. cbn [fst snd] in *. rewrite (rd_ok d) by lia. cbn [bind]. rewrite wr_ok by lia. cbn [bind].
    rewrite (rd_ok d) by (rewrite zlen_upd; lia). cbn [bind]. rewrite wr_ok by lia. eexists; split; [reflexivity|].
    unfold P. cbn [fst snd]. rewrite !zlen_upd. split; [exact H1|]. split; [exact H2|].
    rewrite (znth_upd d q1 j j) by lia. rewrite Z.eqb_refl. split.
    + intros i Hi. rewrite !znth_upd by lia. destruct (Z.eqb_spec i j) as [->|].
      * rewrite H4 by lia. auto.
      * apply H3; lia.
    + intros i Hi. rewrite znth_upd by lia. destruct (Z.eqb_spec i j) as [->|]; [lia|]. apply H4; lia.
  - rewrite E'. cbn [bind]. cbn [fst snd] in *. destruct (find_pk pkl q (pr_interpol p)) as [pk|] eqn:EP; cbn [bind]; [|discriminate].
    intros [= <-]. exists qmin, qmax, x. cbn.
    assert (Exq : x' = q).
    { apply (znth_ext d); [lia|]. intros i Hi. destruct (H3 i ltac:(lia)) as [-> ->]. reflexivity. }
    repeat split; auto. intros i Hi. apply H3; lia.
Qed.
Lemma init_mu_inv fuel (p : precision N) (g : glmu N) : 0 <= pr_n p < 2 ^ 62 ->
  init_gauss_legendre_mu fuel p = Ok g ->
  nodes_weights_gauss_legendre fuel (nopp N (nZ N 1)) (nZ N 1) (repeat (nZ N 0) (Z.to_nat (pr_n p))) (repeat (nZ N 0) (Z.to_nat (pr_n p))) (pr_n p)
      = Ok (gm_muref g, gm_wref g) /\ gm_nmu g = pr_n p /\ gm_mu g = gm_muref g /\ gm_w g = gm_wref g /\
    zlen (gm_muref g) = pr_n p /\ zlen (gm_wref g) = pr_n p.
Proof.
  intros Hn. unfold init_gauss_legendre_mu. pose (d := nZ N 0).
  set (z := repeat (nZ N 0) (Z.to_nat (pr_n p))).
  assert (Hz : zlen z = pr_n p) by (unfold z; apply zlen_repeat; lia).
  destruct (gl_safe fuel (nopp N (nZ N 1)) (nZ N 1) z z (pr_n p) ltac:(lia) Hz Hz) as [[x [w [E [Hx Hw]]]]|E]; rewrite E; cbn [bind]; [|discriminate].
  pose (P := fun (j : Z) (s : list (T N) * list (T N)) => zlen (fst s) = pr_n p /\ zlen (snd s) = pr_n p /\
     (forall i, 0 <= i < j -> znth d (fst s) i = znth d x i /\ znth d (snd s) i = znth d w i)).
  for_with P; [lia| | |destruct HF as [[m' w'] [E' [H1 [H2 H3]]]]].
  - unfold P. cbn. repeat split; auto; intros; lia.
  - intros j [m1 w1] Hj [H1 [H2 H3]]. cbn [fst snd] in *. rewrite (rd_ok d) by lia. cbn [bind]. rewrite wr_ok by lia. cbn [bind].
    rewrite (rd_ok d) by lia. cbn [bind]. rewrite wr_ok by lia. eexists; split; [reflexivity|].
    unfold P. cbn [fst snd]. rewrite !zlen_upd. split; [exact H1|]. split; [exact H2|].
    intros i Hi. rewrite !znth_upd by lia. destruct (Z.eqb_spec i j) as [->|]; [auto|]. apply H3; lia.
  - rewrite E'. cbn [bind fst snd] in *. intros [= <-]. cbn. repeat split; auto; apply (znth_ext d); try lia; intros i Hi; apply H3; lia.
Qed.
End Gen.

(** ** Reals: nodes inside the range *)
Local Open Scope R_scope.
Lemma q_nodes_inside (qmin qmax u : R) : 0 < qmin < qmax -> -1 < u < 1 ->
  qmin < exp ((ln qmax + ln qmin) / 2 + (ln qmax - ln qmin) / 2 * u) < qmax.
Proof.
  intros Hq Hu. assert (HL : ln qmin < ln qmax) by (apply ln_increasing; lra).
  split.
  - rewrite <- (exp_ln qmin) at 1 by lra. apply exp_increasing. nra.
  - rewrite <- (exp_ln qmax) at 3 by lra. apply exp_increasing. nra.
Qed.

(** Reference nodes (on [-1,1]) are strictly inside. *)
Lemma gl_inside fuel (xmin xmax : R) (x w : list R) n : (1 <= n < 2 ^ 62)%Z -> zlen x = n -> zlen w = n ->
  forall x' w', nodes_weights_gauss_legendre (N := RNum) fuel xmin xmax x w n = Ok (x', w') ->
  forall i, (0 <= i < n)%Z -> exists u, -1 < u < 1 /\ znth 0 x' i = (xmax + xmin) / 2 + (xmax - xmin) / 2 * u.
Proof.
  intros Hn Hx Hw x' w' E i Hi. destruct (half_roots_exist (Z.to_nat n) ltac:(lia)) as [rs HR].
  destruct (gl_rule_L fuel xmin xmax x w n rs Hn Hx Hw HR x' w' E) as [_ [_ H]].
  destruct (H (Z.to_nat i) ltac:(lia)) as (z & d & s & j & Hs & Hj & _ & _ & Ex & _ & (O1 & _)). cbn [fst] in O1.
  destruct HR as [_ HR]. destruct (HR j Hj) as [[S1 [S2 _]] _].
  exists (s * z). split; [destruct Hs as [-> | ->]; lra|exact Ex].
Qed.
(** Nodes in q are increasing. *)
Lemma init_q_incr fuel (p : precision RNum) (pkl : Pk RNum) (g : glq RNum) qmin qmax : (1 <= pr_n p < 2 ^ 62)%Z ->
  init_gauss_legendre_q (N := RNum) fuel p pkl = Ok g -> q_range (N := RNum) p pkl = Ok (qmin, qmax) -> 0 < qmin < qmax -> increasing (gq_q g).
Proof.
  intros Hn HI ER Hq. destruct (init_q_inv fuel p pkl g (nZ RNum 0) ltac:(lia) HI) as [qm [qM [x [E [EN [A1 [A2 [A3 [A4 [A5 [A6 [A7 A8]]]]]]]]]]]].
  change (T RNum) with R in *. rewrite ER in E. injection E as <- <-.
  set (z := repeat (nZ RNum 0) (Z.to_nat (pr_n p))) in EN. assert (Hz : zlen z = pr_n p) by (unfold z; apply zlen_repeat; lia).
  destruct (gl_order fuel (ln qmin) (ln qmax) z z (pr_n p) Hn Hz Hz ltac:(apply ln_increasing; lra) _ _ EN) as (Lx & _ & HX & _).
  intros i j [Hij Hj]. unfold zlen in A4. rn_in A7.
  pose proof (A7 (Z.of_nat i) ltac:(change (T RNum) with R in *; lia)) as Ei. pose proof (A7 (Z.of_nat j) ltac:(change (T RNum) with R in *; lia)) as Ej. unfold znth in Ei, Ej. rewrite Nat2Z.id in Ei, Ej.
  unfold at_. rewrite Ei, Ej. apply exp_increasing. apply (HX i j). change (T RNum) with R in *. lia.
Qed.
Lemma incr_asc (l : list R) : increasing l -> ascending l.
Proof. intros H i j [Hij Hj]. destruct (Nat.eq_dec i j) as [->|]; [lra|]. left. apply H. lia. Qed.

Lemma init_q_R fuel (p : precision RNum) (pkl : Pk RNum) (g : glq RNum) : (1 <= pr_n p < 2 ^ 62)%Z ->
  init_gauss_legendre_q (N := RNum) fuel p pkl = Ok g ->
  exists qmin qmax : R, q_range (N := RNum) p pkl = Ok (qmin, qmax) /\
    gq_nq g = pr_n p /\ zlen (gq_q g) = pr_n p /\ zlen (gq_w g) = pr_n p /\
    gq_x g = gq_q g /\ find_pk pkl (gq_q g) (pr_interpol p) = Ok (gq_pk g) /\
    (0 < qmin < qmax -> forall i, (0 <= i < pr_n p)%Z -> qmin < znth 0 (gq_q g) i < qmax).
Proof.
  intros Hn HI. destruct (init_q_inv fuel p pkl g (nZ RNum 0) ltac:(lia) HI) as [qmin [qmax [x [E [EN [A1 [A2 [A3 [A4 [A5 [A6 [A7 A8]]]]]]]]]]]].
  exists qmin, qmax. split; [exact E|]. split; [exact A1|]. split; [exact A4|]. split; [exact A6|]. split; [exact A3|]. split; [exact A8|].
  intros Hq i Hi. rn_in A7. rewrite A7 by exact Hi.
  set (z := repeat (nZ RNum 0) (Z.to_nat (pr_n p))) in EN.
  assert (Hz : zlen z = pr_n p) by (unfold z; apply zlen_repeat; lia).
  destruct (gl_inside fuel (ln qmin) (ln qmax) z z (pr_n p) Hn Hz Hz _ _ EN i Hi) as [u [Hu Ex]].
  rewrite Ex. apply q_nodes_inside; assumption.
Qed.
Lemma init_mu_R fuel (p : precision RNum) (g : glmu RNum) : (1 <= pr_n p < 2 ^ 62)%Z ->
  init_gauss_legendre_mu (N := RNum) fuel p = Ok g ->
  forall i, (0 <= i < pr_n p)%Z -> -1 < znth 0 (gm_muref g) i < 1.
Proof.
  intros Hn HI i Hi. destruct (init_mu_inv fuel p g ltac:(lia) HI) as [E _]. rn_in E.
  set (z := repeat 0 (Z.to_nat (pr_n p))) in E.
  assert (Hz : zlen z = pr_n p) by (unfold z; apply zlen_repeat; lia).
  destruct (gl_inside fuel (- (1)) 1 z z (pr_n p) Hn Hz Hz _ _ E i Hi) as [u [Hu Ex]].
  rewrite Ex. lra.
Qed.

(** update_gauss_legendre_mu maps [-1,1] into [mumin,mumax]. *)
Lemma mu_inside (m mumin mumax : R) : -1 <= m <= 1 -> mumin <= mumax ->
  mumin <= (m + 1) * ((mumax - mumin) / 2) + mumin <= mumax.
Proof. intros. split; nra. Qed.
Lemma gl_nodes_all fuel (xmin xmax : R) (x w : list R) n (P : poly) : (1 <= n < 2 ^ 62)%Z -> zlen x = n -> zlen w = n ->
  is_legendre (Z.to_nat n) P ->
  forall x' w', nodes_weights_gauss_legendre (N := RNum) fuel xmin xmax x w n = Ok (x', w') ->
  forall i, (0 <= i < n)%Z -> exists z y slope s, (s = 1 \/ s = -1) /\
    znth 0 x' i = (xmax + xmin) / 2 + s * (xmax - xmin) / 2 * z /\
    znth 0 w' i = (xmax - xmin) / ((1 - z * z) * slope * slope) /\
    is_derive (peval P) y slope /\ slope <> 0 /\
    Rabs (z - y) <= 3 / 10 ^ 14 /\ z = y - peval P y / slope /\
    Rabs (peval P y) <= 3 / 10 ^ 14 * Rabs slope /\
    exists r, -1 < r < 1 /\ peval P r = 0 /\
         Rabs (znth 0 x' i - ((xmax + xmin) / 2 + (xmax - xmin) / 2 * r)) <=
           Rabs ((xmax - xmin) / 2) * ((IZR n + 1) * (3 / 10 ^ 14)).
Proof. intros Hn Hx Hw HP. exact (gl_nodes fuel xmin xmax x w n P Hn Hx Hw HP (all_regular fuel n ltac:(lia))). Qed.
