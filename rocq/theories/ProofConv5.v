(** ProofConv5: the B terms against the integrals of perturbation theory. *)
From Coq Require Import Reals Lra Lia List ZArith String.
From Coquelicot Require Import Coquelicot.
From Verif Require Import Base Num BaseFacts Common Kernels Integrals Registry Threads Spec SpecPT SpecQuad SpecKernels SpecLoops SpecIntegrals SpecThreads SpecScratch SpecDefined SpecColumns SpecConv ProofKernels ProofThreads8 ProofDefined12
  ProofIntegrals2 ProofIntegrals4 ProofIntegrals ProofColumns3 ProofColumns4 ProofNewton8 ProofQuad ProofQuad2 ProofQuad3 ProofConv ProofConv2 ProofConv3 ProofConv4.
Import ListNotations.
Local Open Scope R_scope.

(** ** The averages determine the components *)
Lemma average_unique f v w : azimuth_average f v -> azimuth_average f w -> v = w.
Proof.
  unfold azimuth_average. intros A B. pose proof (is_RInt_unique _ _ _ _ A) as E. pose proof (is_RInt_unique _ _ _ _ B) as E'. rewrite E in E'. pose proof PI_RGT_0. nra.
Qed.
Lemma even4 a b c d a' b' c' d' : (forall nu, -1 <= nu <= 1 -> nu ^ 2 * a + nu ^ 4 * b + nu ^ 6 * c + nu ^ 8 * d = nu ^ 2 * a' + nu ^ 4 * b' + nu ^ 6 * c' + nu ^ 8 * d') -> a = a' /\ b = b' /\ c = c' /\ d = d'.
Proof.
  intros H. pose proof (H 1 ltac:(lra)) as H1. pose proof (H (1 / 2) ltac:(lra)) as H2. pose proof (H (1 / 4) ltac:(lra)) as H3. pose proof (H (1 / 8) ltac:(lra)) as H4. repeat split; lra.
Qed.
Lemma averaged_unique Pd Pt K L k x mu : (forall nu, -1 <= nu <= 1 -> B_averaged Pd Pt K k x mu nu) -> (forall nu, -1 <= nu <= 1 -> B_averaged Pd Pt L k x mu nu) -> forall c, (c < 12)%nat -> K c = L c.
Proof.
  intros HK HL.
  destruct (even4 (K 0%nat) (K 4%nat) 0 0 (L 0%nat) (L 4%nat) 0 0) as (E0 & E4 & _).
  { intros nu Hn. destruct (HK nu Hn) as (A & _). destruct (HL nu Hn) as (B & _). pose proof (average_unique _ _ _ A B). lra. }
  destruct (even4 (K 1%nat) (K 5%nat) (K 8%nat) 0 (L 1%nat) (L 5%nat) (L 8%nat) 0) as (E1 & E5 & E8 & _).
  { intros nu Hn. destruct (HK nu Hn) as (_ & A & _). destruct (HL nu Hn) as (_ & B & _). pose proof (average_unique _ _ _ A B). lra. }
  destruct (even4 (K 2%nat) (K 6%nat) (K 9%nat) 0 (L 2%nat) (L 6%nat) (L 9%nat) 0) as (E2 & E6 & E9 & _).
  { intros nu Hn. destruct (HK nu Hn) as (_ & _ & A & _). destruct (HL nu Hn) as (_ & _ & B & _). pose proof (average_unique _ _ _ A B). lra. }
  destruct (even4 (K 3%nat) (K 7%nat) (K 10%nat) (K 11%nat) (L 3%nat) (L 7%nat) (L 10%nat) (L 11%nat)) as (E3 & E7 & E10 & E11).
  { intros nu Hn. destruct (HK nu Hn) as (_ & _ & _ & A). destruct (HL nu Hn) as (_ & _ & _ & B). pose proof (average_unique _ _ _ A B). lra. }
  intros c Hc. do 12 (destruct c as [|c]; [assumption|]). lia.
Qed.
(** ** Integrands which agree on the region *)
Lemma region_in half u v x mu : 0 < u -> region half u v x mu -> 0 < x /\ -1 <= mu <= 1 /\ 0 < sep x mu.
Proof. intros Hu (H1 & H2). apply (allowed_iff half u v x mu Hu H1) in H2. destruct H2 as (A & B & _). repeat split; lra. Qed.
Lemma smooth_ext half u v f g lam M : (forall x mu, region half u v x mu -> f x mu = g x mu) -> smooth half u v f lam M -> smooth half u v g lam M.
Proof. intros E (A & B). split; intros; rewrite <- !E by assumption; auto. Qed.
Lemma mode_integral_ext half p k qmin qmax f g : 0 < k -> 0 < qmin < qmax -> (forall x mu, region half (qmin / k) (qmax / k) x mu -> f x mu = g x mu) ->
  mode_integral half p k qmin qmax f = mode_integral half p k qmin qmax g.
Proof.
  intros Hk Hq E. unfold mode_integral. apply RInt_ext. intros s Hs.
  assert (L : ln qmin < ln qmax) by (apply ln_increasing; lra). rewrite Rmin_left, Rmax_right in Hs by lra.
  assert (B : qmin / k <= exp s / k <= qmax / k).
  { assert (0 < / k) by (apply Rinv_0_lt_compat; exact Hk). unfold Rdiv. split; apply Rmult_le_compat_r; try lra.
    - rewrite <- (exp_ln qmin) by lra. left. apply exp_increasing. lra.
    - rewrite <- (exp_ln qmax) by lra. left. apply exp_increasing. lra. }
  f_equal. unfold angle_integral. destruct (Rlt_dec _ _) as [Hl|]; [|reflexivity]. apply RInt_ext. intros m Hm. rewrite Rmin_left, Rmax_right in Hm by lra. apply E. split; [exact B|]. lra.
Qed.
(** ** The columns *)
Lemma makes_B fuel st suave1 suave12 pkl dt ptt k v : value_of (N := RNum) fuel st suave1 suave12 D_B pkl dt ptt k = Ok v ->
  exists g m, new_q (N := RNum) fuel st pkl "B_q" = Ok g /\ new_mu (N := RNum) fuel st "B_mu" = Ok m.
Proof.
  intros V; cbn [value_of] in V. unfold value_B in V. apply bind_inv in V. destruct V as (g & E & V). apply bind_inv in V. destruct V as (m & E' & _). exists g, m. split; assumption.
Qed.
Lemma B_columns_error fuel st suave1 suave12 pkl dt ptt ks ps ss vals ik qmin qmax K lam M c : two_points pkl -> two_points dt -> two_points ptt -> regular_run st pkl D_B ->
  let n := pr_n (s_prec st "B_q") in let m := pr_n (s_prec st "B_mu") in let k := k_ (N := RNum) ks ik in
  q_range (N := RNum) (s_prec st "B_q") pkl = Ok (qmin, qmax) -> 0 < qmin < qmax ->
  computes (N := RNum) fuel st suave1 suave12 D_B pkl dt ptt ks ps ss vals -> (0 <= ik < zlen ks)%Z -> 0 < k -> 0 <= lam -> 0 <= M ->
  (forall x mu nu, 0 < x -> -1 <= mu <= 1 -> -1 <= nu <= 1 -> 0 < sep x mu -> B_averaged (lookup_of dt POLY) (lookup_of ptt POLY) (fun c => K c x mu) k x mu nu) ->
  (forall c, (c < 12)%nat -> smooth true (qmin / k) (qmax / k) (K c) lam M) -> (c < 9)%nat ->
  Rabs (at_ (vals ik) c - k ^ 3 / (2 * PI ^ 2) * B_nine (fun c => mode_integral true 1 k qmin qmax (K c)) c) <= k ^ 3 / (2 * PI ^ 2) * (2 * mode_bound n m 1 k qmin qmax lam M).
Proof.
  intros HT HT1 HT2 HR n m k ER Hq HC Hik Hk Hlam HM HK HS Hc.
  pose proof (run_contents fuel st suave1 suave12 D_B pkl dt ptt ks ps ss vals HT ltac:(split; assumption) HR HC ik Hik Hk) as V.
  destruct (makes_B fuel st suave1 suave12 pkl dt ptt _ _ (proj2 (proj2 HC) ik Hik)) as (g & mt & E & E').
  assert (Hn : (1 <= n < 2 ^ 62)%Z) by (apply (rr_q _ _ _ HR); cbn; tauto).
  assert (Hm : (1 <= m < 2 ^ 62)%Z) by (apply (rr_mu _ _ _ HR "B_mu"); cbn; tauto).
  change (T RNum) with R in *. fold k in V. cbn [contents] in V. destruct V as (L & HL & V).
  set (L' := fun c x mu => L c (lookup_of dt POLY (k * x)) (lookup_of dt POLY (k * sep x mu)) (lookup_of ptt POLY (k * x)) (lookup_of ptt POLY (k * sep x mu)) x mu) in *.
  assert (Hu : 0 < qmin / k) by (apply Rdiv_lt_0_compat; lra).
  assert (EK : forall c x mu, (c < 12)%nat -> region true (qmin / k) (qmax / k) x mu -> K c x mu = L' c x mu).
  { intros c' x mu Hc' HD. destruct (region_in _ _ _ x mu Hu HD) as (D1 & D2 & D3).
    apply (averaged_unique (lookup_of dt POLY) (lookup_of ptt POLY) (fun c => K c x mu) (fun c => L' c x mu) k x mu); [intros nu Hnu; apply HK; assumption| |exact Hc'].
    intros nu Hnu. exact (HL x mu nu D1 D2 Hnu D3). }
  assert (B : forall c, (c < 12)%nat -> Rabs (mode_sum fuel st pkl k true 1 "B_q" "B_mu" (L' c) - mode_integral true 1 k qmin qmax (K c)) <= mode_bound n m 1 k qmin qmax lam M).
  { intros c' Hc'. rewrite (mode_integral_ext true 1 k qmin qmax (K c') (L' c') Hk Hq (fun x mu => EK c' x mu Hc')).
    apply (mode_sum_error fuel st pkl k true 1 _ _ g mt qmin qmax _ lam M E E' Hn Hm ER Hq Hk Hlam HM).
    apply (smooth_ext _ _ _ (K c')); [intros x mu; exact (EK c' x mu Hc')|]. exact (HS c' Hc'). }
  assert (Pb : 0 <= mode_bound n m 1 k qmin qmax lam M) by (eapply Rle_trans; [apply Rabs_pos|exact (B 0%nat ltac:(lia))]).
  assert (C : Rabs (B_nine (fun c => mode_sum fuel st pkl k true 1 "B_q" "B_mu" (L' c)) c - B_nine (fun c => mode_integral true 1 k qmin qmax (K c)) c) <= 2 * mode_bound n m 1 k qmin qmax lam M).
  { assert (B1 : forall c, (c < 12)%nat -> Rabs (mode_sum fuel st pkl k true 1 "B_q" "B_mu" (L' c) - mode_integral true 1 k qmin qmax (K c)) <= 2 * mode_bound n m 1 k qmin qmax lam M) by (intros c' Hc'; specialize (B c' Hc'); lra).
    assert (B2 : forall c d, (c < 12)%nat -> (d < 12)%nat -> Rabs (- (mode_sum fuel st pkl k true 1 "B_q" "B_mu" (L' c) + mode_sum fuel st pkl k true 1 "B_q" "B_mu" (L' d)) -
      - (mode_integral true 1 k qmin qmax (K c) + mode_integral true 1 k qmin qmax (K d))) <= 2 * mode_bound n m 1 k qmin qmax lam M).
    { intros c' d' Hc' Hd'. pose proof (B c' Hc') as X. pose proof (B d' Hd') as Y. apply Rabs_le_between in X. apply Rabs_le_between in Y. apply Rabs_le. lra. }
    do 9 (destruct c as [|c]; [cbn [B_nine]; first [apply B1; lia|apply B2; lia]|]). lia. }
  assert (EA : at_ (vals ik) c = k ^ 3 / (2 * PI ^ 2) * B_nine (fun n => mode_sum fuel st pkl k true 1 "B_q" "B_mu" (L' n)) c).
  { rewrite V. do 9 (destruct c as [|c]; [reflexivity|]). lia. }
  rewrite EA. apply scaled_error; [apply norm_const; lra|exact C].
Qed.
(** ** The components have bounds *)
Section Closure.
Variables (D : R -> R -> Prop).
Lemma lip2_opp f : lip2 D f -> lip2 D (fun x m => - f x m).
Proof. intros H. apply (lip2_ext D (fun x m => (-1) * f x m)); [intros; ring|]. apply lip2_mult; [apply lip2_const|exact H]. Qed.
Lemma lip2_minus f g : lip2 D f -> lip2 D g -> lip2 D (fun x m => f x m - g x m).
Proof. intros F G. unfold Rminus. apply lip2_plus; [exact F|apply lip2_opp, G]. Qed.
Lemma lip2_div f g : lip2 D f -> lip2 D (fun x m => / g x m) -> lip2 D (fun x m => f x m / g x m).
Proof. intros F G. unfold Rdiv. apply lip2_mult; assumption. Qed.
End Closure.
Ltac lip2_auto := repeat first [apply lip2_const|assumption|apply lip2_mult|apply lip2_plus|apply lip2_minus|apply lip2_opp|apply lip2_div|apply lip2_pow].
Section Region.
Variables (D : R -> R -> Prop) (half : bool) (u v : R).
Hypothesis (Hu : 0 < u) (Huv : u <= v) (HD : forall x m, D x m -> region half u v x m).
Variables (Pd Pt : R -> R) (k : R).
Hypothesis (Hk : 0 < k) (HPd : lip (k * u) (k * v) Pd) (HPt : lip (k * u) (k * v) Pt).
Lemma lip2_iX : lip2 D (fun x m => / (1 + x * x - 2 * m * x)).
Proof.
  apply (lip2_comp D (u * u) (v * v) Rinv _ (lip2_X D half u v Hu Huv HD) (X_range D half u v Hu HD)); [nra|]. apply lip_inv; nra.
Qed.
Lemma lip2_kB c : (c < 12)%nat -> lip2 D (fun x m => kB c (Pd (k * x)) (Pd (k * sep x m)) (Pt (k * x)) (Pt (k * sep x m)) x m).
Proof.
  intros Hc. pose proof (lip2_x D half u v Hu Huv HD) as L1. pose proof (lip2_m D half u v Hu HD) as L2. pose proof lip2_iX as L3.
  pose proof (lip2_Px D half u v Hu Huv HD Pd k Hk HPd) as L4. pose proof (lip2_Ps D half u v Hu Huv HD Pd k Hk HPd) as L5.
  pose proof (lip2_Px D half u v Hu Huv HD Pt k Hk HPt) as L6. pose proof (lip2_Ps D half u v Hu Huv HD Pt k Hk HPt) as L7.
  do 12 (destruct c as [|c]; [unfold kB; cbn [nth]; lip2_auto|]). lia.
Qed.
End Region.
(** Every pair of tables has components with bounds. *)
Lemma lip2_both D f g lamf Mf : 0 <= lamf -> 0 <= Mf -> (forall c : nat, (c < f)%nat -> lip2 D (g c)) ->
  exists lam M, 0 <= lam /\ 0 <= M /\ forall c, (c < f)%nat -> (forall x m, D x m -> Rabs (g c x m) <= M) /\ (forall x m y n, D x m -> D y n -> Rabs (g c x m - g c y n) <= lam * (Rabs (x - y) + Rabs (m - n))).
Proof.
  intros Hl HM. induction f as [|f IH]; intros H.
  - exists lamf, Mf. split; [exact Hl|]. split; [exact HM|]. intros c Hc. lia.
  - destruct IH as (l & M & A & B & C); [intros c Hc; apply H; lia|]. destruct (H f ltac:(lia)) as (l' & M' & A' & B' & C' & E').
    exists (l + l'), (M + M'). split; [lra|]. split; [lra|]. intros c Hc. destruct (Nat.eq_dec c f) as [->|N].
    + split; [intros x m HD; specialize (C' x m HD); lra|]. intros x m y n H1 H2. specialize (E' x m y n H1 H2). pose proof (dist_pos x y m n). nra.
    + destruct (C c ltac:(lia)) as (C1 & C2). split; [intros x m HD; specialize (C1 x m HD); lra|]. intros x m y n H1 H2. specialize (C2 x m y n H1 H2). pose proof (dist_pos x y m n). nra.
Qed.
Lemma B_exist Kd Pvd Kt Pvt k qmin qmax : List.length Pvd = List.length Kd -> (2 <= zlen Kd < 2 ^ 62)%Z -> increasing Kd -> at_ Kd 0 <= qmin -> qmax <= at_ Kd (List.length Kd - 1) ->
  List.length Pvt = List.length Kt -> (2 <= zlen Kt < 2 ^ 62)%Z -> increasing Kt -> at_ Kt 0 <= qmin -> qmax <= at_ Kt (List.length Kt - 1) -> 0 < qmin -> qmin <= qmax -> 0 < k ->
  let Pd := lookup_of (mk_table (N := RNum) Kd Pvd) POLY in let Pt := lookup_of (mk_table (N := RNum) Kt Pvt) POLY in
  exists K lam M, 0 <= lam /\ 0 <= M /\ (forall c, (c < 12)%nat -> smooth true (qmin / k) (qmax / k) (K c) lam M) /\
    (forall x mu nu, 0 < x -> -1 <= mu <= 1 -> -1 <= nu <= 1 -> 0 < sep x mu -> B_averaged Pd Pt (fun c => K c x mu) k x mu nu).
Proof.
  intros HL1 HB1 HI1 H01 H11 HL2 HB2 HI2 H02 H12 Hq Hqq Hk Pd Pt.
  pose proof (lookup_lip Kd Pvd k qmin qmax HL1 HB1 HI1 H01 H11 Hk) as LPd. pose proof (lookup_lip Kt Pvt k qmin qmax HL2 HB2 HI2 H02 H12 Hk) as LPt.
  assert (Hu : 0 < qmin / k) by (apply Rdiv_lt_0_compat; lra). assert (Huv : qmin / k <= qmax / k) by (unfold Rdiv; apply Rmult_le_compat_r; [apply Rlt_le, Rinv_0_lt_compat|]; lra).
  destruct (lip2_both (region true (qmin / k) (qmax / k)) 12 (fun c x m => kB c (Pd (k * x)) (Pd (k * sep x m)) (Pt (k * x)) (Pt (k * sep x m)) x m) 0 0 ltac:(lra) ltac:(lra)) as (lam & M & A & B & C).
  { intros c Hc. apply (lip2_kB _ true (qmin / k) (qmax / k)); auto. }
  exists (fun c x m => kB c (Pd (k * x)) (Pd (k * sep x m)) (Pt (k * x)) (Pt (k * sep x m)) x m), lam, M.
  split; [exact A|]. split; [exact B|]. split; [intros c Hc; exact (C c Hc)|]. intros x mu nu H1 H2 H3 H4. apply kB_averaged; assumption.
Qed.
Lemma B_ex k qmin qmax : 1 <= qmin -> qmin <= qmax -> qmax <= 3 -> 0 < k -> let P := lookup_of pk_three POLY in
  exists K lam M, 0 <= lam /\ 0 <= M /\ (forall c, (c < 12)%nat -> smooth true (qmin / k) (qmax / k) (K c) lam M) /\
    (forall x mu nu, 0 < x -> -1 <= mu <= 1 -> -1 <= nu <= 1 -> 0 < sep x mu -> B_averaged P P (fun c => K c x mu) k x mu nu).
Proof.
  intros H1 H2 H3 Hk. destruct three_points as (K & Pv & EK & A1 & A2 & A3). assert (EK2 : K = [1; 2; 3]) by (apply (f_equal (@pk_k RNum)) in EK; symmetry; exact EK).
  rewrite EK. apply B_exist; try assumption; try lra; rewrite EK2; cbn; lra.
Qed.
