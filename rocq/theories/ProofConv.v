(** ProofConv: iterated sums over q and the angle against iterated integrals. *)
From Coq Require Import Reals Lra Lia List ZArith String.
From Coquelicot Require Import Coquelicot.
From Verif Require Import Base Num BaseFacts Common Kernels Integrals Registry Threads Spec SpecPT SpecQuad SpecKernels SpecLoops SpecIntegrals SpecThreads SpecDefined SpecColumns SpecConv Poly ProofSearch ProofGL ProofGL2 ProofCommon2
  ProofNewton2 ProofNewton3 ProofNewton5 ProofNewton6 ProofNewton7 ProofQuad ProofQuad2 ProofQuad3.
Import ListNotations.
Local Open Scope R_scope.

(** The first and the last node are close to the ends. *)
Lemma cos_low x : 0 <= x -> 1 - x * x / 2 <= cos x.
Proof.
  intros Hx. assert (EC : cos x = 1 - 2 * sin (x / 2) * sin (x / 2)) by (rewrite <- cos_2a_sin; f_equal; field). rewrite EC. destruct (Req_dec x 0) as [->|H]; [replace (0 / 2) with 0 by field; rewrite sin_0; lra|].
  pose proof (sin_lt_x (x / 2) ltac:(lra)) as A. destruct (Rle_dec 0 (sin (x / 2))) as [B|B]; [nra|]. pose proof (SIN_bound (x / 2)) as C.
  assert (E : sin (x / 2) * sin (x / 2) <= (x / 2) * (x / 2)); [|nra].
  assert (D : - sin (x / 2) <= x / 2). { destruct (Rle_dec (x / 2) 1) as [D|D]; [|lra]. exfalso. apply B. apply sin_ge_0; pose proof PI2_1; lra. }
  nra.
Qed.
Lemma end_root n r : (1 <= n)%nat -> start n r (cos (phi n 0)) -> 0 <= r /\ 1 - r <= 11 / 2 / fr n ^ 2.
Proof.
  intros Hn (A & B & _ & _ & _ & C & _). split; [lra|]. pose proof (fr_ge n Hn) as F. pose proof (cos_low (phi n 0)) as D.
  set (b := cos (phi n 0)) in *. assert (Hp : 0 <= phi n 0) by (pose proof (phi_range n 0 ltac:(lia)); lra). specialize (D Hp).
  assert (E : phi n 0 * phi n 0 <= 9 / fr n ^ 2).
  { pose proof (phi_fr n 0 Hn) as G. cbn [INR] in G. assert (G1 : phi n 0 = PI * (3 / 4) / fr n) by (apply (Rmult_eq_reg_l (fr n)); [rewrite G; field; lra|lra]).
    rewrite G1. replace (PI * (3 / 4) / fr n * (PI * (3 / 4) / fr n)) with (PI * PI * (9 / 16) / fr n ^ 2) by (field; lra). unfold Rdiv at 1 3. apply Rmult_le_compat_r; [apply Rlt_le, Rinv_0_lt_compat, pow_lt; lra|].
    pose proof PI_4. pose proof PI_RGT_0. nra. }
  replace (11 / 2 / fr n ^ 2) with (11 / 9 * (9 / fr n ^ 2 / 2)) by (field; lra). nra.
Qed.
Lemma end_nodes fuel (xmin xmax : R) (x w : list R) n : (1 <= n < 2 ^ 62)%Z -> zlen x = n -> zlen w = n -> xmin < xmax ->
  forall x' w', nodes_weights_gauss_legendre (N := RNum) fuel xmin xmax x w n = Ok (x', w') ->
  let e := (xmax - xmin) * (11 / 4) / (IZR n + 1 / 2) ^ 2 in at_ x' 0 <= xmin + e /\ xmax - e <= at_ x' (Z.to_nat n - 1).
Proof.
  intros Hn Hx Hw HX x' w' E e. set (N := Z.to_nat n) in *. assert (HN : (1 <= N)%nat) by (unfold N; lia).
  destruct (half_roots_exist N HN) as [rs HR]. destruct (gl_rule_L fuel xmin xmax x w n rs Hn Hx Hw HR x' w' E) as [H1 [H2 H3]]. fold N in H1, H2, H3.
  destruct HR as [_ HR]. destruct (HR 0%nat ltac:(lia)) as (S0 & _ & Hone & _). destruct (end_root N _ HN S0) as (R0 & R1).
  assert (EF : fr N = IZR n + 1 / 2) by (unfold fr, N; rewrite INR_IZR_INZ, Z2Nat.id by lia; reflexivity). rewrite EF in R1.
  assert (Ee : e = (xmax - xmin) / 2 * (11 / 2 / (IZR n + 1 / 2) ^ 2)) by (unfold e; pose proof (fr_ge N HN) as G; rewrite EF in G; field; lra).
  assert (He : (xmax - xmin) / 2 * (1 - nth 0 rs 0) <= e) by (rewrite Ee; apply Rmult_le_compat_l; lra). split.
  - destruct (H3 0%nat ltac:(lia)) as (z & sl & s & j & _ & Hj & Hc & _ & Ex & _ & (B1 & _)). cbn [fst] in B1. rewrite Ex.
    destruct Hc as [(<- & -> & _)|(H0 & ->)]; [nra|]. assert (N = 1%nat) by lia. assert (j = 0%nat) by lia. subst j. destruct (Hone ltac:(lia)) as (O1 & O2). rewrite O1, O2 in *. assert (z = 0) by lra. subst z. lra.
  - destruct (H3 (N - 1)%nat ltac:(lia)) as (z & sl & s & j & _ & Hj & Hc & _ & Ex & _ & (B1 & _)). cbn [fst] in B1. rewrite Ex.
    destruct Hc as [(<- & -> & H0)|(H0 & ->)]; [lia|]. assert (j = 0%nat) by lia. subst j. nra.
Qed.
Lemma rule_error_pos n l lam M : (1 <= n)%Z -> 0 <= l -> 0 <= lam -> 0 <= M -> 0 <= rule_error n l lam M.
Proof.
  intros Hn Hl Hlam HM. unfold rule_error. assert (H1 : 1 <= IZR n) by (apply (IZR_le 1); lia). pose proof (sqrt_lt_R0 (2 * IZR n - 1) ltac:(lra)) as HS.
  apply Rmult_le_pos; [exact Hl|]. assert (A1 : 0 <= lam * l / sqrt (2 * IZR n - 1)) by (apply Rdiv_le_0_compat; [apply Rmult_le_pos; assumption|exact HS]).
  assert (A2 : 0 <= 2 * (IZR n + 1 / 2) ^ 2 * (3 / 10 ^ 14) * M) by (apply Rmult_le_pos; [pose proof (pow2_ge_0 (IZR n + 1 / 2)); lra|exact HM]).
  assert (A3 : 0 <= lam * (l / 9 * (3 / 10 ^ 14))) by (apply Rmult_le_pos; lra). lra.
Qed.
(** The rule over the angles *)
Lemma mu_error fuel (p : precision RNum) (m : glmu RNum) lo hi f lam M : (1 <= pr_n p < 2 ^ 62)%Z -> init_gauss_legendre_mu (N := RNum) fuel p = Ok m -> -1 <= lo -> lo < hi -> hi <= 1 -> 0 <= lam ->
  bounded_lipschitz f lo hi lam M -> ex_RInt f lo hi /\ Rabs (muquad (gm_muref m) (gm_wref m) lo hi f - RInt f lo hi) <= rule_error (pr_n p) 2 lam M.
Proof.
  intros Hn HI Hlo Hlh Hhi Hlam (HM & HL). assert (X : ex_RInt f lo hi) by (exact (lip_int lo hi f lam Hlh Hlam HL)). split; [exact X|].
  destruct (init_mu_inv fuel p m ltac:(lia) HI) as (E & _). rn_in E. change (T RNum) with R in *. set (z := repeat 0 (Z.to_nat (pr_n p))) in E. assert (Hz : zlen z = pr_n p) by (unfold z; apply zlen_repeat; lia).
  set (c := (hi - lo) / 2). set (F := fun t => c * f (c * t + (lo + c))). assert (Hc : 0 < c <= 1) by (unfold c; lra).
  assert (PM : 0 <= M) by (eapply Rle_trans; [apply Rabs_pos|apply (HM lo); lra]).
  assert (Rg : forall t, -1 <= t <= 1 -> lo <= c * t + (lo + c) <= hi) by (intros t Ht; assert (hi = lo + 2 * c) by (unfold c; field); nra).
  destruct (gl_lipschitz fuel (-1) 1 z z (pr_n p) F M lam Hn Hz Hz ltac:(lra) Hlam) with (x' := gm_muref m) (w' := gm_wref m) as (_ & HB).
  - intros t Ht. unfold F. rewrite Rabs_mult, (Rabs_right c) by lra. pose proof (HM _ (Rg t Ht)) as A. pose proof (Rabs_pos (f (c * t + (lo + c)))). nra.
  - intros s t Hs Ht. unfold F. replace (c * f (c * s + (lo + c)) - c * f (c * t + (lo + c))) with (c * (f (c * s + (lo + c)) - f (c * t + (lo + c)))) by ring.
    rewrite Rabs_mult, (Rabs_right c) by lra. pose proof (HL _ _ (Rg s Hs) (Rg t Ht)) as A. replace (c * s + (lo + c) - (c * t + (lo + c))) with (c * (s - t)) in A by ring. rewrite Rabs_mult, (Rabs_right c) in A by lra.
    pose proof (Rabs_pos (s - t)) as B. pose proof (Rmult_le_pos _ _ Hlam B) as B2. apply (Rle_trans _ (c * (lam * (c * Rabs (s - t))))); [apply Rmult_le_compat_l; lra|].
    replace (c * (lam * (c * Rabs (s - t)))) with (c * c * (lam * Rabs (s - t))) by ring. assert (c * c <= 1) by nra. nra.
  - exact E.
  - assert (EI : RInt F (-1) 1 = RInt f lo hi).
    { assert (E1 : c * (-1) + (lo + c) = lo) by ring. assert (E2 : c * 1 + (lo + c) = hi) by (unfold c; field).
      pose proof (RInt_comp_lin f c (lo + c) (-1) 1) as Q. rewrite E1, E2 in Q. exact (Q X). }
    rewrite EI in HB. unfold rule_error. replace (1 - -1) with 2 in HB by ring. unfold muquad. destruct (Rlt_dec lo hi) as [_|H]; [|contradiction].
    refine (Rle_trans _ _ _ (Req_le _ _ (f_equal (fun a => Rabs (a - RInt f lo hi)) _)) HB). apply ProofNewton7.rsum_eq.
    intros j _. unfold F. fold c. replace (lo + c * (at_ (gm_muref m) j + 1)) with (c * at_ (gm_muref m) j + (lo + c)) by ring. ring.
Qed.
(** Two integrals over different intervals *)
Definition on (f : R -> R) (a b : R) : R := if Rlt_dec a b then RInt f a b else 0.
Lemma on_bound f a b M : 0 <= M -> (a < b -> ex_RInt f a b) -> (forall t, a <= t <= b -> Rabs (f t) <= M) -> Rabs (on f a b) <= M * Rmax 0 (b - a).
Proof.
  intros HM HX HB. unfold on. destruct (Rlt_dec a b) as [H|H].
  - rewrite Rmax_right by lra. pose proof (abs_RInt_le_const f a b M ltac:(lra) (HX H) HB) as A. rewrite Rmult_comm. exact A.
  - rewrite Rabs_R0. apply Rmult_le_pos; [exact HM|apply Rmax_l].
Qed.
Lemma on_chasles f a p q b : a <= p -> p <= q -> q <= b -> (a < b -> ex_RInt f a b) -> on f a b = on f a p + on f p q + on f q b.
Proof.
  intros H1 H2 H3 HX. destruct (Rlt_dec a b) as [H|H].
  - specialize (HX H). assert (Xap : ex_RInt f a p) by (apply (ex_RInt_Chasles_1 f a p b); [lra|exact HX]). assert (Xpb : ex_RInt f p b) by (apply (ex_RInt_Chasles_2 f a p b); [lra|exact HX]).
    assert (Xpq : ex_RInt f p q) by (apply (ex_RInt_Chasles_1 f p q b); [lra|exact Xpb]). assert (Xqb : ex_RInt f q b) by (apply (ex_RInt_Chasles_2 f p q b); [lra|exact Xpb]).
    assert (G : forall c d, c <= d -> on f c d = RInt f c d). { intros c d Hc. unfold on. destruct (Rlt_dec c d) as [_|Hd]; [reflexivity|]. replace d with c by lra. rewrite RInt_point. reflexivity. }
    rewrite !G by lra. rewrite <- (RInt_Chasles f a p b Xap Xpb), <- (RInt_Chasles f p q b Xpq Xqb). unfold plus; cbn. ring.
  - unfold on. destruct (Rlt_dec a b); [contradiction|]. destruct (Rlt_dec a p); [lra|]. destruct (Rlt_dec p q); [lra|]. destruct (Rlt_dec q b); [lra|]. ring.
Qed.
Lemma on_change f g a b c d M e : 0 <= M -> 0 <= e -> -1 <= a -> -1 <= c -> b <= 1 -> d <= 1 -> (a < b -> ex_RInt f a b) -> (c < d -> ex_RInt g c d) ->
  (forall t, a <= t <= b -> Rabs (f t) <= M) -> (forall t, c <= t <= d -> Rabs (g t) <= M) -> (forall t, a <= t <= b -> c <= t <= d -> Rabs (f t - g t) <= e) ->
  Rabs (on f a b - on g c d) <= 2 * e + M * (Rabs (a - c) + Rabs (b - d)).
Proof.
  intros HM He Ha Hc Hb Hd XF XG BF BG D. destruct (Rle_dec (Rmax a c) (Rmin b d)) as [H|H].
  - set (p := Rmax a c) in *. set (q := Rmin b d) in *. pose proof (Rmax_l a c) as P1. pose proof (Rmax_r a c) as P2. pose proof (Rmin_l b d) as Q1. pose proof (Rmin_r b d) as Q2. fold p in P1, P2. fold q in Q1, Q2.
    rewrite (on_chasles f a p q b P1 H Q1 XF), (on_chasles g c p q d P2 H Q2 XG).
    assert (Fi : forall x y, a <= x -> x <= y -> y <= b -> x < y -> ex_RInt f x y) by (intros x y A1 A2 A3 A4; apply (ex_RInt_Chasles_1 f x y b); [lra|]; apply (ex_RInt_Chasles_2 f a x b); [lra|]; apply XF; lra).
    assert (Gi : forall x y, c <= x -> x <= y -> y <= d -> x < y -> ex_RInt g x y) by (intros x y A1 A2 A3 A4; apply (ex_RInt_Chasles_1 g x y d); [lra|]; apply (ex_RInt_Chasles_2 g c x d); [lra|]; apply XG; lra).
    assert (M1 : Rabs (on f a p) <= M * (p - a)). { rewrite <- (Rmax_right 0 (p - a)) by lra. apply on_bound; [exact HM|apply Fi; lra|intros; apply BF; lra]. }
    assert (M2 : Rabs (on f q b) <= M * (b - q)). { rewrite <- (Rmax_right 0 (b - q)) by lra. apply on_bound; [exact HM|apply Fi; lra|intros; apply BF; lra]. }
    assert (M3 : Rabs (on g c p) <= M * (p - c)). { rewrite <- (Rmax_right 0 (p - c)) by lra. apply on_bound; [exact HM|apply Gi; lra|intros; apply BG; lra]. }
    assert (M4 : Rabs (on g q d) <= M * (d - q)). { rewrite <- (Rmax_right 0 (d - q)) by lra. apply on_bound; [exact HM|apply Gi; lra|intros; apply BG; lra]. }
    assert (M5 : Rabs (on f p q - on g p q) <= 2 * e).
    { unfold on. destruct (Rlt_dec p q) as [H1|H1]; [|rewrite Rminus_eq_0, Rabs_R0; lra].
      pose proof (int_dist f g p q _ _ e ltac:(lra) (RInt_correct _ _ _ (Fi p q P1 H Q1 H1)) (RInt_correct _ _ _ (Gi p q P2 H Q2 H1)) ltac:(intros; apply D; lra)) as A. nra. }
    assert (EA : Rabs (a - c) = (p - a) + (p - c)) by (unfold p, Rmax; destruct (Rle_dec a c); [rewrite Rabs_left1 by lra|rewrite Rabs_right by lra]; lra).
    assert (EB : Rabs (b - d) = (b - q) + (d - q)) by (unfold q, Rmin; destruct (Rle_dec b d); [rewrite Rabs_left1 by lra|rewrite Rabs_right by lra]; lra).
    rewrite EA, EB. pose proof (Rabs_triang (on f a p) (on f q b)) as T1. pose proof (Rabs_triang (on g c p) (on g q d)) as T2.
    replace (on f a p + on f p q + on f q b - (on g c p + on g p q + on g q d)) with ((on f p q - on g p q) + ((on f a p + on f q b) - (on g c p + on g q d))) by ring.
    eapply Rle_trans; [apply Rabs_triang|]. eapply Rle_trans; [apply Rplus_le_compat_l, (Rabs_triang (on f a p + on f q b) (- (on g c p + on g q d)))|]. rewrite Rabs_Ropp. lra.
  - assert (B1 := on_bound f a b M HM XF BF). assert (B2 := on_bound g c d M HM XG BG). eapply Rle_trans; [apply (Rabs_triang (on f a b) (- on g c d))|]. rewrite Rabs_Ropp.
    assert (G : Rmax 0 (b - a) + Rmax 0 (d - c) <= Rabs (a - c) + Rabs (b - d)).
    { unfold Rmax, Rmin in *. unfold Rabs. repeat destruct Rcase_abs; repeat destruct Rle_dec; lra. }
    apply (Rmult_le_compat_l M _ _ HM) in G. lra.
Qed.
