(** ProofIntegrals: the angular ranges and the loops of the mode-coupling integrals. *)
From Coq Require Import Reals Lra Lia List.
From Verif Require Import Base Num BaseFacts Common Kernels Gamma2 Integrals Spec SpecPT SpecIntegrals SpecLoops SpecTable Sums ProofSearch ProofKernels ProofGL2.
Import ListNotations.
Local Open Scope R_scope.

(** ** Geometry *)
Lemma sep2 x mu : 0 <= x -> mu <= 1 -> 0 <= 1 + x * x - 2 * mu * x.
Proof. intros. pose proof (Rle_0_sqr (1 - x)) as H1. unfold Rsqr in H1. assert (mu * x <= 1 * x) by (apply Rmult_le_compat_r; lra). lra. Qed.
Lemma sep_sq x mu : 0 <= x -> mu <= 1 -> sep x mu * sep x mu = 1 + x * x - 2 * mu * x.
Proof. intros. apply sqrt_sqrt, sep2; assumption. Qed.
Lemma sep_pos x mu : 0 <= sep x mu.
Proof. apply sqrt_pos. Qed.
Lemma le_sep x mu a : 0 < x -> mu <= 1 -> 0 <= a -> (a <= sep x mu <-> mu <= (1 + x * x - a * a) / (2 * x)).
Proof.
  intros Hx Hm Ha. pose proof (sep_sq x mu ltac:(lra) Hm) as E. pose proof (sep_pos x mu) as P.
  assert (B : mu <= (1 + x * x - a * a) / (2 * x) <-> a * a <= sep x mu * sep x mu).
  { rewrite E. split; intros H.
    - apply (Rmult_le_compat_r (2 * x)) in H; [|lra]. unfold Rdiv in H. rewrite Rmult_assoc, Rinv_l in H by lra. lra.
    - apply (Rmult_le_reg_r (2 * x)); [lra|]. unfold Rdiv. rewrite Rmult_assoc, Rinv_l by lra. lra. }
  rewrite B. split; intros H; [apply Rmult_le_compat; assumption|]. apply Rsqr_incr_0; unfold Rsqr; assumption.
Qed.
Lemma sep_le x mu a : 0 < x -> mu <= 1 -> 0 <= a -> (sep x mu <= a <-> (1 + x * x - a * a) / (2 * x) <= mu).
Proof.
  intros Hx Hm Ha. pose proof (sep_sq x mu ltac:(lra) Hm) as E. pose proof (sep_pos x mu) as P.
  assert (B : (1 + x * x - a * a) / (2 * x) <= mu <-> sep x mu * sep x mu <= a * a).
  { rewrite E. split; intros H.
    - apply (Rmult_le_compat_r (2 * x)) in H; [|lra]. unfold Rdiv in H. rewrite Rmult_assoc, Rinv_l in H by lra. lra.
    - apply (Rmult_le_reg_r (2 * x)); [lra|]. unfold Rdiv. rewrite Rmult_assoc, Rinv_l by lra. lra. }
  rewrite B. split; intros H; [apply Rmult_le_compat; assumption|]. apply Rsqr_incr_0; unfold Rsqr; assumption.
Qed.
Lemma allowed_iff half xmin xmax x mu : 0 < xmin -> xmin <= x <= xmax ->
  (allowed half xmin xmax x mu <-> mu_lo xmax x <= mu <= mu_hi half xmin x).
Proof.
  intros H0 Hx. unfold allowed, mu_lo, mu_hi.
  assert (A : mu <= 1 -> (xmin <= sep x mu <= xmax /\ (half = true -> x <= sep x mu) <->
     (1 + x * x - xmax * xmax) / (2 * x) <= mu <= (1 + x * x - (if half then x * x else xmin * xmin)) / (2 * x))).
  { intros Hm. pose proof (le_sep x mu xmin ltac:(lra) Hm ltac:(lra)). pose proof (sep_le x mu xmax ltac:(lra) Hm ltac:(lra)).
    pose proof (le_sep x mu x ltac:(lra) Hm ltac:(lra)). destruct half.
    - split; [intros [[H3 H4] H5]; specialize (H5 eq_refl); tauto|]. intros [H3 H4]. apply H2 in H4. apply H1 in H3.
      repeat split; [lra|tauto|auto].
    - split; [tauto|]. intros [H3 H4]. repeat split; try tauto. discriminate. }
  split.
  - intros [Hm [Hs Hh]]. destruct (A ltac:(lra)) as [A1 _]. destruct (A1 (conj Hs Hh)) as [H1 H2]. split.
    + apply Rmax_lub; lra.
    + apply Rmin_glb; lra.
  - intros [H1 H2]. pose proof (Rmax_l (-1) ((1 + x * x - xmax * xmax) / (2 * x))). pose proof (Rmax_r (-1) ((1 + x * x - xmax * xmax) / (2 * x))).
    pose proof (Rmin_l 1 ((1 + x * x - (if half then x * x else xmin * xmin)) / (2 * x))).
    pose proof (Rmin_r 1 ((1 + x * x - (if half then x * x else xmin * xmin)) / (2 * x))).
    destruct (A ltac:(lra)) as [_ A2]. destruct A2 as [A3 A4]; [lra|]. repeat split; try lra; exact A4.
Qed.
(** On one half of the plane the range is never empty once it is not empty on the whole plane. *)
Lemma lo_hi_half xmin xmax x : 0 < xmin -> xmin <= x <= xmax -> 1 / 2 <= x -> mu_lo xmax x <= mu_hi true xmin x.
Proof.
  intros H0 Hx Hh. unfold mu_lo, mu_hi. assert (Hi : 0 < / (2 * x)) by (apply Rinv_0_lt_compat; lra).
  replace (1 + x * x - x * x) with 1 by ring.
  assert (H1 : 0 < 1 / (2 * x) <= 1).
  { split; [apply Rdiv_lt_0_compat; lra|]. apply (Rmult_le_reg_r (2 * x)); [lra|]. unfold Rdiv. rewrite Rmult_assoc, Rinv_l; lra. }
  assert (H2 : (1 + x * x - xmax * xmax) / (2 * x) <= 1 / (2 * x)).
  { unfold Rdiv. apply Rmult_le_compat_r; [lra|]. nra. }
  apply Rmax_lub; apply Rmin_glb; lra.
Qed.

(** ** set_mu_range *)
Lemma update_mu_ok {N} (m : glmu N) a b : mu_ok m -> exists m', update_gauss_legendre_mu m a b = Ok m' /\ same_rule m m'.
Proof.
  intros [H0 [H1 [H2 [H3 H4]]]].
  destruct (update_mu_val m a b a H0 H1 H2 H3 H4) as [m' [E [A1 [A2 [A3 [A4 [A5 A6]]]]]]].
  exists m'. split; [exact E|]. unfold same_rule, mu_ok. rewrite A1, A2, A3. auto 10.
Qed.
(** set_mu_range never fails. *)
Lemma set_mu_range_ok {N} half (g : glq N) (m : glmu N) x : mu_ok m -> (1 <= gq_nq g < 2 ^ 62)%Z -> zlen (gq_x g) = gq_nq g ->
  set_mu_range half g m x = Ok None \/ exists m', set_mu_range half g m x = Ok (Some m') /\ same_rule m m'.
Proof.
  intros Hm Hn Hx. unfold set_mu_range. rewrite (rd_ok x) by lia. cbn [bind]. rewrite u64_small by (unfold SIZE_T; lia).
  rewrite (rd_ok x) by lia. cbn [bind]. destruct (_ || _); [left; reflexivity|]. right.
  match goal with |- context [update_gauss_legendre_mu m ?a ?b] => destruct (update_mu_ok m a b Hm) as [m' [E Hs]] end.
  exists m'. rewrite E. auto.
Qed.
Lemma set_mu_range_val half (g : glq RNum) (m : glmu RNum) (x : R) : mu_ok m -> (1 <= gq_nq g < 2 ^ 62)%Z -> zlen (gq_x g) = gq_nq g ->
  let xmin := znth 0 (gq_x g) 0 in let xmax := znth 0 (gq_x g) (gq_nq g - 1) in
  0 < xmin -> xmin <= x <= xmax ->
  (mu_hi false xmin x <= mu_lo xmax x /\ set_mu_range half g m x = Ok None) \/
  (mu_lo xmax x < mu_hi false xmin x /\ mu_lo xmax x <= mu_hi half xmin x /\ exists m', set_mu_range half g m x = Ok (Some m') /\
     update_gauss_legendre_mu m (mu_lo xmax x) (mu_hi half xmin x) = Ok m').
Proof.
  intros Hm Hn Hx xmin xmax H0 Hxx. unfold set_mu_range. rewrite (rd_ok (A := T RNum) 0) by lia. cbn [bind].
  rewrite u64_small by (unfold SIZE_T; lia). rewrite (rd_ok (A := T RNum) 0) by lia. cbn [bind].
  change (znth 0 (gq_x g) 0) with xmin. change (znth 0 (gq_x g) (gq_nq g - 1)) with xmax.
  unfold nmax, nmin. rnl.
  assert (Eh : forall a, (1 + x * x - a) / 2 / x = (1 + x * x - a) / (2 * x)) by (intros; field; lra).
  rewrite !Eh.
  set (A := (1 + x * x - xmax * xmax) / (2 * x)) in *. set (B := (1 + x * x - xmin * xmin) / (2 * x)) in *.
  assert (EL : (if Rltb A (- (1)) then - (1) else A) = mu_lo xmax x).
  { unfold mu_lo. fold A. destruct (Rltb_spec A (- (1))) as [H|H]; [rewrite Rmax_left by lra; reflexivity|].
    apply Rnot_lt_le in H. rewrite Rmax_right by lra. reflexivity. }
  assert (EH : (if Rltb 1 B then 1 else B) = mu_hi false xmin x).
  { unfold mu_hi. fold B. destruct (Rltb_spec 1 B) as [H|H]; [rewrite Rmin_left by lra; reflexivity|].
    apply Rnot_lt_le in H. rewrite Rmin_right by lra. reflexivity. }
  rewrite EL, EH.
  pose proof (Rmax_l (-1) A) as HA. pose proof (Rmin_l 1 B) as HB. unfold mu_lo, mu_hi in *. fold A B in EL, EH |- *.
  destruct (Rleb_spec 1 (Rmax (-1) A)) as [H1|H1]; [left; split; [lra|reflexivity]|]. apply Rnot_le_lt in H1.
  destruct (Rleb_spec (Rmin 1 B) (- (1))) as [H2|H2]; [left; split; [lra|reflexivity]|]. apply Rnot_le_lt in H2.
  destruct (Rleb_spec (Rmin 1 B) (Rmax (-1) A)) as [H3|H3]; [left; split; [lra|reflexivity]|]. apply Rnot_le_lt in H3.
  cbn [orb]. right. split; [exact H3|].
  assert (EM : (if half && Rleb (5 / 10) x then 5 / 10 / x else Rmin 1 B) = Rmin 1 ((1 + x * x - (if half then x * x else xmin * xmin)) / (2 * x))).
  { destruct half; cbn [andb]; [|reflexivity]. replace (1 + x * x - x * x) with 1 by ring.
    destruct (Rleb_spec (5 / 10) x) as [H4|H4].
    - replace (5 / 10 / x) with (1 / (2 * x)) by (field; lra). rewrite Rmin_right; [reflexivity|].
      apply (Rmult_le_reg_r (2 * x)); [lra|]. unfold Rdiv. rewrite Rmult_assoc, Rinv_l; lra.
    - apply Rnot_le_lt in H4. assert (H5 : 1 <= 1 / (2 * x)).
      { apply (Rmult_le_reg_r (2 * x)); [lra|]. unfold Rdiv. rewrite Rmult_assoc, Rinv_l; lra. }
      rewrite (Rmin_left 1 (1 / (2 * x))) by lra. apply Rmin_left. unfold B.
      apply Rle_trans with (1 / (2 * x)); [exact H5|]. unfold Rdiv. apply Rmult_le_compat_r; [apply Rlt_le, Rinv_0_lt_compat; lra|]. nra. }
  split.
  - destruct half; [|fold B; lra].
    destruct (Rle_dec (1 / 2) x) as [H4|H4]; [exact (lo_hi_half xmin xmax x H0 Hxx H4)|]. apply Rnot_le_lt in H4.
    replace (1 + x * x - x * x) with 1 by ring. rewrite (Rmin_left 1 (1 / (2 * x))); [lra|].
    apply (Rmult_le_reg_r (2 * x)); [lra|]. unfold Rdiv. rewrite Rmult_assoc, Rinv_l; lra.
  - rewrite EM. destruct (update_mu_ok m (Rmax (-1) A) (Rmin 1 ((1 + x * x - (if half then x * x else xmin * xmin)) / (2 * x))) Hm) as [m' [E _]].
    exists m'. rn_in E. rewrite E. split; reflexivity.
Qed.

(** ** The loops *)
Lemma zipw_map {A B C D} (f : A -> B -> C) (g : D -> A) (h : D -> B) l :
  zipw f (map g l) (map h l) = map (fun c => f (g c) (h c)) l.
Proof. induction l as [|c l IH]; cbn; [reflexivity|]. rewrite IH. reflexivity. Qed.
Lemma repeat_map {A B} (a : A) (l : list B) : repeat a (length l) = map (fun _ => a) l.
Proof. induction l as [|c l IH]; cbn; [reflexivity|]. rewrite IH. reflexivity. Qed.
Lemma comps_ext {A} nc (f g : nat -> A) : (forall c, f c = g c) -> comps nc f = comps nc g.
Proof. intros H. apply map_ext. exact H. Qed.

Lemma mu_loop_val (m : glmu RNum) nc kern (K : nat -> R -> R) : mu_ok m ->
  (forall j, (0 <= j < gm_nmu m)%Z -> kern (znth 0 (gm_mu m) j) = Ok (comps nc (fun c => K c (znth 0 (gm_mu m) j)))) ->
  mu_loop m nc kern = Ok (comps nc (fun c => rsum (Z.to_nat (gm_nmu m)) (fun j => K c (at_ (gm_mu m) j) * at_ (gm_w m) j))).
Proof.
  intros [H0 [H1 [H2 [H3 H4]]]] HK. unfold mu_loop.
  destruct (for_inv (fun j s => s = comps nc (fun c => rsum (Z.to_nat j) (fun i => K c (at_ (gm_mu m) i) * at_ (gm_w m) i)))
    0 (gm_nmu m) (fun imu integ => mu <- rd (gm_mu m) imu ;; kernel <- kern mu ;; w <- rd (gm_w m) imu ;;
       Ok (zipw (fun a v => nadd RNum a (nmul RNum v w)) integ kernel)) (repeat (nZ RNum 0) nc)) as [s [E Es]].
  - exact H0.
  - unfold comps. cbn [Z.to_nat rsum]. rewrite <- (repeat_map _ (seq 0 nc)), seq_length. reflexivity.
  - intros j s Hj ->. rewrite (rd_ok (A := T RNum) 0) by lia. cbn [bind]. rewrite HK by lia. cbn [bind].
    rewrite (rd_ok (A := T RNum) 0) by lia. cbn [bind]. eexists. split; [reflexivity|].
    unfold comps. rewrite zipw_map. apply map_ext. intros c. replace (Z.to_nat (j + 1)) with (S (Z.to_nat j)) by lia.
    cbn [rsum]. unfold at_, znth. reflexivity.
  - etransitivity; [exact E|]. rewrite Es. reflexivity.
Qed.

Lemma q_loop_val half (g : glq RNum) (m : glmu RNum) nc kern add (K : nat -> Z -> R -> R) (addf : nat -> Z -> R -> R) :
  mu_ok m -> (1 <= gq_nq g < 2 ^ 62)%Z -> zlen (gq_x g) = gq_nq g -> nodes_in g ->
  (forall i mu, (0 <= i < gq_nq g)%Z -> mu_lo (xmax_of g) (znth 0 (gq_x g) i) < mu_hi false (xmin_of g) (znth 0 (gq_x g) i) ->
     (exists u, In u (gm_muref m) /\ mu = (u + 1) * ((mu_hi half (xmin_of g) (znth 0 (gq_x g) i) - mu_lo (xmax_of g) (znth 0 (gq_x g) i)) / 2)
        + mu_lo (xmax_of g) (znth 0 (gq_x g) i)) ->
     kern i mu = Ok (comps nc (fun c => K c i mu))) ->
  (forall i f, (0 <= i < gq_nq g)%Z -> add i (znth 0 (gq_x g) i) (comps nc f) = Ok (comps nc (fun c => addf c i (f c)))) ->
  (half = true -> forall c i, addf c i 0 = 0) ->
  exists m', q_loop half g m nc kern add =
    Ok (comps nc (fun c => rsum (Z.to_nat (gq_nq g)) (fun i =>
          let x := at_ (gq_x g) i in
          if Rlt_dec (mu_lo (xmax_of g) x) (mu_hi half (xmin_of g) x)
          then addf c (Z.of_nat i) (muquad (gm_muref m) (gm_wref m) (mu_lo (xmax_of g) x) (mu_hi half (xmin_of g) x) (K c (Z.of_nat i)))
          else 0)), m') /\ same_rule m m'.
Proof.
  intros Hm Hn Hx [Hp Hin] HK Hadd Hz. unfold q_loop.
  pose (F := fun c (i : nat) => let x := at_ (gq_x g) i in
          if Rlt_dec (mu_lo (xmax_of g) x) (mu_hi half (xmin_of g) x)
          then addf c (Z.of_nat i) (muquad (gm_muref m) (gm_wref m) (mu_lo (xmax_of g) x) (mu_hi half (xmin_of g) x) (K c (Z.of_nat i)))
          else 0).
  match goal with |- context [for_ 0 (gq_nq g) ?b ?s0] =>
    destruct (for_inv (fun j s => fst s = comps nc (fun c => rsum (Z.to_nat j) (F c)) /\ same_rule m (snd s)) 0 (gq_nq g) b s0) as [[s' m'] [E [Es Hs]]] end.
  - lia.
  - cbn [fst snd]. split; [|split; auto]. unfold comps. cbn [Z.to_nat rsum]. rewrite <- (repeat_map _ (seq 0 nc)), seq_length. reflexivity.
  - intros j [s m1] Hj [Es [Hm1 [N1 [N2 N3]]]]. cbn [fst snd] in Es, Hm1, N1, N2, N3. subst s.
    rewrite (rd_ok (A := T RNum) 0) by lia. cbn [bind]. change (T RNum) with R in *. set (x := znth 0 (gq_x g) j) in *.
    assert (Ex : at_ (gq_x g) (Z.to_nat j) = x) by reflexivity.
    assert (EF : forall c, rsum (Z.to_nat (j + 1)) (F c) = rsum (Z.to_nat j) (F c) + F c (Z.to_nat j)).
    { intros c. replace (Z.to_nat (j + 1)) with (S (Z.to_nat j)) by lia. reflexivity. }
    destruct (set_mu_range_val half g m1 x Hm1 Hn Hx Hp (Hin j Hj)) as [[HL HE]|[HL [HL2 [m2 [HE HU]]]]].
    + rewrite HE. cbn [bind]. eexists. split; [reflexivity|]. cbn [fst snd]. split; [|split; auto].
      apply comps_ext. intros c. rewrite EF. unfold F. rewrite Ex. cbn zeta.
      fold (xmin_of g) in HL. fold (xmax_of g) in HL.
      destruct (Rlt_dec (mu_lo (xmax_of g) x) (mu_hi half (xmin_of g) x)) as [H1|H1]; [|ring]. exfalso.
      assert (mu_hi half (xmin_of g) x <= mu_hi false (xmin_of g) x); [|lra].
      destruct half; [|lra]. unfold mu_hi. apply Rle_min_compat_l. unfold Rdiv. apply Rmult_le_compat_r.
      * apply Rlt_le, Rinv_0_lt_compat. pose proof (Hin j Hj). fold x in H. lra.
      * pose proof (Hin j Hj) as H. fold x in H. nra.
    + fold (xmin_of g) in HL, HL2, HU. fold (xmax_of g) in HL, HL2, HU. rewrite HE. cbn [bind].
      set (lo := mu_lo (xmax_of g) x) in *. set (hi := mu_hi half (xmin_of g) x) in *.
      destruct Hm1 as [A0 [A1 [A2 [A3 A4]]]].
      destruct (update_mu_val m1 lo hi 0 A0 A1 A2 A3 A4) as [m2' [U0 [U1 [U2 [U3 [U4 [U5 U6]]]]]]].
      rewrite HU in U0. injection U0 as <-.
      assert (Hm2 : mu_ok m2) by (unfold mu_ok; rewrite U1, U2, U3; auto 10).
      rewrite (mu_loop_val m2 nc (kern j) (fun c => K c j)); [|exact Hm2|].
      2:{ intros i Hi. rewrite U1 in Hi. destruct (U6 i Hi) as [E1 _]. apply HK; [exact Hj|exact HL|].
          exists (znth 0 (gm_muref m1) i). split; [rewrite <- N2; apply znth_In; change (T RNum) with R in A1; rewrite A1; exact Hi|]. exact E1. }
      cbn [bind]. rewrite Hadd by exact Hj. cbn [bind]. eexists. split; [reflexivity|]. cbn [fst snd]. split.
      2:{ split; [exact Hm2|]. rewrite U1, U2, U3. auto. }
      unfold comps. rewrite zipw_map. apply map_ext. intros c. rewrite EF. change (nadd RNum) with Rplus. f_equal.
      unfold F. rewrite Ex. cbn zeta. fold lo hi. rewrite Z2Nat.id by lia.
      assert (EM : rsum (Z.to_nat (gm_nmu m2)) (fun i => K c j (at_ (gm_mu m2) i) * at_ (gm_w m2) i) =
        rsum (length (gm_muref m)) (fun i => (hi - lo) / 2 * at_ (gm_wref m) i * K c j (lo + (hi - lo) / 2 * (at_ (gm_muref m) i + 1)))).
      { replace (length (gm_muref m)) with (Z.to_nat (gm_nmu m2)).
        2:{ rewrite U1, <- A1, N2. unfold zlen. apply Nat2Z.id. }
        apply rsum_ext. intros i Hi. destruct (U6 (Z.of_nat i)) as [E1 E2]; [rewrite <- U1; lia|].
        unfold znth in E1, E2. rewrite Nat2Z.id in E1, E2. rewrite N2 in E1. rewrite N3 in E2. unfold at_. change (T RNum) with R in E1, E2.
        rewrite E1, E2. rn. match goal with |- K c j ?a * _ = _ * K c j ?b => replace b with a by ring end. ring. }
      rewrite EM. destruct (Rlt_dec lo hi) as [H1|H1].
      * unfold muquad. destruct (Rlt_dec lo hi); [reflexivity|contradiction].
      * assert (Eq : hi = lo) by (apply Rnot_lt_le in H1; lra).
        rewrite (rsum_ext _ _ (fun _ => 0)), rsum_zero by (intros; rewrite Eq; field).
        destruct half; [apply Hz; reflexivity|]. exfalso. unfold hi in H1. contradiction.
  - exists m'. split; [|exact Hs]. etransitivity; [exact E|]. cbn [fst] in Es. rewrite Es. reflexivity.
Qed.

Lemma lo_le_hi half xmin xmax x : 0 < xmin -> xmin <= x <= xmax -> mu_lo xmax x < mu_hi false xmin x -> mu_lo xmax x <= mu_hi half xmin x.
Proof.
  intros H0 Hx H. destruct half; [|lra]. destruct (Rle_dec (1 / 2) x) as [H4|H4]; [apply lo_hi_half; assumption|]. apply Rnot_le_lt in H4.
  apply Rlt_le. apply Rlt_le_trans with (1 := H). unfold mu_hi. replace (1 + x * x - x * x) with 1 by ring. rewrite (Rmin_left 1 (1 / (2 * x))).
  - apply Rmin_l.
  - apply (Rmult_le_reg_r (2 * x)); [lra|]. unfold Rdiv. rewrite Rmult_assoc, Rinv_l; lra.
Qed.
Lemma q_updated P (g : glq RNum) k : q_table P g -> 0 < k ->
  exists g', update_gauss_legendre_q g k = Ok g' /\ gq_k g' = k /\ gq_nq g' = gq_nq g /\ gq_x g' = xs_of g k /\ gq_w g' = gq_w g /\
    gq_q g' = gq_q g /\ gq_pk g' = gq_pk g /\
    zlen (gq_x g') = gq_nq g' /\ (1 <= gq_nq g' < 2 ^ 62)%Z /\ nodes_in g' /\
    forall i, (0 <= i < gq_nq g')%Z ->
      rd (gq_x g') i = Ok (znth 0 (gq_x g') i) /\ 0 < znth 0 (gq_x g') i /\ znth 0 (gq_x g') i = at_ (xs_of g k) (Z.to_nat i) /\
      rd (gq_q g') i = Ok (k * znth 0 (gq_x g') i) /\
      rd (gq_pk g') i = Ok (P (k * znth 0 (gq_x g') i)) /\ rd (gq_w g') i = Ok (at_ (gq_w g) (Z.to_nat i)).
Proof.
  intros [Hn [Hq [Hx [Hw [Hp [H0 Hi]]]]]] Hk.
  destruct (update_q_val g k (nZ RNum 0) ltac:(lia) Hq Hx) as [g' [E [A1 [A2 [A3 [A4 [A5 [A6 A7]]]]]]]]. rn_in A7.
  exists g'. split; [exact E|]. split; [exact A1|]. split; [exact A2|]. change (T RNum) with R in *.
  assert (Ex : gq_x g' = xs_of g k).
  { apply (znth_ext 0); [unfold xs_of, zlen in *; rewrite map_length; lia|]. intros i Hii. rewrite A7 by lia.
    unfold xs_of, znth. rewrite (nth_indep (map _ _) 0 (0 / k)); [|rewrite map_length; unfold zlen in *; lia].
    rewrite (map_nth (fun q => q / k)). reflexivity. }
  split; [exact Ex|]. split; [exact A4|]. split; [exact A3|]. split; [exact A5|].
  rewrite A2. split; [exact A6|]. split; [exact Hn|].
  assert (Hik : 0 < / k) by (apply Rinv_0_lt_compat; exact Hk).
  split.
  { unfold nodes_in, xmin_of, xmax_of. rewrite A2. split.
    - rewrite A7 by lia. apply Rdiv_lt_0_compat; assumption.
    - intros i Hii. rewrite !A7 by lia. destruct (Hi i Hii) as [[B1 B2] _]. split; unfold Rdiv; apply Rmult_le_compat_r; lra. }
  intros i Hii. destruct (Hi i Hii) as [[B1 B2] B3].
  split; [apply rd_ok; lia|]. split; [rewrite A7 by lia; apply Rdiv_lt_0_compat; lra|]. split; [rewrite Ex; reflexivity|].
  assert (Eq : k * znth 0 (gq_x g') i = znth 0 (gq_q g) i) by (rewrite A7 by lia; field; lra). rewrite Eq, A3, A4, A5.
  repeat split; [apply rd_ok; lia| |].
  - rewrite <- B3. apply rd_ok. lia.
  - unfold at_. exact (rd_ok (A := R) 0 (gq_w g) i ltac:(lia)).
Qed.
Lemma q_loop_spec half (g : glq RNum) (m : glmu RNum) nc kern add (K : nat -> Z -> R -> R) (addf : nat -> Z -> R -> R) :
  mu_rule m -> (1 <= gq_nq g < 2 ^ 62)%Z -> zlen (gq_x g) = gq_nq g -> nodes_in g ->
  (forall i mu, (0 <= i < gq_nq g)%Z -> allowed half (xmin_of g) (xmax_of g) (znth 0 (gq_x g) i) mu ->
     kern i mu = Ok (comps nc (fun c => K c i mu))) ->
  (forall i f, (0 <= i < gq_nq g)%Z -> add i (znth 0 (gq_x g) i) (comps nc f) = Ok (comps nc (fun c => addf c i (f c)))) ->
  (half = true -> forall c i, addf c i 0 = 0) ->
  exists m', q_loop half g m nc kern add =
    Ok (comps nc (fun c => rsum (Z.to_nat (gq_nq g)) (fun i =>
          let x := at_ (gq_x g) i in
          if Rlt_dec (mu_lo (xmax_of g) x) (mu_hi half (xmin_of g) x)
          then addf c (Z.of_nat i) (muquad (gm_muref m) (gm_wref m) (mu_lo (xmax_of g) x) (mu_hi half (xmin_of g) x) (K c (Z.of_nat i)))
          else 0)), m') /\ same_rule m m'.
Proof.
  intros [Hm Hu] Hn Hx Hin HK Hadd Hz. apply q_loop_val; try assumption.
  intros i mu Hi HL [u [Iu Eu]]. apply HK; [exact Hi|]. destruct Hin as [H0 Hin]. specialize (Hin i Hi).
  apply allowed_iff; [exact H0|exact Hin|].
  pose proof (lo_le_hi half _ _ _ H0 Hin HL) as HL2. specialize (Hu u Iu). rewrite Eu.
  apply mu_inside; assumption.
Qed.
(** The common case: the sum is an iterated quadrature. *)
Lemma q_loop_itquad half P (g0 g : glq RNum) (m : glmu RNum) nc kern add (K : nat -> nat -> R -> R) (W : nat -> R) k :
  mu_rule m -> q_table P g0 -> 0 < k -> update_gauss_legendre_q g0 k = Ok g ->
  (forall i mu, (0 <= i < gq_nq g)%Z -> allowed half (xmin_of g) (xmax_of g) (znth 0 (gq_x g) i) mu ->
     kern i mu = Ok (comps nc (fun c => K c (Z.to_nat i) mu))) ->
  (forall i f, (0 <= i < gq_nq g)%Z -> add i (znth 0 (gq_x g) i) (comps nc f) = Ok (comps nc (fun c => f c * W (Z.to_nat i)))) ->
  exists m', q_loop half g m nc kern add =
    Ok (comps nc (fun c => itquad half (xs_of g0 k) W (gm_muref m) (gm_wref m) (K c)), m') /\ same_rule m m'.
Proof.
  intros Hm Hg Hk E HK Hadd. destruct (q_updated P g0 k Hg Hk) as [g' [E' [A1 [A2 [A3 [A4 [A5 [A6 [A7 [A8 [A9 A10]]]]]]]]]]].
  rewrite E in E'. injection E' as <-.
  destruct (q_loop_spec half g m nc kern add (fun c i => K c (Z.to_nat i)) (fun c i v => v * W (Z.to_nat i)) Hm A8 A7 A9 HK Hadd) as [m' [EQ HS]].
  { intros _ c i. ring. }
  exists m'. split; [|exact HS]. etransitivity; [exact EQ|]. do 2 f_equal. apply comps_ext. intros c. unfold itquad.
  assert (EL : length (xs_of g0 k) = Z.to_nat (gq_nq g)) by (rewrite <- A3, <- A7; unfold zlen; symmetry; apply Nat2Z.id).
  rewrite EL. apply rsum_ext. intros i Hi. cbn zeta. rewrite !Nat2Z.id.
  assert (E1 : xmin_of g = at_ (xs_of g0 k) 0) by (unfold xmin_of; rewrite A3; reflexivity).
  assert (E2 : xmax_of g = at_ (xs_of g0 k) (Z.to_nat (gq_nq g) - 1)).
  { unfold xmax_of. rewrite A3. unfold znth, at_. f_equal. lia. }
  rewrite <- E1, <- E2, A3. 
  destruct (Rlt_dec _ _) as [H|H]; [ring|]. unfold muquad at 1. destruct (Rlt_dec _ _); [contradiction|ring].
Qed.
