(** ProofCommon2: final forms of the lemmas about common.c, as used in the property files. *)
From Coq Require Import Reals Lra Floats.
From Coquelicot Require Import Coquelicot.
From Verif Require Import Base Num BaseFacts Common Spec Poly Order ProofSearch ProofInterp ProofFindPk ProofFindPkR ProofSigma.
From Verif Require Import Legendre LegendreRoots SpecQuad LegendreSpec ProofGL ProofGL2.
Import ListNotations.
Local Open Scope Z_scope.

(** ** Table search *)
Lemma dicho_window {N : Num} (x : T N) tab tab' fuel : forall mn mx, 0 <= mn < mx -> mx < 2 ^ 63 ->
  (forall i, mn <= i < mx -> rd tab i = rd tab' i) ->
  dicho fuel x tab mn mx = dicho fuel x tab' mn mx.
Proof.
  induction fuel as [|f IH]; intros mn mx Hm Hb He; [reflexivity|].
  cbn [dicho]. rewrite (u64_small (mx - 1)) by (unfold SIZE_T; lia).
  destruct (Z.eqb_spec mn (mx - 1)) as [E|E]; [reflexivity|].
  rewrite (u64_small (mn + mx)) by (unfold SIZE_T; lia).
  assert (Hi : mn < (mn + mx) / 2 < mx) by (pose proof (Z.div_mod (mn + mx) 2 ltac:(lia)); pose proof (Z.mod_pos_bound (mn + mx) 2 ltac:(lia)); lia).
  rewrite He by lia. destruct (rd tab' _) as [t|]; cbn [bind]; [|reflexivity].
  rewrite (IH mn ((mn + mx) / 2)) by (try lia; intros; apply He; lia).
  rewrite (IH ((mn + mx) / 2) mx) by (try lia; intros; apply He; lia).
  reflexivity.
Qed.
Lemma lookup_window {N : Num} (x : T N) tab tab' mn mx : 0 <= mn < mx -> mx < 2 ^ 63 ->
  (forall i, mn <= i < mx -> rd tab i = rd tab' i) ->
  get_dichotomy_index x tab mn mx = get_dichotomy_index x tab' mn mx.
Proof. apply dicho_window. Qed.

Lemma lookup_R (x : R) (tab : list R) mn mx : increasing tab -> 0 <= mn < mx -> mx <= zlen tab -> zlen tab < 2 ^ 63 ->
  (nth (Z.to_nat mn) tab 0 <= x)%R ->
  exists i, get_dichotomy_index (N := RNum) x tab mn mx = Ok i /\ mn <= i < mx /\
    (nth (Z.to_nat i) tab 0 <= x)%R /\ (i = mx - 1 \/ (x < nth (Z.to_nat (i + 1)) tab 0)%R).
Proof.
  intros HI Hm Hx Hb Hl.
  destruct (dichotomy_bracket (N := RNum) (fun _ => True) R_order 0%R x tab mn mx) as [i [E [Hi [H1 H2]]]]; auto.
  - intros i j Hij Hj. apply inc_nlt; auto; rn; lia.
  - rn. apply Rltb_false. exact Hl.
  - exists i. split; [exact E|]. split; [exact Hi|]. rn_in H1. rn_in H2.
    rewrite Rltb_false in H1. rewrite Rltb_true in H2. unfold znth in *. split; [exact H1|exact H2].
Qed.

(** Doubles (any libm). *)
Lemma lookup_F lm (x : float) (tab : list float) mn mx :
  not_nan x -> (forall t, In t tab -> not_nan t) ->
  (forall i j, (i < j < length tab)%nat -> PrimFloat.ltb (nth i tab 0%float) (nth j tab 0%float) = true) ->
  0 <= mn < mx -> mx <= zlen tab -> zlen tab < 2 ^ 63 ->
  PrimFloat.ltb x (nth (Z.to_nat mn) tab 0%float) = false ->
  exists i, get_dichotomy_index (N := FNum lm) x tab mn mx = Ok i /\ mn <= i < mx /\
    PrimFloat.ltb x (nth (Z.to_nat i) tab 0%float) = false /\
    (i = mx - 1 \/ PrimFloat.ltb x (nth (Z.to_nat (i + 1)) tab 0%float) = true).
Proof.
  intros Hx HT HI Hm Hmx Hb Hl.
  destruct (dichotomy_bracket (N := FNum lm) not_nan (F_order lm) 0%float x tab mn mx) as [i [E [Hi [H1 H2]]]]; auto.
  - intros i Hi. apply HT. apply znth_In. exact Hi.
  - intros i j Hij Hj. apply HI. change (T (FNum lm)) with float in *. unfold zlen in *. lia.
  - exists i. auto.
Qed.

(** ** Safety of poly lookups *)
Lemma poly_lookup_safe {N : Num} (K P : list (T N)) ks : length P = length K -> 2 <= zlen K < 2 ^ 62 ->
  exists ps, find_pk (N := N) (mk_table (N := N) K P) ks POLY = Ok ps /\ length ps = length ks.
Proof.
  intros HL HB. apply (find_pk_poly_safe (N := N)); [|cbn; lia].
  split; [reflexivity|]. cbn. split; [unfold zlen; lia|lia].
Qed.
Lemma single_point_oob {N : Num} (G : T N -> Prop) (OL : order_laws N G) (K0 P0 k : T N) im : G k -> G K0 -> nlt N k K0 = true ->
  find_pk (N := N) (mk_table (N := N) [K0] [P0]) [k] im = Err OOB.
Proof.
  intros Gk GK H. unfold find_pk, mk_table, pk_n, pk_k, pk_p.
  change (zlen [K0]) with 1. change (u64 (1 - 1)) with 0. cbn [rd zlen length Z.of_nat bind].
  replace (rd [K0] 0) with (Ok K0) by reflexivity. cbn [bind].
  cbn [find_pk_loop find_pk_step]. unfold find_pk_step. cbn [pk_k pk_p].
  rewrite (ol_asym _ _ OL _ _ Gk GK H), H.
  reflexivity.
Qed.

(** ** The zero rule of the extrapolation *)
Local Open Scope R_scope.
Lemma low_zero (K P : list R) im (k : R) : length P = length K -> (4 <= zlen K < 2 ^ 62)%Z -> increasing K ->
  k < at_ K 0 -> (exists j, (j <= 15)%nat /\ (j < length K)%nat /\ at_ P j <= 0) ->
  find_pk (mk_table (N := RNum) K P) [k] im = Ok [0].
Proof.
  intros HL HB HI Hk [j [Hj1 [Hj2 Hj]]].
  rewrite (find_pk_below K P) by (first [exact HL|lia|exact HI|exact Hk]).
  rewrite (lowk_stop K P); [reflexivity|exact HL|lia|lia|].
  unfold zlen in *. unfold low_end, zmin, zlen.
  change (at_ P j) with (nth j P 0) in Hj.
  set (le := (if (15 <? Z.of_nat (length K) - 1)%Z then 15 else Z.of_nat (length K) - 1)%Z).
  assert (Hle : (3 <= le)%Z /\ (Z.of_nat j <= le)%Z) by (unfold le; destruct (Z.ltb_spec 15 (Z.of_nat (length K) - 1)); lia).
  destruct (le_lt_dec j 1) as [Hs|Hs].
  - exists (Z.of_nat j + 1)%Z. split; [lia|]. right. unfold znth. replace (Z.to_nat (Z.of_nat j + 1 - 1)) with j by lia. exact Hj.
  - exists (Z.of_nat j - 1)%Z. split; [lia|]. left. unfold znth. replace (Z.to_nat (Z.of_nat j - 1 + 1)) with j by lia. exact Hj.
Qed.
Lemma high_zero (K P : list R) im (k : R) : length P = length K -> (4 <= zlen K < 2 ^ 62)%Z -> increasing K ->
  at_ K (length K - 1) < k -> (exists j, (length K <= j + 17)%nat /\ (j < length K)%nat /\ at_ P j <= 0) ->
  find_pk (mk_table (N := RNum) K P) [k] im = Ok [0].
Proof.
  intros HL HB HI Hk [j [Hj1 [Hj2 Hj]]].
  rewrite (find_pk_above K P); [|exact HL|lia|lia|].
  2: { unfold znth, zlen in *. replace (Z.to_nat (Z.of_nat (length K) - 1)) with (length K - 1)%nat by lia. exact Hk. }
  rewrite (highk_stop K P); [reflexivity|exact HL|lia|lia|].
  unfold zlen in *. unfold high_start, zmax, zlen.
  change (at_ P j) with (nth j P 0) in Hj.
  set (st := (if (1 >? Z.of_nat (length K) - 1 - 15)%Z then 1 else Z.of_nat (length K) - 1 - 15)%Z).
  assert (Hst : (1 <= st <= Z.of_nat (length K) - 3)%Z /\ (st - 1 <= Z.of_nat j)%Z)
    by (unfold st; rewrite Z.gtb_ltb; destruct (Z.ltb_spec (Z.of_nat (length K) - 1 - 15) 1); lia).
  destruct (Z_le_gt_dec (Z.of_nat j) st) as [Hs|Hs].
  - exists (Z.of_nat j + 1)%Z. split; [lia|]. right. unfold znth. replace (Z.to_nat (Z.of_nat j + 1 - 1)) with j by lia. exact Hj.
  - exists (Z.of_nat j - 1)%Z. split; [lia|]. left. unfold znth. replace (Z.to_nat (Z.of_nat j - 1 + 1)) with j by lia. exact Hj.
Qed.

(** ** Values between the tabulated points *)
Lemma lin_value (K P : list R) (k : R) : length P = length K -> (2 <= zlen K < 2 ^ 62)%Z -> increasing K ->
  at_ K 0 <= k < at_ K (length K - 1) ->
  find_pk (N := RNum) (mk_table (N := RNum) K P) [k] LIN = Ok [plin K P k].
Proof.
  intros HL HB HI Hk.
  assert (Hlast : znth 0 K (zlen K - 1) = at_ K (length K - 1)).
  { unfold znth, at_, zlen in *. f_equal. lia. }
  apply (find_pk_single K P HL ltac:(lia) LIN); [lia|].
  destruct (find_pk_bracket K P HL ltac:(lia) HI k ltac:(lia) (proj1 Hk)) as [i [Ei [Hi [H1 H2]]]].
  assert (Hi' : (i < zlen K - 1)%Z).
  { destruct H2 as [->|H2]; [rewrite Hlast in H1; lra|].
    destruct (Z.eq_dec i (zlen K - 1)) as [->|]; [rewrite Hlast in H1; lra|lia]. }
  destruct H2 as [H2|H2]; [lia|].
  exists i. unfold find_pk_step. rn.
  assert (Rltb (znth 0 K (zlen K - 1)) k = false) as -> by (apply Rltb_false; rewrite Hlast; lra).
  assert (Rltb k (znth 0 K 0) = false) as -> by (apply Rltb_false; apply Hk).
  cbn [mk_table pk_k pk_p]. rewrite u64_small by (unfold SIZE_T; lia).
  replace (zlen K - 1 + 1)%Z with (zlen K) by lia. rn_in Ei. rewrite Ei. cbn [bind].
  assert (HPl : zlen P = zlen K) by (unfold zlen; lia).
  rewrite !(rd_ok 0) by lia. cbn [bind]. f_equal. f_equal.
  rewrite interpol_lin_eq. rewrite (plin_chord_gen k K P HL HI i) by (try lia; lra).
  assert (znth 0 K i < znth 0 K (i + 1)) by (apply (inc_znth K HI); lia).
  rn. field. lra.
Qed.

(** The polynomial through the (at most five) points around the query. *)
Lemma poly_value (K P : list R) (k : R) : length P = length K -> (2 <= zlen K < 2 ^ 62)%Z -> increasing K ->
  at_ K 0 <= k <= at_ K (length K - 1) ->
  exists i (p : poly), (i < length K)%nat /\ at_ K i <= k /\ ((S i < length K)%nat -> k < at_ K (S i)) /\ let a := (i - 2)%nat in let b := Nat.min (i + 2) (length K - 1) in
    (length p <= b - a + 1)%nat /\
    (forall j, (a <= j <= b)%nat -> peval p (at_ K j) = at_ P j) /\
    find_pk (N := RNum) (mk_table (N := RNum) K P) [k] POLY = Ok [peval p k].
Proof.
  intros HL HB HI Hk.
  assert (Hlast : znth 0 K (zlen K - 1) = at_ K (length K - 1)).
  { unfold znth, at_, zlen in *. f_equal. lia. }
  destruct (find_pk_bracket K P HL ltac:(lia) HI k ltac:(lia) (proj1 Hk)) as [i [Ei [Hi [H1 H2]]]].
  set (nk := zlen K) in *.
  destruct (window_bounds (N := RNum) (mk_table (N := RNum) K P) i) as [B1 B2]; [exact Hi|].
  cbn [pk_k mk_table] in B1, B2. rn_in B1. rn_in B2. fold nk in B1, B2.
  assert (LP : zlen P = nk) by (unfold nk, zlen; now rewrite HL).
  set (a := zmax 0 (i - 2)) in *. set (b := zmin (nk - 1) (i + 2)) in *.
  assert (Ea : Z.to_nat a = (Z.to_nat i - 2)%nat).
  { unfold a, zmax. rewrite Z.gtb_ltb. destruct (Z.ltb_spec (i - 2) 0); lia. }
  assert (Eb : Z.to_nat b = Nat.min (Z.to_nat i + 2) (length K - 1)).
  { unfold b, zmin, nk, zlen. destruct (Z.ltb_spec (Z.of_nat (length K) - 1) (i + 2)); lia. }
  set (K' := skipn (Z.to_nat a) K). set (P' := skipn (Z.to_nat a) P).
  assert (LK' : zlen K' = (nk - a)%Z) by (unfold K'; rewrite zlen_skipn by (fold nk; lia); fold nk; lia).
  assert (LP' : zlen P' = (nk - a)%Z) by (unfold P'; rewrite zlen_skipn by (rewrite LP; lia); rewrite LP; lia).
  assert (HD : forall u v, (0 <= u < b - a + 1)%Z -> (0 <= v < b - a + 1)%Z -> u <> v -> znth 0 K' u <> znth 0 K' v).
  { intros u v Hu Hv Huv. unfold K'. rewrite !znth_skipn by lia.
    destruct (Z.lt_trichotomy u v) as [L|[L|L]]; [|lia|].
    + pose proof (inc_znth K HI (a + u) (a + v) ltac:(lia) ltac:(fold nk; lia)). lra.
    + pose proof (inc_znth K HI (a + v) (a + u) ltac:(lia) ltac:(fold nk; lia)). lra. }
  pose proof (interpol_poly_neville k K' P' (b - a + 1)) as HN.
  destruct (Nev_poly K' P' (Z.to_nat (b - a + 1 - 1)) 0) as [p [Lp Ep]].
  exists (Z.to_nat i), p. split; [unfold nk, zlen in Hi; lia|]. split; [exact H1|]. split.
  { intros Hs. destruct H2 as [H2|H2]; [unfold nk, zlen in H2; lia|].
    replace (S (Z.to_nat i)) with (Z.to_nat (i + 1)) by lia. exact H2. }
  cbn zeta. rewrite <- Ea, <- Eb. split; [lia|]. split.
  { intros j Hj. rewrite Ep.
    pose proof (Nev_through K' P' (b - a + 1) HD (Z.to_nat (b - a + 1 - 1)) 0 ltac:(lia) ltac:(lia) (Z.of_nat j - a)%Z ltac:(lia)) as HT.
    unfold K' at 2, P' at 2 in HT. rewrite !znth_skipn in HT by lia.
    replace (a + (Z.of_nat j - a))%Z with (Z.of_nat j) in HT by lia.
    unfold znth in HT. rewrite Nat2Z.id in HT. exact HT. }
  apply (find_pk_single K P HL ltac:(fold nk; lia) POLY); [fold nk; lia|]. fold nk.
  exists i. unfold find_pk_step. rn.
  assert (Rltb (znth 0 K (nk - 1)) k = false) as -> by (apply Rltb_false; rewrite Hlast; lra).
  assert (Rltb k (znth 0 K 0) = false) as -> by (apply Rltb_false; apply Hk).
  cbn [mk_table pk_k pk_p]. rewrite u64_small by (unfold SIZE_T; lia).
  replace (nk - 1 + 1)%Z with nk by lia. rn_in Ei. rewrite Ei. cbn [bind]. fold a b K' P'.
  rn_in HN. rewrite HN by (first [lia|exact HD]). cbn [bind]. rewrite Ep. reflexivity.
Qed.

(** ** Gauss-Legendre, in terms of the Legendre polynomials *)
Lemma legendre_eval (n : nat) (Pn Pm : poly) (z : R) : is_legendre (S n) Pn -> is_legendre n Pm ->
  legendre_loop (N := RNum) (S n) 0 z 1 0 = (peval Pn z, peval Pm z).
Proof.
  intros H1 H2. rewrite (legendre_unique _ _ H1), (legendre_unique _ _ H2).
  pose proof (leg_R (Z.of_nat (S n)) z ltac:(lia)) as E. unfold leg in E. rewrite Nat2Z.id in E. rn_in E.
  rewrite E. f_equal. f_equal. lia.
Qed.
Lemma legendre_slope (n : nat) (Pn Pm : poly) (z : R) : is_legendre (S n) Pn -> is_legendre n Pm -> z * z <> 1 ->
  is_derive (peval Pn) z (gl_pp (N := RNum) (Z.of_nat (S n)) z (peval Pn z) (peval Pm z)).
Proof.
  intros H1 H2 Hz.
  apply (is_derive_ext (L (S n))); [intros; symmetry; apply (legendre_unique _ _ H1)|].
  replace (gl_pp (N := RNum) (Z.of_nat (S n)) z (peval Pn z) (peval Pm z)) with (DL (S n) z); [apply is_derive_L|].
  pose proof (leg_pp_R (Z.of_nat (S n)) z ltac:(lia) Hz) as E. rewrite Nat2Z.id in E. rewrite <- E.
  unfold leg_pp. rewrite leg_R by lia. rewrite Nat2Z.id. cbn [fst snd].
  rewrite (legendre_unique _ _ H1), (legendre_unique _ _ H2). f_equal. f_equal. lia.
Qed.
Lemma legendre_exists n : exists P, is_legendre n P.
Proof. destruct (L_is_legendre n) as [P [H _]]. exists P. exact H. Qed.

(** Rule with nodes at the exact roots. *)
Lemma gauss_rule (n : nat) (P : poly) (zs ds : list R) (xmin xmax : R) (f : poly) :
  (1 <= n)%nat -> is_legendre n P -> NoDup zs -> length zs = n -> length ds = n ->
  (forall i, (i < n)%nat -> peval P (at_ zs i) = 0 /\ is_derive (peval P) (at_ zs i) (at_ ds i)) ->
  (length f <= 2 * n)%nat ->
  is_RInt (peval f) xmin xmax
    (rsum n (fun i => (xmax - xmin) / ((1 - at_ zs i * at_ zs i) * at_ ds i * at_ ds i)
                      * peval f ((xmax + xmin) / 2 + (xmax - xmin) / 2 * at_ zs i))).
Proof.
  intros Hn HP Hnd Hlen Hlds Hr Hf.
  pose proof (legendre_unique _ _ HP) as HL.
  assert (Hin : forall z, In z zs -> -1 < z < 1 /\ L n z = 0).
  { intros z Hz. destruct (In_nth zs z 0 Hz) as [i [Hi Ei]]. destruct (Hr i ltac:(lia)) as [H0 _].
    unfold at_ in H0. rewrite Ei, HL in H0. split; [|exact H0].
    pose proof (root_margin_abs n z Hn H0) as HM.
    assert (0 < 2 / (INR n * (INR n + 1))).
    { assert (1 <= INR n) by (apply (le_INR 1); lia). apply Rdiv_lt_0_compat; nra. }
    destruct (Rabs_def2 z 1 ltac:(lra)). lra. }
  pose proof (gauss_code n zs xmin xmax f Hn Hnd Hlen Hin Hf) as HG.
  match goal with |- is_RInt _ _ _ ?v => match type of HG with is_RInt _ _ _ ?u => replace v with u; [exact HG|] end end.
  unfold quad. rewrite map_length, Hlen.
  assert (HE : forall k u v, (forall i, (i < k)%nat -> u i = v i) -> rsum k u = rsum k v).
  { induction k as [|k IHk]; intros u v Huv; cbn [rsum]; [reflexivity|]. rewrite (IHk u v), Huv; auto. }
  apply HE. intros i Hi.
  rewrite (at_map (fun z => (xmax + xmin) / 2 + (xmax - xmin) / 2 * z)) by lia.
  rewrite (at_map (gl_weight (Z.of_nat n) xmin xmax)) by lia.
  f_equal. unfold gl_weight, gl_wt. cbn [fst snd]. rn.
  assert (Hiz : In (at_ zs i) zs) by (apply nth_In; lia).
  destruct (Hin _ Hiz) as [Hz1 Hz2].
  rewrite leg_pp_R by (try lia; nra). rewrite Nat2Z.id.
  destruct (Hr i Hi) as [_ HD].
  assert (HD' : DL n (at_ zs i) = at_ ds i).
  { pose proof (is_derive_L n (at_ zs i)) as D1.
    apply (is_derive_ext _ (L n)) in HD; [|exact HL].
    apply is_derive_unique in D1. apply is_derive_unique in HD. congruence. }
  rewrite HD'. f_equal. field.
Qed.
Lemma gl_one fuel (xmin xmax a b : R) : nodes_weights_gauss_legendre (N := RNum) (S (S fuel)) xmin xmax [a] [b] 1
  = Ok ([(xmax + xmin) / 2], [xmax - xmin]) /\ gl_regular (S (S fuel)) 1.
Proof.
  assert (E0 : cos (PI * (0 + 75 / 100) / (1 + 5 / 10)) = 0).
  { replace (PI * (0 + 75 / 100) / (1 + 5 / 10)) with (PI / 2) by field. apply cos_PI2. }
  pose proof epsR_pos.
  assert (HL0 : L 1 0 = 0) by reflexivity.
  assert (HP : leg_pp (N := RNum) 1 0 = 1).
  { rewrite leg_pp_R by (try lia; lra). reflexivity. }
  split.
  - unfold nodes_weights_gauss_legendre. change (u64 (1 + 1) / 2)%Z with 1%Z.
    rewrite for_step by lia. rewrite EPS_R. rn.
    replace (IZR 0) with 0 in * by reflexivity.
    replace (75 / IZR (10 ^ 2)) with (75 / 100) by reflexivity. replace (5 / IZR (10 ^ 1)) with (5 / 10) by reflexivity.
    rewrite E0. rewrite (newton_fixed fuel 1 0) by (first [lia|lra|exact HL0|rewrite Rabs_left; lra]).
    cbn [bind]. rewrite HP. change (u64 (1 - 0 - 1)) with 0%Z.
    unfold wr, rd, zlen. cbn -[Rmult Rdiv Rplus Rminus Ropp].
    assert (forall u v u' v' : R, u = u' -> v = v' -> @Ok (list R * list R) ([u], [v]) = Ok ([u'], [v'])) as HE by (intros; subst; reflexivity).
    apply HE; field.
  - intros ii Hii. assert (ii = 0)%Z as -> by (change ((1 + 1) / 2)%Z with 1%Z in Hii; lia). cbn zeta.
    rewrite E0. cbn [newton_regular].
    destruct (Rlt_dec _ _) as [_|]; [|exact I].
    split; [lra|]. rewrite HP. split; [lra|].
    rewrite leg_R by lia. cbn [fst]. change (Z.to_nat 1) with 1%nat. rewrite HL0.
    destruct (Rlt_dec _ _) as [Hlt|]; [|exact I].
    exfalso. replace (0 - 0 / 1 - 0) with 0 in Hlt by field. rewrite Rabs_R0 in Hlt. lra.
Qed.

(** ** Queries in descending order (doubles, whatever libm) *)
Lemma find_pk_unordered lm :
  let K := [1; 2; 3]%float in let P := [1; 4; 9]%float in
  find_pk (N := FNum lm) (mk_table (N := FNum lm) K P) [1.5]%float LIN = Ok [2.5]%float /\
  find_pk (N := FNum lm) (mk_table (N := FNum lm) K P) [2.5; 1.5]%float LIN = Ok [6.5; 1.5]%float.
Proof. split; vm_compute; reflexivity. Qed.
Lemma sigmad2_unordered lm :
  let K := [1; 2; 3]%float in let P := [1; 4; 9]%float in
  exists v w r, calc_running_sigmad2 (N := FNum lm) (mk_table (N := FNum lm) K P) [1.5]%float 1%float = Ok [v] /\
    calc_running_sigmad2 (N := FNum lm) (mk_table (N := FNum lm) K P) [2.5; 1.5]%float 1%float = Ok [r; w] /\
    PrimFloat.ltb v w = true.
Proof. do 3 eexists. split; [vm_compute; reflexivity|]. split; vm_compute; reflexivity. Qed.
(** Over the reals: the descending query is wrong by an amount that does not come from rounding. *)
Local Close Scope R_scope.

(** ** set_precision *)
Lemma set_precision_effect {N : Num} (p : precision N) n mn mx s dflt p' c :
  set_precision p n mn mx s dflt = (p', c) ->
  (c = true <-> (0 < n \/ nle N mn mx = true \/ s = s_poly \/ s = s_lin)) /\
  (c = false -> p' = dflt) /\
  (c = true ->
     pr_n p' = (if 0 <? n then n else pr_n p) /\
     pr_min p' = (if nle N mn mx then mn else pr_min p) /\
     pr_max p' = (if nle N mn mx then mx else pr_max p) /\
     pr_interpol p' = match s with s_poly => POLY | s_lin => LIN | s_other => pr_interpol p end) /\
  set_precision p' n mn mx s dflt = (p', c).
Proof.
  unfold set_precision. destruct (Z.ltb_spec 0 n) as [Hn|Hn]; destruct (nle N mn mx) eqn:Em; destruct s; cbn;
    intros [= <- <-]; cbn; rewrite ?Em; (split; [split; [intros; intuition (try lia; try congruence)|intros [H|[H|[H|H]]]; first [reflexivity|discriminate H|lia]]|]);
    (split; [intros; first [discriminate|reflexivity]|]); (split; [intros; first [discriminate|auto]|reflexivity]).
Qed.
