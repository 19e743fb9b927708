(** ProofCommon3: glue between the lemmas and the statements of PropCommon. *)
From Coq Require Import Reals Lra Floats.
From Coquelicot Require Import Coquelicot.
From Verif Require Import Base Num BaseFacts Common Spec SpecQuad Poly Order ProofSearch ProofInterp ProofFindPk ProofFindPkR ProofSigma.
From Verif Require Import Legendre LegendreRoots LegendreSpec ProofGL ProofGL2 ProofCommon2.
Import ListNotations.
Local Open Scope R_scope.

Lemma powers_final (x : R) (tab : list R) (n : Z) : (2 <= n <= zlen tab)%Z ->
  exists tab', powers (N := RNum) x tab n = Ok tab' /\ length tab' = length tab /\
    (forall i, (0 <= i < n)%Z -> nth (Z.to_nat i) tab' 0 = x ^ Z.to_nat i) /\
    (forall i, (n <= i < zlen tab)%Z -> nth (Z.to_nat i) tab' 0 = nth (Z.to_nat i) tab 0).
Proof.
  intros H. destruct (powers_R x tab n H) as [t [E [Hl [H1 H2]]]]. exists t. split; [exact E|].
  split; [apply Nat2Z.inj; exact Hl|]. split; [exact H1|exact H2].
Qed.
Lemma interpol_lin_all (x0 x1 y0 y1 : R) : x0 <> x1 ->
  interpol_lin (N := RNum) x0 x0 x1 y0 y1 = y0 /\ interpol_lin (N := RNum) x1 x0 x1 y0 y1 = y1 /\
  (forall x, (interpol_lin (N := RNum) x x0 x1 y0 y1 - y0) * (x1 - x0) = (y1 - y0) * (x - x0)) /\
  (x0 < x1 -> forall x, x0 <= x <= x1 -> Rmin y0 y1 <= interpol_lin (N := RNum) x x0 x1 y0 y1 <= Rmax y0 y1) /\
  (x0 < x1 -> y0 <= y1 -> forall x x', x <= x' ->
     interpol_lin (N := RNum) x x0 x1 y0 y1 <= interpol_lin (N := RNum) x' x0 x1 y0 y1).
Proof.
  intros H. split; [apply interpol_lin_left, H|]. split; [apply interpol_lin_right, H|].
  split; [intros; apply interpol_lin_chord, H|]. split; [intros; apply interpol_lin_between; assumption|].
  intros; apply interpol_lin_mono; assumption.
Qed.
Lemma wf_tab {N : Num} (K P : list (T N)) : length P = length K -> (zlen K < 2 ^ 62)%Z -> wf_pk (mk_table K P).
Proof. intros H1 H2. split; [reflexivity|]. split; [cbn; unfold zlen; lia|exact H2]. Qed.
Lemma lookup_elementwise {N : Num} (G : T N -> Prop) (OL : order_laws N G) (K P : list (T N)) (d : T N) (im : interpol) (ks : list (T N)) :
  length P = length K -> (1 <= zlen K < 2 ^ 62)%Z ->
  (forall i, (0 <= i < zlen K)%Z -> G (znth d K i)) ->
  (forall i j, (0 <= i < j)%Z -> (j < zlen K)%Z -> nlt N (znth d K i) (znth d K j) = true) ->
  (forall i, (0 <= i < zlen ks)%Z -> G (znth d ks i)) ->
  (forall i j, (0 <= i < j)%Z -> (j < zlen ks)%Z -> nlt N (znth d ks j) (znth d ks i) = false) ->
  forall ps, find_pk (mk_table K P) ks im = Ok ps <->
             Forall2 (fun k p => find_pk (mk_table K P) [k] im = Ok [p]) ks ps.
Proof.
  intros HL HB HG HS. apply (find_pk_elementwise G OL (mk_table K P)); cbn; try assumption; try lia.
  apply wf_tab; [exact HL|lia].
Qed.
Lemma lookup_elementwise_R (K P : list R) (im : interpol) (ks : list R) :
  length P = length K -> (1 <= zlen K < 2 ^ 62)%Z -> increasing K -> ascending ks ->
  forall ps, find_pk (N := RNum) (mk_table (N := RNum) K P) ks im = Ok ps <->
             Forall2 (fun k p => find_pk (N := RNum) (mk_table (N := RNum) K P) [k] im = Ok [p]) ks ps.
Proof. intros HL HB HI Ha. apply find_pk_elementwise_R; try assumption; lia. Qed.

Lemma at_last (K : list R) : (1 <= zlen K)%Z -> znth 0 K (zlen K - 1) = at_ K (length K - 1).
Proof. intros. unfold znth, at_, zlen in *. f_equal. lia. Qed.
Lemma lin_last_R (K P : list R) : length P = length K -> (1 <= zlen K < 2 ^ 62)%Z -> increasing K ->
  find_pk (N := RNum) (mk_table (N := RNum) K P) [at_ K (length K - 1)] LIN = Err OOB.
Proof.
  intros HL HB HI. rewrite <- at_last by lia.
  apply (find_pk_lin_last (N := RNum) (fun _ => True) R_order (mk_table (N := RNum) K P)); cbn; auto.
  - apply wf_tab; [exact HL|rn; lia].
  - rn; lia.
  - apply inc_nlt, HI.
Qed.
Lemma power_law_final (K P : list R) (A n : R) (im : interpol) (k : R) :
  length P = length K -> (3 <= zlen K < 2 ^ 62)%Z -> increasing K ->
  0 < A -> (forall i, (i < length K)%nat -> 0 < at_ K i /\ at_ P i = A * Rpower (at_ K i) n) ->
  0 < k -> (k < at_ K 0 \/ at_ K (length K - 1) < k) ->
  find_pk (N := RNum) (mk_table (N := RNum) K P) [k] im = Ok [A * Rpower k n].
Proof.
  intros HL HB HI HA HP Hk Ho. apply extrapol_power_law; try assumption.
  - intros i Hi. apply HP. unfold zlen in Hi; lia.
  - intros i Hi. apply HP. unfold zlen in Hi; lia.
  - rewrite at_last by lia. exact Ho.
Qed.
Lemma extrapol_positive_final (K P : list R) (im : interpol) (k : R) :
  length P = length K -> (3 <= zlen K < 2 ^ 62)%Z -> increasing K ->
  0 < at_ K 0 -> (forall i, (i < length K)%nat -> 0 < at_ P i) ->
  0 < k -> (k < at_ K 0 \/ at_ K (length K - 1) < k) ->
  exists p, find_pk (N := RNum) (mk_table (N := RNum) K P) [k] im = Ok [p] /\ 0 < p.
Proof.
  intros HL HB HI H0 HP Hk Ho. apply extrapol_positive; try assumption.
  - intros i Hi. apply HP. unfold zlen in Hi; lia.
  - rewrite at_last by lia. exact Ho.
Qed.
Lemma high_continuous_final (K P : list R) (im : interpol) :
  length P = length K -> (3 <= zlen K < 2 ^ 62)%Z -> increasing K ->
  0 < at_ K 0 -> (forall i, (i < length K)%nat -> 0 < at_ P i) ->
  forall eps, 0 < eps -> exists delta, 0 < delta /\
    forall k, at_ K (length K - 1) < k < at_ K (length K - 1) + delta ->
    exists p, find_pk (N := RNum) (mk_table (N := RNum) K P) [k] im = Ok [p] /\ Rabs (p - at_ P (length K - 1)) < eps.
Proof.
  intros HL HB HI H0 HP eps He.
  destruct (highk_continuous K P im HL HB HI H0) with (eps := eps) as [delta [Hd H]]; [|exact He|].
  - intros i Hi. apply HP. unfold zlen in Hi; lia.
  - exists delta. split; [exact Hd|]. intros k Hk. rewrite <- at_last in Hk by lia.
    destruct (H k Hk) as [p [E Hp]]. exists p. split; [exact E|].
    replace (at_ P (length K - 1)) with (znth 0 P (zlen K - 1)); [exact Hp|].
    unfold znth, at_, zlen in *. f_equal. lia.
Qed.
Lemma lowk_jump_final : exists K P : list R,
  length P = length K /\ (3 <= zlen K < 2 ^ 62)%Z /\ increasing K /\
  0 < at_ K 0 /\ (forall i, (i < length K)%nat -> 0 < at_ P i) /\
  exists gap, 0 < gap /\ forall im k p, 0 < k < at_ K 0 ->
    find_pk (N := RNum) (mk_table (N := RNum) K P) [k] im = Ok [p] -> gap <= Rabs (p - at_ P 0).
Proof.
  destruct lowk_jump as [K [P [H1 [H2 [H3 [H4 [H5 H6]]]]]]]. exists K, P.
  split; [exact H1|]. split; [exact H2|]. split; [exact H3|]. split; [exact H4|]. split; [|exact H6].
  intros i Hi. specialize (H5 (Z.of_nat i)). unfold znth in H5. rewrite Nat2Z.id in H5. apply H5. unfold zlen; lia.
Qed.
Lemma sigmad2_final (K P : list R) (ks : list R) (uv : R) :
  length P = length K -> (1 <= zlen K < 2 ^ 62)%Z -> increasing K -> ascending ks -> 0 <= uv ->
  exists vs, calc_running_sigmad2 (N := RNum) (mk_table (N := RNum) K P) ks uv = Ok vs /\
    Forall2 (fun k v =>
      (k * uv < at_ K 0 -> v = 0) /\
      (at_ K 0 <= k * uv ->
        is_RInt (plin K P) (at_ K 0) (Rmin (k * uv) (at_ K (length K - 1))) (v * (6 * PI ^ 2)))) ks vs.
Proof.
  intros HL HB HI Ha Hu. rewrite <- at_last by lia. apply sigmad2_R; assumption.
Qed.
Lemma sigmad2_elementwise_final {N : Num} (G : T N -> Prop) (OL : order_laws N G) (K P : list (T N)) (d uv : T N) (ks : list (T N)) :
  length P = length K -> (1 <= zlen K < 2 ^ 62)%Z ->
  (forall i, (0 <= i < zlen K)%Z -> G (znth d K i)) ->
  (forall i j, (0 <= i < j)%Z -> (j < zlen K)%Z -> nlt N (znth d K i) (znth d K j) = true) ->
  (forall i, (0 <= i < zlen ks)%Z -> G (nmul N (znth d ks i) uv)) ->
  (forall i j, (0 <= i < j)%Z -> (j < zlen ks)%Z -> nlt N (nmul N (znth d ks j) uv) (nmul N (znth d ks i) uv) = false) ->
  exists vs, calc_running_sigmad2 (mk_table K P) ks uv = Ok vs /\
    Forall2 (fun k v => calc_running_sigmad2 (mk_table K P) [k] uv = Ok [v]) ks vs.
Proof.
  intros HL HB HG HS. apply (sigmad2_elementwise G OL (mk_table K P) d); cbn; try assumption; try lia.
  apply wf_tab; [exact HL|lia].
Qed.
Lemma sigmad2_mono_final (K P : list R) (ks : list R) (uv : R) :
  length P = length K -> (1 <= zlen K < 2 ^ 62)%Z -> increasing K ->
  (forall i, (i < length K)%nat -> 0 <= at_ P i) -> ascending ks -> 0 <= uv ->
  forall vs, calc_running_sigmad2 (N := RNum) (mk_table (N := RNum) K P) ks uv = Ok vs ->
    (forall v, In v vs -> 0 <= v) /\ ascending vs.
Proof.
  intros HL HB HI HP Ha Hu vs E.
  assert (HP' : forall i, (0 <= i < zlen K)%Z -> 0 <= znth 0 P i) by (intros i Hi; apply HP; unfold zlen in Hi; lia).
  destruct (sigmad2_elementwise_final (N := RNum) (fun _ => True) R_order K P 0 uv ks HL HB) as [vs' [E' HF]]; auto.
  - apply inc_nlt, HI.
  - intros i j Hij Hj. rn. apply Rltb_false. apply Rmult_le_compat_r; [exact Hu|]. apply (asc_znth ks Ha); rn_all; lia.
  - rn_all. rewrite E in E'. injection E' as <-.
    assert (HN : forall i, (i < length vs)%nat -> calc_running_sigmad2 (N := RNum) (mk_table (N := RNum) K P) [at_ ks i] uv = Ok [at_ vs i]).
    { clear -HF. induction HF as [|k v ks vs H HF IH]; intros i Hi; [cbn in Hi; lia|].
      destruct i as [|i]; [exact H|]. apply IH. cbn in Hi; lia. }
    assert (Hlen : length ks = length vs) by (clear -HF; induction HF; cbn; congruence).
    split.
    + intros v Hv. destruct (In_nth vs v 0 Hv) as [i [Hi <-]].
      apply (sig_nonneg K P HL HB HI HP' _ _ _ (HN i Hi)).
    + intros i j Hij. apply (sig_mono K P HL HB HI HP' (at_ ks i) (at_ ks j) uv); auto.
      * apply Ha. lia.
      * apply HN; lia.
      * apply HN; lia.
Qed.
Lemma sigmad2_saturates_final (K P : list R) (k uv : R) :
  length P = length K -> (1 <= zlen K < 2 ^ 62)%Z -> increasing K -> at_ K (length K - 1) <= k * uv ->
  calc_running_sigmad2 (N := RNum) (mk_table (N := RNum) K P) [k] uv = Ok [1 / 6 / PI ^ 2 * trapz K P].
Proof. intros. apply sig_saturates; try assumption. rewrite at_last by lia. assumption. Qed.

Lemma gl_mirror_R (fuel : nat) (xmin xmax : R) (x w : list R) (n : Z) :
  (1 <= n < 2 ^ 62)%Z -> zlen x = n -> zlen w = n ->
  forall x' w', nodes_weights_gauss_legendre (N := RNum) fuel xmin xmax x w n = Ok (x', w') ->
  forall i, (0 <= i < n - 1 - i)%Z ->
    znth 0 x' i + znth 0 x' (n - 1 - i) = xmin + xmax /\ znth 0 w' i = znth 0 w' (n - 1 - i).
Proof.
  intros Hn Hx Hw x' w' E i Hi.
  destruct (gl_mirror (N := RNum) fuel xmin xmax x w n 0 Hn Hx Hw x' w' E) as [_ [_ H]].
  destruct (H i Hi) as [z [H1 [H2 H3]]]. rn_in H1. rn_in H2. rn_in H3. rewrite H1, H2. split; [field|exact H3].
Qed.
Lemma legendre_roots (n : nat) (P : poly) : is_legendre n P ->
  exists zs ds, NoDup zs /\ length zs = n /\ length ds = n /\
    forall i, (i < n)%nat -> -1 < at_ zs i < 1 /\ peval P (at_ zs i) = 0 /\ is_derive (peval P) (at_ zs i) (at_ ds i).
Proof.
  intros HP. pose proof (legendre_unique _ _ HP) as HL.
  destruct (L_roots n) as [zs [H1 [H2 H3]]]. exists zs, (map (DL n) zs).
  split; [exact H2|]. split; [exact H1|]. split; [rewrite map_length; exact H1|].
  intros i Hi. assert (Hin : In (at_ zs i) zs) by (apply nth_In; lia).
  destruct (H3 _ Hin) as [Hz Hz0]. split; [exact Hz|]. split; [rewrite HL; exact Hz0|].
  rewrite (at_map (DL n)) by lia.
  apply (is_derive_ext (L n)); [intros; symmetry; apply HL|apply is_derive_L].
Qed.
Lemma newton_fixed_final (fuel : nat) (n : Z) (P : poly) (r z1 pp : R) : (1 <= n)%Z -> is_legendre (Z.to_nat n) P ->
  -1 < r < 1 -> peval P r = 0 -> 3 / 10 ^ 14 < Rabs (r - z1) ->
  exists s, newton (N := RNum) (S (S fuel)) n r z1 pp = Ok (r, s) /\ is_derive (peval P) r s.
Proof.
  intros Hn HP Hr H0 Hz. pose proof (legendre_unique _ _ HP) as HL.
  exists (leg_pp (N := RNum) n r). split.
  - apply newton_fixed; try assumption. rewrite <- HL. exact H0.
  - rewrite leg_pp_R by (try lia; nra).
    apply (is_derive_ext (L (Z.to_nat n))); [intros; symmetry; apply HL|apply is_derive_L].
Qed.
Lemma q_range_val {N : Num} (p : precision N) (K P : list (T N)) (d : T N) : (1 <= zlen K < 2 ^ 62)%Z ->
  q_range p (mk_table K P) =
    Ok (if nle N (pr_min p) (nZ N 0) || nle N (pr_max p) (nZ N 0)
        then (nth 0 K d, nth (length K - 1) K d) else (pr_min p, pr_max p)).
Proof.
  intros HB. unfold q_range. destruct (_ || _); [|reflexivity].
  cbn [mk_table pk_k pk_n]. rewrite u64_small by (unfold SIZE_T; lia).
  rewrite !(rd_ok d) by lia. cbn [bind]. unfold znth. do 2 f_equal. f_equal. unfold zlen in *; lia.
Qed.
Lemma init_q_final (fuel : nat) (p : precision RNum) (K P : list R) (g : glq RNum) :
  (1 <= zlen K < 2 ^ 62)%Z -> (1 <= pr_n p < 2 ^ 62)%Z ->
  init_gauss_legendre_q (N := RNum) fuel p (mk_table (N := RNum) K P) = Ok g ->
  exists qmin qmax : R,
    (0 < pr_min p -> 0 < pr_max p -> qmin = pr_min p /\ qmax = pr_max p) /\
    (pr_min p <= 0 \/ pr_max p <= 0 -> qmin = at_ K 0 /\ qmax = at_ K (length K - 1)) /\
    gq_nq g = pr_n p /\ zlen (gq_q g) = pr_n p /\ zlen (gq_w g) = pr_n p /\
    gq_x g = gq_q g /\ find_pk (N := RNum) (mk_table (N := RNum) K P) (gq_q g) (pr_interpol p) = Ok (gq_pk g) /\
    (0 < qmin < qmax -> forall i, (0 <= i < pr_n p)%Z -> qmin < znth 0 (gq_q g) i < qmax).
Proof.
  intros HB Hn HI. destruct (init_q_R fuel p _ g Hn HI) as [qmin [qmax [E H]]].
  exists qmin, qmax. rewrite (q_range_val (N := RNum) p K P 0 HB) in E. rn_in E.
  split; [|split; [|exact H]].
  - intros H1 H2. destruct (Rleb_spec (pr_min p) 0); [rn_all; lra|]. destruct (Rleb_spec (pr_max p) 0); [rn_all; lra|].
    cbn in E. injection E as <- <-. auto.
  - intros Ho. destruct (Rleb_spec (pr_min p) 0); [|destruct (Rleb_spec (pr_max p) 0); [|rn_all; lra]];
      cbn [orb] in E; injection E as <- <-; auto.
Qed.
Lemma update_q_final (g : glq RNum) (k : R) : (0 <= gq_nq g)%Z -> zlen (gq_q g) = gq_nq g -> zlen (gq_x g) = gq_nq g ->
  exists g', update_gauss_legendre_q (N := RNum) g k = Ok g' /\ gq_k g' = k /\ gq_nq g' = gq_nq g /\ gq_q g' = gq_q g /\
    gq_w g' = gq_w g /\ gq_pk g' = gq_pk g /\ zlen (gq_x g') = gq_nq g /\
    forall i, (0 <= i < gq_nq g)%Z -> znth 0 (gq_x g') i = znth 0 (gq_q g) i / k.
Proof. exact (update_q_val (N := RNum) g k 0). Qed.
Lemma update_mu_final (fuel : nat) (p : precision RNum) (g : glmu RNum) (mumin mumax : R) :
  (1 <= pr_n p < 2 ^ 62)%Z ->
  init_gauss_legendre_mu (N := RNum) fuel p = Ok g -> mumin <= mumax ->
  exists g', update_gauss_legendre_mu (N := RNum) g mumin mumax = Ok g' /\ gm_nmu g' = pr_n p /\
    zlen (gm_mu g') = pr_n p /\ zlen (gm_w g') = pr_n p /\
    forall i, (0 <= i < pr_n p)%Z ->
      -1 < znth 0 (gm_muref g) i < 1 /\
      znth 0 (gm_mu g') i = (mumax + mumin) / 2 + (mumax - mumin) / 2 * znth 0 (gm_muref g) i /\
      mumin <= znth 0 (gm_mu g') i <= mumax /\
      znth 0 (gm_w g') i = (mumax - mumin) / 2 * znth 0 (gm_wref g) i.
Proof.
  intros Hn HI Hm.
  destruct (init_mu_inv fuel p g ltac:(lia) HI) as [_ [A1 [A2 [A3 [A4 A5]]]]].
  destruct (update_mu_val g mumin mumax 0) as [g' [E [B1 [B2 [B3 [B4 [B5 B6]]]]]]]; rewrite ?A2, ?A3; try (rn_all; lia).
  exists g'. split; [exact E|]. rewrite <- A1. split; [exact B1|]. split; [exact B4|]. split; [exact B5|].
  intros i Hi. pose proof (init_mu_R fuel p g Hn HI i ltac:(lia)) as Hin.
  destruct (B6 i ltac:(lia)) as [C1 C2]. rn_in C1. rn_in C2. rewrite C1, C2. split; [exact Hin|].
  split; [field|]. split; [|ring]. apply mu_inside; [lra|exact Hm].
Qed.
Lemma init_mu_one : exists g, init_gauss_legendre_mu (N := RNum) 2 (mkPrec (N := RNum) 1 (-1) 1 POLY) = Ok g.
Proof.
  unfold init_gauss_legendre_mu. cbn [pr_n]. rn. change (repeat 0 (Z.to_nat 1)) with [0].
  rewrite (proj1 (gl_one 0 (- (1)) 1 0 0)). cbn. eexists. reflexivity.
Qed.
