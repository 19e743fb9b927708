(** ProofIntegrals9: the angular ranges, and the tables made by the initialisation. *)
From Coq Require Import Reals Lra Lia List.
From Verif Require Import Base Num BaseFacts Common Kernels Gamma2 Integrals Spec SpecPT SpecIntegrals SpecLoops SpecTable Sums ProofSearch ProofKernels ProofFindPk ProofCommon3 ProofCommon2 ProofGL ProofGL2 ProofIntegrals ProofIntegrals2.
Import ListNotations.
Local Open Scope R_scope.

Lemma Forall2_len {A B} (P : A -> B -> Prop) l l' : Forall2 P l l' -> length l = length l'.
Proof. induction 1; cbn; congruence. Qed.
Lemma lookup_poly K P : length P = length K -> (2 <= zlen K < 2 ^ 62)%Z -> lookup_is (mk_table (N := RNum) K P) POLY (lookup_of (mk_table (N := RNum) K P) POLY).
Proof.
  intros HL HB k Hk. unfold lookup_of. unfold find1. destruct (poly_lookup_safe (N := RNum) K P [k] HL HB) as [ps [E El]].
  change (T RNum) with R in *. rewrite E. cbn [bind]. destruct ps as [|p [|p' ps]]; try discriminate. reflexivity.
Qed.
Lemma tables_init fuel (p : precision RNum) K Pv im P (g : glq RNum) (qmin qmax : R) : (1 <= pr_n p < 2 ^ 62)%Z -> pr_interpol p = im ->
  init_gauss_legendre_q (N := RNum) fuel p (mk_table (N := RNum) K Pv) = Ok g ->
  length Pv = length K -> (1 <= zlen K < 2 ^ 62)%Z -> increasing K ->
  lookup_is (mk_table (N := RNum) K Pv) im P -> q_range (N := RNum) p (mk_table (N := RNum) K Pv) = Ok (qmin, qmax) -> 0 < qmin < qmax -> q_table P g.
Proof.
  intros Hn Him HI HL HB HK HP HR Hq. pose proof (incr_asc _ (init_q_incr fuel p _ g qmin qmax Hn HI HR Hq)) as HA. clear qmin qmax HR Hq.
  destruct (init_q_inv fuel p _ g (nZ RNum 0) ltac:(lia) HI) as [qmin [qmax [x [E [EN [A1 [A2 [A3 [A4 [A5 [A6 [A7 A8]]]]]]]]]]]].
  rewrite Him in A8. pose proof (proj1 (lookup_elementwise_R K Pv im (gq_q g) HL HB HK HA (gq_pk g)) A8) as HF.
  assert (Hpk : zlen (gq_pk g) = pr_n p) by (unfold zlen in *; rewrite <- (Forall2_len _ _ _ HF); lia).
  assert (Hpos : forall i, (0 <= i < pr_n p)%Z -> 0 < znth 0 (gq_q g) i).
  { intros i Hi. rn_in A7. rewrite A7 by exact Hi. apply exp_pos. }
  assert (Hord : forall i j, (0 <= i <= j)%Z -> (j < pr_n p)%Z -> znth 0 (gq_q g) i <= znth 0 (gq_q g) j).
  { intros i j Hi Hj. unfold znth. apply HA. unfold zlen in A4. change (T RNum) with R in *. lia. }
  unfold q_table. rewrite A1. repeat split; try lia; try assumption.
  - rewrite A3. exact A4.
  - apply Hpos. lia.
  - apply Hord; lia.
  - apply Hord; lia.
  - assert (HF' : forall i, (i < length (gq_q g))%nat -> find_pk (N := RNum) (mk_table (N := RNum) K Pv) [nth i (gq_q g) 0] im = Ok [nth i (gq_pk g) 0]).
    { clear - HF. change (T RNum) with R in *. revert HF. generalize (gq_pk g). induction (gq_q g) as [|q l IH]; intros ps HF i Hi; [cbn in Hi; lia|].
      inversion HF as [|? ? ? ? H1 H2]; subst. destruct i as [|i]; [exact H1|]. cbn [nth]. apply (IH _ H2). cbn in Hi. lia. }
    specialize (HF' (Z.to_nat i) ltac:(unfold zlen in A4; change (T RNum) with R in *; lia)).
    pose proof (HP (znth 0 (gq_q g) i) (Hpos i H)) as E1. unfold find1, znth in E1. change (T RNum) with R in *. rewrite HF' in E1. cbn [bind] in E1.
    assert (Oi : forall a b : R, Ok a = Ok b -> a = b) by congruence. apply Oi. exact E1.
Qed.
Lemma mu_init fuel (p : precision RNum) (m : glmu RNum) : (1 <= pr_n p < 2 ^ 62)%Z ->
  init_gauss_legendre_mu (N := RNum) fuel p = Ok m -> mu_rule m.
Proof.
  intros Hn HI. pose proof (init_mu_R fuel p m Hn HI) as HU.
  destruct (init_mu_inv fuel p m ltac:(lia) HI) as [_ [A1 [A2 [A3 [A4 A5]]]]]. split.
  - unfold mu_ok. rewrite A2, A3, A1. repeat split; auto; lia.
  - intros u Hu. destruct (In_nth _ _ 0 Hu) as [i [Hi Ei]]. rewrite <- Ei.
    specialize (HU (Z.of_nat i) ltac:(unfold zlen in A4; change (T RNum) with R in *; lia)). unfold znth in HU. rewrite Nat2Z.id in HU. lra.
Qed.
Lemma range_spec half (g : glq RNum) (m : glmu RNum) (x : R) : mu_rule m -> (1 <= gq_nq g < 2 ^ 62)%Z -> zlen (gq_x g) = gq_nq g ->
  0 < xmin_of g -> xmin_of g <= x <= xmax_of g ->
  (set_mu_range half g m x = Ok None /\
     forall mu mu', allowed half (xmin_of g) (xmax_of g) x mu -> allowed half (xmin_of g) (xmax_of g) x mu' -> mu = mu') \/
  (exists m' lo hi, set_mu_range half g m x = Ok (Some m') /\ lo <= hi /\ moved_to lo hi m m' /\
     (forall mu, allowed half (xmin_of g) (xmax_of g) x mu <-> lo <= mu <= hi) /\
     (exists mu mu', mu <> mu' /\ allowed false (xmin_of g) (xmax_of g) x mu /\ allowed false (xmin_of g) (xmax_of g) x mu') /\
     forall mu, In mu (gm_mu m') -> allowed half (xmin_of g) (xmax_of g) x mu).
Proof.
  intros [Hm Hu] Hn Hx H0 Hxx. pose proof (set_mu_range_val half g m x Hm Hn Hx) as HS. cbn zeta in HS.
  fold (xmin_of g) (xmax_of g) in HS. destruct (HS H0 Hxx) as [[H1 H2]|[H1 [H2 [m' [H3 H4]]]]].
  - left. split; [exact H2|]. assert (Hh : mu_hi half (xmin_of g) x <= mu_hi false (xmin_of g) x).
    { destruct half; [|lra]. unfold mu_hi. apply Rle_min_compat_l. unfold Rdiv. apply Rmult_le_compat_r; [apply Rlt_le, Rinv_0_lt_compat; lra|]. nra. }
    intros mu mu' Ha Ha'. apply allowed_iff in Ha; [|assumption|assumption]. apply allowed_iff in Ha'; [|assumption|assumption]. lra.
  - right. exists m', (mu_lo (xmax_of g) x), (mu_hi half (xmin_of g) x). split; [exact H3|]. split; [exact H2|].
    pose proof Hm as [B0 [B1 [B2 [B3 B4]]]].
    destruct (update_mu_val m (mu_lo (xmax_of g) x) (mu_hi half (xmin_of g) x) 0 B0 B1 B2 B3 B4) as [u [C0 [C1 [C2 [C3 [C4 [C5 C6]]]]]]].
    rewrite H4 in C0. injection C0 as <-. rn_in C6.
    assert (HN : forall j, (0 <= j < gm_nmu m)%Z -> znth 0 (gm_mu m') j = mu_lo (xmax_of g) x + (mu_hi half (xmin_of g) x - mu_lo (xmax_of g) x) / 2 * (znth 0 (gm_muref m) j + 1) /\
       znth 0 (gm_w m') j = (mu_hi half (xmin_of g) x - mu_lo (xmax_of g) x) / 2 * znth 0 (gm_wref m) j).
    { intros j Hj. destruct (C6 j Hj) as [D1 D2]. split; [etransitivity; [exact D1|]; field|etransitivity; [exact D2|]; field]. }
    split; [|split; [|split]].
    + split; [|exact HN]. unfold same_rule, mu_ok. rewrite C1, C2, C3. auto 10.
    + intros mu. apply allowed_iff; assumption.
    + exists (mu_lo (xmax_of g) x), (mu_hi false (xmin_of g) x). split; [lra|]. split; apply allowed_iff; try assumption; lra.
    + intros mu Hmu. apply allowed_iff; [assumption|assumption|]. destruct (In_nth _ _ 0 Hmu) as [j [Hj Ej]]. rewrite <- Ej.
      assert (Hj' : (0 <= Z.of_nat j < gm_nmu m)%Z) by (unfold zlen in C4; change (T RNum) with R in *; lia).
      destruct (HN (Z.of_nat j) Hj') as [D1 _]. unfold znth in D1. rewrite !Nat2Z.id in D1. rewrite D1.
      assert (Hin : In (nth j (gm_muref m) 0) (gm_muref m)) by (apply nth_In; unfold zlen in B1; change (T RNum) with R in *; lia).
      pose proof (mu_inside (nth j (gm_muref m) 0) _ _ (Hu _ Hin) H2) as HH.
      assert (EE : forall u l h : R, l + (h - l) / 2 * (u + 1) = (u + 1) * ((h - l) / 2) + l) by (intros; ring).
      split; [eapply Rle_trans; [exact (proj1 HH)|right; symmetry; apply EE]|eapply Rle_trans; [right; apply EE|exact (proj2 HH)]].
Qed.
