(** ProofPositive2: linear interpolation of a table which is not negative; the spectra assembled from the terms. *)
From Coq Require Import ZArith Lia List Bool Reals Lra Psatz String.
From Verif Require Import Base Num BaseFacts Lockstep Common Kernels Gamma2 Integrals Registry Threads PyTerms Spec SpecIntegrals SpecLoops SpecThreads SpecScale SpecSym SpecPositive
  ProofFindPk ProofFindPkR ProofInterp ProofCommon2 ProofCommon3 ProofGL ProofGL2 ProofThreads2 ProofThreads3 ProofThreads4 ProofThreads5 ProofThreads6 ProofThreads7 ProofThreads8 ProofPy ProofSearch ProofScratch3 ProofSym ProofPositive.
Import ListNotations.
Local Open Scope R_scope.

Lemma Rpow_nonneg x y : 0 <= x -> 0 <= Rpow x y.
Proof.
  intros H. unfold Rpow. destruct (Rlt_dec 0 x) as [L|L]; [apply Rlt_le, exp_pos|]. assert (x = 0) as -> by lra.
  destruct (Req_EM_T _ _); [|lra]. destruct (Int_part y) as [|p|p]; cbn [powerRZ]; [lra|apply pow_le; lra|].
  rewrite pow_ne_zero by lia. rewrite Rinv_0. lra.
Qed.
Lemma brk_inr {S X} (Q : X -> Prop) body : (forall i (s : S) x, body i s = Ok (inr x) -> Q x) -> forall n i s x, loop_brk n i body s = Ok (inr x) -> Q x.
Proof.
  intros H. induction n as [|n IH]; intros i s x E; cbn [loop_brk] in E; [discriminate E|].
  destruct (body i s) as [[s'|y]|] eqn:F; cbn [bind] in E; [exact (IH _ _ _ E)| |discriminate E]. injection E as <-. exact (H i s y F).
Qed.
Lemma slopes_inr (t : Pk RNum) a b r : sum_slopes (N := RNum) t a b = Ok (inr r) -> r = 0.
Proof.
  unfold sum_slopes, for_brk. apply (brk_inr (fun r : R => r = 0)). intros i s x E.
  repeat (match type of E with bind ?y _ = _ => destruct y; cbn [bind] in E; [|discriminate E] end).
  destruct (_ || _); [injection E as <-; reflexivity|]. repeat (match type of E with bind ?y _ = _ => destruct y; cbn [bind] in E; [|discriminate E] end). discriminate E.
Qed.
Section Lin.
Variables (K P : list R).
Hypothesis HL : length P = length K.
Hypothesis HB : (1 <= zlen K < 2 ^ 62)%Z.
Hypothesis HI : increasing K.
Hypothesis HK : forall x, In x K -> 0 < x.
Hypothesis HP : nonneg P.
Let tb := mk_table (N := RNum) K P.
Lemma rd_pos i x : rd K i = Ok x -> 0 < x.
Proof. intros E. apply (rd_inv 0) in E as (Hi & ->). apply HK, znth_In, Hi. Qed.
Lemma extra_nonneg k p i (r : R) : 0 <= k -> (p <- rd P i ;; k0 <- rd K i ;; Ok (nmul RNum p (npow (n := RNum) (ndiv RNum k k0) r))) = Ok p -> 0 <= p.
Proof.
  intros Hk E. destruct (rd P i) as [v|] eqn:E1; [|discriminate E]. cbn [bind] in E. destruct (rd K i) as [k0|] eqn:E2; [|discriminate E]. cbn [bind] in E. injection E as <-. rn.
  apply Rmult_le_pos; [exact (nonneg_rd _ _ _ HP E1)|]. apply Rpow_nonneg. pose proof (rd_pos _ _ E2). apply Rmult_le_pos; [exact Hk|apply Rlt_le, Rinv_0_lt_compat; assumption].
Qed.
Lemma lowk_nonneg k p : 0 <= k -> extrapol_pk_lowk (N := RNum) tb k = Ok p -> 0 <= p.
Proof.
  intros Hk E. unfold extrapol_pk_lowk in E. destruct (sum_slopes tb _ _) as [[s|r]|] eqn:F; cbn [bind] in E; [|apply slopes_inr in F; injection E as <-; rewrite F; lra|discriminate E].
  exact (extra_nonneg k p _ _ Hk E).
Qed.
Lemma highk_nonneg k p : 0 <= k -> extrapol_pk_highk (N := RNum) tb k = Ok p -> 0 <= p.
Proof.
  intros Hk E. unfold extrapol_pk_highk in E. destruct (sum_slopes tb _ _) as [[s|r]|] eqn:F; cbn [bind] in E; [|apply slopes_inr in F; injection E as <-; rewrite F; lra|discriminate E].
  exact (extra_nonneg k p _ _ Hk E).
Qed.
Lemma single_nonneg k p : 0 <= k -> find_pk (N := RNum) tb [k] LIN = Ok [p] -> 0 <= p.
Proof.
  intros Hk E. apply (find_pk_single K P HL ltac:(lia)) in E; [|lia]. destruct E as (s & E). unfold find_pk_step in E. rn_in E. fold tb in E.
  destruct (Rltb_spec (znth 0 K (zlen K - 1)) k) as [H1|H1].
  { destruct (extrapol_pk_highk tb k) as [v|] eqn:F; [|discriminate E]. injection E as <- <-. exact (highk_nonneg k v Hk F). }
  destruct (Rltb_spec k (znth 0 K 0)) as [H2|H2].
  { destruct (extrapol_pk_lowk tb k) as [v|] eqn:F; [|discriminate E]. injection E as <- <-. exact (lowk_nonneg k v Hk F). }
  apply Rnot_lt_le in H1, H2. destruct (find_pk_bracket K P HL ltac:(lia) HI k ltac:(lia) H2) as (i & Ei & Hi & L1 & L2).
  replace (u64 (zlen K - 1 + 1)) with (zlen K) in E by (rewrite u64_small; unfold SIZE_T; lia). cbn [pk_k pk_p tb mk_table] in E. rewrite Ei in E. cbn [bind] in E.
  destruct (rd K i) as [k0|] eqn:E0; [|discriminate E]. cbn [bind] in E. destruct (rd K (i + 1)) as [k1|] eqn:E1; [|discriminate E]. cbn [bind] in E.
  destruct (rd P i) as [p0|] eqn:F0; [|discriminate E]. cbn [bind] in E. destruct (rd P (i + 1)) as [p1|] eqn:F1; [|discriminate E]. cbn [bind] in E. injection E as <- <-.
  apply (rd_inv 0) in E0 as (_ & ->). apply (rd_inv 0) in E1 as (H3 & ->). destruct L2 as [L2|L2]; [lia|].
  pose proof (nonneg_rd _ _ _ HP F0). pose proof (nonneg_rd _ _ _ HP F1).
  destruct (interpol_lin_all (znth 0 K i) (znth 0 K (i + 1)) p0 p1 ltac:(lra)) as (_ & _ & _ & B & _). specialize (B ltac:(lra) k ltac:(lra)).
  apply Rle_trans with (2 := proj1 B). apply Rmin_glb; assumption.
Qed.
Lemma lin_nonneg : nonneg_lookup tb LIN.
Proof.
  intros ks ps Ha Hk E. apply (find_pk_elementwise_R K P HL ltac:(lia) HI ks LIN ltac:(lia) Ha) in E. fold tb in E. clear Ha.
  induction E as [|k p ks ps E1 E2 IH]; [constructor|]. inversion Hk; subst. constructor; [|apply IH; assumption]. apply (single_nonneg k p); assumption.
Qed.
End Lin.

(** A table of two points: polynomial interpolation is linear. *)
Lemma poly2_nonneg (K0 K1 P0 P1 : R) : 0 < K0 < K1 -> 0 <= P0 -> 0 <= P1 -> nonneg_lookup (mk_table (N := RNum) [K0; K1] [P0; P1]) POLY.
Proof.
  intros HK H0 H1. set (K := [K0; K1]). set (P := [P0; P1]). assert (HL : length P = length K) by reflexivity. assert (HI : increasing K).
  { intros i j (Hij & Hj). cbn [length K] in Hj. assert (i = 0%nat /\ j = 1%nat) as (-> & ->) by lia. cbn. lra. }
  assert (HP : nonneg P) by (apply Forall_cons; [assumption|apply Forall_cons; [assumption|apply Forall_nil]]). assert (HK' : forall x, In x K -> 0 < x) by (intros x [<-|[<-|[]]]; lra).
  intros ks ps Ha Hk E. apply (find_pk_elementwise_R K P HL ltac:(cbn; lia) HI ks POLY ltac:(cbn; lia) Ha) in E. clear Ha.
  induction E as [|k p ks ps E1 E2 IH]; [constructor|]. inversion Hk as [|? ? Hk0]; subst. constructor; [|apply IH; assumption]. clear IH.
  apply (find_pk_single K P HL ltac:(cbn; lia)) in E1; [|cbn; lia]. destruct E1 as (s & E). unfold find_pk_step in E. rn_in E.
  destruct (Rltb_spec (znth 0 K (zlen K - 1)) k) as [G1|G1].
  { destruct (extrapol_pk_highk (N := RNum) (mk_table (N := RNum) K P) k) as [v|] eqn:F; [|discriminate E]. injection E as <- <-. exact (highk_nonneg K P HK' HP k v Hk0 F). }
  destruct (Rltb_spec k (znth 0 K 0)) as [G2|G2].
  { destruct (extrapol_pk_lowk (N := RNum) (mk_table (N := RNum) K P) k) as [v|] eqn:F; [|discriminate E]. injection E as <- <-. exact (lowk_nonneg K P HK' HP k v Hk0 F). }
  apply Rnot_lt_le in G1, G2. change (znth 0 K (zlen K - 1)) with K1 in G1. change (znth 0 K 0) with K0 in G2.
  destruct (find_pk_bracket K P HL ltac:(cbn; lia) HI k ltac:(cbn; lia) G2) as (i & Ei & Hi & _). change (zlen K) with 2%Z in *.
  change (u64 (2 - 1 + 1)) with 2%Z in E. cbn [pk_k pk_p mk_table] in E. rewrite Ei in E. cbn [bind] in E.
  assert (Hz : zmax 0 (i - 2) = 0%Z /\ zmin (2 - 1) (i + 2) = 1%Z). { unfold zmax, zmin. destruct (Z.gtb_spec 0 (i - 2)), (Z.ltb_spec (2 - 1) (i + 2)); lia. }
  rewrite (proj1 Hz), (proj2 Hz) in E. change (Z.to_nat 0) with 0%nat in E. cbn [skipn] in E. change (1 - 0 + 1)%Z with (zlen K) in E.
  destruct (interpol_poly_spec k K P) as (q & _ & _ & E2' & U); [discriminate|reflexivity|cbn; lia| |].
  { intros a b Ha Hb Hab. cbn [length K] in Ha, Hb. assert ((a = 0 /\ b = 1) \/ (a = 1 /\ b = 0))%nat as [(-> & ->)|(-> & ->)] by lia; cbn; lra. }
  rewrite E2' in E. cbn [bind] in E. injection E as <- _.
  rewrite <- (U [P0 - (P1 - P0) / (K1 - K0) * K0; (P1 - P0) / (K1 - K0)]); [|cbn; lia|].
  - cbn [peval]. replace (P0 - (P1 - P0) / (K1 - K0) * K0 + k * ((P1 - P0) / (K1 - K0) + k * 0)) with ((P0 * (K1 - k) + P1 * (k - K0)) * / (K1 - K0)) by (field; lra).
    apply Rmult_le_pos; [|apply Rlt_le, Rinv_0_lt_compat; lra]. apply Rplus_le_le_0_compat; apply Rmult_le_pos; lra.
  - intros j Hj. cbn [length K] in Hj. assert (j = 0 \/ j = 1)%nat as [->| ->] by lia; cbn; field; lra.
Qed.
(** Three points and more: it is not. *)
Lemma poly3 : find_pk (N := RNum) (mk_table (N := RNum) [1; 2; 3] [1; 1; 100]) [3 / 2] POLY = Ok [- (91 / 8)].
Proof.
  set (K := [1; 2; 3]). set (P := [1; 1; 100]). assert (HL : length P = length K) by reflexivity. assert (HI : increasing K).
  { intros i j (Hij & Hj). cbn [length K] in Hj. assert ((i = 0 /\ j = 1) \/ (i = 0 /\ j = 2) \/ (i = 1 /\ j = 2))%nat as [(-> & ->)|[(-> & ->)|(-> & ->)]] by lia; cbn; lra. }
  assert (G2 : znth 0 K 0 <= 3 / 2) by (cbn; lra). destruct (find_pk_bracket K P HL ltac:(cbn; lia) HI (3 / 2) ltac:(cbn; lia) G2) as (i & Ei & Hi & L1 & L2). change (zlen K) with 3%Z in *.
  apply (find_pk_single K P HL ltac:(cbn; lia)); [cbn; lia|]. unfold find_pk_step. rn. change (zlen K) with 3%Z.
  change (znth 0 K (3 - 1)) with 3. change (znth 0 K 0) with 1. destruct (Rltb_spec 3 (3 / 2)) as [B|_]; [exfalso; lra|]. destruct (Rltb_spec (3 / 2) 1) as [B|_]; [exfalso; lra|]. cbn [pk_k pk_p mk_table]. change (u64 (3 - 1 + 1)) with 3%Z. rewrite Ei. cbn [bind].
  assert (Hz : i = 0%Z). { assert (i = 0 \/ i = 1 \/ i = 2)%Z as [->|[->| ->]] by lia; [reflexivity|exfalso; change (znth 0 K 1) with 2 in L1; lra|exfalso; change (znth 0 K 2) with 3 in L1; lra]. } subst i.
  change (zmax 0 (0 - 2)) with 0%Z. change (zmin (3 - 1) (0 + 2)) with 2%Z. change (Z.to_nat 0) with 0%nat. cbn [skipn]. change (2 - 0 + 1)%Z with (zlen K).
  destruct (interpol_poly_spec (3 / 2) K P) as (q & _ & _ & E2 & U); [discriminate|reflexivity|cbn; lia| |].
  { intros a b Ha Hb Hab. cbn [length K] in Ha, Hb. destruct a as [|[|[|a]]], b as [|[|[|b]]]; try lia; cbn; lra. }
  rewrite E2. cbn [bind]. exists 0%Z. rewrite <- (U [100; - (297 / 2); 99 / 2]); [cbn [peval]; repeat f_equal; field|cbn; lia|].
  intros j Hj. cbn [length K] in Hj. destruct j as [|[|[|j]]]; try lia; cbn; field.
Qed.

(** ** Rows *)
Section Rows.
Variables (fuel : nat) (st : settings RNum) (pkl : Pk RNum).
Hypothesis HS : positive_setup st pkl.
Local Open Scope string_scope.
Lemma setup_tables g m : new_q fuel st pkl "gamma2_tree_q" = Ok g -> new_mu fuel st "gamma2_tree_mu" = Ok m -> positive_table g /\ positive_rule m.
Proof.
  intros E1 E2. destruct HS as [A1 (qm & qM & A2 & A3) A5 _]. assert (B1 := A1 "gamma2_tree_q" ltac:(cbn; tauto)). assert (C1 := A1 "gamma2_tree_mu" ltac:(cbn; tauto)). split.
  - exact (new_table fuel _ pkl g qm qM B1 E1 A2 A3 (A5 "gamma2_tree_q")).
  - exact (proj1 (new_rule fuel _ m C1 E2)).
Qed.
Lemma row_1loop3 a b k : 0 < k -> ok3 (fun u v w : list R => exists ga gb x y z, u = [ga; ga; x] /\ v = [ga; gb; y] /\ w = [gb; gb; z] /\ gram x y z)
  (value_1loop fuel st pkl a a k) (value_1loop fuel st pkl a b k) (value_1loop fuel st pkl b b k).
Proof.
  intros Hk. rewrite !both_1loop_eq. unfold both_1loop. apply same3. intros g1 _. apply same3. intros g Eg. apply same3. intros m Em.
  destruct (setup_tables g m Eg Em) as (Hg & Hm).
  destruct (gamma1_1loop g1 a k) as [[ga ?]|]; [|cbn [bind]; intros ? ? ? E; discriminate E]. cbn [bind].
  destruct (gamma1_1loop g1 b k) as [[gb ?]|]; [|cbn [bind]; intros ? ? ? _ E; discriminate E]. cbn [bind].
  eapply bind3; [apply (integrate3 g m 1); auto; intros g' Hg' Hp iq mu; apply both_tree3; auto; apply (ps_prec _ _ HS)|].
  intros l1 l2 l3 (L1 & L2 & L3 & G). destruct l1 as [|x [|? ?]]; try discriminate L1. destruct l2 as [|y [|? ?]]; try discriminate L2. destruct l3 as [|z [|? ?]]; try discriminate L3.
  cbn. apply ok3_ret. exists ga, gb, x, y, z. repeat (split; [reflexivity|]). specialize (G 1 0). assert (Q : forall v : R, qf 1 0 [v] = v) by (intros v; unfold qf; cbn [nth]; ring). rewrite !Q in G. exact G.
Qed.
Lemma row_2loop3 a b k : sizes st q_tables_2loop -> 0 < k -> ok3 (fun u v w : list R => exists a1 a2 b1 b2 x y z, u = a1 :: a2 :: a1 :: a2 :: x /\ v = a1 :: a2 :: b1 :: b2 :: y /\ w = b1 :: b2 :: b1 :: b2 :: z /\ RL 3 x y z)
  (value_2loop fuel st pkl a a k) (value_2loop fuel st pkl a b k) (value_2loop fuel st pkl b b k).
Proof.
  intros Hn Hk. rewrite !both_2loop_eq by (intros x Hx; apply Hn; cbn in *; tauto). unfold both_2loop. apply same3. intros g1 _. apply same3. intros g2 _. apply same3. intros g Eg. apply same3. intros m Em.
  destruct (setup_tables g m Eg Em) as (Hg & Hm). apply same3. intros gd _. apply same3. intros gt _.
  destruct (gamma1_1loop g1 a k) as [[a1 ?]|]; [|cbn [bind]; intros ? ? ? E; discriminate E]. cbn [bind]. destruct (gamma1_2loop g2 a k) as [[a2 ?]|]; [|cbn [bind]; intros ? ? ? E; discriminate E]. cbn [bind].
  destruct (gamma1_1loop g1 b k) as [[b1 ?]|]; [|cbn [bind]; intros ? ? ? _ E; discriminate E]. cbn [bind]. destruct (gamma1_2loop g2 b k) as [[b2 ?]|]; [|cbn [bind]; intros ? ? ? _ E; discriminate E]. cbn [bind].
  eapply bind3; [apply (integrate3 g m 3); auto; intros g' Hg' Hp iq mu; apply both_one_loop3; auto; apply (ps_prec _ _ HS)|].
  intros l1 l2 l3 L. pose proof L as (L1 & L2 & L3 & G). destruct l1 as [|x [|x' [|x'' [|? ?]]]]; try discriminate L1. destruct l2 as [|y [|y' [|y'' [|? ?]]]]; try discriminate L2. destruct l3 as [|z [|z' [|z'' [|? ?]]]]; try discriminate L3.
  cbn [take List.length Nat.leb bind firstn]. apply ok3_ret. do 4 eexists. exists [x; x'; x''], [y; y'; y''], [z; z'; z'']. split; [reflexivity|]. split; [reflexivity|]. split; [reflexivity|]. exact L.
Qed.
(** gamma3 *)
Lemma sin_unit x : 0 <= x <= 1 -> 0 <= sin (x * PI).
Proof. intros H. pose proof PI_RGT_0. apply sin_ge_0; nra. Qed.
Lemma gamma3_kernel qmin qmax lmin lmax k a xx y : Forall (fun x => 0 <= x <= 1) xx ->
  kernel_pk_gamma3_tree (N := RNum) pkl (im_of st "gamma3_tree_q") qmin qmax lmin lmax k a a xx = Ok y -> 0 <= y.
Proof.
  intros Hx E. unfold kernel_pk_gamma3_tree in E.
  assert (U : forall i x, rd xx i = Ok x -> 0 <= x <= 1). { intros i x Ex. apply (rd_inv 0) in Ex as (Hi & ->). apply (proj1 (Forall_forall _ _) Hx). apply znth_In, Hi. }
  match type of E with bind ?f _ = _ => destruct f as [x0|] eqn:E0 end; [|discriminate E]. cbn [bind] in E.
  match type of E with bind ?f _ = _ => destruct f as [x1|] eqn:E1 end; [|discriminate E]. cbn [bind] in E.
  match type of E with bind ?f _ = _ => destruct f as [x2|] eqn:E2 end; [|discriminate E]. cbn [bind] in E.
  match type of E with bind ?f _ = _ => destruct f as [x3|] eqn:E3 end; [|discriminate E]. cbn [bind] in E.
  match type of E with bind ?f _ = _ => destruct f as [x4|] eqn:E4 end; [|discriminate E]. cbn [bind] in E.
  cbn zeta in E.
  match type of E with (if ?c then _ else _) = _ => destruct c end; [|injection E as <-; rn; lra].
  match type of E with bind ?f _ = _ => destruct f as [p1|] eqn:P1 end; [|discriminate E]. cbn [bind] in E. 
  match type of E with bind ?f _ = _ => destruct f as [p2|] eqn:P2 end; [|discriminate E]. cbn [bind] in E.
  match type of E with bind ?f _ = _ => destruct f as [p3|] eqn:P3 end; [|discriminate E]. cbn [bind] in E.
  apply (find1_nonneg pkl _ (ps_prec _ _ HS "gamma3_tree_q")) in P1; [|rn; apply Rlt_le, exp_pos]. apply (find1_nonneg pkl _ (ps_prec _ _ HS "gamma3_tree_q")) in P2; [|rn; apply Rlt_le, exp_pos].
  apply (find1_nonneg pkl _ (ps_prec _ _ HS "gamma3_tree_q")) in P3; [|unfold norm3; rn; apply sqrt_pos].
  assert (Ok_inj : forall u v : R, Ok u = Ok v -> v = u) by (intros ? ? Q; injection Q as Q; symmetry; exact Q). apply Ok_inj in E. rewrite E. clear E.
  match goal with |- context [F3_sym a ?u ?v ?w] => set (F := F3_sym (N := RNum) a u v w) end. rn.
  pose proof (sin_unit x1 (U _ _ E1)). pose proof (sin_unit x4 (U _ _ E4)). pose proof (exp_pos (lmin + (lmax - lmin) * x0)). pose proof (exp_pos (lmin + (lmax - lmin) * x3)).
  clearbody F. set (s1 := sin (x1 * PI)) in *. set (s2 := sin (x4 * PI)) in *. set (p := exp (lmin + (lmax - lmin) * x0)) in *. set (q := exp (lmin + (lmax - lmin) * x3)) in *. clearbody s1 s2 p q. set (J := (lmax - lmin) * PI * 2 * PI).
  replace (2 * (F * F * p1 * p2 * p3 * (p * p * p * q * q * q * (J * (J * s1 * s2))))) with (2 * ((F * F) * (p1 * p2 * p3) * (p * p * p * (q * q * q)) * (J * J) * (s1 * s2))) by ring.
  pose proof (Rle_0_sqr F) as S1. pose proof (Rle_0_sqr J) as S2. unfold Rsqr in S1, S2.
  assert (0 <= p1 * p2 * p3) by (repeat apply Rmult_le_pos; assumption). assert (0 <= p * p * p) by (apply Rmult_le_pos; [apply Rle_0_sqr|lra]). assert (0 <= q * q * q) by (apply Rmult_le_pos; [apply Rle_0_sqr|lra]).
  apply Rmult_le_pos; [lra|]. apply Rmult_le_pos; [|apply Rmult_le_pos; assumption]. apply Rmult_le_pos; [|exact S2]. apply Rmult_le_pos; [|apply Rmult_le_pos; assumption]. apply Rmult_le_pos; assumption.
Qed.
Lemma gamma3_nonneg suave1 a k v : suave_nonneg suave1 -> value_gamma3 st pkl suave1 a a k = Ok v -> exists g3, v = [g3] /\ 0 <= g3.
Proof.
  intros Hs E. unfold value_gamma3 in E. destruct (q_range _ pkl) as [[qmin qmax]|]; [|discriminate E]. cbn [bind] in E. unfold calc_pk_gamma3_tree in E.
  match type of E with bind (bind ?s _) _ = _ => destruct s as [i|] eqn:F end; [|discriminate E]. cbn [bind] in E.
  assert (Ok_inj : forall u v : list R, Ok u = Ok v -> v = u) by (intros ? ? Q; injection Q as Q; symmetry; exact Q). apply Ok_inj in E. eexists. split; [exact E|].
  assert (I : 0 <= i). { apply (Hs _ _) in F; [exact F|]. intros xx y Hx. exact (gamma3_kernel qmin qmax _ _ k a xx y Hx). }
  rewrite power_R by lia. rn. pose proof PI_RGT_0. apply Rmult_le_pos; [lra|]. apply Rlt_le, Rinv_0_lt_compat, pow_lt. lra.
Qed.
End Rows.

(** ** The assembled spectra *)
Lemma elementwise_inv (f : list R -> R) c cs out : elementwise (N := RNum) f (c :: cs) = Ok out -> List.length out = List.length c /\
  (forall d, In d cs -> List.length d = List.length c) /\ forall i, (i < List.length c)%nat -> nth i out 0 = f (map (fun d => nth i d 0) (c :: cs)).
Proof.
  intros E. unfold elementwise in E. match type of E with (if ?b then _ else _) = _ => destruct b eqn:B end; [|discriminate E]. injection E as <-.
  rewrite map_length, seq_length. split; [reflexivity|]. split.
  - intros d Hd. cbn [forallb] in B. apply andb_prop in B as (_ & B). rewrite forallb_forall in B. apply Nat.eqb_eq. apply B. exact Hd.
  - intros i Hi. match goal with |- nth i (map ?g _) 0 = _ => rewrite (nth_indep _ 0 (g 0%nat)) by (rewrite map_length, seq_length; exact Hi); rewrite (map_nth g) end. rewrite seq_nth by exact Hi. reflexivity.
Qed.
Lemma nth_rows (f : list R -> R) nk vals i : (i < nk)%nat -> nth i (map f (rows nk vals)) 0 = f (vals (Z.of_nat i)).
Proof.
  intros H. unfold rows. rewrite map_map. set (g := fun j => f (vals (Z.of_nat j))). rewrite (nth_indep _ 0 (g 0%nat)) by (rewrite map_length, seq_length; exact H).
  rewrite (map_nth g), seq_nth by exact H. reflexivity.
Qed.
Definition sig_of (ss : list R) (sg : option (list R)) : list R := match sg with Some s => s | None => ss end.
Lemma entry_1loop a b (ks ps ss : list R) (vals : Z -> list R) D sg (out : list R) : assembled (D_1loop a b) (columns_of (D_1loop a b) ks ps ss vals) D sg = Ok out -> List.length out = List.length ks /\
  forall i, (i < List.length ks)%nat -> nth i out 0 = let v := vals (Z.of_nat i) in pk_1loop_row (N := RNum) D [nth i ks 0; nth i (sig_of ss sg) 0; nth 0 v 0; nth 1 v 0; nth i ps 0; nth 2 v 0].
Proof.
  intros E. unfold assembled, columns_of, pk_1loop, getitems, getitem in E. cbn [names_of List.length seq combine map fst snd assoc String.eqb Ascii.eqb Bool.eqb bind] in E.
  assert (E' : elementwise (N := RNum) (pk_1loop_row (N := RNum) D) [ks; sig_of ss sg; map (fun v => nth 0 v 0) (rows (List.length ks) vals); map (fun v => nth 1 v 0) (rows (List.length ks) vals); ps; map (fun v => nth 2 v 0) (rows (List.length ks) vals)] = Ok out) by (destruct sg; exact E).
  apply elementwise_inv in E' as (L & _ & H). split; [exact L|]. intros i Hi. rewrite H by exact Hi. cbn [map]. rewrite !nth_rows by exact Hi. reflexivity.
Qed.
Lemma entry_2loop a b (ks ps ss : list R) (vals : Z -> list R) D sg (out : list R) : assembled (D_2loop a b) (columns_of (D_2loop a b) ks ps ss vals) D sg = Ok out -> List.length out = List.length ks /\
  forall i, (i < List.length ks)%nat -> nth i out 0 = let v := vals (Z.of_nat i) in
    pk_2loop_row (N := RNum) D [nth i ks 0; nth i (sig_of ss sg) 0; nth 0 v 0; nth 1 v 0; nth 2 v 0; nth 3 v 0; nth i ps 0; nth 4 v 0; nth 5 v 0; nth 6 v 0; nth 7 v 0].
Proof.
  intros E. unfold assembled, columns_of, pk_2loop, getitems, getitem in E. cbn [names_of List.length seq combine map fst snd assoc String.eqb Ascii.eqb Bool.eqb bind] in E.
  pose (c := fun j : nat => map (fun v => nth j v 0) (rows (List.length ks) vals)).
  assert (E' : elementwise (N := RNum) (pk_2loop_row (N := RNum) D) [ks; sig_of ss sg; c 0%nat; c 1%nat; c 2%nat; c 3%nat; ps; c 4%nat; c 5%nat; c 6%nat; c 7%nat] = Ok out) by (destruct sg; exact E).
  apply elementwise_inv in E' as (L & _ & H). split; [exact L|]. intros i Hi. rewrite H by exact Hi. cbn [map]. unfold c. rewrite !nth_rows by exact Hi. reflexivity.
Qed.
Lemma row_gram_1 D k s ga gb pl x y z : 0 <= pl -> gram x y z ->
  gram (pk_1loop_row (N := RNum) D [k; s; ga; ga; pl; x]) (pk_1loop_row (N := RNum) D [k; s; ga; gb; pl; y]) (pk_1loop_row (N := RNum) D [k; s; gb; gb; pl; z]).
Proof.
  intros Hp G. cbn [pk_1loop_row]. rn. rewrite pow2, pow4. set (f := 5 / IZR (10 ^ 1) * _ * s). set (A := D * exp (- f) * (1 + f + D ^ 2 * ga)). set (B := D * exp (- f) * (1 + f + D ^ 2 * gb)).
  assert (W : 0 <= D ^ 4 * exp (- (2) * f)). { apply Rmult_le_pos; [replace (D ^ 4) with ((D * D) * (D * D)) by ring; apply Rle_0_sqr|apply Rlt_le, exp_pos]. }
  replace (A * A * pl) with (pl * (A * A)) by ring. replace (A * B * pl) with (pl * (A * B)) by ring. replace (B * B * pl) with (pl * (B * B)) by ring.
  apply gram_add; [apply gram_prod, Hp|apply gram_scale; assumption].
Qed.
Lemma row_gram_2 D k s a1 a2 b1 b2 pl x x' x'' y y' y'' z z' z'' gx gy gz : 0 <= pl -> RL 3 [x; x'; x''] [y; y'; y''] [z; z'; z''] -> gram gx gy gz ->
  gram (pk_2loop_row (N := RNum) D [k; s; a1; a2; a1; a2; pl; x; x'; x''; gx]) (pk_2loop_row (N := RNum) D [k; s; a1; a2; b1; b2; pl; y; y'; y''; gy]) (pk_2loop_row (N := RNum) D [k; s; b1; b2; b1; b2; pl; z; z'; z''; gz]).
Proof.
  intros Hp (_ & _ & _ & G) G3. cbn [pk_2loop_row]. rn. rewrite pow2, pow4, pow6. set (f := 5 / IZR (10 ^ 1) * (k * D * (k * D)) * s).
  set (A := D * exp (- f) * (1 + f + _ + D ^ 2 * a1 * (1 + f) + D ^ 4 * a2)). set (B := D * exp (- f) * (1 + f + _ + D ^ 2 * b1 * (1 + f) + D ^ 4 * b2)).
  assert (P : forall j, 0 <= (D * D) ^ j) by (intros j; apply pow_le, Rle_0_sqr).
  assert (W : 0 <= D ^ 4 * exp (- (2) * f)). { apply Rmult_le_pos; [|apply Rlt_le, exp_pos]. replace (D ^ 4) with ((D * D) ^ 2) by ring. apply P. }
  assert (W' : 0 <= D ^ 6 * exp (- (2) * f)). { apply Rmult_le_pos; [|apply Rlt_le, exp_pos]. replace (D ^ 6) with ((D * D) ^ 3) by ring. apply P. }
  replace (A * A * pl) with (pl * (A * A)) by ring. replace (A * B * pl) with (pl * (A * B)) by ring. replace (B * B * pl) with (pl * (B * B)) by ring.
  specialize (G (1 + f) (D ^ 2)). unfold qf in G. cbn [nth] in G.
  apply gram_add; [apply gram_add|]; [apply gram_prod, Hp| |apply gram_scale; assumption]. apply gram_scale; [exact W|].
  match goal with |- gram ?u ?v ?w => match type of G with gram ?u' ?v' ?w' => replace u with u' by ring; replace v with v' by ring; replace w with w' by ring end end. exact G.
Qed.
(** ** Runs *)
Section Runs.
Variables (fuel : nat) (st : settings RNum) (pkl dt ptt : Pk RNum) (suave1 : (list R -> res R) -> res R) (suave12 : (list R -> res (list R)) -> res (list R)).
Hypothesis HS : positive_setup st pkl.
Local Notation computes := (computes fuel st suave1 suave12).
Lemma k_nth (ks : list R) i : (i < List.length ks)%nat -> k_ (N := RNum) ks (Z.of_nat i) = nth i ks 0.
Proof. intros _. unfold k_. rewrite Nat2Z.id. reflexivity. Qed.
Lemma pos_nth (ks : list R) i : Forall (fun k => 0 < k) ks -> (i < List.length ks)%nat -> 0 < nth i ks 0.
Proof. intros H Hi. apply (proj1 (Forall_forall _ _) H). apply nth_In, Hi. Qed.
Lemma lin_column d ks ps ss vals i : ascending ks -> Forall (fun k => 0 < k) ks -> computes d pkl dt ptt ks ps ss vals -> 0 <= nth i ps 0.
Proof.
  intros Ha Hk (E & _). apply (ps_lin _ _ HS) in E; [|exact Ha|apply Forall_weaken, Hk]. destruct (Nat.lt_ge_cases i (List.length ps)); [|rewrite nth_overflow by assumption; lra].
  apply (proj1 (Forall_forall _ _) E). apply nth_In. assumption.
Qed.
Lemma runs_1loop a b (ks ps ss : list R) (va vab vb : Z -> list R) D sg (oa oab ob : list R) : ascending ks -> Forall (fun k => 0 < k) ks ->
  computes (D_1loop a a) pkl dt ptt ks ps ss va -> computes (D_1loop a b) pkl dt ptt ks ps ss vab -> computes (D_1loop b b) pkl dt ptt ks ps ss vb ->
  assembled (D_1loop a a) (columns_of (D_1loop a a) ks ps ss va) D sg = Ok oa -> assembled (D_1loop a b) (columns_of (D_1loop a b) ks ps ss vab) D sg = Ok oab ->
  assembled (D_1loop b b) (columns_of (D_1loop b b) ks ps ss vb) D sg = Ok ob ->
  forall i, (i < List.length ks)%nat -> gram (at_ oa i) (at_ oab i) (at_ ob i).
Proof.
  intros Ha Hk C1 C2 C3 A1 A2 A3 i Hi. apply entry_1loop in A1 as (_ & A1). apply entry_1loop in A2 as (_ & A2). apply entry_1loop in A3 as (_ & A3). unfold at_.
  rewrite (A1 i Hi), (A2 i Hi), (A3 i Hi). cbn zeta. pose proof (lin_column _ _ _ _ _ i Ha Hk C1) as Hp.
  destruct C1 as (_ & _ & C1). destruct C2 as (_ & _ & C2). destruct C3 as (_ & _ & C3).
  assert (Hz : (0 <= Z.of_nat i < zlen ks)%Z) by (unfold zlen; lia). specialize (C1 _ Hz). specialize (C2 _ Hz). specialize (C3 _ Hz). rewrite k_nth in C1, C2, C3 by exact Hi. cbn [value_of] in C1, C2, C3.
  destruct (row_1loop3 fuel st pkl HS a b _ (pos_nth ks i Hk Hi) _ _ _ C1 C2 C3) as (ga & gb & x & y & z & -> & -> & -> & G). cbn [nth]. apply row_gram_1; assumption.
Qed.
Lemma runs_2loop a b (ks ps ss : list R) (va vab vb : Z -> list R) D sg (oa oab ob : list R) : sizes st q_tables_2loop -> ascending ks -> Forall (fun k => 0 < k) ks ->
  computes (D_2loop a a) pkl dt ptt ks ps ss va -> computes (D_2loop a b) pkl dt ptt ks ps ss vab -> computes (D_2loop b b) pkl dt ptt ks ps ss vb ->
  assembled (D_2loop a a) (columns_of (D_2loop a a) ks ps ss va) D sg = Ok oa -> assembled (D_2loop a b) (columns_of (D_2loop a b) ks ps ss vab) D sg = Ok oab ->
  assembled (D_2loop b b) (columns_of (D_2loop b b) ks ps ss vb) D sg = Ok ob ->
  (forall i, (i < List.length ks)%nat -> gram (at_ (va (Z.of_nat i)) 7) (at_ (vab (Z.of_nat i)) 7) (at_ (vb (Z.of_nat i)) 7)) ->
  forall i, (i < List.length ks)%nat -> gram (at_ oa i) (at_ oab i) (at_ ob i).
Proof.
  intros Hn Ha Hk C1 C2 C3 A1 A2 A3 G3 i Hi. apply entry_2loop in A1 as (_ & A1). apply entry_2loop in A2 as (_ & A2). apply entry_2loop in A3 as (_ & A3). unfold at_.
  rewrite (A1 i Hi), (A2 i Hi), (A3 i Hi). cbn zeta. pose proof (lin_column _ _ _ _ _ i Ha Hk C1) as Hp. specialize (G3 i Hi). unfold at_ in G3.
  destruct C1 as (_ & _ & C1). destruct C2 as (_ & _ & C2). destruct C3 as (_ & _ & C3).
  assert (Hz : (0 <= Z.of_nat i < zlen ks)%Z) by (unfold zlen; lia). specialize (C1 _ Hz). specialize (C2 _ Hz). specialize (C3 _ Hz). rewrite k_nth in C1, C2, C3 by exact Hi. cbn [value_of] in C1, C2, C3.
  destruct (value_2loop fuel st pkl a a _) as [u1|] eqn:E1; [|discriminate C1]. destruct (value_2loop fuel st pkl a b _) as [u2|] eqn:E2; [|discriminate C2]. destruct (value_2loop fuel st pkl b b _) as [u3|] eqn:E3; [|discriminate C3]. cbn [bind] in *.
  destruct (row_2loop3 fuel st pkl HS a b _ Hn (pos_nth ks i Hk Hi) _ _ _ E1 E2 E3) as (a1 & a2 & b1 & b2 & x & y & z & -> & -> & -> & G).
  pose proof G as (L1 & L2 & L3 & _). destruct x as [|x [|x' [|x'' [|? ?]]]]; try discriminate L1. destruct y as [|y [|y' [|y'' [|? ?]]]]; try discriminate L2. destruct z as [|z [|z' [|z'' [|? ?]]]]; try discriminate L3.
  destruct (value_gamma3 st pkl suave1 a a _) as [w1|]; [|discriminate C1]. destruct (value_gamma3 st pkl suave1 a b _) as [w2|]; [|discriminate C2]. destruct (value_gamma3 st pkl suave1 b b _) as [w3|]; [|discriminate C3]. cbn [bind] in *.
  injection C1 as C1. injection C2 as C2. injection C3 as C3. rewrite <- C1, <- C2, <- C3 in *. cbn [nth app] in *. apply row_gram_2; assumption.
Qed.
Lemma gram_same x : gram x x x <-> 0 <= x.
Proof. unfold gram. split; [tauto|]. intros H. repeat split; try assumption. apply Req_le. ring. Qed.
Lemma run_nonneg a d (ks ps ss : list R) (vals : Z -> list R) D sg (out : list R) : d = D_1loop a a \/ (d = D_2loop a a /\ sizes st q_tables_2loop /\ suave_nonneg suave1) -> ascending ks -> Forall (fun k => 0 < k) ks ->
  computes d pkl dt ptt ks ps ss vals -> assembled d (columns_of d ks ps ss vals) D sg = Ok out -> nonneg out.
Proof.
  intros Hd Ha Hk C A. assert (L : List.length out = List.length ks). { destruct Hd as [->|(-> & _)]; [apply entry_1loop in A|apply entry_2loop in A]; exact (proj1 A). }
  apply Forall_forall. intros v Hv. apply (In_nth _ _ 0) in Hv as (i & Hi & <-). rewrite L in Hi. apply (proj1 (gram_same _)).
  destruct Hd as [->|(-> & Hn & Hs)].
  - exact (runs_1loop a a ks ps ss vals vals vals D sg out out out Ha Hk C C C A A A i Hi).
  - apply (runs_2loop a a ks ps ss vals vals vals D sg out out out Hn Ha Hk C C C A A A); [|exact Hi]. intros j Hj. apply (proj2 (gram_same _)).
    destruct C as (_ & _ & C). assert (Hz : (0 <= Z.of_nat j < zlen ks)%Z) by (unfold zlen; lia). specialize (C (Z.of_nat j) Hz). cbn [value_of] in C. rewrite k_nth in C by exact Hj.
    destruct (value_2loop fuel st pkl a a _) as [u|] eqn:E1; [|discriminate C]. cbn [bind] in C. destruct (value_gamma3 st pkl suave1 a a _) as [w|] eqn:E2; [|discriminate C]. cbn [bind] in C. injection C as C.
    destruct (gamma3_nonneg st pkl HS suave1 a _ w Hs E2) as (g3 & -> & H3).
    destruct (row_2loop3 fuel st pkl HS a a _ Hn (pos_nth ks j Hk Hj) _ _ _ E1 E1 E1) as (a1 & a2 & b1 & b2 & x & y & z & -> & _ & _ & (L1 & _)).
    destruct x as [|x [|x' [|x'' [|? ?]]]]; try discriminate L1. rewrite <- C. exact H3.
Qed.
End Runs.
Lemma elementwise_ok (f : list R -> R) c cs : (forall d, In d cs -> List.length d = List.length c) -> exists out, elementwise (N := RNum) f (c :: cs) = Ok out.
Proof.
  intros H. unfold elementwise. match goal with |- exists _, (if ?b then _ else _) = _ => assert (B : b = true) end; [|rewrite B; eexists; reflexivity].
  cbn [forallb]. rewrite Nat.eqb_refl. apply forallb_forall. intros d Hd. apply Nat.eqb_eq, H, Hd.
Qed.
Lemma assembled_ok_1 a b (ks ps ss : list R) (vals : Z -> list R) D : List.length ps = List.length ks -> List.length ss = List.length ks ->
  exists out, assembled (D_1loop a b) (columns_of (D_1loop a b) ks ps ss vals) D None = Ok out.
Proof.
  intros L1 L2. unfold assembled, columns_of, pk_1loop, getitems, getitem. cbn [names_of List.length seq combine map fst snd assoc String.eqb Ascii.eqb Bool.eqb bind].
  apply (elementwise_ok (pk_1loop_row (N := RNum) D)). intros d [<-|[<-|[<-|[<-|[<-|[]]]]]]; try assumption; unfold rows; rewrite !map_length, seq_length; reflexivity.
Qed.
Lemma small_growth (al be c pl : R) : pl < 0 -> exists D, 0 < D /\ (1 + D ^ 2 * al) * (1 + D ^ 2 * be) * pl + D ^ 2 * c < 0.
Proof.
  intros Hp. set (M := 1 + 2 * Rabs al + 2 * Rabs be + 8 * Rabs c * / - pl). pose proof (Rabs_pos al). pose proof (Rabs_pos be). pose proof (Rabs_pos c).
  assert (Q : 0 <= 8 * Rabs c * / - pl) by (apply Rmult_le_pos; [lra|apply Rlt_le, Rinv_0_lt_compat; lra]). assert (HM : 1 <= M) by (unfold M; lra).
  assert (HM' : 0 < / M) by (apply Rinv_0_lt_compat; lra). exists (sqrt (/ M)). split; [apply sqrt_lt_R0, HM'|]. rewrite <- Rsqr_pow2, Rsqr_sqrt by lra. set (u := / M) in *.
  assert (MU : u * M = 1) by (unfold u; field; lra).
  assert (B : forall x, 2 * Rabs x <= M - 1 -> 1 / 2 <= 1 + u * x). { intros x Hx. assert (- Rabs x <= x) by (pose proof (Rle_abs (- x)) as Q1; rewrite Rabs_Ropp in Q1; lra). nra. }
  assert (B1 : 1 / 2 <= 1 + u * al) by (apply B; unfold M; lra). assert (B2 : 1 / 2 <= 1 + u * be) by (apply B; unfold M; lra).
  assert (C1 : u * c <= - pl / 8). { assert (c <= Rabs c) by apply Rle_abs. assert (Hc : 8 * Rabs c <= M * - pl). { replace (8 * Rabs c) with (8 * Rabs c * / - pl * - pl) by (field; lra). apply Rmult_le_compat_r; unfold M; lra. } nra. }
  assert (B3 : 1 / 4 <= (1 + u * al) * (1 + u * be)) by (replace (1 / 4) with (1 / 2 * (1 / 2)) by lra; apply Rmult_le_compat; lra).
  assert (B4 : (1 + u * al) * (1 + u * be) * pl <= 1 / 4 * pl) by (assert (0 <= ((1 + u * al) * (1 + u * be) - 1 / 4) * - pl) by (apply Rmult_le_pos; lra); lra). lra.
Qed.
Lemma negative_lookup a b (ks ps ss : list R) (vals : Z -> list R) i : (i < List.length ks)%nat -> List.length ps = List.length ks -> List.length ss = List.length ks -> at_ ps i < 0 ->
  exists D out, 0 < D /\ assembled (D_1loop a b) (columns_of (D_1loop a b) ks ps ss vals) D None = Ok out /\ at_ out i < 0.
Proof.
  intros Hi L1 L2 Hn. set (v := vals (Z.of_nat i)). set (k := nth i ks 0). set (s := nth i ss 0). set (f := k * k * s / 2).
  destruct (small_growth (f + nth 0 v 0) (f + nth 1 v 0) (nth 2 v 0) (nth i ps 0) Hn) as (D & HD & H). destruct (assembled_ok_1 a b ks ps ss vals D L1 L2) as (out & E). exists D, out. split; [exact HD|]. split; [exact E|].
  apply entry_1loop in E as (_ & E). unfold at_. rewrite (E i Hi). cbn zeta. fold v k. cbn [sig_of]. fold s. cbn [pk_1loop_row]. rn. rewrite pow2, pow4.
  assert (Q : forall d : R, 5 / IZR (10 ^ 1) * (k * d * (k * d)) * s = d ^ 2 * f) by (intros d; unfold f; change (10 ^ 1)%Z with 10%Z; field). rewrite Q. set (x := D ^ 2 * f) in *.
  replace (exp (- (2) * x)) with (exp (- x) * exp (- x)) by (rewrite <- exp_plus; f_equal; ring). pose proof (exp_pos (- x)) as Hx. set (ex := exp (- x)) in *.
  match goal with |- ?l < 0 => replace l with ((D * D * (ex * ex)) * ((1 + D ^ 2 * (f + nth 0 v 0)) * (1 + D ^ 2 * (f + nth 1 v 0)) * nth i ps 0 + D ^ 2 * nth 2 v 0)) by (unfold x; ring) end.
  assert (0 < D * D * (ex * ex)) by (apply Rmult_lt_0_compat; apply Rmult_lt_0_compat; assumption). nra.
Qed.
Lemma assembled_ok_2 a b (ks ps ss : list R) (vals : Z -> list R) D : List.length ps = List.length ks -> List.length ss = List.length ks ->
  exists out, assembled (D_2loop a b) (columns_of (D_2loop a b) ks ps ss vals) D None = Ok out.
Proof.
  intros L1 L2. unfold assembled, columns_of, pk_2loop, getitems, getitem. cbn [names_of List.length seq combine map fst snd assoc String.eqb Ascii.eqb Bool.eqb bind].
  apply (elementwise_ok (pk_2loop_row (N := RNum) D)). intros d Hd. cbn [In] in Hd. decompose [or] Hd; subst; try assumption; try tauto; unfold rows; rewrite !map_length, seq_length; reflexivity.
Qed.
Lemma sigma_length {N} (pkl : Pk N) uv : forall ks i s ss, sig_loop pkl uv i s ks = Ok ss -> List.length ss = List.length ks.
Proof.
  induction ks as [|k ks IH]; intros i s ss E; cbn [sig_loop] in E; [injection E as <-; reflexivity|].
  destruct (rd (pk_k pkl) 0) as [k0|]; [|discriminate E]. cbn [bind] in E. destruct (nlt N _ k0).
  - destruct (sig_loop pkl uv i s ks) as [r|] eqn:F; [|discriminate E]. injection E as <-. cbn [List.length]. f_equal. exact (IH _ _ _ F).
  - destruct (sig_inner _ pkl _ i s) as [[[i' s'] o]|]; [|discriminate E]. cbn [bind] in E. destruct (sig_loop pkl uv i' s' ks) as [r|] eqn:F; [|discriminate E]. injection E as <-. cbn [List.length]. f_equal. exact (IH _ _ _ F).
Qed.
Lemma negative_run fuel (st : settings RNum) suave1 suave12 pkl dt ptt a b (ks ps ss : list R) (vals : Z -> list R) i : (i < List.length ks)%nat ->
  computes fuel st suave1 suave12 (D_1loop a b) pkl dt ptt ks ps ss vals -> at_ ps i < 0 ->
  exists D out, 0 < D /\ assembled (D_1loop a b) (columns_of (D_1loop a b) ks ps ss vals) D None = Ok out /\ at_ out i < 0.
Proof. intros Hi (E1 & E2 & _) Hn. apply negative_lookup; [exact Hi|exact (find_pk_length _ _ _ _ E1)|exact (sigma_length _ _ _ _ _ _ E2)|exact Hn]. Qed.
(** ** Examples *)
Lemma setup_ex : positive_setup st_ex pk_ex.
Proof.
  assert (HP : nonneg_lookup pk_ex POLY) by (apply poly2_nonneg; lra). constructor.
  - intros x _. cbn; lia.
  - exists 1, 2. split; [apply range_ex|lra].
  - intros x. exact HP.
  - intros x. exact HP.
Qed.
Lemma setup_all a b : positive_setup st_ex pk_ex /\ sizes st_ex q_tables_2loop /\ suave_nonneg suave1_ex /\ ascending ks_ex /\ Forall (fun k => 0 < k) ks_ex /\
  (exists ps ss vals out, computes 2 st_ex suave1_ex suave12_ex (D_1loop a b) pk_ex pk_ex pk_ex ks_ex ps ss vals /\ assembled (D_1loop a b) (columns_of (D_1loop a b) ks_ex ps ss vals) (1 / 2) None = Ok out) /\
  (exists ps ss vals out, computes 2 st_ex suave1_ex suave12_ex (D_2loop a b) pk_ex pk_ex pk_ex ks_ex ps ss vals /\ assembled (D_2loop a b) (columns_of (D_2loop a b) ks_ex ps ss vals) (1 / 2) None = Ok out).
Proof.
  split; [exact setup_ex|]. split; [intros x _; cbn; lia|]. split.
  { intros f v Hf E. apply (Hf [0; 0; 0; 0; 0] v); [|exact E]. repeat apply Forall_cons; try (split; lra). apply Forall_nil. }
  split; [intros i j (Hij & Hj); cbn [ks_ex List.length] in Hj; destruct i as [|[|[|i]]], j as [|[|[|j]]]; try lia; cbn; lra|].
  split; [repeat apply Forall_cons; try lra; apply Forall_nil|]. split.
  - destruct (example (D_1loop a b)) as (ps & ss & vals & h & C & _). pose proof C as (E1 & E2 & _). exists ps, ss, vals.
    destruct (assembled_ok_1 a b ks_ex ps ss vals (1 / 2) (find_pk_length _ _ _ _ E1) (sigma_length _ _ _ _ _ _ E2)) as (out & E). exists out. split; [exact C|exact E].
  - destruct (example (D_2loop a b)) as (ps & ss & vals & h & C & _). pose proof C as (E1 & E2 & _). exists ps, ss, vals.
    destruct (assembled_ok_2 a b ks_ex ps ss vals (1 / 2) (find_pk_length _ _ _ _ E1) (sigma_length _ _ _ _ _ _ E2)) as (out & E). exists out. split; [exact C|exact E].
Qed.
(** A table of three positive values whose spectrum is negative. *)
Definition pk3 : Pk RNum := mk_table (N := RNum) [1; 2; 3] [1; 1; 100].
Definition h3 : heap RNum := fun l => match l with
  | Arr x i => if (x =? "k")%string then option_map (VNum (N := RNum)) (nth_error [3 / 2] (Z.to_nat i)) else Some (VNum (N := RNum) 0)
  | Priv _ _ => Some VNull
  | Glob x => if (x =? "pk_lin")%string then Some (VPk pk3) else Some VNull end.
Lemma negative_ex : exists a ps ss vals D out, computes 2 st_ex suave1_ex suave12_ex (D_1loop a a) pk3 pk3 pk3 [3 / 2] ps ss vals /\ 0 < D /\
  assembled (D_1loop a a) (columns_of (D_1loop a a) [3 / 2] ps ss vals) D None = Ok out /\ at_ out 0 < 0.
Proof.
  exists DELTA. assert (RG : forall x, q_range (s_prec st_ex x) pk3 = Ok (1, 2)). { intros x. unfold q_range. cbn [st_ex s_prec pr_min pr_max]. rn. rewrite !(proj2 (Rleb_false _ _)) by lra. reflexivity. }
  assert (MK : forall qs mus, makes 2 st_ex pk3 qs mus).
  { intros qs mus. split; intros x _; (split; [cbn; lia|]).
    - unfold new_q, init_gauss_legendre_q. rewrite RG. cbn [bind]. cbn [st_ex s_prec pr_n pr_interpol]. change (repeat (nZ RNum 0) (Z.to_nat 1)) with [0%R].
      rewrite (proj1 (gl_one 0 _ _ 0 0)). cbn [bind]. rewrite for_step by lia. cbn -[Rdiv ln exp find_pk].
      match goal with |- context[find_pk _ ?q _] => destruct (poly_lookup_safe (N := RNum) [1; 2; 3] [1; 1; 100] q) as (v & E & _); [reflexivity|cbn; lia|] end.
      unfold pk3. rewrite E. cbn [bind]. eauto.
    - apply (proj2 (makes_ex [] [x])). left. reflexivity. }
  destruct (computes_exists 2 st_ex suave1_ex suave12_ex (D_1loop DELTA DELTA) h3 pk3 pk3 pk3 [3 / 2] [[0%Z]]) as (ps & ss & vals & C).
  - split; reflexivity.
  - exact suave_ex.
  - repeat split; cbn; lia.
  - intros H; discriminate H.
  - split; [|exact I]. split; [|split; [apply Permutation.Permutation_refl|apply MK]]. constructor; try reflexivity.
    + intros l Hl. unfold out_cells in Hl. rewrite !in_app_iff, !In_column, in_flat_map in Hl. destruct Hl as [(j & _ & ->)|[(j & _ & ->)|(ik & _ & Hc)]]; try discriminate.
      destruct (cells_of_arr (D_1loop DELTA DELTA) ik _ Hc) as (y & j & -> & Ny). cbn. rewrite (proj2 (String.eqb_neq y "k") Ny). discriminate.
    + intros t x _ _. exists VNull. split; [reflexivity|intros []].
  - exists ps, ss, vals. pose proof C as (E1 & _). change (s_interpol st_ex _) with POLY in E1. unfold pk3 in E1. rewrite poly3 in E1. injection E1 as <-.
    destruct (negative_run 2 st_ex suave1_ex suave12_ex pk3 pk3 pk3 DELTA DELTA [3 / 2] [- (91 / 8)] ss vals 0) as (D & out & HD & E & Hn); [cbn; lia|exact C|cbn; lra|].
    exists D, out. split; [exact C|]. split; [exact HD|]. split; [exact E|exact Hn].
Qed.
Lemma gamma3_zero (st : settings RNum) pkl a b k v : value_gamma3 st pkl suave1_ex a b k = Ok v -> v = [0].
Proof.
  intros E. unfold value_gamma3 in E. destruct (q_range _ pkl) as [[qmin qmax]|]; [|discriminate E]. cbn [bind] in E. unfold calc_pk_gamma3_tree in E.
  assert (Z0 : forall w, suave1_ex (kernel_pk_gamma3_tree (N := RNum) pkl (im_of st "gamma3_tree_q") qmin qmax (nlog (n := RNum) qmin) (nlog (n := RNum) qmax) k a b) = Ok w -> w = 0).
  { intros w Ew. unfold suave1_ex, kernel_pk_gamma3_tree in Ew. 
    match type of Ew with bind ?f _ = _ => change f with (Ok (A := R) 0) in Ew end. cbn [bind] in Ew. match type of Ew with bind ?f _ = _ => change f with (Ok (A := R) 0) in Ew end. cbn [bind] in Ew.
    do 3 (match type of Ew with bind ?f _ = _ => destruct f as [?|] end; [|discriminate Ew]; cbn [bind] in Ew). cbn zeta in Ew.
    match type of Ew with (if ?c then _ else _) = _ => destruct c end; [|injection Ew as <-; reflexivity].
    do 3 (match type of Ew with bind ?f _ = _ => destruct f as [?|] end; [|discriminate Ew]; cbn [bind] in Ew).
    assert (Ok_inj : forall u v : R, Ok u = Ok v -> v = u) by (intros ? ? Q; injection Q as Q; symmetry; exact Q). apply Ok_inj in Ew. rewrite Ew. clear.
    rn. replace (0 * PI) with 0 by ring. rewrite sin_0. ring. }
  match type of E with bind (bind ?s _) _ = _ => destruct s as [i|] eqn:F end; [|discriminate E]. cbn [bind] in E. specialize (Z0 i eq_refl). rewrite Z0 in E.
  assert (Ok_inj : forall u v : list R, Ok u = Ok v -> v = u) by (intros ? ? Q; injection Q as Q; symmetry; exact Q). apply Ok_inj in E. rewrite E.
  rewrite power_R by lia. rn. f_equal. unfold Rdiv. ring.
Qed.
Lemma gram_ex a b : exists ps ss va vab vb oa oab ob, let c x y := computes 2 st_ex suave1_ex suave12_ex (D_2loop x y) pk_ex pk_ex pk_ex ks_ex ps ss in
  let p x y v := assembled (D_2loop x y) (columns_of (D_2loop x y) ks_ex ps ss v) (1 / 2) None in
  c a a va /\ c a b vab /\ c b b vb /\ p a a va = Ok oa /\ p a b vab = Ok oab /\ p b b vb = Ok ob /\
  forall i, (i < 3)%nat -> gram (at_ (va (Z.of_nat i)) 7) (at_ (vab (Z.of_nat i)) 7) (at_ (vb (Z.of_nat i)) 7).
Proof.
  assert (H : forall x y, exists ps ss v, computes 2 st_ex suave1_ex suave12_ex (D_2loop x y) pk_ex pk_ex pk_ex ks_ex ps ss v) by (intros x y; destruct (example (D_2loop x y)) as (ps & ss & v & h & C & _); eauto).
  destruct (H a a) as (ps & ss & va & Ca). destruct (H a b) as (ps1 & ss1 & vab & Cab). destruct (H b b) as (ps2 & ss2 & vb & Cb).
  pose proof Ca as (F1 & G1 & _). pose proof Cab as (F2 & G2 & _). pose proof Cb as (F3 & G3 & _). cbn [interpol_of cutoff_of] in *. rewrite F1 in F2, F3. rewrite G1 in G2, G3. injection F2 as <-. injection F3 as <-. injection G2 as <-. injection G3 as <-.
  assert (L1 : List.length ps = List.length ks_ex) by exact (find_pk_length _ _ _ _ F1). assert (L2 : List.length ss = List.length ks_ex) by exact (sigma_length _ _ _ _ _ _ G1).
  destruct (assembled_ok_2 a a ks_ex ps ss va (1 / 2) L1 L2) as (oa & A1). destruct (assembled_ok_2 a b ks_ex ps ss vab (1 / 2) L1 L2) as (oab & A2). destruct (assembled_ok_2 b b ks_ex ps ss vb (1 / 2) L1 L2) as (ob & A3).
  exists ps, ss, va, vab, vb, oa, oab, ob. cbn zeta. do 6 (split; [assumption|]). intros i Hi.
  assert (Z7 : forall x y v, computes 2 st_ex suave1_ex suave12_ex (D_2loop x y) pk_ex pk_ex pk_ex ks_ex ps ss v -> at_ (v (Z.of_nat i)) 7 = 0).
  { intros x y v (_ & _ & C). assert (Hz : (0 <= Z.of_nat i < zlen ks_ex)%Z) by (cbn; lia). specialize (C _ Hz). cbn [value_of] in C. set (k := k_ (N := RNum) ks_ex (Z.of_nat i)) in C.
    assert (Pk : 0 < k). { unfold k, k_. rewrite Nat2Z.id. destruct i as [|[|[|i]]]; [cbn; lra..|lia]. }
    destruct (value_2loop 2 st_ex pk_ex x y k) as [u|] eqn:E1; [|discriminate C]. cbn [bind] in C. destruct (value_gamma3 st_ex pk_ex suave1_ex x y k) as [w|] eqn:E2; [|discriminate C]. cbn [bind] in C. injection C as C.
    apply gamma3_zero in E2. subst w. rewrite <- C. unfold value_2loop in E1. repeat (match type of E1 with bind ?f _ = _ => destruct f as [?|] eqn:?; [|discriminate E1]; cbn [bind] in E1 | match ?q with pair _ _ => _ end = _ => destruct q end).
    match goal with Q : take 3 ?m = Ok ?l |- _ => rename Q into T3; rename l into l3 end.
    assert (L : List.length l3 = 3%nat). { unfold take in T3. match type of T3 with (if ?c then _ else _) = _ => destruct c eqn:L3 end; [|discriminate T3]. assert (Ok_inj : forall u v : list R, Ok u = Ok v -> v = u) by (intros ? ? Q; injection Q as Q; symmetry; exact Q). apply Ok_inj in T3. rewrite T3. apply firstn_length_le. apply Nat.leb_le. exact L3. }
    assert (Ok_inj : forall u v : list R, Ok u = Ok v -> v = u) by (intros ? ? Q; injection Q as Q; symmetry; exact Q). apply Ok_inj in E1. rewrite E1. destruct l3 as [|? [|? [|? [|? ?]]]]; try discriminate L. reflexivity. }
  rewrite (Z7 _ _ _ Ca), (Z7 _ _ _ Cab), (Z7 _ _ _ Cb). unfold gram. lra.
Qed.
