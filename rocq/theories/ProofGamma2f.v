(** ProofGamma2f: the dispatchers kernel_gamma2d and kernel_gamma2t. *)
From Coq Require Import Reals Lra Lia List.
From Verif Require Import Base Num BaseFacts Common Kernels GExpr Gamma2dSrc Gamma2tSrc Gamma2 SpecGamma2 ProofSearch ProofKernels
  ProofGamma2 ProofGamma2b ProofGamma2c ProofGamma2d ProofGamma2e.
Import ListNotations.
Local Open Scope R_scope.

Lemma Rltb_scale s a b : 0 < s -> Rltb (s * a) (s * b) = Rltb a b.
Proof. intros H. destruct (Rltb_spec a b), (Rltb_spec (s * a) (s * b)); try reflexivity; exfalso; nra. Qed.
Lemma nmax_scale s a b : 0 < s -> nmax (N := RNum) (s * a) (s * b) = s * nmax (N := RNum) a b.
Proof. intros H. unfold nmax. rn. rewrite Rltb_scale by exact H. destruct (Rltb b a); reflexivity. Qed.
Lemma nmin_scale s a b : 0 < s -> nmin (N := RNum) (s * a) (s * b) = s * nmin (N := RNum) a b.
Proof. intros H. unfold nmin. rn. rewrite Rltb_scale by exact H. destruct (Rltb a b); reflexivity. Qed.
Lemma branch_scale s k1 k2 k3 q : 0 < s ->
  g2_branch (N := RNum) (s * k1) (s * k2) (s * k3) (s * q) = g2_branch (N := RNum) k1 k2 k3 q.
Proof.
  intros H. assert (H0 : s <> 0) by lra. unfold g2_branch, nmax3, nmin3. rnl.
  rewrite !nmax_scale, !nmin_scale by exact H. rn. rewrite !div_cancel by exact H0.
  rewrite !(Rmult_comm (1 / 10)), !(Rmult_comm 10), !(Rmult_comm 50), !(Rmult_comm 100), !Rmult_assoc.
  replace (s * (k1 * (s * k1)) - s * (k3 * (s * k3))) with (s * s * (k1 * k1 - k3 * k3)) by ring.
  replace (s * (q * (s * q))) with (s * s * (q * q)) by ring.
  rewrite Rabs_mult, (Rabs_pos_eq (s * s)) by nra.
  rewrite !Rltb_scale by nra. reflexivity.
Qed.

Lemma nmin_le a b : nmin (N := RNum) a b <= a /\ nmin (N := RNum) a b <= b /\ (nmin (N := RNum) a b = a \/ nmin (N := RNum) a b = b).
Proof. unfold nmin. rn. destruct (Rltb_spec a b); lra. Qed.
Lemma branch_elongate k1 k2 k3 q : 0 < k1 -> 0 < k2 -> 0 < k3 -> 0 < q -> triangle k1 k2 k3 ->
  g2_branch (N := RNum) k1 k2 k3 q = BElongate -> Rabs (Rmax k1 k2 * Rmax k1 k2 - k3 * k3) < q * q.
Proof.
  intros P1 P2 P3 Pq [T1 [T2 T3]]. unfold g2_branch. rnl.
  destruct (Rltb _ _ || _ || _); [discriminate|].
  destruct (Rltb (Rabs (k2 / k1 - 1)) _); [destruct (Rltb _ _); [discriminate|]; destruct (Rltb _ _); discriminate|].
  destruct (Rltb q _); [discriminate|]. destruct (Rltb (10 * _) q); [discriminate|].
  destruct (Rltb_spec (50 * nmin (N := RNum) k1 k2) q) as [H5|]; [|cbn [andb]; destruct (Rltb _ _ && _); discriminate].
  destruct (Rltb_spec (Rabs (k1 * k1 - k3 * k3)) (q * q)) as [H6|]; [|cbn [andb]; destruct (Rltb _ _ && _); discriminate].
  intros _. apply Rabs_def2 in H6. rn_in H5.
  destruct (Rle_dec k2 k1) as [H|H]; [rewrite Rmax_left by lra; apply Rabs_def1; lra|].
  rewrite Rmax_right by lra.
  assert (Hm : nmin (N := RNum) k1 k2 = k1) by (unfold nmin; rn; destruct (Rltb_spec k1 k2); lra). rewrite Hm in H5.
  assert (H3 : k3 < 2 * q) by nra. apply Rabs_def1; nra.
Qed.
Lemma branch_coll k1 k2 k3 q : 0 < k1 -> 0 < k2 -> 0 < k3 -> 0 < q -> triangle k1 k2 k3 ->
  g2_branch (N := RNum) k1 k2 k3 q = BColl -> k1 <> q /\ k2 <> q /\ Rabs (k1 * k1 - k2 * k2) < q * q.
Proof.
  intros P1 P2 P3 Pq [T1 [T2 T3]]. unfold g2_branch. rnl.
  destruct (Rltb_spec (Rabs (k1 / q - 1)) (1 / 1000)) as [|N1]; [discriminate|].
  destruct (Rltb_spec (Rabs (k2 / q - 1)) (1 / 1000)) as [|N2]; [discriminate|].
  destruct (Rltb (Rabs (k3 / q - 1)) _); [discriminate|]. cbn [orb].
  destruct (Rltb_spec (Rabs (k2 / k1 - 1)) (2 / 100)) as [|N12]; [destruct (Rltb _ _); [discriminate|]; destruct (Rltb _ _); discriminate|].
  destruct (Rltb q _); [discriminate|]. destruct (Rltb (10 * _) q); [discriminate|].
  destruct (Rltb _ q && _); [discriminate|].
  destruct (Rltb_spec (100 * k3) q) as [H5|]; [|discriminate].
  destruct (Rltb _ _); [|discriminate]. intros _.
  assert (Ne : forall k, 1 / 1000 <= Rabs (k / q - 1) -> k <> q).
  { intros k Hk E. rewrite E in Hk. replace (q / q - 1) with 0 in Hk by (field; lra). rewrite Rabs_R0 in Hk. lra. }
  apply Rnot_lt_le in N1. apply Rnot_lt_le in N2. apply Rnot_lt_le in N12.
  split; [apply Ne, N1|]. split; [apply Ne, N2|].
  assert (Hk1 : k1 <= 50 * k3).
  { destruct (Rle_dec k1 (50 * k3)) as [H|H]; [exact H|]. exfalso. apply (Rlt_irrefl (2 / 100)).
    eapply Rle_lt_trans; [exact N12|]. replace (k2 / k1 - 1) with ((k2 - k1) / k1) by (field; lra).
    unfold Rdiv at 1. rewrite Rabs_mult, (Rabs_pos_eq (/ k1)) by (apply Rlt_le, Rinv_0_lt_compat; exact P1).
    apply (Rmult_lt_reg_r k1); [exact P1|]. rewrite Rmult_assoc, Rinv_l, Rmult_1_r by lra.
    apply Rabs_def1; lra. }
  apply Rabs_def1; nra.
Qed.

(** Every function has degree zero. *)
Lemma degs_sum s ev ev' l d : 0 < s -> (forall v, ev' v = match v with geps => ev v | _ => s * ev v end) ->
  degs d l = true -> (forall x a, In x l -> In a (gbases x) -> 0 < gden ev a) -> gdsum ev' l = powerRZ s d * gdsum ev l.
Proof.
  intros Hs HE. induction l as [|x l IH]; cbn [degs forallb gdsum]; intros H HB; [ring|].
  apply andb_prop in H. destruct H as [H1 H2]. destruct (gdeg x) as [e|] eqn:Ex; [|discriminate].
  apply Z.eqb_eq in H1. subst e. rewrite (gdeg_ok s ev ev' Hs HE x d Ex) by (intros a Ha; apply (HB x); [left; reflexivity|exact Ha]).
  rewrite IH; [ring|exact H2|]. intros y a Hy. apply HB. right; exact Hy.
Qed.
Lemma deg0_ok s ev ev' x : 0 < s -> (forall v, ev' v = match v with geps => ev v | _ => s * ev v end) ->
  deg0 x = true -> (forall a, In a (gbases x) -> 0 < gden ev a) -> gden ev' x = gden ev x.
Proof.
  intros Hs HE H HB. unfold deg0 in H. destruct (gdeg x) as [[]|] eqn:Ex; try discriminate.
  rewrite (gdeg_ok s ev ev' Hs HE x 0 Ex HB). cbn [powerRZ]. ring.
Qed.
Definition nobases (s : g2src) : bool :=
  match gbases (s_exact s) ++ gbases (s_highk s) ++ gbases (s_lowk s) ++ flat_map gbases (s_polys s)
    ++ flat_map gbases (s_betas s) ++ gbases (s_den s) with [] => true | _ => false end.
Lemma nobases_all a : nobases (g2_of a) = true.
Proof. destruct a; vm_compute; reflexivity. Qed.
Lemma app_nil {A} (l l' : list A) : l ++ l' = [] -> l = [] /\ l' = [].
Proof. apply app_eq_nil. Qed.

Lemma ev4_scale s k1 k2 k3 q v :
  ev4 (s * k1) (s * k2) (s * k3) (s * q) v = match v with geps => ev4 k1 k2 k3 q v | _ => s * ev4 k1 k2 k3 q v end.
Proof. destruct v; cbn [ev4]; ring. Qed.
Lemma evE_scale s k1 k2 k3 q v : 0 < s ->
  evE (s * k1) (s * k2) (s * k3) (s * q) v = match v with geps => evE k1 k2 k3 q v | _ => s * evE k1 k2 k3 q v end.
Proof.
  intros H. destruct v; cbn [evE]; try reflexivity.
  - apply RmaxRmult. lra.
  - rewrite RmaxRmult by lra. assert (E : Rmin (s * k1) (s * k2) = s * Rmin k1 k2).
    { unfold Rmin. destruct (Rle_dec k1 k2), (Rle_dec (s * k1) (s * k2)); try reflexivity; exfalso; nra. }
    rewrite E. apply div_cancel. lra.
Qed.
Lemma evC_scale s k1 k2 k3 q v : 0 < s ->
  evC (s * k1) (s * k2) (s * k3) (s * q) v = match v with geps => evC k1 k2 k3 q v | _ => s * evC k1 k2 k3 q v end.
Proof. intros H. destruct v; cbn [evC]; try reflexivity; [ring|]. apply div_cancel. lra. Qed.

Lemma el_bases a ev x : In x (gbases (s_elongate (g2_of a))) -> exists sg, (sg = 1 \/ sg = -1) /\
  gden ev x = ev gq ^ 2 * (sg * (ev gk ^ 2 - ev gk3 ^ 2) + ev gq ^ 2).
Proof.
  intros H. assert (E : gbases (s_elongate (g2_of a)) = [(gq@[2] * (gk@[2] - gk3@[2] + gq@[2]))%ge; (gq@[2] * (- gk@[2] + gk3@[2] + gq@[2]))%ge])
    by (destruct a; vm_compute; reflexivity).
  rewrite E in H. destruct H as [<-|[<-|[]]]; [exists 1|exists (-1)]; (split; [lra|]);
    cbn [gden]; change (Z.to_nat 2) with 2%nat; ring.
Qed.
Lemma coll_bases a ev x : In x (gbases (s_coll (g2_of a))) -> exists sg, (sg = 1 \/ sg = -1) /\
  gden ev x = ev gq ^ 2 * (sg * (ev gk1 ^ 2 - ev gk2 ^ 2) + ev gq ^ 2).
Proof.
  intros H. assert (E : gbases (s_coll (g2_of a)) = [(gq@[2] * (gk1@[2] - gk2@[2] + gq@[2]))%ge; (gq@[2] * (- gk1@[2] + gk2@[2] + gq@[2]))%ge])
    by (destruct a; vm_compute; reflexivity).
  rewrite E in H. destruct H as [<-|[<-|[]]]; [exists 1|exists (-1)]; (split; [lra|]);
    cbn [gden]; change (Z.to_nat 2) with 2%nat; ring.
Qed.
Lemma base_pos (q u v sg : R) : 0 < q -> Rabs (u * u - v * v) < q * q -> sg = 1 \/ sg = -1 ->
  0 < q ^ 2 * (sg * (u ^ 2 - v ^ 2) + q ^ 2).
Proof.
  intros Hq H Hs. apply Rabs_def2 in H. apply Rmult_lt_0_compat; [nra|]. destruct Hs as [-> | ->]; nra.
Qed.
Lemma g2_val_scale a b s k1 k2 k3 q : 0 < s -> 0 < q ->
  (b = BElongate -> Rabs (Rmax k1 k2 * Rmax k1 k2 - k3 * k3) < q * q) ->
  (b = BColl -> Rabs (k1 * k1 - k2 * k2) < q * q) ->
  g2_val (g2_of a) b (s * k1) (s * k2) (s * k3) (s * q) = g2_val (g2_of a) b k1 k2 k3 q.
Proof.
  intros Hs Pq HE HC. pose proof (src_deg_all a) as HD. pose proof (nobases_all a) as HN.
  pose proof (el_bases a) as BE. pose proof (coll_bases a) as BC.
  generalize dependent (g2_of a). intros S HD HN BE BC. unfold src_deg in HD. unfold nobases in HN.
  repeat match goal with H : (_ && _)%bool = true |- _ => apply andb_prop in H; destruct H end.
  match type of HN with match ?l with _ => _ end = _ => destruct l eqn:EN; [|discriminate HN] end. clear HN.
  repeat (apply app_nil in EN; let X := fresh "B" in destruct EN as [X EN]).
  pose proof (ev4_scale s k1 k2 k3 q) as X4.
  destruct b; cbn [g2_val].
  - apply (deg0_ok s); auto. rewrite B. intros x [].
  - assert (ED : gdeg (s_den S) = Some 28%Z).
    { match goal with H : match gdeg (s_den S) with _ => _ end = true |- _ => revert H end.
      destruct (gdeg (s_den S)) as [z|]; [|discriminate]. destruct (Z.eq_dec z 28) as [->|Hz]; [reflexivity|].
      intros HH. exfalso. destruct z as [|p|p]; try discriminate. do 6 (try (destruct p as [p|p|]; try discriminate)); congruence. }
    rewrite (gdeg_ok s _ _ Hs X4 _ _ ED) by (rewrite EN; intros x []).
    rewrite (degs_sum s _ _ _ 28 Hs X4), (degs_sum s _ _ _ 0 Hs X4); auto.
    + rewrite div_cancel by (apply powerRZ_NOR; lra). cbn [powerRZ]. rewrite Rmult_1_l. reflexivity.
    + intros x y Hx Hy. exfalso. assert (In y (flat_map gbases (s_betas S))) as HI by (apply in_flat_map; eauto).
      rewrite B3 in HI. exact HI.
    + intros x y Hx Hy. exfalso. assert (In y (flat_map gbases (s_polys S))) as HI by (apply in_flat_map; eauto).
      rewrite B2 in HI. exact HI.
  - apply (deg0_ok s); auto. rewrite B0. intros x [].
  - apply (deg0_ok s); auto. rewrite B1. intros x [].
  - apply (deg0_ok s); auto; [intros v; apply evE_scale, Hs|].
    intros x Hx. destruct (BE (evE k1 k2 k3 q) x Hx) as [sg [Hsg ->]]. cbn [evE]. apply base_pos; auto.
  - apply (deg0_ok s); auto; [intros v; apply evC_scale, Hs|].
    intros x Hx. destruct (BC (evC k1 k2 k3 q) x Hx) as [sg [Hsg ->]]. cbn [evC]. apply base_pos; auto.
Qed.
Lemma kernel_scale a s k1 k2 k3 q : 0 < s -> 0 < k1 -> 0 < k2 -> 0 < k3 -> 0 < q -> triangle k1 k2 k3 ->
  kernel_gamma2 (N := RNum) a (s * k1) (s * k2) (s * k3) (s * q) = kernel_gamma2 (N := RNum) a k1 k2 k3 q.
Proof.
  intros Hs P1 P2 P3 Pq Ht. unfold kernel_gamma2. rewrite branch_scale by exact Hs.
  rewrite !g2_call_val by (intros E; nra). f_equal. apply g2_val_scale; auto.
  - intros E. apply branch_elongate; auto.
  - intros E. exact (proj2 (proj2 (branch_coll k1 k2 k3 q P1 P2 P3 Pq Ht E))).
Qed.
Lemma branch_exchange : exists k1 k2 k3 q, 0 < k1 /\ 0 < k2 /\ 0 < k3 /\ 0 < q /\ triangle k1 k2 k3 /\
  g2_branch (N := RNum) k1 k2 k3 q = BExact /\ g2_branch (N := RNum) k2 k1 k3 q = BElongate.
Proof.
  exists (1 / 100), 2, 2, 1. unfold triangle. repeat (split; [lra|]).
  unfold g2_branch, nmax3, nmin3, nmax, nmin. rnl.
  assert (A1 : Rabs (1 / 100 / 1 - 1) = 99 / 100) by (rewrite Rabs_left; lra).
  assert (A2 : Rabs (2 / 1 - 1) = 1) by (rewrite Rabs_right; lra).
  assert (A3 : Rabs (2 / (1 / 100) - 1) = 199) by (rewrite Rabs_right; lra).
  assert (A4 : Rabs (1 / 100 / 2 - 1) = 199 / 200) by (rewrite Rabs_left; lra).
  assert (A5 : Rabs (1 / 100 * (1 / 100) - 2 * 2) = 39999 / 10000) by (rewrite Rabs_left; lra).
  assert (A6 : Rabs (2 * 2 - 2 * 2) = 0) by (rewrite Rminus_eq_0; apply Rabs_R0).
  rewrite A1, A2, A3, A4, A5, A6.
  split;
  repeat (match goal with |- context [Rltb ?a ?b] =>
    (assert (E : Rltb a b = true) by (destruct (Rltb_spec a b); [reflexivity|lra])) || (assert (E : Rltb a b = false) by (destruct (Rltb_spec a b); [lra|reflexivity]));
    rewrite E; clear E end; cbn [orb andb]); reflexivity.
Qed.
Lemma g2_call_sym a b k1 k2 k3 q : 0 < k1 -> 0 < k2 -> 0 < k3 -> 0 < q ->
  (b = BColl -> k1 <> q /\ k2 <> q /\ Rabs (k1 * k1 - k2 * k2) < q * q) ->
  g2_call (N := RNum) (g2_of a) b k1 k2 k3 q = g2_call (N := RNum) (g2_of a) b k2 k1 k3 q.
Proof. intros P1 P2 P3 Pq H. rewrite !g2_call_val by lra. f_equal. apply g2_val_sym; assumption. Qed.
(** The chosen function itself is symmetric on triangles. *)
Lemma kernel_sym_same a k1 k2 k3 q : 0 < k1 -> 0 < k2 -> 0 < k3 -> 0 < q -> triangle k1 k2 k3 ->
  g2_branch (N := RNum) k1 k2 k3 q = g2_branch (N := RNum) k2 k1 k3 q ->
  kernel_gamma2 (N := RNum) a k1 k2 k3 q = kernel_gamma2 (N := RNum) a k2 k1 k3 q.
Proof.
  intros P1 P2 P3 Pq Ht E. unfold kernel_gamma2. rewrite <- E. apply g2_call_sym; auto. intros Hb. apply (branch_coll k1 k2 k3); auto.
Qed.
Lemma reg_exact a k1 k2 k3 q : 0 < k1 -> 0 < k2 -> 0 < k3 -> 0 < q -> smooth3 k1 k2 k3 q ->
  g2_call (N := RNum) (g2_of a) BReg3rd k1 k2 k3 q = g2_call (N := RNum) (g2_of a) BExact k1 k2 k3 q.
Proof.
  intros P1 P2 P3 Pq [S1 [S2 [S3 [B1 [B2 B3]]]]]. rewrite !g2_call_val by lra. f_equal. apply reg3rd_exact; assumption.
Qed.
Lemma smooth_ex : smooth3 1 1 1 2.
Proof.
  assert (HS : smooth1 1 2) by (unfold smooth1; split; [rewrite Rabs_left; lra|lra]).
  assert (HB : smooth2 1 1 1 2).
  { unfold smooth2, wratio. replace (1 * 1 * (1 * 1) - (1 * 1 + 1 * 1 - 1 * 1) * (2 * 2) + 2 * 2 * (2 * 2)) with 13 by lra.
    replace (1 * 2) with 2 by lra. set (y := R_sqrt.sqrt 13 / 2).
    assert (Hy : 18 / 10 < y < 19 / 10).
    { pose proof (sqrt_sqrt 13 ltac:(lra)). pose proof (sqrt_pos 13). unfold y. split; nra. }
    split; [rewrite Rabs_right; lra|]. apply (Rmult_lt_reg_r ((1 + y) * (1 + y))); [nra|].
    unfold Rdiv at 2. rewrite Rmult_assoc, Rinv_l by nra. nra. }
  unfold smooth3. tauto.
Qed.
