(** ProofPy3: the small-growth limit of the regularised spectra, and nan_to_zero. *)
From Coq Require Import Reals ZArith List String Lia Lra Bool.
From Coquelicot Require Import Coquelicot.
From Verif Require Import Base Num BaseFacts Common Registry PyTerms Spec SpecPy Sums ProofPy ProofPy2.
Import ListNotations.
Local Open Scope R_scope.

(** ** Orders of smallness *)
Definition Oh (n : nat) (g : R -> R) : Prop := exists C d, 0 <= C /\ 0 < d <= 1 /\ forall D, Rabs D <= d -> Rabs (g D) <= C * Rabs D ^ n.
Lemma Oh_ext n f g : (forall D, f D = g D) -> Oh n f -> Oh n g.
Proof. intros E (C & d & H1 & H2 & H3). exists C, d. repeat split; try tauto. intros D HD. rewrite <- E. apply H3, HD. Qed.
Lemma Oh_plus n f g : Oh n f -> Oh n g -> Oh n (fun D => f D + g D).
Proof.
  intros (C & d & H1 & H2 & H3) (C' & d' & H1' & H2' & H3'). exists (C + C'), (Rmin d d'). split; [lra|].
  split; [unfold Rmin; destruct (Rle_dec d d'); lra|]. intros D HD.
  pose proof (Rmin_l d d'). pose proof (Rmin_r d d'). eapply Rle_trans; [apply Rabs_triang|].
  rewrite Rmult_plus_distr_r. apply Rplus_le_compat; [apply H3; lra|apply H3'; lra].
Qed.
Lemma Oh_mult m n f g : Oh m f -> Oh n g -> Oh (m + n) (fun D => f D * g D).
Proof.
  intros (C & d & H1 & H2 & H3) (C' & d' & H1' & H2' & H3'). exists (C * C'), (Rmin d d'). split; [apply Rmult_le_pos; lra|].
  split; [unfold Rmin; destruct (Rle_dec d d'); lra|]. intros D HD.
  pose proof (Rmin_l d d'). pose proof (Rmin_r d d'). rewrite Rabs_mult, pow_add.
  replace (C * C' * (Rabs D ^ m * Rabs D ^ n)) with (C * Rabs D ^ m * (C' * Rabs D ^ n)) by ring.
  apply Rmult_le_compat; try apply Rabs_pos; [apply H3; lra|apply H3'; lra].
Qed.
Lemma Oh_const c : Oh 0 (fun _ => c).
Proof. exists (Rabs c), 1. split; [apply Rabs_pos|]. split; [lra|]. intros D _. cbn. lra. Qed.
Lemma Oh_pow n : Oh n (fun D => D ^ n).
Proof. exists 1, 1. split; [lra|]. split; [lra|]. intros D _. rewrite <- RPow_abs. lra. Qed.
Lemma Oh_le m n f : (n <= m)%nat -> Oh m f -> Oh n f.
Proof.
  intros L (C & d & H1 & H2 & H3). exists C, d. repeat split; try tauto. intros D HD. eapply Rle_trans; [apply H3, HD|].
  apply Rmult_le_compat_l; [exact H1|]. replace m with (n + (m - n))%nat by lia. rewrite pow_add.
  rewrite <- (Rmult_1_r (Rabs D ^ n)) at 2. apply Rmult_le_compat_l; [apply pow_le, Rabs_pos|].
  rewrite <- (pow1 (m - n)). apply pow_incr. split; [apply Rabs_pos|lra].
Qed.
Lemma Oh_mult' m n p f g : (p <= m + n)%nat -> Oh m f -> Oh n g -> Oh p (fun D => f D * g D).
Proof. intros L H1 H2. apply (Oh_le (m + n)); [exact L|]. apply Oh_mult; assumption. Qed.

(** ** Taylor bounds *)
Lemma taylor_bound (g g' : R -> R) M n : g 0 = 0 -> (forall x, is_derive g x (g' x)) -> (forall c, Rabs c <= 1 -> Rabs (g' c) <= M * Rabs c ^ n) ->
  0 <= M -> forall x, Rabs x <= 1 -> Rabs (g x) <= M * Rabs x ^ S n.
Proof.
  intros G0 HD HB HM x Hx. destruct (MVT_gen g 0 x g') as (c & Hc & E).
  - intros; apply HD.
  - intros y _. apply continuity_pt_filterlim, (ex_derive_continuous (K := R_AbsRing) (V := R_NormedModule) g y). exists (g' y). apply HD.
  - rewrite G0, !Rminus_0_r in E. rewrite E, Rabs_mult.
    assert (Hc' : Rabs c <= Rabs x).
    { revert Hc. unfold Rmin, Rmax. destruct (Rle_dec 0 x) as [L|L]; intros Hc; unfold Rabs; destruct (Rcase_abs c), (Rcase_abs x); lra. }
    cbn [pow]. rewrite (Rmult_comm (Rabs x)), <- Rmult_assoc. apply Rmult_le_compat_r; [apply Rabs_pos|].
    eapply Rle_trans; [apply HB; lra|]. apply Rmult_le_compat_l; [exact HM|]. apply pow_incr. split; [apply Rabs_pos|exact Hc'].
Qed.
Lemma exp_bound c : Rabs c <= 1 -> Rabs (exp (- c)) <= 3.
Proof.
  intros H. rewrite Rabs_pos_eq by (apply Rlt_le, exp_pos). apply Rle_trans with (exp 1); [|apply exp_le_3].
  destruct (Rle_lt_or_eq_dec (-c) 1) as [L|L]; [unfold Rabs in H; destruct (Rcase_abs c); lra|apply Rlt_le, exp_increasing, L|rewrite L; lra].
Qed.
Lemma e0_bound x : Rabs x <= 1 -> Rabs (exp (- x) - 1) <= 3 * Rabs x ^ 1.
Proof.
  apply (taylor_bound (fun x => exp (- x) - 1) (fun x => - exp (- x))).
  - rewrite Ropp_0, exp_0. ring.
  - intros y. auto_derive; [exact I|ring].
  - intros c Hc. rewrite Rabs_Ropp. cbn. rewrite Rmult_1_r. apply exp_bound, Hc.
  - lra.
Qed.
Lemma e1_bound x : Rabs x <= 1 -> Rabs (exp (- x) * (1 + x) - 1) <= 3 * Rabs x ^ 2.
Proof.
  apply (taylor_bound (fun x => exp (- x) * (1 + x) - 1) (fun x => - (exp (- x) * x))).
  - rewrite Ropp_0, exp_0. ring.
  - intros y. auto_derive; [exact I|ring].
  - intros c Hc. rewrite Rabs_Ropp, Rabs_mult. cbn [pow]. rewrite Rmult_1_r. apply Rmult_le_compat_r; [apply Rabs_pos|]. apply exp_bound, Hc.
  - lra.
Qed.
Lemma e2_bound x : Rabs x <= 1 -> Rabs (exp (- x) * (1 + x + x^2/2) - 1) <= 3 * Rabs x ^ 3.
Proof.
  apply (taylor_bound (fun x => exp (- x) * (1 + x + x^2/2) - 1) (fun x => - (exp (- x) * (x^2 / 2)))).
  - rewrite Ropp_0, exp_0. field.
  - intros y. auto_derive; [exact I|field].
  - intros c Hc. rewrite Rabs_Ropp, Rabs_mult. apply Rmult_le_compat; try apply Rabs_pos; [apply exp_bound, Hc|].
    unfold Rdiv. rewrite Rabs_mult, <- RPow_abs, (Rabs_pos_eq (/2)) by lra. pose proof (pow2_ge_0 (Rabs c)). lra.
  - lra.
Qed.
Lemma Oh_comp n (g : R -> R) a : (forall x, Rabs x <= 1 -> Rabs (g x) <= 3 * Rabs x ^ n) -> Oh (2 * n) (fun D => g (D^2 * a)).
Proof.
  intros H. exists (3 * Rabs a ^ n), (Rmin 1 (/ (1 + Rabs a))). pose proof (Rabs_pos a) as Ha.
  assert (Hi : 0 < / (1 + Rabs a)) by (apply Rinv_0_lt_compat; lra).
  split; [apply Rmult_le_pos; [lra|apply pow_le, Ha]|]. split; [split; [apply Rmin_glb_lt; lra|apply Rmin_l]|].
  intros D HD. pose proof (Rmin_l 1 (/ (1 + Rabs a))). pose proof (Rmin_r 1 (/ (1 + Rabs a))). pose proof (Rabs_pos D) as HDp.
  assert (B : Rabs (D^2 * a) <= 1).
  { rewrite Rabs_mult, <- RPow_abs. cbn [pow]. rewrite Rmult_1_r.
    apply Rle_trans with (Rabs D * Rabs a); [apply Rmult_le_compat_r; [exact Ha|]; rewrite <- (Rmult_1_r (Rabs D)) at 3; apply Rmult_le_compat_l; lra|].
    apply Rle_trans with (/ (1 + Rabs a) * Rabs a); [apply Rmult_le_compat_r; lra|].
    apply (Rmult_le_reg_l (1 + Rabs a)); [lra|]. rewrite <- Rmult_assoc, Rinv_r by lra. lra. }
  eapply Rle_trans; [apply H, B|]. rewrite Rabs_mult, <- RPow_abs, Rpow_mult_distr, <- pow_mult. apply Req_le. ring.
Qed.

Lemma spt_1loop_limit k s ga gb P t : Oh 6 (fun D => regpt_1loop D k s ga gb P t - spt_1loop D P ga gb t).
Proof.
  set (a := k^2 * s / 2).
  pose proof (Oh_comp 2 (fun x => exp (- x) * (1 + x) - 1) a e1_bound) as Hu.
  pose proof (Oh_comp 1 (fun x => exp (- x) - 1) a e0_bound) as Hv.
  pose proof (Oh_comp 1 (fun x => exp (- x) - 1) (2 * a) e0_bound) as Hy.
  cbn [Nat.mul Nat.add] in Hu, Hv, Hy.
  set (u := fun D => exp (- (D^2 * a)) * (1 + D^2 * a) - 1) in Hu. set (v := fun D => exp (- (D^2 * a)) - 1) in Hv.
  set (y := fun D => exp (- (D^2 * (2 * a))) - 1) in Hy. change (Oh 4 u) in Hu. change (Oh 2 v) in Hv. change (Oh 2 y) in Hy.
  assert (Hu0 : Oh 0 u) by (apply (Oh_le 4); [lia|exact Hu]). assert (Hv0 : Oh 0 v) by (apply (Oh_le 2); [lia|exact Hv]).
  apply (Oh_ext 6 (fun D => D^2 * (P * (u D * (2 + u D) + D^2 * ((ga + gb) * (u D + v D * (1 + u D))) + D^4 * (ga * gb * ((1 + v D) * (1 + v D))))) + D^4 * (t * y D))).
  - intros D. unfold regpt_1loop, spt_1loop, propagator_1loop, u, v, y. replace (damping D k s) with (D^2 * a) by (unfold damping, a; field).
    replace (- (2 * (D^2 * a))) with (- (D^2 * (2 * a))) by ring. ring.
  - apply Oh_plus.
    + apply (Oh_mult' 2 4); [lia|apply Oh_pow|]. apply (Oh_mult' 0 4); [lia|apply Oh_const|]. apply Oh_plus; [apply Oh_plus|].
      * apply (Oh_mult' 4 0); [lia|exact Hu|]. apply Oh_plus; [apply Oh_const|exact Hu0].
      * apply (Oh_mult' 2 2); [lia|apply Oh_pow|]. apply (Oh_mult' 0 2); [lia|apply Oh_const|]. apply Oh_plus; [apply (Oh_le 4); [lia|exact Hu]|].
        apply (Oh_mult' 2 0); [lia|exact Hv|]. apply Oh_plus; [apply Oh_const|exact Hu0].
      * apply (Oh_mult' 4 0); [lia|apply Oh_pow|]. apply (Oh_mult' 0 0); [lia|apply Oh_const|].
        apply (Oh_mult' 0 0); [lia| |]; (apply Oh_plus; [apply Oh_const|exact Hv0]).
    + apply (Oh_mult' 4 2); [lia|apply Oh_pow|]. apply (Oh_mult' 0 2); [lia|apply Oh_const|exact Hy].
Qed.
Lemma spt_2loop_limit k s ga ga2 gb gb2 P t t1 oo g3 : Oh 8 (fun D => regpt_2loop D k s ga ga2 gb gb2 P t t1 oo g3 - spt_2loop D P ga ga2 gb gb2 t t1 g3).
Proof.
  set (a := k^2 * s / 2).
  pose proof (Oh_comp 3 (fun x => exp (- x) * (1 + x + x^2/2) - 1) a e2_bound) as Hw.
  pose proof (Oh_comp 2 (fun x => exp (- x) * (1 + x) - 1) a e1_bound) as Hu.
  pose proof (Oh_comp 1 (fun x => exp (- x) - 1) a e0_bound) as Hv.
  cbn [Nat.mul Nat.add] in Hw, Hu, Hv.
  set (w := fun D => exp (- (D^2 * a)) * (1 + D^2 * a + (D^2 * a)^2/2) - 1) in Hw.
  set (u := fun D => exp (- (D^2 * a)) * (1 + D^2 * a) - 1) in Hu. set (v := fun D => exp (- (D^2 * a)) - 1) in Hv.
  change (Oh 6 w) in Hw. change (Oh 4 u) in Hu. change (Oh 2 v) in Hv.
  (* the propagators: 1 + D^2 g + D^4 g2 + O(D^6) *)
  set (r := fun g g2 D => w D + D^2 * (g * u D) + D^4 * (g2 * v D)).
  assert (Hr : forall g g2, Oh 6 (r g g2)).
  { intros g g2. unfold r. apply Oh_plus; [apply Oh_plus; [exact Hw|]|].
    - apply (Oh_mult' 2 4); [lia|apply Oh_pow|]. apply (Oh_mult' 0 4); [lia|apply Oh_const|exact Hu].
    - apply (Oh_mult' 4 2); [lia|apply Oh_pow|]. apply (Oh_mult' 0 2); [lia|apply Oh_const|exact Hv]. }
  set (p := fun g g2 D => 1 + D^2 * g + D^4 * g2).
  assert (Hc : forall n c, Oh 0 (fun D => c * D^n)).
  { intros n c. apply (Oh_mult' 0 n); [lia|apply Oh_const|apply Oh_pow]. }
  assert (Hp : forall g g2, Oh 0 (p g g2)).
  { intros g g2. unfold p. apply Oh_plus; [apply Oh_plus; [apply Oh_const|]|].
    - apply (Oh_mult' 2 0); [lia|apply Oh_pow|apply Oh_const].
    - apply (Oh_mult' 4 0); [lia|apply Oh_pow|apply Oh_const]. }
  assert (Hu0 : Oh 0 u) by (apply (Oh_le 4); [lia|exact Hu]). assert (Hv0 : Oh 0 v) by (apply (Oh_le 2); [lia|exact Hv]).
  apply (Oh_ext 8 (fun D =>
      D^2 * (P * (p ga ga2 D * r gb gb2 D + r ga ga2 D * (p gb gb2 D + r gb gb2 D)))
    + D^8 * (P * ((ga * gb2 + ga2 * gb) + ga2 * gb2 * D^2))
    + D^4 * (t * (u D * (2 + u D)))
    + D^6 * (t1 * (u D + v D * (1 + u D)))
    + D^8 * (oo * ((1 + v D) * (1 + v D)))
    + D^6 * (g3 * (v D * (2 + v D))))).
  - intros D. unfold regpt_2loop, spt_2loop, spt_1loop, propagator_2loop, r, p, w, u, v.
    replace (damping D k s) with (D^2 * a) by (unfold damping, a; field).
    replace (exp (- (2 * (D^2 * a)))) with (exp (- (D^2 * a)) * exp (- (D^2 * a))) by (rewrite <- exp_plus; f_equal; ring).
    set (e := exp (- (D^2 * a))). clearbody e a. unfold Rdiv. ring.
  - repeat apply Oh_plus.
    + apply (Oh_mult' 2 6); [lia|apply Oh_pow|]. apply (Oh_mult' 0 6); [lia|apply Oh_const|]. apply Oh_plus.
      * apply (Oh_mult' 0 6); [lia|apply Hp|apply Hr].
      * apply (Oh_mult' 6 0); [lia|apply Hr|]. apply Oh_plus; [apply Hp|apply (Oh_le 6); [lia|apply Hr]].
    + apply (Oh_mult' 8 0); [lia|apply Oh_pow|]. apply (Oh_mult' 0 0); [lia|apply Oh_const|]. apply Oh_plus; [apply Oh_const|apply Hc].
    + apply (Oh_mult' 4 4); [lia|apply Oh_pow|]. apply (Oh_mult' 0 4); [lia|apply Oh_const|].
      apply (Oh_mult' 4 0); [lia|exact Hu|]. apply Oh_plus; [apply Oh_const|exact Hu0].
    + apply (Oh_mult' 6 2); [lia|apply Oh_pow|]. apply (Oh_mult' 0 2); [lia|apply Oh_const|]. apply Oh_plus; [apply (Oh_le 4); [lia|exact Hu]|].
      apply (Oh_mult' 2 0); [lia|exact Hv|]. apply Oh_plus; [apply Oh_const|exact Hu0].
    + apply (Oh_mult' 8 0); [lia|apply Oh_pow|]. apply (Oh_mult' 0 0); [lia|apply Oh_const|].
      apply (Oh_mult' 0 0); [lia| |]; (apply Oh_plus; [apply Oh_const|exact Hv0]).
    + apply (Oh_mult' 6 2); [lia|apply Oh_pow|]. apply (Oh_mult' 0 2); [lia|apply Oh_const|].
      apply (Oh_mult' 2 0); [lia|exact Hv|]. apply Oh_plus; [apply Oh_const|exact Hv0].
Qed.
