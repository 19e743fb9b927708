(** ProofKernels: second and third order kernels. *)
From Coq Require Import Reals Lra Lia.
From Verif Require Import Base Num BaseFacts Common Spec SpecPT Kernels.
Local Open Scope R_scope.

(** Evaluates the powers of ten of decimal literals. *)
Ltac lits := repeat match goal with |- context [Z.pow 10 ?e] => let v := eval vm_compute in (Z.pow 10 e) in change (Z.pow 10 e) with v end.
Ltac rnl := rn; lits.

(** A vector of R^3 as the C array holding its components. *)
Definition vec_of (p : vector) : vec RNum := let '(a, b, c) := p in mkV (N := RNum) a b c.
(** [true] for the velocity divergence. *)
Definition is_theta (a : flag) : bool := match a with DELTA => false | THETA => true end.

Lemma dot3_of p q : dot3 (vec_of p) (vec_of q) = dot p q.
Proof. destruct p as [[? ?] ?], q as [[? ?] ?]. reflexivity. Qed.
Lemma vadd_of p q : vadd (vec_of p) (vec_of q) = vec_of (vplus p q).
Proof. destruct p as [[? ?] ?], q as [[? ?] ?]. reflexivity. Qed.
Lemma dot_comm p q : dot p q = dot q p.
Proof. destruct p as [[? ?] ?], q as [[? ?] ?]. cbn. ring. Qed.
Lemma dot_plus_l p q r : dot (vplus p q) r = dot p r + dot q r.
Proof. destruct p as [[? ?] ?], q as [[? ?] ?], r as [[? ?] ?]. cbn. ring. Qed.
Lemma dot_plus_r p q r : dot r (vplus p q) = dot r p + dot r q.
Proof. destruct p as [[? ?] ?], q as [[? ?] ?], r as [[? ?] ?]. cbn. ring. Qed.
Lemma dot_opp_l p q : dot (vopp p) q = - dot p q.
Proof. destruct p as [[? ?] ?], q as [[? ?] ?]. cbn. ring. Qed.
Lemma dot_opp_r p q : dot p (vopp q) = - dot p q.
Proof. destruct p as [[? ?] ?], q as [[? ?] ?]. cbn. ring. Qed.
Lemma dot_scal_l s p q : dot (vscal s p) q = s * dot p q.
Proof. destruct p as [[? ?] ?], q as [[? ?] ?]. cbn. ring. Qed.
Lemma dot_scal_r s p q : dot p (vscal s q) = s * dot p q.
Proof. destruct p as [[? ?] ?], q as [[? ?] ?]. cbn. ring. Qed.
Lemma vplus_comm p q : vplus p q = vplus q p.
Proof. destruct p as [[? ?] ?], q as [[? ?] ?]. cbn. f_equal; [f_equal|]; ring. Qed.
Lemma vplus_assoc p q r : vplus p (vplus q r) = vplus (vplus p q) r.
Proof. destruct p as [[? ?] ?], q as [[? ?] ?], r as [[? ?] ?]. cbn. f_equal; [f_equal|]; ring. Qed.
Lemma vplus_0 p : vplus p vzero = p.
Proof. destruct p as [[? ?] ?]. cbn. f_equal; [f_equal|]; ring. Qed.
Lemma dot_nonneg p : 0 <= dot p p.
Proof. destruct p as [[? ?] ?]. cbn. nra. Qed.
Lemma dot_zero p : dot p p = 0 -> p = vzero.
Proof. destruct p as [[? ?] ?]. cbn. intros H. unfold vzero. f_equal; [f_equal|]; nra. Qed.
Lemma dot_pos p : p <> vzero -> 0 < dot p p.
Proof. intros H. destruct (dot_nonneg p) as [H1|H1]; [exact H1|]. exfalso. apply H, dot_zero. auto. Qed.

(** ** Second order *)
Lemma F2_full_val a p q : F2_sym_full (N := RNum) a (vec_of p) (vec_of q) =
  F2_sym_fast (N := RNum) a (dot p p) (dot q q) (dot p q).
Proof. unfold F2_sym_full. rewrite !dot3_of. reflexivity. Qed.
Lemma F2_fast_comm a (p2 q2 pq : R) : F2_sym_fast (N := RNum) a p2 q2 pq = F2_sym_fast (N := RNum) a q2 p2 pq.
Proof. destruct a; unfold F2_sym_fast; rn; unfold Rdiv; ring. Qed.
Lemma F2_full_comm a p q : F2_sym_full (N := RNum) a (vec_of p) (vec_of q) = F2_sym_full (N := RNum) a (vec_of q) (vec_of p).
Proof. rewrite !F2_full_val, F2_fast_comm, (dot_comm p q). reflexivity. Qed.
Lemma F2_full_even a p q : F2_sym_full (N := RNum) a (vec_of (vopp p)) (vec_of (vopp q)) = F2_sym_full (N := RNum) a (vec_of p) (vec_of q).
Proof. rewrite !F2_full_val, !dot_opp_l, !dot_opp_r, !Ropp_involutive. reflexivity. Qed.
Lemma F2_fast_scale a (p2 q2 pq s : R) : s <> 0 -> p2 <> 0 -> q2 <> 0 ->
  F2_sym_fast (N := RNum) a (s * p2) (s * q2) (s * pq) = F2_sym_fast (N := RNum) a p2 q2 pq.
Proof. intros Hs Hp Hq. destruct a; unfold F2_sym_fast; rnl; field; auto. Qed.
Lemma F2_full_scale a p q s : s <> 0 -> p <> vzero -> q <> vzero ->
  F2_sym_full (N := RNum) a (vec_of (vscal s p)) (vec_of (vscal s q)) = F2_sym_full (N := RNum) a (vec_of p) (vec_of q).
Proof.
  intros Hs Hp Hq. apply dot_pos in Hp. apply dot_pos in Hq.
  rewrite !F2_full_val, !dot_scal_l, !dot_scal_r, <- !Rmult_assoc.
  apply F2_fast_scale; nra.
Qed.
Lemma F2_full_isometry a f p q : isometry f ->
  F2_sym_full (N := RNum) a (vec_of (f p)) (vec_of (f q)) = F2_sym_full (N := RNum) a (vec_of p) (vec_of q).
Proof. intros [_ H]. rewrite !F2_full_val, !H. reflexivity. Qed.
Lemma F2_full_cancel a p : p <> vzero -> F2_sym_full (N := RNum) a (vec_of p) (vec_of (vopp p)) = 0.
Proof.
  intros Hp. apply dot_pos in Hp. rewrite F2_full_val, !dot_opp_l, !dot_opp_r, Ropp_involutive.
  destruct a; unfold F2_sym_fast; rnl; field; lra.
Qed.
Lemma norm_sq p : norm p * norm p = dot p p.
Proof. apply sqrt_sqrt, dot_nonneg. Qed.
Lemma norm_pos p : p <> vzero -> 0 < norm p.
Proof. intros H. apply sqrt_lt_R0, dot_pos, H. Qed.
Lemma F2_sym_val a p q (mu : R) : p <> vzero -> q <> vzero -> dot p q = norm p * norm q * mu ->
  F2_sym (N := RNum) a (norm p) (norm q) mu = F2_sym_full (N := RNum) a (vec_of p) (vec_of q).
Proof.
  intros Hp Hq E. apply norm_pos in Hp. apply norm_pos in Hq.
  rewrite F2_full_val, E, <- !norm_sq. destruct a; unfold F2_sym, F2_sym_fast; rnl; field; lra.
Qed.
Lemma S2_val (mu : R) : S2 (N := RNum) mu = mu ^ 2 - 1 / 3.
Proof. unfold S2; rn; ring. Qed.
Lemma D2_val (mu : R) : D2 (N := RNum) mu = 2 / 7 * (mu ^ 2 - 1).
Proof. unfold D2, S2; rnl; field. Qed.

(** ** the recursion written out *)
Lemma pt1_val theta p : pt_kernel_n theta [p] = 1.
Proof. reflexivity. Qed.
Definition pt2u (theta : bool) (p q : vector) : R :=
  if theta then (3 * mc_alpha p q + 4 * mc_beta p q) / 7 else (5 * mc_alpha p q + 2 * mc_beta p q) / 7.
Lemma pt2u_val f theta p q : pt_kernel (S (S f)) theta [p; q] = pt2u theta p q.
Proof.
  cbn -[INR]. unfold vsum. cbn [fold_right]. rewrite !vplus_0. change (INR 2) with (1 + 1).
  unfold pt2u. destruct theta; field.
Qed.
Lemma pt3u_val theta p q r : pt_kernel_n theta [p; q; r] =
  (if theta then 3 * mc_alpha p (vplus q r) * pt2u false q r + 6 * mc_beta p (vplus q r) * pt2u true q r
                + pt2u true p q * (3 * mc_alpha (vplus p q) r + 6 * mc_beta (vplus p q) r)
   else 7 * mc_alpha p (vplus q r) * pt2u false q r + 2 * mc_beta p (vplus q r) * pt2u true q r
                + pt2u true p q * (7 * mc_alpha (vplus p q) r + 2 * mc_beta (vplus p q) r)) / 18.
Proof.
  unfold pt_kernel_n. cbn [length]. 
  change (pt_kernel 3 theta [p; q; r]) with
   (0 + pt_kernel 2 true [p] / ((2 * INR 3 + 3) * (INR 3 - 1)) *
     (if theta then 3 * mc_alpha (vsum [p]) (vsum [q; r]) * pt_kernel 2 false [q; r] + 2 * INR 3 * mc_beta (vsum [p]) (vsum [q; r]) * pt_kernel 2 true [q; r]
      else (2 * INR 3 + 1) * mc_alpha (vsum [p]) (vsum [q; r]) * pt_kernel 2 false [q; r] + 2 * mc_beta (vsum [p]) (vsum [q; r]) * pt_kernel 2 true [q; r])
   + pt_kernel 2 true [p; q] / ((2 * INR 3 + 3) * (INR 3 - 1)) *
     (if theta then 3 * mc_alpha (vsum [p; q]) (vsum [r]) * pt_kernel 2 false [r] + 2 * INR 3 * mc_beta (vsum [p; q]) (vsum [r]) * pt_kernel 2 true [r]
      else (2 * INR 3 + 1) * mc_alpha (vsum [p; q]) (vsum [r]) * pt_kernel 2 false [r] + 2 * mc_beta (vsum [p; q]) (vsum [r]) * pt_kernel 2 true [r])).
  rewrite !pt2u_val. change (pt_kernel 2 true [p]) with 1. change (pt_kernel 2 true [r]) with 1. change (pt_kernel 2 false [r]) with 1.
  unfold vsum. cbn [fold_right]. rewrite !vplus_0. change (INR 3) with (1 + 1 + 1). destruct theta; field.
Qed.

(** F2_sym_full is the symmetrised second order kernel. *)
Lemma F2_full_pt a p q : p <> vzero -> q <> vzero ->
  F2_sym_full (N := RNum) a (vec_of p) (vec_of q) = pt2 (is_theta a) p q.
Proof.
  intros Hp Hq. apply dot_pos in Hp. apply dot_pos in Hq. rewrite F2_full_val.
  unfold pt2, pt_kernel_n. cbn [length]. rewrite !pt2u_val. unfold pt2u, mc_alpha, mc_beta, F2_sym_fast.
  rewrite !dot_plus_l, !dot_plus_r, (dot_comm q p). destruct a; cbn [is_theta]; rnl; field; lra.
Qed.

(** ** Third order *)
(** A vector seen as non-zero by the guard of F3: some component is at least 3e-14. *)
Definition guard_ok (p : vector) : Prop :=
  let '(a, b, c) := p in 3 / 10 ^ 14 <= Rabs a \/ 3 / 10 ^ 14 <= Rabs b \/ 3 / 10 ^ 14 <= Rabs c.
Lemma EPS_val : (EPS : T RNum) = 3 / 10 ^ 14.
Proof. unfold EPS; rn. f_equal. rewrite pow_IZR. reflexivity. Qed.
Lemma small3_false p : small3 (N := RNum) (vec_of p) = false <-> guard_ok p.
Proof.
  destruct p as [[a b] c]. unfold small3, vec_of, guard_ok. cbn [v0 v1 v2]. rewrite EPS_val. rn.
  rewrite !andb_false_iff, !Rltb_false. tauto.
Qed.
Lemma small3_true p : small3 (N := RNum) (vec_of p) = true <-> ~ guard_ok p.
Proof. rewrite <- small3_false. destruct (small3 _); split; congruence. Qed.
Lemma guard_ok_nonzero p : guard_ok p -> 0 < dot p p.
Proof.
  intros H. apply dot_pos. intros ->. unfold guard_ok, vzero in H. rewrite Rabs_R0 in H. lra.
Qed.
Lemma guard_ok_dec p : {guard_ok p} + {~ guard_ok p}.
Proof. destruct (small3 (N := RNum) (vec_of p)) eqn:E; [right|left]; [apply small3_true|apply small3_false]; exact E. Qed.

Definition pt2s (theta : bool) (p q : vector) : R := (pt2u theta p q + pt2u theta q p) / 2.
Lemma F3_val a p q r : p <> vzero -> q <> vzero -> r <> vzero -> guard_ok (vplus q r) -> guard_ok (vplus p (vplus q r)) ->
  F3 (N := RNum) a (vec_of p) (vec_of q) (vec_of r) =
  (if is_theta a
   then 3 * mc_alpha p (vplus q r) * pt2s false q r + 3 * mc_alpha (vplus q r) p * pt2s true q r + 12 * mc_beta p (vplus q r) * pt2s true q r
   else 7 * mc_alpha p (vplus q r) * pt2s false q r + 7 * mc_alpha (vplus q r) p * pt2s true q r + 4 * mc_beta p (vplus q r) * pt2s true q r) / 18.
Proof.
  intros Hp Hq Hr G1 G2. unfold F3. rewrite !vadd_of.
  rewrite (proj2 (small3_false _) G1), (proj2 (small3_false _) G2). cbn [orb]. rewrite !dot3_of.
  pose proof (F2_full_pt THETA q r Hq Hr) as E1. pose proof (F2_full_pt DELTA q r Hq Hr) as E2.
  rewrite F2_full_val in E1, E2. rewrite E1, E2. unfold pt2, pt_kernel_n. cbn [length is_theta]. rewrite !pt2u_val.
  fold (pt2s true q r). fold (pt2s false q r).
  apply dot_pos in Hp. apply guard_ok_nonzero in G1. apply guard_ok_nonzero in G2.
  unfold mc_alpha, mc_beta. set (u := vplus q r) in *. rewrite !dot_plus_l, !dot_plus_r, (dot_comm u p).
  destruct a; cbn [is_theta]; unfold sigmaab; cbn [Z.eqb Pos.eqb andb]; rnl; field; lra.
Qed.
Lemma F3_guard a p q r : ~ guard_ok (vplus q r) \/ ~ guard_ok (vplus p (vplus q r)) ->
  F3 (N := RNum) a (vec_of p) (vec_of q) (vec_of r) = 0.
Proof.
  intros H. unfold F3. rewrite !vadd_of.
  replace (small3 (vec_of (vplus q r)) || small3 (vec_of (vplus p (vplus q r)))) with true; [reflexivity|].
  symmetry. apply orb_true_iff. destruct H; [left|right]; apply small3_true; assumption.
Qed.
Lemma F3_swap a p q r : F3 (N := RNum) a (vec_of p) (vec_of q) (vec_of r) = F3 (N := RNum) a (vec_of p) (vec_of r) (vec_of q).
Proof.
  unfold F3. rewrite !vadd_of, (vplus_comm r q), !dot3_of, (dot_comm r q).
  destruct (small3 _ || small3 _); [reflexivity|]. rewrite !(F2_fast_comm _ (dot q q) (dot r r)). reflexivity.
Qed.
Lemma F3_sym_perm a p q r :
  F3_sym (N := RNum) a (vec_of p) (vec_of q) (vec_of r) = F3_sym (N := RNum) a (vec_of q) (vec_of p) (vec_of r) /\
  F3_sym (N := RNum) a (vec_of p) (vec_of q) (vec_of r) = F3_sym (N := RNum) a (vec_of q) (vec_of r) (vec_of p).
Proof.
  unfold F3_sym. rn. split.
  - rewrite (F3_swap a p r q), (F3_swap a q p r), (F3_swap a r q p). unfold Rdiv. f_equal. ring.
  - unfold Rdiv. f_equal. ring.
Qed.
Lemma vopp_plus p q : vplus (vopp p) (vopp q) = vopp (vplus p q).
Proof. destruct p as [[? ?] ?], q as [[? ?] ?]. cbn. f_equal; [f_equal|]; ring. Qed.
Lemma small3_opp p : small3 (N := RNum) (vec_of (vopp p)) = small3 (N := RNum) (vec_of p).
Proof. destruct p as [[? ?] ?]. unfold small3, vec_of, vopp. cbn [v0 v1 v2]. rn. rewrite !Rabs_Ropp. reflexivity. Qed.
Lemma F3_even a p q r : F3 (N := RNum) a (vec_of (vopp p)) (vec_of (vopp q)) (vec_of (vopp r)) = F3 (N := RNum) a (vec_of p) (vec_of q) (vec_of r).
Proof.
  unfold F3. rewrite !vadd_of, !vopp_plus, !small3_opp, !dot3_of, !dot_opp_l, !dot_opp_r, !Ropp_involutive. reflexivity.
Qed.
Lemma F3_sym_even a p q r : F3_sym (N := RNum) a (vec_of (vopp p)) (vec_of (vopp q)) (vec_of (vopp r)) = F3_sym (N := RNum) a (vec_of p) (vec_of q) (vec_of r).
Proof. unfold F3_sym. rewrite !F3_even. reflexivity. Qed.

Lemma mc_beta_comm p q : mc_beta p q = mc_beta q p.
Proof. unfold mc_beta. rewrite (vplus_comm p q), (dot_comm p q). f_equal. ring. Qed.
(** F3_sym is the symmetrised third order kernel. *)
Lemma F3_sym_pt a p q r : p <> vzero -> q <> vzero -> r <> vzero ->
  guard_ok (vplus p q) -> guard_ok (vplus q r) -> guard_ok (vplus r p) -> guard_ok (vplus p (vplus q r)) ->
  F3_sym (N := RNum) a (vec_of p) (vec_of q) (vec_of r) = pt3 (is_theta a) p q r.
Proof.
  intros Hp Hq Hr G1 G2 G3 G4. unfold F3_sym, pt3. rewrite !pt3u_val.
  rewrite (F3_val a p q r Hp Hq Hr G2 G4).
  rewrite (F3_val a r p q Hr Hp Hq G1 ltac:(rewrite vplus_comm, <- vplus_assoc; exact G4)).
  rewrite (F3_val a q r p Hq Hr Hp G3 ltac:(rewrite vplus_assoc, (vplus_comm (vplus q r)); exact G4)).
  rewrite (vplus_comm r q), (vplus_comm p r), (vplus_comm q p).
  rewrite (mc_beta_comm (vplus p q) r), (mc_beta_comm (vplus q r) p), (mc_beta_comm (vplus r p) q).
  unfold pt2s. destruct (is_theta a); rnl; field.
Qed.
Lemma F3_isometry a f p q r : isometry f -> p <> vzero -> q <> vzero -> r <> vzero ->
  guard_ok (vplus q r) -> guard_ok (vplus p (vplus q r)) -> guard_ok (f (vplus q r)) -> guard_ok (f (vplus p (vplus q r))) ->
  F3 (N := RNum) a (vec_of (f p)) (vec_of (f q)) (vec_of (f r)) = F3 (N := RNum) a (vec_of p) (vec_of q) (vec_of r).
Proof.
  intros [HA HI] Hp Hq Hr G1 G2 G3 G4. unfold F3. rewrite !vadd_of, <- !HA.
  rewrite (proj2 (small3_false _) G1), (proj2 (small3_false _) G2), (proj2 (small3_false _) G3), (proj2 (small3_false _) G4).
  cbn [orb]. rewrite !dot3_of, !HI. reflexivity.
Qed.
(** No third order density at zero total momentum: the recursion kernel vanishes there, and so
    does the code (through its guard). *)
Lemma dot_vzero_l p : dot vzero p = 0.
Proof. destruct p as [[? ?] ?]. cbn. ring. Qed.
Lemma pt3_zero theta p q r : vplus p (vplus q r) = vzero -> pt3 theta p q r = 0.
Proof.
  intros H.
  assert (E1 : vplus (vplus p q) r = vzero) by (rewrite <- vplus_assoc; exact H).
  assert (E2 : vplus q (vplus r p) = vzero) by (rewrite vplus_assoc, vplus_comm; exact H).
  assert (E3 : vplus (vplus q r) p = vzero) by (rewrite vplus_comm; exact H).
  assert (E4 : vplus r (vplus p q) = vzero) by (rewrite vplus_comm; exact E1).
  assert (E5 : vplus (vplus r p) q = vzero) by (rewrite vplus_comm; exact E2).
  unfold pt3. rewrite !pt3u_val. rewrite (vplus_comm r q), (vplus_comm p r), (vplus_comm q p).
  unfold mc_alpha, mc_beta. rewrite E1, E2, E3, E4, E5, H, !dot_vzero_l. unfold Rdiv. destruct theta; ring.
Qed.
Lemma F3_sym_zero a p q r : vplus p (vplus q r) = vzero -> F3_sym (N := RNum) a (vec_of p) (vec_of q) (vec_of r) = 0.
Proof.
  intros H.
  assert (G : ~ guard_ok vzero) by (unfold guard_ok, vzero; rewrite Rabs_R0; lra).
  unfold F3_sym. rewrite !F3_guard; [rn; field|right..].
  - rewrite vplus_assoc, vplus_comm, H. exact G.
  - rewrite vplus_comm, <- vplus_assoc, H. exact G.
  - rewrite H. exact G.
Qed.
Lemma F3_sym_isometry a f p q r : isometry f -> p <> vzero -> q <> vzero -> r <> vzero ->
  (forall u, In u [vplus p q; vplus q r; vplus r p; vplus p (vplus q r)] -> guard_ok u /\ guard_ok (f u)) ->
  F3_sym (N := RNum) a (vec_of (f p)) (vec_of (f q)) (vec_of (f r)) = F3_sym (N := RNum) a (vec_of p) (vec_of q) (vec_of r).
Proof.
  intros HI Hp Hq Hr G. unfold F3_sym.
  destruct (G _ (or_introl eq_refl)), (G _ (or_intror (or_introl eq_refl))), (G _ (or_intror (or_intror (or_introl eq_refl)))),
    (G _ (or_intror (or_intror (or_intror (or_introl eq_refl))))).
  assert (E1 : vplus r (vplus p q) = vplus p (vplus q r)) by (rewrite vplus_comm, vplus_assoc; reflexivity).
  assert (E2 : vplus q (vplus r p) = vplus p (vplus q r)) by (rewrite vplus_assoc, vplus_comm; reflexivity).
  rewrite !(F3_isometry a f); auto; rewrite ?E1, ?E2; auto.
Qed.
