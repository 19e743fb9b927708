(** ProofBispectrum: the 1-loop bispectrum of src/bispectrum_1loop.c. *)
From Coq Require Import Reals Lra Lia List Bool.
From Verif Require Import Base Num BaseFacts Common Kernels Gamma2 Integrals Spec SpecPT SpecBispectrum SpecBisp2 SpecLoops SpecScratch ProofKernels ProofScratch ProofScratch2 ProofScratch3 ProofIntegrals ProofIntegrals2.
Import ListNotations.
Local Open Scope R_scope.

Lemma flag_of_theta a : flag_of (is_theta a) = a.
Proof. destruct a; reflexivity. Qed.
(** The kernels of the code. *)
Lemma K2c_a a p q : F2_sym_full (N := RNum) a (vec_of p) (vec_of q) = K2c (is_theta a) p q.
Proof. unfold K2c. rewrite flag_of_theta. reflexivity. Qed.
Lemma K3c_a a p q r : F3_sym (N := RNum) a (vec_of p) (vec_of q) (vec_of r) = K3c (is_theta a) p q r.
Proof. unfold K3c. rewrite flag_of_theta. reflexivity. Qed.
Lemma K2c_comm t p q : K2c t p q = K2c t q p.
Proof. apply F2_full_comm. Qed.

Lemma vsub_of p q : vsub (N := RNum) (vec_of p) (vec_of q) = vec_of (vminus p q).
Proof. destruct p as [[? ?] ?], q as [[? ?] ?]. reflexivity. Qed.
Lemma iadd_of p q : Integrals.vadd (N := RNum) (vec_of p) (vec_of q) = vec_of (vplus p q).
Proof. destruct p as [[? ?] ?], q as [[? ?] ?]. reflexivity. Qed.
Lemma vopp_of p : Integrals.vopp (N := RNum) (vec_of p) = vec_of (vopp p).
Proof. destruct p as [[? ?] ?]. reflexivity. Qed.
Lemma norm3_of p : norm3 (N := RNum) (vec_of p) = norm p.
Proof. unfold norm3, norm. rewrite dot3_of. reflexivity. Qed.
Lemma vopp_vopp p : vopp (vopp p) = p.
Proof. destruct p as [[? ?] ?]. cbn. rewrite !Ropp_involutive. reflexivity. Qed.
Lemma norm_opp p : norm (vopp p) = norm p.
Proof. unfold norm. rewrite dot_opp_l, dot_opp_r, Ropp_involutive. reflexivity. Qed.
Lemma vminus_opp p q : vminus p (vopp q) = vplus p q.
Proof. unfold vminus. rewrite vopp_vopp. reflexivity. Qed.
Lemma far_opp q v : far (vopp q) v = far q v.
Proof. unfold far. rewrite norm_opp. reflexivity. Qed.
Lemma if_far q v (a b : R) : (if Rltb (norm q) (norm v) then a + b else a) = a + far q v * b.
Proof. unfold Rltb, far. destruct (Rlt_dec _ _); ring. Qed.
Lemma if_far2 q u v (a b : R) : (if Rltb (norm q) (norm u) && Rltb (norm q) (norm v) then a + b else a) = a + far q u * far q v * b.
Proof. unfold Rltb, far. destruct (Rlt_dec _ (norm u)), (Rlt_dec _ (norm v)); cbn [andb]; ring. Qed.

Lemma bisp_II_val pkl im (P : R -> R) k0 k1 k2 q a b c : (forall k, find1 (N := RNum) pkl im k = Ok (P k)) ->
  bispectrum_1loop_II_III (N := RNum) pkl im (vec_of k0) (vec_of k1) (vec_of k2) (vec_of q) a b c =
  Ok (loop222 K2c P q (k0, is_theta a) (k1, is_theta b) (k2, is_theta c), loop321 K2c K3c P q (k0, is_theta a) (k1, is_theta b) (k2, is_theta c)).
Proof.
  intros HP. unfold bispectrum_1loop_II_III. rewrite !vsub_of, !iadd_of, !vopp_of, !norm3_of, !HP. cbn [bind]. cbn zeta. rn.
  rewrite !K2c_a, !K3c_a, !if_far2, !if_far.
  unfold loop222, loop321, orderings, sum_over, term222, term321. cbn [fold_right fst snd]. cbn zeta. rewrite !vminus_opp, !norm_opp, !far_opp.
  replace (power (N := RNum) (2 * PI) 3) with ((2 * PI) ^ 3) by (unfold power; cbn [power_loop]; rn; ring).
  rewrite (K2c_comm (is_theta a) (vplus k1 q) (vminus k2 q)), (K2c_comm (is_theta a) (vminus k1 q) (vplus k2 q)),
    (K2c_comm (is_theta b) (vplus k2 q) (vminus k0 q)), (K2c_comm (is_theta b) (vminus k2 q) (vplus k0 q)),
    (K2c_comm (is_theta c) (vplus k1 q) (vminus k0 q)), (K2c_comm (is_theta c) (vminus k1 q) (vplus k0 q)).
  f_equal. f_equal; unfold Rdiv; ring.
Qed.

(** ** Symmetries *)
Lemma loop222_swap12 K2 P q x y z : loop222 K2 P q y x z = loop222 K2 P q x y z.
Proof. unfold loop222, orderings, sum_over. cbn [fold_right]. f_equal. ring. Qed.
Lemma loop222_swap23 K2 P q x y z : loop222 K2 P q x z y = loop222 K2 P q x y z.
Proof. unfold loop222, orderings, sum_over. cbn [fold_right]. f_equal. ring. Qed.
Lemma loop321_swap12 K2 K3 P q x y z : loop321 K2 K3 P q y x z = loop321 K2 K3 P q x y z.
Proof. unfold loop321, orderings, sum_over. cbn [fold_right]. f_equal. ring. Qed.
Lemma loop321_swap23 K2 K3 P q x y z : loop321 K2 K3 P q x z y = loop321 K2 K3 P q x y z.
Proof. unfold loop321, orderings, sum_over. cbn [fold_right]. f_equal. ring. Qed.
Lemma term222_opp K2 P q x y z : (forall t u v, K2 t u v = K2 t v u) -> term222 K2 P (vopp q) x y z = term222 K2 P q y x z.
Proof.
  intros HK. unfold term222. cbn zeta. rewrite vminus_opp, vopp_vopp, !far_opp, norm_opp.
  change (vplus (fst y) (vopp q)) with (vminus (fst y) q). rewrite (HK (snd z) (vminus (fst y) q)). ring.
Qed.
Lemma loop222_opp K2 P q x y z : (forall t u v, K2 t u v = K2 t v u) -> loop222 K2 P (vopp q) x y z = loop222 K2 P q x y z.
Proof. intros HK. unfold loop222, orderings, sum_over. cbn [fold_right]. rewrite !(term222_opp K2 P q _ _ _ HK). f_equal. ring. Qed.
Lemma loop321_opp K2 K3 P q x y z : loop321 K2 K3 P (vopp q) x y z = loop321 K2 K3 P q x y z.
Proof. unfold loop321. rewrite vopp_vopp. f_equal. ring. Qed.

Lemma lookup_fun pkl im : total_lookup pkl im -> forall k, find1 pkl im k = Ok (match find1 (N := RNum) pkl im k with Ok v => v | Err _ => 0 end).
Proof. intros H k. destruct (H k) as [v ->]. reflexivity. Qed.
Lemma bisp_II_reflect pkl im k0 k1 k2 q a b c : total_lookup pkl im ->
  bispectrum_1loop_II_III (N := RNum) pkl im (vec_of k0) (vec_of k1) (vec_of k2) (vec_of (vopp q)) a b c =
  bispectrum_1loop_II_III (N := RNum) pkl im (vec_of k0) (vec_of k1) (vec_of k2) (vec_of q) a b c.
Proof. intros H. rewrite !(bisp_II_val pkl im _ _ _ _ _ _ _ _ (lookup_fun pkl im H)), loop321_opp, loop222_opp by exact K2c_comm. reflexivity. Qed.
Lemma bisp_II_swap pkl im k0 k1 k2 q a b c : total_lookup pkl im ->
  bispectrum_1loop_II_III (N := RNum) pkl im (vec_of k1) (vec_of k0) (vec_of k2) (vec_of q) b a c =
  bispectrum_1loop_II_III (N := RNum) pkl im (vec_of k0) (vec_of k1) (vec_of k2) (vec_of q) a b c /\
  bispectrum_1loop_II_III (N := RNum) pkl im (vec_of k0) (vec_of k2) (vec_of k1) (vec_of q) a c b =
  bispectrum_1loop_II_III (N := RNum) pkl im (vec_of k0) (vec_of k1) (vec_of k2) (vec_of q) a b c.
Proof.
  intros H. rewrite !(bisp_II_val pkl im _ _ _ _ _ _ _ _ (lookup_fun pkl im H)).
  rewrite (loop222_swap12 _ _ _ (k0, is_theta a)), (loop321_swap12 _ _ _ _ (k0, is_theta a)), (loop222_swap23 _ _ _ _ (k1, is_theta b)), (loop321_swap23 _ _ _ _ _ (k1, is_theta b)). split; reflexivity.
Qed.

(** ** In terms of the kernels of perturbation theory *)
Lemma far_nonzero q v : q <> vzero -> far q v = 0 \/ v <> vzero.
Proof.
  intros Hq. unfold far. destruct (Rlt_dec (norm q) (norm v)) as [H|H]; [right|left; reflexivity]. intros ->.
  assert (E : norm vzero = 0) by (unfold norm, vzero; cbn; replace (0 * 0 + 0 * 0 + 0 * 0) with 0 by ring; apply sqrt_0). rewrite E in H.
  unfold norm in H. pose proof (sqrt_pos (dot q q)). lra.
Qed.
Lemma vopp_nonzero q : q <> vzero -> vopp q <> vzero.
Proof. intros H E. apply H. rewrite <- (vopp_vopp q), E. unfold vzero. cbn. rewrite Ropp_0. reflexivity. Qed.
Lemma K2c_pt t p q : p <> vzero -> q <> vzero -> K2c t p q = pt2 t p q.
Proof. intros Hp Hq. unfold K2c. rewrite F2_full_pt by assumption. destruct t; reflexivity. Qed.
Lemma term222_pt P q x y z : q <> vzero -> term222 K2c P q x y z = term222 pt2 P q x y z.
Proof.
  intros Hq. unfold term222. cbn zeta. destruct (far_nonzero q (vminus (fst x) q) Hq) as [->|Hu]; [ring|].
  destruct (far_nonzero q (vplus (fst y) q) Hq) as [->|Hv]; [ring|]. rewrite !K2c_pt by (assumption || apply vopp_nonzero, Hq). reflexivity.
Qed.
Lemma vminus_plus p q : vplus (vminus p q) q = p.
Proof. destruct p as [[? ?] ?], q as [[? ?] ?]. cbn. f_equal; [f_equal|]; ring. Qed.
(** None of the sums of momenta of the third order kernels is cut by the guard of F3. *)
Definition regular321 (q : vector) (x y : leg) : Prop :=
  fst y <> vzero /\ guard_ok (fst x) /\ guard_ok (vplus (fst y) (fst x)) /\
  guard_ok (vplus (fst y) (vminus (fst x) q)) /\ guard_ok (vplus q (fst y)).
Lemma term321_pt P q x y z : q <> vzero -> regular321 q x y -> term321 K2c K3c P q x y z = term321 pt2 pt3 P q x y z.
Proof.
  intros Hq [Hy [G1 [G2 [G3 G4]]]]. unfold term321. cbn zeta. destruct (far_nonzero q (vminus (fst x) q) Hq) as [->|Hu]; [ring|].
  rewrite K2c_pt by assumption. unfold K3c. rewrite F3_sym_pt; [destruct (snd z); reflexivity|assumption..| | | |].
  - exact G3.
  - rewrite vminus_plus. exact G1.
  - exact G4.
  - rewrite vminus_plus. exact G2.
Qed.
Lemma loop222_pt P q x y z : q <> vzero -> loop222 K2c P q x y z = loop222 pt2 P q x y z.
Proof. intros Hq. unfold loop222, orderings, sum_over. cbn [fold_right]. rewrite !(term222_pt P q _ _ _ Hq). reflexivity. Qed.
Lemma loop321_pt P q x y z : q <> vzero -> regular_momenta q (fst x) (fst y) (fst z) -> loop321 K2c K3c P q x y z = loop321 pt2 pt3 P q x y z.
Proof.
  intros Hq HR. unfold loop321, orderings, sum_over. cbn [fold_right].
  rewrite !(term321_pt P q) by (first [exact Hq|eapply HR; [left; reflexivity|unfold orderings; cbn; tauto]]).
  rewrite !(term321_pt P (vopp q)) by (first [apply vopp_nonzero, Hq|eapply HR; [right; reflexivity|unfold orderings; cbn; tauto]]).
  reflexivity.
Qed.
Lemma bisp_II_pt pkl im (P : R -> R) k0 k1 k2 q a b c : (forall k, find1 (N := RNum) pkl im k = Ok (P k)) -> q <> vzero -> regular_momenta q k0 k1 k2 ->
  bispectrum_1loop_II_III (N := RNum) pkl im (vec_of k0) (vec_of k1) (vec_of k2) (vec_of q) a b c =
  Ok (loop222 pt2 P q (k0, is_theta a) (k1, is_theta b) (k2, is_theta c), loop321 pt2 pt3 P q (k0, is_theta a) (k1, is_theta b) (k2, is_theta c)).
Proof.
  intros HP Hq HR. rewrite (bisp_II_val pkl im P _ _ _ _ _ _ _ HP), loop222_pt, loop321_pt by assumption. reflexivity.
Qed.

(** ** The first part *)
Section PartI.
Variables (pkl : Pk RNum) (im : interpol) (uv : R) (g1 gd gt : glq RNum) (P S : R -> R) (G1 : bool -> R -> R) (G2 : bool -> R -> R -> R -> R).
Hypothesis HP : forall k, find1 pkl im k = Ok (P k).
Hypothesis HS : forall k, sigmad2_1 pkl uv k = Ok (S k).
Hypothesis Hok : q_ok g1.
Hypothesis H1 : propagator_is g1 G1.
Hypothesis H2 : one_loop_is gd gt G2.
Lemma prop_any g t k : same_q g1 g -> exists g', gamma1_1loop g (flag_of t) k = Ok (G1 t k, g') /\ same_q g1 g'.
Proof.
  intros Sg. destruct (H1 t k) as [g' E]. exists g'. rewrite <- (gamma1_1loop_same g1 g) by assumption. split; [exact E|].
  eapply gamma1_1loop_tab; eassumption.
Qed.
Lemma pair_val g c k : same_q g1 g -> exists g', gamma1_reg_pair (N := RNum) g c k (S k) = Ok (reg_prop1 c k (S k) (G1 false k), reg_prop1 c k (S k) (G1 true k), g') /\ same_q g1 g'.
Proof.
  intros Sg. unfold gamma1_reg_pair, reg_prop1. destruct c; [|exists g; auto].
  destruct (prop_any g false k Sg) as [u [E1 S1]]. cbn [flag_of] in E1. rewrite E1. cbn [bind].
  destruct (prop_any u true k S1) as [v [E2 S2]]. cbn [flag_of] in E2. rewrite E2. cbn [bind]. exists v. auto.
Qed.
Lemma reg1_val k p kp : exists g', gamma1_reg_1loop (N := RNum) g1 k p kp (S k) (S p) (S kp) =
  let on := Rleb (1 / 100) k in let onp := Rleb (1 / 100) p && on in let onkp := Rleb (3 / 100) kp && on in
  Ok (reg_prop1 on k (S k) (G1 false k), reg_prop1 on k (S k) (G1 true k), reg_prop1 onp p (S p) (G1 false p), reg_prop1 onp p (S p) (G1 true p),
      reg_prop1 onkp kp (S kp) (G1 false kp), reg_prop1 onkp kp (S kp) (G1 true kp), g').
Proof.
  unfold gamma1_reg_1loop. rn. change (1 / IZR (10 ^ 2)) with (1 / 100). change (3 / IZR (10 ^ 2)) with (3 / 100).
  destruct (pair_val g1 (Rleb (1 / 100) k) k (same_q_refl g1 Hok)) as [u [-> Su]]. cbn [bind].
  destruct (pair_val u (Rleb (1 / 100) p && Rleb (1 / 100) k) p Su) as [v [-> Sv]]. cbn [bind].
  destruct (pair_val v (Rleb (3 / 100) kp && Rleb (1 / 100) k) kp Sv) as [w [-> Sw]]. cbn [bind]. exists w. reflexivity.
Qed.
Lemma reg2_val k p kp : gamma2_reg_1loop (N := RNum) gd gt k p kp (S k) (S p) (S kp) =
  let on := Rleb (1 / 100) k in
  Ok (reg_prop2 on (T2c false kp k p) p (S p) (G2 false kp k p), reg_prop2 on (T2c true kp k p) p (S p) (G2 true kp k p),
      reg_prop2 on (T2c false p k kp) kp (S kp) (G2 false p k kp), reg_prop2 on (T2c true p k kp) kp (S kp) (G2 true p k kp),
      reg_prop2 on (T2c false p kp k) k (S k) (G2 false p kp k), reg_prop2 on (T2c true p kp k) k (S k) (G2 true p kp k)).
Proof.
  unfold gamma2_reg_1loop. rn. change (1 / IZR (10 ^ 2)) with (1 / 100).
  replace (Rleb (1 / 100) (nmax3 (N := RNum) kp k p) && Rleb (1 / 100) k) with (Rleb (1 / 100) k).
  - rewrite (proj1 (H2 kp k p)), (proj2 (H2 kp k p)), (proj1 (H2 p k kp)), (proj2 (H2 p k kp)), (proj1 (H2 p kp k)), (proj2 (H2 p kp k)). cbn [bind].
    unfold reg_prop2, T2c. cbn [flag_of]. destruct (Rleb (1 / 100) k); reflexivity.
  - unfold nmax3, nmax. rn. unfold Rleb. destruct (Rle_dec (1 / 100) k) as [Hk|Hk]; [|apply eq_sym, andb_false_r]. rewrite andb_true_r.
    destruct (Rle_dec _ _) as [_|Hn]; [reflexivity|]. exfalso. apply Hn. unfold Rltb.
    destruct (Rlt_dec k kp), (Rlt_dec p k); destruct (Rlt_dec _ _); lra.
Qed.
Lemma zlist8 (l : list R) : zlen l = 8%Z -> exists a b c d e f g h, l = [a; b; c; d; e; f; g; h].
Proof.
  unfold zlen. intros H. do 8 (destruct l as [|? l]; [discriminate|]). destruct l; [repeat eexists|]. cbn [length] in H. lia.
Qed.
Lemma bisp_I_val k p kp out : zlen out = 8%Z -> exists g', bispectrum_1loop_I (N := RNum) pkl im uv g1 gd gt k p kp out =
  Ok (outputs_I (Rleb (1 / 100) p && Rleb (1 / 100) k) (Rleb (3 / 100) kp && Rleb (1 / 100) k) (Rleb (1 / 100) k) P S G1 T2c G2 k p kp, g').
Proof.
  intros HO. unfold bispectrum_1loop_I. rewrite !HS. cbn [bind]. 
  assert (HZ : forall c : bool, exists o, (if c then for_ 0 8 (fun i out => wr out i (nZ RNum 0)) out else Ok out) = Ok o /\ zlen o = 8%Z).
  { intros [|]; [|eauto]. match goal with |- context [for_ 0 8 ?b ?s0] => destruct (for_inv (fun _ s => zlen s = 8%Z) 0 8 b s0) as [l [E L]] end; [lia|exact HO| |eauto].
    intros j s Hj L. rewrite wr_ok by lia. eexists. split; [reflexivity|]. rewrite zlen_upd. exact L. }
  match goal with |- context [if ?c then for_ 0 8 _ _ else _] => destruct (HZ c) as [o [-> Lo]] end. cbn [bind].
  rewrite !HP. cbn [bind]. destruct (reg1_val k p kp) as [u ->]. cbn zeta. cbn [bind]. rewrite reg2_val. cbn zeta. cbn [bind].
  destruct (zlist8 o Lo) as [a [b [c [d [e [f [g [h ->]]]]]]]].
  eexists. unfold outputs_I, reg_bispectrum. cbn zeta. rn. reflexivity.
Qed.
End PartI.
