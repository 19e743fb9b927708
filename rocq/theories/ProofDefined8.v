(** ProofDefined8: when the bispectrum and the integrands given to Suave have a value. *)
From Coq Require Import ZArith Lia List Reals Lra.
From Verif Require Import Base Num BaseFacts Spec Common Kernels GExpr Gamma2 Integrals SpecDefined ProofSearch ProofKernels ProofGL ProofGL2 ProofFindPkR ProofIntegrals4 ProofIntegrals7
  ProofDefined ProofDefined2 ProofDefined3 ProofDefined4 ProofDefined5 ProofDefined6 ProofDefined7.
Import ListNotations.
Local Open Scope R_scope.

Definition o2g (s : R * R * glq RNum) : option R * option R * glq ONum := let '(a, b, g) := s in (Some a, Some b, oq g).
Definition o6g (s : R * R * R * R * R * R * glq RNum) : option R * option R * option R * option R * option R * option R * glq ONum :=
  let '(a, b, c, d, e, f, g) := s in (Some a, Some b, Some c, Some d, Some e, Some f, oq g).
Definition o6 (s : R * R * R * R * R * R) : option R * option R * option R * option R * option R * option R :=
  let '(a, b, c, d, e, f) := s in (Some a, Some b, Some c, Some d, Some e, Some f).
Lemma gamma1_reg_pair_O g1 cond k s2 : posq g1 -> 0 < k ->
  gamma1_reg_pair (N := ONum) (oq g1) cond (Some k) (Some s2) = res_map o2g (gamma1_reg_pair (N := RNum) g1 cond k s2).
Proof.
  intros Hg Hk. unfold gamma1_reg_pair. destruct cond; [|reflexivity].
  apply (bind_lift (fun s => (Some (fst s), oq (snd s)))); [apply gamma1_1loop_O; assumption|]. intros [d g'] Ed. cbn [fst snd]. apply gamma1_1loop_tab in Ed; try assumption.
  apply (bind_lift (fun s => (Some (fst s), oq (snd s)))); [apply gamma1_1loop_O; assumption|]. intros [t g2] Et. cbn [fst snd]. ovn. reflexivity.
Qed.
Lemma gamma1_reg_pair_tab g1 cond k s2 d t g' : posq g1 -> 0 < k -> gamma1_reg_pair (N := RNum) g1 cond k s2 = Ok (d, t, g') -> posq g'.
Proof.
  intros Hg Hk. unfold gamma1_reg_pair. destruct cond; [|intros [= _ _ <-]; exact Hg].
  destruct (gamma1_1loop g1 _ _) as [[d1 h1]|] eqn:E1; cbn [bind]; [|discriminate]. apply gamma1_1loop_tab in E1; try assumption.
  destruct (gamma1_1loop h1 _ _) as [[d2 h2]|] eqn:E2; cbn [bind]; [|discriminate]. apply gamma1_1loop_tab in E2; try assumption.
  intros Q. assert (X : g' = h2) by congruence. subst. exact E2.
Qed.
Lemma gamma1_reg_O g1 k p kp s1 s2 s3 : posq g1 -> 0 < k -> 0 < p -> 0 < kp ->
  gamma1_reg_1loop (N := ONum) (oq g1) (Some k) (Some p) (Some kp) (Some s1) (Some s2) (Some s3) = res_map o6g (gamma1_reg_1loop (N := RNum) g1 k p kp s1 s2 s3).
Proof.
  intros Hg H1 H2 H3. unfold gamma1_reg_1loop. on.
  apply (bind_lift o2g); [apply gamma1_reg_pair_O; assumption|]. intros [[d1 t1] h1] E1. cbn [o2g]. apply gamma1_reg_pair_tab in E1; try assumption.
  apply (bind_lift o2g); [apply gamma1_reg_pair_O; assumption|]. intros [[d2 t2] h2] E2. cbn [o2g]. apply gamma1_reg_pair_tab in E2; try assumption.
  apply (bind_lift o2g); [apply gamma1_reg_pair_O; assumption|]. intros [[d3 t3] h3] E3. reflexivity.
Qed.
Lemma strict_perms a b c : strict a b c -> strict b a c /\ strict a c b /\ strict c a b /\ strict b c a /\ strict c b a.
Proof. unfold strict. intros. repeat split; lra. Qed.
Lemma gamma2_reg_O gd gt k p kp s1 s2 s3 : posq gd -> posq gt -> 0 < k -> 0 < p -> 0 < kp -> strict k p kp ->
  gamma2_reg_1loop (N := ONum) (oq gd) (oq gt) (Some k) (Some p) (Some kp) (Some s1) (Some s2) (Some s3) = res_map o6 (gamma2_reg_1loop (N := RNum) gd gt k p kp s1 s2 s3).
Proof.
  intros Hd Ht H1 H2 H3 HS. destruct (strict_perms _ _ _ HS) as (S1 & S2 & S3 & S4 & S5). unfold gamma2_reg_1loop, nmax3. rewrite !nmax_O.
  rewrite !gamma2_tree_O by lra. on. destruct (_ && _)%bool; [|reflexivity].
  do 6 (apply (bind_lift Some); [apply gamma2_1loop_O; assumption|]; intros ? _). ovn. reflexivity.
Qed.
Lemma for8_O out : for_ 0 8 (fun i (o : list (option R)) => wr o i (Some 0)) (os out) = res_map os (for_ 0 8 (fun i (o : list R) => wr o i 0) out).
Proof. apply (for_lift0 os); [reflexivity|]. intros. apply wr_os. Qed.
Ltac sg v := apply (bind_lift Some); [apply sigmad2_1_O; assumption|]; intros v _.
Lemma bispectrum_I_O pkl im uv g1 gd gt k p kp out : good_table pkl -> posq g1 -> posq gd -> posq gt -> 0 < k -> 0 < p -> 0 < kp -> strict k p kp ->
  bispectrum_1loop_I (N := ONum) (opk pkl) im (Some uv) (oq g1) (oq gd) (oq gt) (Some k) (Some p) (Some kp) (os out)
  = res_map (fun s => (os (fst s), oq (snd s))) (bispectrum_1loop_I (N := RNum) pkl im uv g1 gd gt k p kp out).
Proof.
  intros Hp Hg Hd Ht H1 H2 H3 HS. unfold bispectrum_1loop_I. sg s1. sg s2. sg s3. on. rewrite odiv_some by (apply not_0_IZR; lia). on.
  apply (bind_lift os); [destruct (Rltb _ _); [apply for8_O|reflexivity]|]. intros out1 _.
  fnd p1. fnd p2. fnd p3.
  apply (bind_lift o6g); [apply gamma1_reg_O; assumption|]. intros [[[[[[a1 a2] a3] a4] a5] a6] h1] _. cbn [o6g].
  apply (bind_lift o6); [apply gamma2_reg_O; assumption|]. intros [[[[[b1 b2] b3] b4] b5] b6] _. cbn [o6]. on.
  do 8 (apply (bind_lift os); [apply wr_os|]; intros ? _). reflexivity.
Qed.
Lemma projection_O x mu : 0 < 1 + x * x - 2 * mu * x ->
  kernel_projection_A_tA (N := ONum) (Some x) (Some mu) = opair (kernel_projection_A_tA (N := RNum) x mu).
Proof. intros H. unfold kernel_projection_A_tA. ov ltac:(first [lra|nz]). reflexivity. Qed.
Lemma A_components_O b pA ptA : A_components (N := ONum) (os b) (os pA) (os ptA) = res_map os (A_components (N := RNum) b pA ptA).
Proof.
  unfold A_components. rdl b0 Fb0. rdl b1 Fb1. rdl b2 Fb2. rdl b3 Fb3. rdl b4 Fb4. rdl b5 Fb5. rdl b6 Fb6. rdl b7 Fb7. cbn [res_map]. f_equal.
  unfold os at 1 2. rewrite <- map_app. match goal with |- zipw _ _ ?l = _ => match goal with |- _ = os (zipw _ _ ?m) => change l with (os m) end end. apply zipw_os. reflexivity.
Qed.
Lemma kernel_A_2loop_I_O pkl im uv g g1 gd gt k iq x mu : 0 < k -> atk g k -> good_table pkl -> posq g1 -> posq gd -> posq gt -> rd (gq_x g) iq = Ok x -> -1 < mu < 1 ->
  kernel_A_tA_2loop_I (N := ONum) (opk pkl) im (Some uv) (oq g) (oq g1) (oq gd) (oq gt) iq (Some mu) = res_map os (kernel_A_tA_2loop_I (N := RNum) pkl im uv g g1 gd gt iq mu).
Proof.
  intros Hk AT Hp Hg Hd Ht Ex Hmu. unfold kernel_A_tA_2loop_I. cbn [oq gq_x gq_q gq_k]. rdv Ex. destruct (ak_x g k AT iq x Ex) as [Hx Eq]. rewrite (ak_k g k AT). rdv Eq.
  assert (0 < x * k) by (apply Rmult_lt_0_compat; lra).
  on. rewrite osqrt_some by (apply Rlt_le, xmu_pos, Hmu). on. fold (third k x mu). pose proof (third_pos k x mu Hk Hmu). pose proof (third_strict k x mu Hk Hx Hmu) as HS.
  destruct (strict_perms _ _ _ HS) as (_ & _ & _ & _ & HS'). rewrite projection_O by (apply xmu_pos, Hmu).
  destruct (kernel_projection_A_tA x mu) as [pA ptA]. cbn [opair fst snd].
  apply (bind_lift (fun s => (os (fst s), oq (snd s)))); [apply (bispectrum_I_O pkl im uv g1 gd gt k (x * k) (third k x mu) (repeat 0 8)); assumption|].
  intros [b h] _. cbn [fst snd]. apply (bind_lift os); [apply A_components_O|]. intros c _. cbn [res_map]. f_equal. apply map_os. reflexivity.
Qed.
Lemma calc_pk_A_2loop_I_O pkl im uv g m g1 gd gt k : good_table pkl -> posq g -> inmu m -> posq g1 -> posq gd -> posq gt -> 0 < k ->
  calc_pk_A_2loop_I (N := ONum) (opk pkl) im (Some uv) (oq g) (om m) (oq g1) (oq gd) (oq gt) (Some k) = res_map oqm (calc_pk_A_2loop_I (N := RNum) pkl im uv g m g1 gd gt k).
Proof.
  intros Hp Hg Hm Hg1 Hd Ht Hk. unfold calc_pk_A_2loop_I. apply (bind_lift oq); [apply update_q_O; lra|]. intros g' E. pose proof (update_q_at g k g' Hg Hk E) as AT.
  apply (bind_lift (fun s : list R * glmu RNum => (os (fst s), om (snd s)))).
  - apply (q_loop_O true g' m k); [exact AT|exact Hm| |].
    + intros iq x mu Ex Hmu. apply (kernel_A_2loop_I_O pkl im uv g' g1 gd gt k iq x mu); assumption.
    + intros iq x l Ex. cbn [oq gq_w]. rdl w Ew. cbn [res_map]. f_equal. apply map_os. reflexivity.
  - intros [s m'] _. cbn [fst snd]. on. rewrite odiv_some by apply PI2. cbn [res_map oqm]. rewrite (map_os (fun v => v * (k * k * k / (2 * PI * PI)))) by reflexivity. reflexivity.
Qed.

(** ** Vectors *)
Definition ovec (v : vec RNum) : vec ONum := mkV (N := ONum) (Some (v0 v)) (Some (v1 v)) (Some (v2 v)).
Definition sq3 (v : vec RNum) : R := v0 v * v0 v + v1 v * v1 v + v2 v * v2 v.
Lemma dot3_O u v : dot3 (N := ONum) (ovec u) (ovec v) = Some (dot3 (N := RNum) u v).
Proof. reflexivity. Qed.
Lemma norm3_O u : norm3 (N := ONum) (ovec u) = Some (norm3 (N := RNum) u).
Proof. unfold norm3. rewrite dot3_O. on. apply osqrt_some. unfold dot3. rn. nra. Qed.
Lemma F2_sym_full_O a p q : dot3 (N := RNum) p p <> 0 -> dot3 (N := RNum) q q <> 0 -> F2_sym_full (N := ONum) a (ovec p) (ovec q) = Some (F2_sym_full (N := RNum) a p q).
Proof. intros H1 H2. unfold F2_sym_full. rewrite !dot3_O. apply F2_sym_fast_O; assumption. Qed.
Lemma small3_O p : small3 (N := ONum) (ovec p) = small3 (N := RNum) p.
Proof. reflexivity. Qed.
Lemma small3_zero (p : vec RNum) : small3 (N := RNum) p = false -> dot3 (N := RNum) p p <> 0.
Proof.
  intros H E. unfold dot3 in E. rn_in E. assert (v0 p = 0 /\ v1 p = 0 /\ v2 p = 0) as (A & B & C).
  { assert (v0 p * v0 p = 0) by nra. assert (v1 p * v1 p = 0) by nra. assert (v2 p * v2 p = 0) by nra. repeat split; apply Rsqr_0_uniq; assumption. }
  unfold small3 in H. rewrite A, B, C, EPS_R in H. rn_in H. rewrite Rabs_R0 in H. pose proof epsR_pos as Q. rewrite (proj2 (Rltb_true _ _) Q) in H. discriminate.
Qed.
Lemma F3_O a p q r : dot3 (N := RNum) p p <> 0 -> dot3 (N := RNum) q q <> 0 -> dot3 (N := RNum) r r <> 0 ->
  F3 (N := ONum) a (ovec p) (ovec q) (ovec r) = Some (F3 (N := RNum) a p q r).
Proof.
  intros H1 H2 H3. unfold F3. change (Kernels.vadd (N := ONum) (ovec q) (ovec r)) with (ovec (Kernels.vadd (N := RNum) q r)).
  set (qr := Kernels.vadd q r). change (Kernels.vadd (N := ONum) (ovec p) (ovec qr)) with (ovec (Kernels.vadd (N := RNum) p qr)). rewrite !small3_O.
  destruct (small3 (N := RNum) qr) eqn:Eq; [reflexivity|]. destruct (small3 (Kernels.vadd p qr)); [reflexivity|]. cbn [orb].
  apply small3_zero in Eq. rewrite !dot3_O. rewrite !sigmaab_O, !F2_sym_fast_O by assumption.
  ov ltac:(first [assumption|apply Rmult_integral_contrapositive_currified; assumption|nz]). reflexivity.
Qed.
Lemma F3_sym_O a p q r : dot3 (N := RNum) p p <> 0 -> dot3 (N := RNum) q q <> 0 -> dot3 (N := RNum) r r <> 0 ->
  F3_sym (N := ONum) a (ovec p) (ovec q) (ovec r) = Some (F3_sym (N := RNum) a p q r).
Proof. intros H1 H2 H3. unfold F3_sym. rewrite !F3_O by assumption. ovn. reflexivity. Qed.
Lemma norm3_pos (u : vec RNum) : 0 < norm3 (N := RNum) u -> dot3 (N := RNum) u u <> 0.
Proof. intros H E. unfold norm3 in H. rewrite E in H. rn_in H. rewrite sqrt_0 in H. lra. Qed.
